(** * C64: the tunnel of examples/accelerator *)
From Coq Require Import ZArith NArith List Bool Lia Sorted Arith.
From Verif Require Import Outcome GF Containers Packetizer PropsPacketizer Encoder EncoderFacts EncoderRun EncoderHistory
  Decoder Dispatch DetailDecoder System SystemRun SystemFifo PropsEncoder PropsSystem PropsFifo PropsSizes PropsSuffix
  Tunnel TunnelFacts.
Import ListNotations.
Open Scope N_scope.

(** The data that the application of side [who] sends, and the packets of the other
    side's encoder that arrive at side [who]. *)
Definition given_at (who : bool) (l : list taction) : list (list N) :=
  flat_map (fun a => match a with App v d => if Bool.eqb v who then [d] else [] | _ => [] end) l.
Definition arrivals_at (who : bool) (l : list taction) : list nat :=
  flat_map (fun a => match a with Datagram v k _ => if Bool.eqb v who then [k] else [] | _ => [] end) l.

(** The applications send datagrams of 1 to 65504 bytes, at most 65535 each. No packet of an
    encoder arrives after a newer one. Acks arrive in any order, everything may be lost
    or repeated. *)
Definition proper (l : list taction) : Prop :=
  (forall who, Forall (fun d => (0 < length d <= N.to_nat 65504)%nat /\ Forall (fun b => b < 256) d) (given_at who l))
  /\ (forall who, N.of_nat (length (given_at who l)) <= 65535)
  /\ (forall who, StronglySorted le (arrivals_at who l)).

(** The step [a] sends a datagram that is too long for UDP, or receives one that is too long for
    the buffer. *)
Definition oversized (m : mode) (clks : bool -> clock) (t : tunnel) (a : taction) : Prop :=
  tstep m clks t a = Stops TooLong
  \/ exists who k tail p, (N.to_nat 65504 < length p)%nat
     /\ (a = Datagram who k tail /\ nth_error (s_out (at_ t (negb who))) k = Some p
         \/ a = AckDatagram who k tail /\ nth_error (s_acks (at_ t (negb who))) k = Some p).

(** Enough to rule that out. *)
Definition small (l : list taction) : Prop :=
  forall who, N.of_nat (length (given_at who l)) <= 21832
  /\ Forall (fun d => N.of_nat (length d) <= 32697) (given_at who l).

(** *** Proof *)

Lemma at_put_same t who s : at_ (put t who s) who = s.
Proof. destruct who; reflexivity. Qed.

Lemma at_put_other t who s : at_ (put t who s) (negb who) = at_ t (negb who).
Proof. destruct who; reflexivity. Qed.

Lemma given_at_snoc who l a : given_at who (l ++ [a]) = given_at who l ++ given_at who [a].
Proof. apply flat_map_app. Qed.

Lemma arrivals_at_snoc who l a : arrivals_at who (l ++ [a]) = arrivals_at who l ++ arrivals_at who [a].
Proof. apply flat_map_app. Qed.

Lemma proper_before l a : proper (l ++ [a]) -> proper l.
Proof.
  intros (A & B & C). split; [|split]; intros who; specialize (A who); specialize (B who); specialize (C who).
  - rewrite given_at_snoc in A. apply Forall_app in A. apply A.
  - rewrite given_at_snoc, app_length in B. lia.
  - rewrite arrivals_at_snoc in C. apply sorted_app_le in C. apply C.
Qed.

Definition both (m : mode) (clks : bool -> clock) (l : list taction) (t : tunnel) : Prop :=
  forall who, exists acts w, dir m (clks who) acts w (at_ t (negb who)) (at_ t who)
  /\ given acts = given_at (negb who) l /\ arrivals acts = arrivals_at who l.

Lemma dir_given m clk acts w a b : dir m clk acts w a b -> s_given a = given acts.
Proof. intros D. rewrite <- (di_given _ _ _ _ _ _ D). apply (di_sound _ _ _ _ _ _ D). Qed.

Lemma sizes_at m clk acts w a b l who : dir m clk acts w a b -> given acts = given_at who l -> small l ->
  Forall (fun p => (length p <= buffer_size)%nat) (s_out a) /\ Forall (fun p => (length p <= buffer_size)%nat) (s_acks b)
  /\ Forall (fun d => (length d <= buffer_size)%nat) (s_got b).
Proof.
  intros D E S. destruct (S who) as [A B]. apply (dir_sizes _ _ _ _ _ _ D); rewrite (dir_given _ _ _ _ _ _ D), E; assumption.
Qed.

Lemma sendable_spec l : Forall (fun p => (length p <= buffer_size)%nat) l -> sendable l = true.
Proof.
  intros H. apply forallb_forall. intros p Hp. rewrite Forall_forall in H. specialize (H p Hp). unfold buffer_size in H. apply N.leb_le. lia.
Qed.

Lemma other_cases (P : bool -> Prop) who : P who -> P (negb who) -> forall v, P v.
Proof. intros A B v. destruct who, v; assumption. Qed.

Lemma eqb_negb_l b : Bool.eqb (negb b) b = false.
Proof. destruct b; reflexivity. Qed.
Lemma eqb_negb_r b : Bool.eqb b (negb b) = false.
Proof. destruct b; reflexivity. Qed.

Ltac ats := repeat (rewrite ?at_put_other, ?negb_involutive, ?at_put_same).
Ltac lists := rewrite ?given_at_snoc, ?arrivals_at_snoc; cbn [given_at arrivals_at flat_map];
  rewrite ?Bool.eqb_reflx, ?eqb_negb_l, ?eqb_negb_r, ?app_nil_r.

Lemma noop_step m clk acts w a b k : dir m clk acts w a b -> nth_error (s_out a) k = None ->
  N.of_nat (length (given acts)) <= 65535 -> StronglySorted le (arrivals acts ++ [k]) ->
  dir m clk (acts ++ [Arrive k]) w a b.
Proof.
  intros [H1 H2 H3 H4 H5 H6 H7 H8 H9 H10 H11 O] Hk Hn Hs.
  assert (Hl : Forall (legal_action W8) (acts ++ [Arrive k])) by (apply Forall_app; split; [exact H3|repeat constructor]).
  destruct (sound_step_other m clk W8 true ltac:(discriminate) acts w (Arrive k) H1 Hl Hn) as (w' & E & S').
  { rewrite arrivals_app. exact Hs. }
  { discriminate. }
  pose proof E as E0. cbn [wstep] in E. rewrite H8, Hk in E. injection E as <-.
  constructor; try assumption.
  - rewrite wrun_app, H2. cbn [bind wrun]. rewrite E0. reflexivity.
  - intros X. apply in_app_iff in X. destruct X as [X|[X|[]]]; [exact (H4 X)|discriminate].
Qed.

Lemma both_step m clks l t a : both m clks l t -> proper (l ++ [a]) ->
  (exists t', tstep m clks t a = Runs t' /\ both m clks (l ++ [a]) t')
  \/ (oversized m clks t a /\ ~ small (l ++ [a])).
Proof.
  intros B Pr. pose proof (proper_before _ _ Pr) as (Pd & Pn & Ps). destruct Pr as (Pd' & Pn' & Ps').
  assert (W : exists who, match a with App v _ | Tick v | Datagram v _ _ | AckDatagram v _ _ => v = who end) by (destruct a; eexists; reflexivity).
  destruct W as [who Hw].
  destruct (B who) as (acts & w & D & Eg & Ea). destruct (B (negb who)) as (acts' & w' & D' & Eg' & Ea'). rewrite negb_involutive in D', Eg'.
  assert (N1 : N.of_nat (length (given acts)) <= 65535) by (rewrite Eg; apply Pn).
  assert (N2 : N.of_nat (length (given acts')) <= 65535) by (rewrite Eg'; apply Pn).
  assert (S1 : StronglySorted le (arrivals acts)) by (rewrite Ea; apply Ps).
  assert (S2 : StronglySorted le (arrivals acts')) by (rewrite Ea'; apply Ps).
  destruct a as [v d|v|v k tail|v j tail]; subst v; cbn [tstep].
  - (* App *)
    assert (Ld : legal_datum d).
    { specialize (Pd' who). rewrite given_at_snoc in Pd'. cbn [given_at flat_map] in Pd'. rewrite Bool.eqb_reflx in Pd'.
      apply Forall_app in Pd'. destruct Pd' as [_ Pd']. inversion Pd'. assumption. }
    destruct (app_step _ _ _ _ _ _ _ D' Ld N2 S2) as (e & out & E & K). unfold oversized; cbn [tstep].
    rewrite E. set (a' := {| s_enc := e |}) in *.
    destruct (K a' eq_refl eq_refl eq_refl) as (w2 & K2).
    assert (Eg2 : given (acts' ++ [Data d]) = given_at who (l ++ [App who d])) by (rewrite given_app, Eg'; lists; reflexivity).
    assert (Ea2 : arrivals (acts' ++ [Data d]) = arrivals_at (negb who) (l ++ [App who d])) by (rewrite arrivals_app, Ea'; lists; reflexivity).
    destruct (sendable out) eqn:Es.
    + left. exists (put t who a'). split; [reflexivity|]. unfold both. apply (other_cases _ who).
      * exists acts, w. ats. split; [|split; [rewrite Eg|rewrite Ea]; lists; reflexivity].
        eapply dir_ext; [exact D|..]; reflexivity.
      * exists (acts' ++ [Data d]), w2. ats. split; [exact K2|]. split; assumption.
    + right. split; [left; reflexivity|]. intros Sm.
      destruct (sizes_at _ _ _ _ _ _ _ _ K2 Eg2 Sm) as (Z & _ & _). cbn [s_out a'] in Z. apply Forall_app in Z.
      destruct Z as [_ Z]. rewrite (sendable_spec _ Z) in Es. discriminate.
  - (* Tick *)
    unfold oversized; cbn [tstep]. unfold on_timer. destruct (s_seen (at_ t who)).
    2:{ left. eexists. split; [reflexivity|]. unfold both. apply (other_cases _ who).
        - exists acts, w. ats. split; [exact D|split; [rewrite Eg|rewrite Ea]; lists; reflexivity].
        - exists acts', w'. ats. split; [exact D'|split; [rewrite Eg'|rewrite Ea']; lists; reflexivity]. }
    destruct (timer_step _ _ _ _ _ _ D N1 S1) as (d & out & E & _ & K). rewrite E.
    set (b' := {| s_enc := s_enc (at_ t who); s_dec := d |}) in *.
    destruct (K b' eq_refl eq_refl eq_refl eq_refl) as (w2 & K2).
    assert (Eg2 : given (acts ++ [Ack]) = given_at (negb who) (l ++ [Tick who])) by (rewrite given_app, Eg; lists; reflexivity).
    assert (Ea2 : arrivals (acts ++ [Ack]) = arrivals_at who (l ++ [Tick who])) by (rewrite arrivals_app, Ea; lists; reflexivity).
    destruct (sendable (to_network out)) eqn:Es.
    + left. exists (put t who b'). split; [reflexivity|]. unfold both. apply (other_cases _ who).
      * exists (acts ++ [Ack]), w2. ats. split; [exact K2|]. split; assumption.
      * exists acts', w'. ats. split; [|split; [rewrite Eg'|rewrite Ea']; lists; reflexivity].
        eapply dir_ext; [exact D'|..]; reflexivity.
    + right. split; [left; reflexivity|]. intros Sm.
      destruct (sizes_at _ _ _ _ _ _ _ _ K2 Eg2 Sm) as (_ & Z & _). cbn [s_acks b'] in Z. apply Forall_app in Z.
      destruct Z as [_ Z]. rewrite (sendable_spec _ Z) in Es. discriminate.
  - (* Datagram *)
    assert (S3 : StronglySorted le (arrivals acts ++ [k])).
    { specialize (Ps' who). rewrite arrivals_at_snoc in Ps'. cbn [arrivals_at flat_map] in Ps'. rewrite Bool.eqb_reflx in Ps'. rewrite Ea. exact Ps'. }
    assert (Eg2 : given (acts ++ [Arrive k]) = given_at (negb who) (l ++ [Datagram who k tail])) by (rewrite given_app, Eg; lists; reflexivity).
    assert (Ea2 : arrivals (acts ++ [Arrive k]) = arrivals_at who (l ++ [Datagram who k tail])) by (rewrite arrivals_app, Ea; lists; reflexivity).
    destruct (nth_error (s_out (at_ t (negb who))) k) as [p|] eqn:Ep.
    2:{ left. eexists. split; [reflexivity|]. unfold both. apply (other_cases _ who).
        - exists (acts ++ [Arrive k]), w. split; [apply noop_step; assumption|]. split; assumption.
        - exists acts', w'. ats. split; [exact D'|split; [rewrite Eg'|rewrite Ea']; lists; reflexivity]. }
    destruct (le_lt_dec (length p) buffer_size) as [Hp|Hp].
    2:{ right. split; [right; exists who, k, tail, p; split; [exact Hp|left; split; [reflexivity|exact Ep]]|]. intros Sm.
        assert (Eg3 : given acts = given_at (negb who) (l ++ [Datagram who k tail])) by (rewrite Eg; lists; reflexivity).
        destruct (sizes_at _ _ _ _ _ _ _ _ D Eg3 Sm) as (Z & _ & _). rewrite Forall_forall in Z. specialize (Z p (nth_error_In _ _ Ep)). lia. }
    destruct (packet_step _ _ _ _ _ _ _ _ tail D Ep Hp N1 S3) as (d & out & E & K). unfold oversized; cbn [tstep]. rewrite Ep, E.
    set (b' := {| s_enc := s_enc (at_ t who); s_dec := d |}) in *.
    destruct (K b' eq_refl eq_refl eq_refl eq_refl) as (w2 & K2).
    destruct (sendable (to_network out) && sendable (to_user out)) eqn:Es.
    + left. exists (put t who b'). split; [reflexivity|]. unfold both. apply (other_cases _ who).
      * exists (acts ++ [Arrive k]), w2. ats. split; [exact K2|]. split; assumption.
      * exists acts', w'. ats. split; [|split; [rewrite Eg'|rewrite Ea']; lists; reflexivity].
        eapply dir_ext; [exact D'|..]; reflexivity.
    + right. split; [left; reflexivity|]. intros Sm.
      destruct (sizes_at _ _ _ _ _ _ _ _ K2 Eg2 Sm) as (_ & Z & Y). cbn [s_acks s_got b'] in Z, Y. apply Forall_app in Z, Y.
      destruct Z as [_ Z], Y as [_ Y]. rewrite (sendable_spec _ Z), (sendable_spec _ Y) in Es. discriminate.
  - (* AckDatagram *)
    destruct (nth_error (s_acks (at_ t (negb who))) j) as [p|] eqn:Ep.
    2:{ left. eexists. split; [reflexivity|]. unfold both. apply (other_cases _ who).
        - exists acts, w. ats. split; [exact D|split; [rewrite Eg|rewrite Ea]; lists; reflexivity].
        - exists acts', w'. ats. split; [exact D'|split; [rewrite Eg'|rewrite Ea']; lists; reflexivity]. }
    destruct (le_lt_dec (length p) buffer_size) as [Hp|Hp].
    2:{ right. split; [right; exists who, j, tail, p; split; [exact Hp|right; split; [reflexivity|exact Ep]]|]. intros Sm.
        assert (Eg3 : given acts' = given_at who (l ++ [AckDatagram who j tail])) by (rewrite Eg'; lists; reflexivity).
        destruct (sizes_at _ _ _ _ _ _ _ _ D' Eg3 Sm) as (_ & Z & _). rewrite Forall_forall in Z. specialize (Z p (nth_error_In _ _ Ep)). lia. }
    destruct (ack_step _ _ _ _ _ _ _ _ tail D' Ep Hp N2 S2 (clks who)) as (e & E & K). rewrite E.
    set (a' := {| s_enc := e |}) in *.
    destruct (K a' eq_refl eq_refl eq_refl) as (w2 & K2).
    left. exists (put t who a'). split; [reflexivity|]. unfold both. apply (other_cases _ who).
    + exists acts, w. ats. split; [|split; [rewrite Eg|rewrite Ea]; lists; reflexivity].
      eapply dir_ext; [exact D|..]; reflexivity.
    + exists (acts' ++ [AckArrive j]), w2. ats. split; [exact K2|].
      split; [rewrite given_app, Eg'|rewrite arrivals_app, Ea']; lists; reflexivity.
Qed.

Lemma trun_app m clks l l' : forall t, trun m clks t (l ++ l') = match trun m clks t l with Runs t' => trun m clks t' l' | Stops x => Stops x end.
Proof. induction l as [|a l IH]; intros t; cbn [app trun]; [reflexivity|]. destruct (tstep m clks t a); [apply IH|reflexivity]. Qed.

Lemma tunnel_run_snoc m clks l a : tunnel_run m clks (l ++ [a]) = match tunnel_run m clks l with Runs t => tstep m clks t a | Stops x => Stops x end.
Proof.
  unfold tunnel_run. destruct (new_side m (clks false)), (new_side m (clks true)); try reflexivity. rewrite trun_app.
  destruct (trun _ _ _ l); [|reflexivity]. cbn [trun]. destruct (tstep m clks a2 a); reflexivity.
Qed.

Lemma both_start m clks : exists t, tunnel_run m clks [] = Runs t /\ both m clks [] t.
Proof.
  assert (X : forall clk, exists s, new_side m clk = Ok s) by (intros clk; destruct m; eexists; reflexivity).
  destruct (X (clks false)) as [a Ha], (X (clks true)) as [b Hb]. exists {| left := a; right := b |}. unfold tunnel_run. rewrite Ha, Hb.
  split; [reflexivity|]. intros [|].
  - destruct (dir_start m (clks true) (clks false) a b Ha Hb) as [w D]. exists setup, w. split; [exact D|]. split; reflexivity.
  - destruct (dir_start m (clks false) (clks true) b a Hb Ha) as [w D]. exists setup, w. split; [exact D|]. split; reflexivity.
Qed.

Lemma both_run m clks l : proper l ->
  (exists t, tunnel_run m clks l = Runs t /\ both m clks l t)
  \/ exists before a after t, l = before ++ a :: after /\ tunnel_run m clks before = Runs t
     /\ proper before /\ both m clks before t /\ oversized m clks t a /\ ~ small (before ++ [a]).
Proof.
  induction l as [|a l IH] using rev_ind; intros Pr.
  - left. apply both_start.
  - destruct (IH (proper_before _ _ Pr)) as [(t & E & B)|(x & b & y & t & -> & E & Px & Bx & Ov & Sm)].
    + destruct (both_step _ _ _ _ _ B Pr) as [(t' & E' & B')|[Ov Sm]].
      * left. exists t'. split; [|exact B']. rewrite tunnel_run_snoc, E. exact E'.
      * right. exists l, a, [], t. pose proof (proper_before _ _ Pr). auto 7.
    + right. exists x, b, (y ++ [a]), t. split; [rewrite <- app_assoc; reflexivity|]. auto 7.
Qed.

Lemma small_before l a l' : small (l ++ a :: l') -> small (l ++ [a]).
Proof.
  intros H who. specialize (H who). replace (l ++ a :: l') with ((l ++ [a]) ++ l') in H by (rewrite <- app_assoc; reflexivity).
  unfold given_at in *. rewrite flat_map_app in H. rewrite app_length, Forall_app in H. destruct H as [A [B _]]. split; [lia|exact B].
Qed.

(** *** Theorems *)

(** The data that reached the application of side [who] are data of the other application, unchanged,
    in order, none twice. *)
Definition faithful (l : list taction) (t : tunnel) (who : bool) : Prop :=
  exists which, StronglySorted lt which
  /\ (forall i, In i which -> (i < length (given_at (negb who) l))%nat)
  /\ s_got (at_ t who) = map (fun i => nth i (given_at (negb who) l) []) which.

Lemma both_faithful m clks l t : proper l -> both m clks l t -> forall who, faithful l t who.
Proof.
  intros Pr B who. destruct (B who) as (acts & w & D & Eg & _).
  assert (N1 : N.of_nat (length (given acts)) <= 65535) by (rewrite Eg; apply Pr).
  pose proof (dir_lossy _ _ _ _ _ _ D N1) as Lf.
  destruct (C29_in_order _ _ _ _ (lossy_normal _ _ _ _ _ Lf)) as (which & So & Hw & Ew). exists which.
  assert (Es : w_sent w = given_at (negb who) l).
  { rewrite (di_given _ _ _ _ _ _ D), (dir_given _ _ _ _ _ _ D). exact Eg. }
  rewrite <- (di_got _ _ _ _ _ _ D), <- Es. split; [exact So|]. split; [exact Hw|exact Ew].
Qed.

(** Both programs run, and are faithful, as long as no datagram is oversized. *)
Theorem C64_tunnel :
  forall m clks l, proper l ->
  (exists t, tunnel_run m clks l = Runs t /\ forall who, faithful l t who)
  \/ exists before a after t, l = before ++ a :: after /\ tunnel_run m clks before = Runs t
     /\ (forall who, faithful before t who) /\ oversized m clks t a.
Proof.
  intros m clks l Pr. destruct (both_run m clks l Pr) as [(t & E & B)|(x & a & y & t & -> & E & Px & Bx & Ov & _)].
  - left. exists t. split; [exact E|]. eapply both_faithful; eassumption.
  - right. exists x, a, y, t. split; [reflexivity|]. split; [exact E|]. split; [|exact Ov]. eapply both_faithful; eassumption.
Qed.
Print Assumptions C64_tunnel.

(** Data of at most 32697 bytes, at most 21832 per side: nothing is oversized. *)
Theorem C64_small_data :
  forall m clks l, proper l -> small l ->
  exists t, tunnel_run m clks l = Runs t /\ forall who, faithful l t who.
Proof.
  intros m clks l Pr Sm. destruct (both_run m clks l Pr) as [(t & E & B)|(x & a & y & t & -> & _ & _ & _ & _ & K)].
  - exists t. split; [exact E|]. eapply both_faithful; eassumption.
  - exfalso. apply K. eapply small_before. exact Sm.
Qed.
Print Assumptions C64_small_data.

(** A datagram of the other side reaches side [who] by the action [a]. *)
Definition touched (t : tunnel) (who : bool) (a : taction) : Prop :=
  (exists k tail p, a = Datagram who k tail /\ nth_error (s_out (at_ t (negb who))) k = Some p)
  \/ exists j tail p, a = AckDatagram who j tail /\ nth_error (s_acks (at_ t (negb who))) j = Some p.

Lemma at_put t who v s : at_ (put t who s) v = if Bool.eqb v who then s else at_ t v.
Proof. destruct who, v; reflexivity. Qed.

Lemma tstep_seen m clks t a t' who : tstep m clks t a = Runs t' ->
  (s_seen (at_ t who) = true -> s_seen (at_ t' who) = true)
  /\ (touched t who a -> s_seen (at_ t' who) = true)
  /\ (~ touched t who a -> s_seen (at_ t who) = false -> s_acks (at_ t who) = [] -> s_seen (at_ t' who) = false /\ s_acks (at_ t' who) = []).
Proof.
  assert (P : forall v arr p tail s', from_peer m (clks v) (at_ t v) arr p tail = Runs s' -> s_seen s' = true).
  { intros v arr p tail s' H. unfold from_peer in H. destruct p as [|b p]; [injection H as <-; reflexivity|].
    destruct (dispatch _ _ _ _ _) as [[e d] [[out n]| |]]; try discriminate. destruct (_ && _); [|discriminate]. injection H as <-. reflexivity. }
  intros H. destruct a as [v d|v|v k tail|v j tail]; cbn [tstep] in H.
  - destruct (from_app m (at_ t v) d) as [s'|] eqn:E; [|discriminate]. injection H as <-.
    assert (X : s_seen s' = s_seen (at_ t v) /\ s_acks s' = s_acks (at_ t v)).
    { unfold from_app in E. destruct (firstn buffer_size d) as [|b l]; [injection E as <-; auto|].
      destruct (enc_data _ _ _) as [[e out]| |]; try discriminate. destruct (sendable out); [|discriminate]. injection E as <-. auto. }
    destruct X as [X Y]. rewrite !at_put. destruct (Bool.eqb who v) eqn:Ev.
    + apply Bool.eqb_prop in Ev. subst v. rewrite X, Y. split; [auto|]. split; [|auto].
      intros [(k & tl & p & R & _)|(j & tl & p & R & _)]; discriminate.
    + split; [auto|]. split; [|auto]. intros [(k & tl & p & R & _)|(j & tl & p & R & _)]; discriminate.
  - destruct (on_timer (at_ t v)) as [s'|] eqn:E; [|discriminate]. injection H as <-. unfold on_timer in E.
    rewrite !at_put. split; [|split].
    + intros Hs. destruct (Bool.eqb who v) eqn:Ev; [|exact Hs]. apply Bool.eqb_prop in Ev. subst v. rewrite Hs in E.
      destruct (generate_ack _) as [d' out]. destruct (sendable _); [|discriminate]. injection E as <-. reflexivity.
    + intros [(k & tl & p & R & _)|(j & tl & p & R & _)]; discriminate.
    + intros _ Hs Ha. destruct (Bool.eqb who v) eqn:Ev; [|auto]. apply Bool.eqb_prop in Ev. subst v. rewrite Hs in E. injection E as <-. auto.
  - destruct (nth_error (s_out (at_ t (negb v))) k) as [p|] eqn:E.
    + destruct (from_peer _ _ _ _ _ _) as [s'|] eqn:Ep; [|discriminate]. injection H as <-. apply P in Ep. rewrite !at_put.
      destruct (Bool.eqb who v) eqn:Ev.
      * apply Bool.eqb_prop in Ev. subst v. split; [auto|]. split; [auto|]. intros N. exfalso. apply N. left. exists k, tail, p. auto.
      * split; [auto|]. split; [|auto]. intros [(k' & tl & p' & R & _)|(j & tl & p' & R & _)]; [|discriminate].
        injection R as -> _ _. rewrite Bool.eqb_reflx in Ev. discriminate.
    + injection H as <-. split; [auto|]. split; [|auto]. intros [(k' & tl & p' & R & R2)|(j & tl & p' & R & _)]; [|discriminate].
      injection R as -> -> _. congruence.
  - destruct (nth_error (s_acks (at_ t (negb v))) j) as [p|] eqn:E.
    + destruct (from_peer _ _ _ _ _ _) as [s'|] eqn:Ep; [|discriminate]. injection H as <-. apply P in Ep. rewrite !at_put.
      destruct (Bool.eqb who v) eqn:Ev.
      * apply Bool.eqb_prop in Ev. subst v. split; [auto|]. split; [auto|]. intros N. exfalso. apply N. right. exists j, tail, p. auto.
      * split; [auto|]. split; [|auto]. intros [(k' & tl & p' & R & _)|(j' & tl & p' & R & _)]; [discriminate|].
        injection R as -> _ _. rewrite Bool.eqb_reflx in Ev. discriminate.
    + injection H as <-. split; [auto|]. split; [|auto]. intros [(k' & tl & p' & R & _)|(j' & tl & p' & R & R2)]; [discriminate|].
      injection R as -> -> _. congruence.
Qed.

Lemma tunnel_run_app m clks l1 l2 : tunnel_run m clks (l1 ++ l2) =
  match tunnel_run m clks l1 with Runs t' => trun m clks t' l2 | Stops x => Stops x end.
Proof. unfold tunnel_run. destruct (new_side m (clks false)), (new_side m (clks true)); try reflexivity. apply trun_app. Qed.

(** A side is silent until the first datagram of the other one has reached it: before it sends no ack (it would not know where to).
    From then on each tick of its timer sends exactly one ack. *)
Theorem C64_acks :
  forall m clks l t who, tunnel_run m clks l = Runs t ->
  ((forall l1 a l2 t1, l = l1 ++ a :: l2 -> tunnel_run m clks l1 = Runs t1 -> ~ touched t1 who a) ->
     s_acks (at_ t who) = [] /\ tstep m clks t (Tick who) = Runs t)
  /\ ((exists l1 a l2 t1, l = l1 ++ a :: l2 /\ tunnel_run m clks l1 = Runs t1 /\ touched t1 who a) ->
     forall t', tstep m clks t (Tick who) = Runs t' -> exists ack, s_acks (at_ t' who) = s_acks (at_ t who) ++ [ack]).
Proof.
  intros m clks l t who H.
  assert (Inv : ((exists l1 a l2 t1, l = l1 ++ a :: l2 /\ tunnel_run m clks l1 = Runs t1 /\ touched t1 who a) -> s_seen (at_ t who) = true)
    /\ ((forall l1 a l2 t1, l = l1 ++ a :: l2 -> tunnel_run m clks l1 = Runs t1 -> ~ touched t1 who a) -> s_seen (at_ t who) = false /\ s_acks (at_ t who) = [])).
  { revert t H. induction l as [|a l IH] using rev_ind; intros t H.
    - split; [intros (l1 & a & l2 & t1 & X & _); destruct l1; discriminate|]. intros _. unfold tunnel_run, new_side in H.
      destruct (set_window_size m (new_encoder W8) 32); try discriminate. cbn [trun] in H. injection H as <-. destruct who; auto.
    - rewrite tunnel_run_app in H. destruct (tunnel_run m clks l) as [t0|x] eqn:E; [|discriminate]. specialize (IH t0 eq_refl). cbn [trun] in H.
      destruct (tstep m clks t0 a) as [t1|] eqn:Es; [|discriminate]. injection H as <-.
      destruct (tstep_seen m clks t0 a t1 who Es) as (S1 & S2 & S3). destruct IH as [I1 I2]. split.
      + intros (l1 & b & l2 & t2 & X & R1 & R2). destruct l2 as [|c l2 _] using rev_ind.
        * apply app_inj_tail in X. destruct X as [-> ->]. apply S2. congruence.
        * rewrite app_comm_cons, app_assoc in X. apply app_inj_tail in X. destruct X as [-> _]. apply S1, I1. exists l1, b, l2, t2. auto.
      + intros N. destruct I2 as [A B]; [|apply S3; [apply (N l a [] t0); [reflexivity | exact E] | exact A | exact B]].
        intros l1 b l2 t2 X R1. apply (N l1 b (l2 ++ [a]) t2); [|exact R1]. rewrite X, <- app_assoc. reflexivity. }
  destruct Inv as [I1 I2]. split.
  - intros N. destruct (I2 N) as [A B]. split; [exact B|]. cbn [tstep]. unfold on_timer. rewrite A. destruct t, who; reflexivity.
  - intros X t' Ht. specialize (I1 X). cbn [tstep] in Ht. unfold on_timer in Ht. rewrite I1 in Ht. unfold generate_ack, generate_ack_of in Ht.
    destruct (sendable _); [|discriminate]. injection Ht as <-. rewrite at_put, Bool.eqb_reflx. eexists. reflexivity.
Qed.
Print Assumptions C64_acks.

(** All packets of the other side's encoder arrive once and in order: all data reach
    the application. *)
Theorem C64_lossless :
  forall m clks l t who, proper l -> small l -> tunnel_run m clks l = Runs t ->
  s_arrived (at_ t who) = seq 0 (length (s_out (at_ t (negb who)))) ->
  s_got (at_ t who) = given_at (negb who) l.
Proof.
  intros m clks l t who Pr Sm E Ha. destruct (both_run m clks l Pr) as [(t' & E' & B)|(x & a & y & t' & -> & _ & _ & _ & _ & K)].
  2:{ exfalso. apply K. eapply small_before. exact Sm. }
  assert (t' = t) by congruence. subst t'. destruct (B who) as (acts & w & D & Eg & _).
  assert (N1 : N.of_nat (length (given acts)) <= 65535) by (rewrite Eg; apply Pr).
  destruct (dir_lossy _ _ _ _ _ _ D N1) as (_ & _ & L).
  rewrite <- (di_got _ _ _ _ _ _ D), <- Eg, <- (dir_given _ _ _ _ _ _ D), <- (di_given _ _ _ _ _ _ D).
  eapply C42_all_delivered; try eassumption; [apply D|apply D|].
  unfold first_arrived. rewrite (di_arrived _ _ _ _ _ _ D), (di_out _ _ _ _ _ _ D). exact Ha.
Qed.
Print Assumptions C64_lossless.

(** *** The limits are real *)

Definition early (m : mode) (ds : list (list N)) (s : side) : Prop :=
  exists ops, reached m W8 ops (s_enc s) (s_out s) /\ datas ops = ds
  /\ e_field (s_enc s) = W8 /\ e_rate (s_enc s) = 5 /\ e_window_size (s_enc s) = 32
  /\ e_source_id (s_enc s) = N.of_nat (length ds) /\ map es_data (e_sources (s_enc s)) = ds.

Lemma from_app_eq m s d e out : (0 < length d <= N.to_nat 65504)%nat -> enc_data m (s_enc s) d = Ok (e, out) ->
  from_app m s d = if sendable out then
     Runs {| s_enc := e; s_dec := s_dec s; s_seen := s_seen s; s_given := s_given s ++ [d]; s_out := s_out s ++ out;
             s_acks := s_acks s; s_got := s_got s; s_arrived := s_arrived s |} else Stops TooLong.
Proof.
  intros Hd E. unfold from_app. rewrite firstn_all2 by apply Hd. destruct d as [|x d]; [cbn in Hd; lia|]. rewrite E. reflexivity.
Qed.

Lemma early_step m ds s d : early m ds s -> (length ds < 31)%nat ->
  Forall (fun d => (0 < length d <= N.to_nat 65504)%nat) (ds ++ [d]) ->
  from_app m s d = Stops TooLong
  \/ exists s', from_app m s d = Runs s' /\ early m (ds ++ [d]) s'
     /\ (u32 (N.of_nat (length ds) + 1) mod 5 = 0 -> Forall (fun d => N.of_nat (length d) <= 32745) (ds ++ [d])).
Proof.
  intros (ops & R & Eo & F & Rt & Wi & Id & So) Hn Hd. pose proof Hd as Hds. apply Forall_app in Hds. destruct Hds as [Hds Hd1].
  inversion Hd1 as [|? ? Hd0 _]; subst x l.
  assert (Lg : forall x, (0 < length x <= N.to_nat 65504)%nat -> legal W8 x) by (intros x Hx; split; [lia|]; split; [lia|reflexivity]).
  destruct (enc_data_total m (s_enc s) d) as (e & out & E).
  { rewrite F. apply Lg, Hd0. }
  { unfold legal_window. rewrite F. apply Forall_forall. intros x Hx. apply Lg. rewrite Forall_forall in Hds. apply Hds. rewrite <- So. apply in_map, Hx. }
  { rewrite Rt. discriminate. }
  { rewrite Wi. discriminate. }
  pose proof (from_app_eq m s d e out Hd0 E) as Ef.
  rewrite Ef. destruct (sendable out) eqn:Es; [right|left; reflexivity]. eexists. split; [reflexivity|].
  pose proof (enc_data_spec _ _ _ _ _ E) as A. pose proof (ad_push _ _ _ _ _ A) as P. unfold push_source in P.
  assert (Ln : length (e_sources (s_enc s)) = length ds) by (rewrite <- So, map_length; reflexivity).
  rewrite Wi, Ln in P. destruct (N.eqb_spec (N.of_nat (length ds)) 32) as [X|_]; [lia|]. injection P as P.
  assert (So' : map es_data (e_sources e) = ds ++ [d]) by (rewrite <- P, map_app, So; reflexivity).
  assert (St : estep m (s_enc s) (EData d) = (e, Ok out)) by (cbn [estep]; rewrite E; reflexivity).
  assert (Ed : datas (ops ++ [EData d]) = ds ++ [d]) by (rewrite datas_app, Eo; reflexivity).
  split.
  - exists (ops ++ [EData d]). cbn [s_enc s_out]. split; [eapply reached_snoc; eassumption|]. split; [exact Ed|].
    rewrite (ad_field _ _ _ _ _ A), (ad_rate _ _ _ _ _ A), (ad_window _ _ _ _ _ A), (ad_source_id _ _ _ _ _ A), Id.
    repeat (split; [assumption|]). split; [|exact So']. rewrite app_length. cbn [length]. unfold u32. rewrite N.mod_small by lia. lia.
  - intros Hz. destruct (ad_out _ _ _ _ _ A) as (first & rest & -> & _ & _ & Hr & _). rewrite Id, Rt in Hr. destruct (Hr Hz) as (p & -> & Rp).
    apply repair_of_type in Rp. apply andb_true_iff in Es. destruct Es as [_ Es]. apply andb_true_iff in Es. destruct Es as [Es _]. apply N.leb_le in Es.
    destruct (C62_datagrams m W8 ops (s_enc s) (s_out s) (EData d) e _ p R St) as [_ H].
    + unfold short_data. rewrite Ed. revert Hd. apply Forall_impl. intros x. lia.
    + unfold nb_data. rewrite Ed, app_length. cbn [length]. lia.
    + right. left. reflexivity.
    + unfold udp_payload. lia.
    + specialize (H Rp). rewrite <- So'. apply Forall_map. exact H.
Qed.

(** A datum longer than 32745 bytes among the first five of an application ends its program: the
    repair that follows the fifth datum does not fit into a datagram. *)
Theorem C64_long_datum_refuted :
  forall m clks who d1 d2 d3 d4 d5,
  Forall (fun d => (0 < length d <= N.to_nat 65504)%nat) [d1; d2; d3; d4; d5] ->
  Exists (fun d => 32745 < N.of_nat (length d)) [d1; d2; d3; d4; d5] ->
  tunnel_run m clks (map (App who) [d1; d2; d3; d4; d5]) = Stops TooLong.
Proof.
  intros m clks who d1 d2 d3 d4 d5 Hd Hl.
  assert (X : forall clk, exists s, new_side m clk = Ok s /\ early m [] s).
  { intros clk. destruct m; (eexists; split; [reflexivity|]; exists [ESetWindow 32; ESetAdaptive true]; repeat split; reflexivity). }
  destruct (X (clks false)) as (a & Ha & A), (X (clks true)) as (b & Hb & B). unfold tunnel_run. rewrite Ha, Hb.
  assert (Y : early m [] (at_ {| left := a; right := b |} who)) by (destruct who; assumption). revert Y. generalize {| left := a; right := b |} as t. clear - Hd Hl.
  intros t0 Y. cbn [map trun tstep].
  assert (Hp : forall k, Forall (fun d => (0 < length d <= N.to_nat 65504)%nat) (firstn k [d1; d2; d3; d4; d5])).
  { intros k. apply Forall_forall. intros x Hx. rewrite Forall_forall in Hd. apply Hd. rewrite <- (firstn_skipn k). apply in_app_iff. left. exact Hx. }
  destruct (early_step m [] _ d1 Y ltac:(cbn; lia) (Hp 1%nat)) as [-> | (s1 & -> & Y1 & _)]; [reflexivity|]. cbn [update app] in *. rewrite at_put_same.
  destruct (early_step m [d1] _ d2 Y1 ltac:(cbn; lia) (Hp 2%nat)) as [-> | (s2 & -> & Y2 & _)]; [reflexivity|]. cbn [update app] in *. rewrite at_put_same.
  destruct (early_step m [d1; d2] _ d3 Y2 ltac:(cbn; lia) (Hp 3%nat)) as [-> | (s3 & -> & Y3 & _)]; [reflexivity|]. cbn [update app] in *. rewrite at_put_same.
  destruct (early_step m [d1; d2; d3] _ d4 Y3 ltac:(cbn; lia) (Hp 4%nat)) as [-> | (s4 & -> & Y4 & _)]; [reflexivity|]. cbn [update app] in *. rewrite at_put_same.
  destruct (early_step m [d1; d2; d3; d4] _ d5 Y4 ltac:(cbn; lia) (Hp 5%nat)) as [-> | (s5 & -> & _ & H)]; [reflexivity|].
  exfalso. specialize (H eq_refl). cbn [app] in H. apply Exists_exists in Hl. destruct Hl as (x & Hx & L). rewrite Forall_forall in H. specialize (H x Hx). cbn beta in H. lia.
Qed.
Print Assumptions C64_long_datum_refuted.

(** A datum of 65498 to 65500 bytes ends the program of the receiver: its packet can be
    sent, but is longer than the buffer of the receiver. *)
Theorem C64_receiver_killed_refuted :
  forall m clks who d, 65498 <= N.of_nat (length d) <= 65500 ->
  (exists t p, tunnel_run m clks [App (negb who) d] = Runs t /\ s_out (at_ t (negb who)) = [p])
  /\ tunnel_run m clks [App (negb who) d; Datagram who 0 []] = Stops (Uncaught OverflowError).
Proof.
  intros m clks who d Hd.
  assert (X : forall clk, exists s, new_side m clk = Ok s /\ s_out s = [] /\ s_enc s = set_adaptive (match set_window_size m (new_encoder W8) 32 with Ok e => e | _ => new_encoder W8 end) true).
  { intros clk. destruct m; eexists; split; [reflexivity|split; reflexivity|reflexivity|split; reflexivity]. }
  destruct (X (clks false)) as (a & Ha & Oa & Na), (X (clks true)) as (b & Hb & Ob & Nb). unfold tunnel_run. rewrite Ha, Hb.
  set (t := {| left := a; right := b |}).
  assert (Ot : s_out (at_ t (negb who)) = []) by (destruct who; assumption).
  assert (Nt : s_enc (at_ t (negb who)) = set_adaptive (match set_window_size m (new_encoder W8) 32 with Ok e => e | _ => new_encoder W8 end) true) by (destruct who; assumption).
  clearbody t. clear Ha Hb Oa Ob Na Nb a b X.
  set (e := s_enc (at_ t (negb who))) in *.
  destruct (enc_data_total m e d) as (e1 & o1 & E1).
  { rewrite Nt. destruct m; (split; [lia|]; split; [lia|reflexivity]). }
  { rewrite Nt. destruct m; constructor. }
  { rewrite Nt. destruct m; discriminate. }
  { rewrite Nt. destruct m; discriminate. }
  pose proof (enc_data_spec _ _ _ _ _ E1) as A. destruct (ad_out _ _ _ _ _ A) as (first & rest & Eo & Hsys & _ & _ & H1).
  assert (Sy : e_systematic e = true /\ e_source_id e = 0 /\ e_rate e = 5) by (rewrite Nt; destruct m; repeat split).
  destruct Sy as (Sy & Si & Ra). specialize (Hsys Sy). rewrite Si in Hsys. rewrite Si, Ra in H1. specialize (H1 ltac:(discriminate)). subst first rest o1.
  set (p := concat (write_source {| es_id := 0; es_data := d |})) in *.
  assert (Lp : length p = (7 + length d)%nat) by apply source_bytes.
  assert (Hs : sendable [p] = true) by (cbn [sendable forallb]; rewrite andb_true_r; apply N.leb_le; lia).
  assert (Ef : exists s1, from_app m (at_ t (negb who)) d = Runs s1 /\ s_out s1 = [p]).
  { rewrite (from_app_eq m _ d e1 [p]); [|lia|exact E1]. rewrite Hs. eexists. split; [reflexivity|]. cbn [s_out]. rewrite Ot. reflexivity. }
  destruct Ef as (s1 & Ef & Os). cbn [trun tstep]. rewrite Ef. cbn [update]. split.
  - exists (put t (negb who) s1), p. split; [reflexivity|]. rewrite at_put_same. exact Os.
  - rewrite at_put_same, Os. cbn [nth_error].
    destruct (C01_source_roundtrip m 0 d eq_refl ltac:(lia)) as (s & Er & _ & _). unfold on_wire in Er. fold p in Er.
    assert (T : get_packet_type p = Ok TSource) by reflexivity.
    destruct (C06_truncated_rejected m p buffer_size) as (_ & _ & C); [right; unfold buffer_size; lia|].
    specialize (C s (length p) (fun _ => T) Er ltac:(unfold buffer_size; lia)).
    unfold from_peer. destruct p as [|x p'] eqn:Ep; [discriminate|]. rewrite <- Ep in *. rewrite app_nil_r.
    assert (Ec : exists q, firstn buffer_size p = x :: q).
    { rewrite Ep. destruct buffer_size as [|k] eqn:Eb; [discriminate|]. eexists. reflexivity. }
    destruct Ec as [q Ec]. rewrite Ec in *.
    assert (Tq : get_packet_type (x :: q) = Ok TSource) by (rewrite <- T, Ep; reflexivity).
    unfold dispatch. rewrite Tq. unfold dec_packet.
    replace (_ <- assert_ m (Nat.ltb 0 (length (x :: q))) ;; get_packet_type (x :: q)) with (Ok TSource) by (destruct m; cbn [assert_]; rewrite Tq; reflexivity).
    rewrite C. reflexivity.
Qed.
Print Assumptions C64_receiver_killed_refuted.

(** *** Examples *)

(** Both applications send. The right one misses the datum 2 and recovers it from the repair (packet 5). The
    left one misses the datum 0. Acks travel both ways, one is repeated. Old bytes follow
    some datagrams. *)
Definition C64_story : list taction :=
  [App false [1; 2]; App true [9]; App false [3]; App false [4; 5; 6]; Datagram true 0 []; Datagram true 1 [7; 7]; Tick true;
   App false [7]; App true [8; 8]; AckDatagram false 0 [1]; App false [5; 5]; Datagram true 3 [0; 0; 0]; Datagram true 4 []; Datagram true 5 [4];
   Datagram false 1 []; Tick false; AckDatagram true 0 []; AckDatagram false 0 []; Tick true].

Definition C64_clocks : bool -> clock := fun _ _ => 0%Z.

(** What can be seen of a run. *)
Definition C64_view (r : result tunnel) : list (list (list N)) :=
  match r with
  | Runs t => [s_got (left t); s_got (right t); [map (fun s => es_id s) (e_sources (s_enc (left t)))];
               [map type_of (s_out (left t)); map type_of (s_acks (right t)); map type_of (s_acks (left t))]]
  | Stops _ => []
  end.

Example C64_case : proper C64_story /\ small C64_story
  /\ C64_view (tunnel_run Debug C64_clocks C64_story)
     = [[]; [[1; 2]; [3]; [4; 5; 6]; [7]; [5; 5]]; [[2; 3; 4]]; [[2; 2; 2; 2; 2; 1]; [0; 0]; [0]]].
Proof.
  split; [|split].
  - split; [|split]; intros [|].
    1,2: apply Forall_forall; intros d Hd; vm_compute in Hd; repeat (destruct Hd as [<-|Hd]; [split; [cbn [length]; lia|repeat (apply Forall_cons; [reflexivity|]); apply Forall_nil]|]); destruct Hd.
    1,2: vm_compute; discriminate.
    1,2: vm_compute; repeat constructor.
  - intros [|]; (split; [vm_compute; discriminate|]); apply Forall_forall; intros d Hd; vm_compute in Hd; repeat (destruct Hd as [<-|Hd]; [vm_compute; discriminate|]); destruct Hd.
  - vm_compute. reflexivity.
Qed.

(** Ticks before the first datagram of the other side send nothing, the two ticks after it one ack each. *)
Definition C64_quiet : list taction := [Tick true; App false [1]; Tick true].
Definition C64_loud : list taction := C64_quiet ++ [Datagram true 0 []; Tick true; Tick true].

Example C64_acks_case :
  (exists t, tunnel_run Debug C64_clocks C64_quiet = Runs t /\ s_acks (right t) = []
    /\ touched t true (Datagram true 0 []) /\ tstep Debug C64_clocks t (Tick true) = Runs t)
  /\ exists t, tunnel_run Debug C64_clocks C64_loud = Runs t /\ length (s_acks (right t)) = 2%nat /\ s_acks (left t) = [].
Proof.
  split; eexists; (split; [vm_compute; reflexivity|]).
  - split; [vm_compute; reflexivity|]. split; [|vm_compute; reflexivity].
    left. eexists _, _, _. split; [reflexivity|]. vm_compute. reflexivity.
  - split; vm_compute; reflexivity.
Qed.

(** A case of each limit. *)
Example C64_limits_case :
  (forall m clks, tunnel_run m clks (map (App false) [[1]; repeat 7 (N.to_nat 32746); [2]; [3]; [4]]) = Stops TooLong)
  /\ (forall m clks, tunnel_run m clks [App false (repeat 7 (N.to_nat 65500)); Datagram true 0 []] = Stops (Uncaught OverflowError)).
Proof.
  split; intros m clks.
  - apply C64_long_datum_refuted.
    + repeat (apply Forall_cons; [cbn [length]; rewrite ?repeat_length; lia|]). apply Forall_nil.
    + right. left. rewrite repeat_length. lia.
  - apply (C64_receiver_killed_refuted m clks true). rewrite repeat_length. lia.
Qed.
