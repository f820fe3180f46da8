(** * The end-to-end tests of the library: C77 *)
From Coq Require Import ZArith NArith Arith List Bool Lia Sorted.
From Verif Require Import Outcome GF Containers ContainersFacts Packetizer PropsPacketizer
  Encoder EncoderRun EncoderFacts EncoderHistory EncoderSafe DetailDecoder Decoder DecoderInv DecoderStep DecoderFacts DecoderHeld DecoderPrompt
  System SystemInv SystemRun SystemArrive SystemFifo SystemGroups PropsSystem PropsRecover PropsFifo PropsSync PropsGaps EndToEnd.
Import ListNotations.
Open Scope N_scope.

(** ** Data and checks *)

(** Sizes of data that the programs accept and the library allows. *)
Definition good_size (size : nat) : Prop := Nat.modulo size 4 = 0%nat /\ (0 < size)%nat /\ N.of_nat size < 65536.

Lemma words_repeat x n : x < 2 ^ 32 -> words (concat (repeat (word_bytes x) n)) = repeat x n.
Proof.
  intros Hx. induction n as [|n IH]; [reflexivity|]. cbn [repeat concat word_bytes app words]. rewrite IH. f_equal.
  change (2 ^ 32) with 4294967296 in Hx.
  pose proof (N.div_mod x 256 ltac:(discriminate)) as H0.
  pose proof (N.div_mod (x / 256) 256 ltac:(discriminate)) as H1. rewrite N.div_div in H1 by discriminate. change (256 * 256) with 65536 in H1.
  pose proof (N.div_mod (x / 65536) 256 ltac:(discriminate)) as H2. rewrite N.div_div in H2 by discriminate.
  change (65536 * 256) with 16777216 in H2.
  rewrite (N.mod_small (x / 16777216) 256) by (apply N.div_lt_upper_bound; [discriminate|lia]). lia.
Qed.

Lemma generated_length id size : good_size size -> length (generate_data id size) = size.
Proof.
  intros (H & _ & _). unfold generate_data.
  assert (L : forall n, length (concat (repeat (word_bytes id) n)) = (4 * n)%nat).
  { induction n as [|n IH]; [reflexivity|]. cbn [repeat concat]. rewrite app_length, IH. cbn [length word_bytes]. lia. }
  rewrite L. pose proof (Nat.div_mod size 4 ltac:(lia)). lia.
Qed.

Lemma generated_bytes id size : Forall (fun b => b < 256) (generate_data id size).
Proof.
  unfold generate_data. induction (Nat.div size 4) as [|n IH]; [constructor|]. cbn [repeat concat]. apply Forall_app.
  split; [|exact IH]. unfold word_bytes. repeat constructor; apply N.mod_lt; discriminate.
Qed.

Lemma generated_legal id size : good_size size -> legal_action W8 (Data (generate_data id size)).
Proof.
  intros G. pose proof G as (_ & H1 & H2). cbn [legal_action]. rewrite generated_length by exact G.
  split; [exact H1|]. split; [exact H2|]. split; [reflexivity | apply generated_bytes].
Qed.

(** The handler accepts the datum that is due. *)
Lemma check_due size id r : good_size size -> id < 2 ^ 32 ->
  check size {| h_received := r; h_expected := id |} (generate_data id size)
  = Runs {| h_received := u64 (r + 1); h_expected := u32 (id + 1) |}.
Proof.
  intros G Hid. unfold check. rewrite generated_length, Nat.eqb_refl by exact G. cbn [negb].
  unfold generate_data. rewrite words_repeat by exact Hid.
  assert (N0 : Nat.div size 4 <> 0%nat).
  { destruct G as (G1 & G2 & _). pose proof (Nat.div_mod size 4 ltac:(lia)). lia. }
  assert (All : forallb (fun x => x =? id) (repeat id (Nat.div size 4)) = true).
  { apply forallb_forall. intros x Hx. apply repeat_spec in Hx. subst. apply N.eqb_refl. }
  destruct (Nat.div size 4) as [|n]; [lia|]. cbn [repeat h_expected h_received] in *. rewrite N.eqb_refl, All. reflexivity.
Qed.

Definition generated (size : nat) (i : nat) : list N := generate_data (N.of_nat i) size.

Definition count_to (n : nat) : handler := {| h_received := N.of_nat n; h_expected := N.of_nat n |}.

Lemma checks_due size n : forall k, good_size size -> N.of_nat (k + n) < 2 ^ 32 ->
  checks size (count_to k) (map (generated size) (seq k n)) = Runs (count_to (k + n)).
Proof.
  induction n as [|n IH]; intros k G Hk; cbn [seq map checks]; [rewrite Nat.add_0_r; reflexivity|].
  unfold count_to at 1. unfold generated at 1. rewrite check_due by (exact G || lia). cbn [next].
  unfold u64, u32. change (2 ^ 32) with 4294967296 in *. rewrite !N.mod_small by lia.
  replace (N.of_nat k + 1) with (N.of_nat (Datatypes.S k)) by lia. fold (count_to (Datatypes.S k)). rewrite IH by (assumption || lia).
  f_equal. f_equal. lia.
Qed.

(** ** Steps of the closed system, without exceptions *)

Section Steps.
Variable m : mode.
Variable clk : clock.

(** The world after the legal actions [l], none of which changes the window. *)
Record calmly (l : list action) (w : world) : Prop := {
  q_sound : sound m clk W8 true l w;
  q_run : wrun m clk (start clk W8 true) l = Ok w;
  q_legal : Forall (legal_action W8) l;
  q_window : forall k, ~ In (SetWindow k) l;
  q_code : ~ In (SetCode false) l;
  q_count : N.of_nat (length (given l)) <= 65535;
  q_sorted : StronglySorted le (arrivals l)
}.

Lemma calmly_lossy l w : calmly l w -> lossy_fifo m clk W8 true w.
Proof.
  intros [H1 H2 H3 _ _ Hn _]. split; [apply H1|]. split; [apply H1|].
  eapply sound_limits; try eassumption. apply sizes_fit_other. discriminate.
Qed.

Lemma calmly_got l w : calmly l w -> w_got w = firstn (length (w_got w)) (w_sent w).
Proof.
  intros Q. eapply C76_no_gaps; [apply (q_run _ _ Q) | apply (calmly_lossy _ _ Q)|].
  intros k H. destruct (q_window _ _ Q k H).
Qed.

(** One more action. *)
Lemma calmly_step l w a : calmly l w -> legal_action W8 a -> (forall k, a <> SetWindow k) -> a <> SetCode false -> a <> Repair ->
  N.of_nat (length (given (l ++ [a]))) <= 65535 -> StronglySorted le (arrivals (l ++ [a])) ->
  exists w', wstep m clk w a = Ok w' /\ calmly (l ++ [a]) w'.
Proof.
  intros Q La Nw Nc Nr Hn Hs.
  assert (Hl : Forall (legal_action W8) (l ++ [a])) by (apply Forall_app; split; [apply Q | constructor; [exact La | constructor]]).
  destruct (sound_step_other m clk W8 true ltac:(discriminate) l w a (q_sound _ _ Q) Hl (q_count _ _ Q) Hs) as (w' & E & S).
  { intros X. destruct (Nr X). }
  exists w'. split; [exact E|]. constructor; try assumption.
  - rewrite (SystemRun.wrun_app _ _ _ _ _ _ (q_run _ _ Q)). cbn [wrun]. rewrite E. reflexivity.
  - intros k H. apply in_app_iff in H. destruct H as [H|[H|[]]]; [destruct (q_window _ _ Q k H) | destruct (Nw k H)].
  - intros H. apply in_app_iff in H. destruct H as [H|[H|[]]]; [destruct (q_code _ _ Q H) | destruct (Nc H)].
Qed.

Lemma calm_data l w d : calmly l w -> legal_action W8 (Data d) -> N.of_nat (length (given l)) < 65535 ->
  exists e out w', enc_data m (w_enc w) d = Ok (e, out) /\ calmly (l ++ [Data d]) w'
  /\ w_enc w' = e /\ w_dec w' = w_dec w /\ w_sent w' = w_sent w ++ [d] /\ w_out w' = w_out w ++ out
  /\ w_got w' = w_got w /\ w_acks w' = w_acks w /\ out <> [].
Proof.
  intros Q Ld Hn. destruct (calmly_step l w (Data d) Q Ld) as (w' & E & Q'); try discriminate.
  { rewrite given_app, app_length. cbn [given flat_map app length]. lia. }
  { rewrite arrivals_app. cbn. rewrite app_nil_r. apply Q. }
  pose proof E as E0. cbn [wstep] in E. unfold sender in E. destruct (estep m (w_enc w) (EData d)) as [e r] eqn:Ee.
  destruct (bind_ok _ _ _ E) as (out & Er & Ew).
  assert (Nf : ~ is_fault r) by (intros [x ->]; discriminate).
  destruct (estep_data _ _ _ _ _ Ee Nf) as (out' & -> & A). cbn in Er. injection Er as ->.
  cbn [estep] in Ee. destruct (enc_data m (w_enc w) d) as [[e1 o1]|y|y]; try discriminate. injection Ee as -> ->.
  exists e, out, w'. split; [reflexivity|]. split; [exact Q'|]. injection Ew as <-. repeat split.
  destruct (ad_out _ _ _ _ _ A) as (first & rest & -> & _). discriminate.
Qed.

Lemma calm_arrive l w k p : calmly l w -> nth_error (w_out w) k = Some p -> (forall i, In i (arrivals l) -> (i <= k)%nat) ->
  exists d out n w', dec_packet m clk (w_dec w) p = (d, Ok (out, n)) /\ calmly (l ++ [Arrive k]) w'
  /\ w_enc w' = w_enc w /\ w_dec w' = d /\ w_sent w' = w_sent w /\ w_out w' = w_out w
  /\ w_got w' = w_got w ++ to_user out /\ w_acks w' = w_acks w ++ to_network out.
Proof.
  intros Q Hk Hle. destruct (calmly_step l w (Arrive k) Q I) as (w' & E & Q'); try discriminate.
  { rewrite given_app. cbn [given flat_map app]. rewrite app_nil_r. apply Q. }
  { rewrite arrivals_app. apply sorted_snoc; [apply Q | exact Hle]. }
  cbn [wstep] in E. rewrite Hk in E. unfold receiver in E. cbn [dstep] in E.
  destruct (C30_fifo_arrival m clk W8 true w (calmly_lossy _ _ Q) k p Hk) as [(d & out & n & Ed) _].
  { intros i Hi. apply Hle, (sd_arrived _ _ _ _ _ _ (q_sound _ _ Q)), Hi. }
  rewrite Ed in E. cbn [bind survive] in E. exists d, out, n, w'. split; [exact Ed|]. split; [exact Q'|].
  injection E as <-. repeat split.
Qed.

Lemma calm_ack l w : calmly l w ->
  exists d out w', generate_ack (w_dec w) = (d, out) /\ calmly (l ++ [Ack]) w'
  /\ w_enc w' = w_enc w /\ w_dec w' = d /\ w_sent w' = w_sent w /\ w_out w' = w_out w
  /\ w_got w' = w_got w /\ w_acks w' = w_acks w ++ to_network out.
Proof.
  intros Q. destruct (calmly_step l w Ack Q I) as (w' & E & Q'); try discriminate.
  { rewrite given_app. cbn [given flat_map app]. rewrite app_nil_r. apply Q. }
  { rewrite arrivals_app. cbn. rewrite app_nil_r. apply Q. }
  cbn [wstep] in E. unfold receiver in E. cbn [dstep] in E.
  assert (U : to_user (snd (generate_ack (w_dec w))) = []) by reflexivity.
  destruct (generate_ack (w_dec w)) as [d out]. cbn [snd] in U. cbn [bind survive] in E. exists d, out, w'.
  split; [reflexivity|]. split; [exact Q'|]. injection E as <-. cbn [w_enc w_dec w_sent w_out w_got w_acks]. rewrite U, app_nil_r. repeat split; reflexivity.
Qed.

Lemma calm_ackarrive l w p : calmly l w -> In p (w_acks w) ->
  exists e n w' j, notify m (w_enc w) p = (e, Ok n) /\ calmly (l ++ [AckArrive j]) w'
  /\ w_enc w' = e /\ w_dec w' = w_dec w /\ w_sent w' = w_sent w /\ w_out w' = w_out w
  /\ w_got w' = w_got w /\ w_acks w' = w_acks w.
Proof.
  intros Q Hp. apply In_nth_error in Hp. destruct Hp as [j Hp].
  destruct (calmly_step l w (AckArrive j) Q I) as (w' & E & Q'); try discriminate.
  { rewrite given_app. cbn [given flat_map app]. rewrite app_nil_r. apply Q. }
  { rewrite arrivals_app. cbn. rewrite app_nil_r. apply Q. }
  pose proof (calmly_lossy _ _ Q) as (R & Fi & L).
  destruct (run_fifo m clk W8 true w w R (extends_refl w) L Fi) as (gs & B & _).
  pose proof (ok_acks _ _ _ _ _ _ B) as K. rewrite Forall_forall in K.
  destruct (K p (nth_error_In _ _ Hp)) as (ids & nb & Ep & Hnb & Hids & [W1 W2] & _).
  cbn [wstep] in E. rewrite Hp in E. unfold sender in E. cbn [estep] in E.
  assert (N : exists e n, notify m (w_enc w) p = (e, Ok n)).
  { destruct (notify m (w_enc w) p) as [e r] eqn:En. destruct (bind_ok _ _ _ E) as (out & Eo & _).
    destruct r as [n|x|x]; [eauto| |discriminate]. exfalso.
    destruct (notify_spec _ _ _ _ _ En) as [_ _ _ _ _ _ _ _ _ _ T]; [intros [y Y]; discriminate|].
    destruct (T x eq_refl) as (_ & _ & _ & [(y & q & Eq & Ny)|[_ Rd]]).
    - rewrite Ep in Eq. cbn in Eq. injection Eq as <- _. apply Ny. reflexivity.
    - rewrite Ep in Rd. pose proof (C03_ack_roundtrip m {| a_ids := ids; a_nb := nb |} Hnb Hids W1 W2) as Rd'.
      unfold on_wire in Rd'. assert (X : read_ack m (concat (write_ack {| a_ids := ids; a_nb := nb |})) = Throw x) by exact Rd. congruence. }
  destruct N as (e & n & En). rewrite En in E. cbn [bind survive] in E. exists e, n, w', j. split; [exact En|].
  split; [exact Q'|]. injection E as <-. cbn [w_enc w_dec w_sent w_out w_got w_acks]. rewrite !app_nil_r. repeat split.
Qed.

(** What the receiver's user gets passes the checks. *)
Lemma calm_checks w l' w' size new : good_size size -> calmly l' w' ->
  w_sent w' = map (generated size) (seq 0 (length (w_sent w'))) -> w_got w' = w_got w ++ new ->
  checks size (count_to (length (w_got w))) new = Runs (count_to (length (w_got w'))).
Proof.
  intros G Q' Es Eg. pose proof (calmly_got _ _ Q') as E. rewrite Es in E.
  pose proof (wl_count _ _ (proj2 (proj2 (calmly_lossy _ _ Q')))) as Hc.
  assert (Hle : (length (w_got w') <= length (w_sent w'))%nat).
  { rewrite E, firstn_length, map_length, seq_length. lia. }
  assert (E' : w_got w' = map (generated size) (seq 0 (length (w_got w')))).
  { rewrite E at 1. replace (length (w_sent w')) with (length (w_got w') + (length (w_sent w') - length (w_got w')))%nat by lia.
    rewrite seq_app, map_app, firstn_app, map_length, seq_length, Nat.sub_diag, firstn_all2; [|rewrite map_length, seq_length; lia].
    cbn [firstn]. apply app_nil_r. }
  assert (El : length (w_got w') = (length (w_got w) + length new)%nat) by (rewrite Eg; apply app_length).
  assert (En : new = map (generated size) (seq (length (w_got w)) (length new))).
  { rewrite El, seq_app, map_app, Eg in E'. apply (f_equal (skipn (length (w_got w)))) in E'.
    rewrite skipn_app, skipn_all, Nat.sub_diag in E'. cbn [skipn app] in E'. rewrite E' at 1.
    rewrite skipn_app, map_length, seq_length, Nat.sub_diag, skipn_all2 by (rewrite map_length, seq_length; lia). reflexivity. }
  rewrite En at 1. rewrite checks_due; [rewrite El; reflexivity | exact G | lia].
Qed.

(** ** end_to_end.cc *)

Variable lose : nat -> bool.
Variable size : nat.
Hypothesis Hsize : good_size size.

(** The program has given [n] data to the encoder, and treated the packets before the position [b]. *)
Record follows (n b : nat) (l : list action) (w : world) (s : test) : Prop := {
  fo_calm : calmly l w;
  fo_enc : w_enc w = t_enc s;
  fo_dec : w_dec w = t_dec s;
  fo_handler : t_handler s = count_to (length (w_got w));
  fo_sent : w_sent w = map (generated size) (seq 0 n);
  fo_acks : Forall (fun p => In p (w_acks w)) (t_acks s);
  fo_treated : (b <= length (w_out w))%nat;
  fo_before : forall i, In i (arrivals l) -> (i < b)%nat;
  fo_lossless : (forall i, lose i = false) -> w_arrived w = seq 0 b
}.

Lemma follows_decoder n b l w s p : follows n b l w s -> nth_error (w_out w) b = Some p ->
  exists l' w' s', to_decoder m clk lose size s p = Runs s' /\ follows n (Datatypes.S b) l' w' s' /\ w_out w' = w_out w.
Proof.
  intros [Q Fe Fd Fh Fs Fa Ft Fb Fl] Hp.
  assert (Hb : (b < length (w_out w))%nat) by (apply nth_error_Some; congruence).
  unfold to_decoder. destruct (lose (t_calls s)) eqn:El.
  - exists l, w. eexists. split; [reflexivity|]. split; [|reflexivity].
    constructor; cbn [t_enc t_dec t_handler t_acks]; try assumption; try lia.
    + intros i Hi. specialize (Fb i Hi). lia.
    + intros H. rewrite H in El. discriminate.
  - destruct (calm_arrive l w b p Q Hp) as (d & out & k & w' & Ed & Q' & E1 & E2 & E3 & E4 & E5 & E6).
    { intros i Hi. specialize (Fb i Hi). lia. }
    rewrite <- Fd, Ed. cbn [call].
    assert (Es : w_sent w' = map (generated size) (seq 0 (length (w_sent w')))) by (rewrite E3, Fs, map_length, seq_length; reflexivity).
    rewrite Fh, (calm_checks w (l ++ [Arrive b]) w' size (to_user out) Hsize Q' Es E5). cbn [next].
    exists (l ++ [Arrive b]), w'. eexists. split; [reflexivity|]. split; [|exact E4].
    constructor; cbn [t_enc t_dec t_handler t_acks]; try congruence.
    + rewrite E6. apply Forall_app. split; [|apply Forall_forall; intros x Hx; apply in_or_app; right; exact Hx].
      revert Fa. apply Forall_impl. intros x Hx. apply in_or_app. left. exact Hx.
    + rewrite E4. lia.
    + intros i Hi. rewrite arrivals_app in Hi. apply in_app_iff in Hi. destruct Hi as [Hi|[<-|[]]]; [specialize (Fb i Hi)|]; lia.
    + intros H. pose proof (q_run _ _ Q') as Er. rewrite (SystemRun.wrun_app _ _ _ _ _ _ (q_run _ _ Q)) in Er. cbn [wrun] in Er.
      apply bind_ok in Er. destruct Er as (w1 & Er & E7). cbn [wstep] in Er. rewrite Hp in Er. apply receiver_extends in Er.
      assert (w1 = w') by congruence. subst w1. destruct Er as (_ & _ & _ & -> & _). rewrite (Fl H), seq_S. reflexivity.
Qed.

Lemma skipn_next {A} (l : list A) : forall b x r, skipn b l = x :: r -> skipn (Datatypes.S b) l = r.
Proof.
  induction l as [|a l IH]; intros b x r E; [rewrite skipn_nil in E; discriminate|].
  destruct b as [|b]; cbn [skipn] in *; [congruence | apply (IH b x r E)].
Qed.

Lemma follows_packets n : forall out b l w s, follows n b l w s -> skipn b (w_out w) = out ->
  exists l' w' s', each (to_decoder m clk lose size) s out = Runs s' /\ follows n (length (w_out w')) l' w' s'.
Proof.
  induction out as [|p out IH]; intros b l w s F E; cbn [each].
  - exists l, w, s. split; [reflexivity|]. pose proof (fo_treated _ _ _ _ _ F) as Ft.
    assert (Hb : b = length (w_out w)). { apply (f_equal (@length _)) in E. rewrite skipn_length in E. cbn in E. lia. }
    rewrite <- Hb. exact F.
  - assert (Hp : nth_error (w_out w) b = Some p).
    { rewrite <- (firstn_skipn b (w_out w)), E, nth_error_app2; rewrite firstn_length; [|lia].
      pose proof (fo_treated _ _ _ _ _ F). rewrite Nat.min_l, Nat.sub_diag by lia. reflexivity. }
    destruct (follows_decoder n b l w s p F Hp) as (l1 & w1 & s1 & -> & F1 & Eo). cbn [next].
    apply (IH (Datatypes.S b) l1 w1 s1 F1). rewrite Eo. apply (skipn_next _ _ _ _ E).
Qed.

Lemma follows_encoder n b l w s p : follows n b l w s -> In p (w_acks w) ->
  exists l' w' s', to_encoder m lose s p = Runs s' /\ follows n b l' w' s' /\ w_out w' = w_out w /\ w_acks w' = w_acks w
    /\ t_acks s' = t_acks s.
Proof.
  intros [Q Fe Fd Fh Fs Fa Ft Fb Fl] Hp. unfold to_encoder. destruct (lose (t_calls s)) eqn:El.
  - exists l, w. eexists. split; [reflexivity|]. split; [|auto]. constructor; assumption.
  - destruct (calm_ackarrive l w p Q Hp) as (e & k & w' & j & En & Q' & E1 & E2 & E3 & E4 & E5 & E6).
    rewrite <- Fe, En. cbn [call]. exists (l ++ [AckArrive j]), w'. eexists. split; [reflexivity|]. split; [|auto].
    constructor; cbn [t_enc t_dec t_handler t_acks]; try congruence.
    + rewrite E6. exact Fa.
    + intros i Hi. rewrite arrivals_app in Hi. cbn in Hi. rewrite app_nil_r in Hi. apply Fb, Hi.
    + intros H. pose proof (q_run _ _ Q') as Er. rewrite (SystemRun.wrun_app _ _ _ _ _ _ (q_run _ _ Q)) in Er. cbn [wrun] in Er.
      apply bind_ok in Er. destruct Er as (w1 & Er & E7). assert (w1 = w') by congruence. subst w1. cbn [wstep] in Er.
      destruct (nth_error (w_acks w) j); [apply sender_extends in Er; destruct Er as (_ & _ & -> & _); apply Fl, H|].
      assert (w' = w) by congruence. subst. apply Fl, H.
Qed.

Lemma follows_acks n b : forall acks l w s, follows n b l w s -> Forall (fun p => In p (w_acks w)) acks ->
  exists l' w' s', each (to_encoder m lose) s acks = Runs s' /\ follows n b l' w' s' /\ w_out w' = w_out w.
Proof.
  induction acks as [|p acks IH]; intros l w s F H; cbn [each].
  - exists l, w, s. auto.
  - inversion H as [|? ? Hp Ha]; subst. destruct (follows_encoder n b l w s p F Hp) as (l1 & w1 & s1 & -> & F1 & Eo & Ea & _). cbn [next].
    rewrite <- Eo. apply (IH l1 w1 s1 F1). rewrite Ea. exact Ha.
Qed.

Lemma follows_maybe n b l w s : follows n b l w s ->
  exists l' w' s', maybe_acks m lose s = Runs s' /\ follows n b l' w' s' /\ w_out w' = w_out w.
Proof.
  intros F. unfold maybe_acks. destruct (_ =? 0); [|exists l, w, s; auto].
  destruct F as [Q Fe Fd Fh Fs Fa Ft Fb Fl].
  destruct (calm_ack l w Q) as (d & out & w' & Eg & Q' & E1 & E2 & E3 & E4 & E5 & E6). rewrite <- Fd, Eg, <- E4.
  apply (follows_acks n b _ (l ++ [Ack])).
  - constructor; cbn [t_enc t_dec t_handler t_acks]; try congruence.
    + rewrite E6. apply Forall_app. split; [|apply Forall_forall; intros x Hx; apply in_or_app; right; exact Hx].
      revert Fa. apply Forall_impl. intros x Hx. apply in_or_app. left. exact Hx.
    + intros i Hi. rewrite arrivals_app in Hi. cbn in Hi. rewrite app_nil_r in Hi. apply Fb, Hi.
    + intros H. pose proof (q_run _ _ Q') as Er. rewrite (SystemRun.wrun_app _ _ _ _ _ _ (q_run _ _ Q)) in Er. cbn [wrun] in Er.
      apply bind_ok in Er. destruct Er as (w1 & Er & E7). assert (w1 = w') by congruence. subst w1. cbn [wstep] in Er.
      apply receiver_extends in Er. destruct Er as (_ & _ & _ & -> & _). rewrite app_nil_r. apply Fl, H.
  - cbn [t_acks]. rewrite E6. apply Forall_app. split; [|apply Forall_forall; intros x Hx; apply in_or_app; right; exact Hx].
    revert Fa. apply Forall_impl. intros x Hx. apply in_or_app. left. exact Hx.
Qed.

Definition settled_at (n : nat) (s : test) : Prop := exists l w, follows n (length (w_out w)) l w s.

Lemma round_goes n s : settled_at n s -> N.of_nat n < 65535 ->
  exists s', round m clk lose size s (N.of_nat n) = Runs s' /\ settled_at (Datatypes.S n) s'.
Proof.
  intros (l & w & F) Hn. destruct F as [Q Fe Fd Fh Fs Fa Ft Fb Fl]. unfold round.
  assert (Hg : length (given l) = n).
  { rewrite <- (sd_sent _ _ _ _ _ _ (q_sound _ _ Q)), Fs, map_length, seq_length. reflexivity. }
  destruct (calm_data l w (generate_data (N.of_nat n) size) Q) as (e & out & w' & Ee & Q' & E1 & E2 & E3 & E4 & E5 & E6 & _).
  { apply generated_legal, Hsize. }
  { rewrite Hg. exact Hn. }
  rewrite <- Fe, Ee. cbn [call].
  match goal with |- exists s', next (each _ ?x _) _ = _ /\ _ => set (s1 := x) end.
  assert (F1 : follows (Datatypes.S n) (length (w_out w)) (l ++ [Data (generate_data (N.of_nat n) size)]) w' s1).
  { constructor; unfold s1; cbn [t_enc t_dec t_handler t_acks]; try congruence.
    - rewrite E3, Fs, seq_S, map_app. reflexivity.
    - rewrite E6. exact Fa.
    - rewrite E4, app_length. lia.
    - intros i Hi. rewrite arrivals_app in Hi. cbn in Hi. rewrite app_nil_r in Hi. apply Fb, Hi.
    - intros H. pose proof (q_run _ _ Q') as Er. rewrite (SystemRun.wrun_app _ _ _ _ _ _ (q_run _ _ Q)) in Er. cbn [wrun] in Er.
      apply bind_ok in Er. destruct Er as (w1 & Er & E7). assert (w1 = w') by congruence. subst w1. cbn [wstep] in Er.
      apply sender_extends in Er. destruct Er as (_ & _ & -> & _). apply Fl, H. }
  destruct (follows_packets _ out _ _ _ _ F1) as (l2 & w2 & s2 & -> & F2).
  { rewrite E4, skipn_app, skipn_all, Nat.sub_diag. reflexivity. }
  cbn [next]. destruct (follows_maybe _ _ _ _ _ F2) as (l3 & w3 & s3 & -> & F3 & Eo). cbn [next].
  eexists. split; [reflexivity|]. exists l3, w3. rewrite <- Eo in F3. destruct F3. constructor; assumption || constructor.
Qed.

Lemma rounds_go k : forall n s, settled_at n s -> N.of_nat (n + k) <= 65535 ->
  exists s', rounds m clk lose size k (N.of_nat n) s = Runs s' /\ settled_at (n + k) s'.
Proof.
  induction k as [|k IH]; intros n s F Hn; cbn [rounds].
  - exists s. rewrite Nat.add_0_r. auto.
  - destruct (round_goes n s F ltac:(lia)) as (s1 & -> & F1). cbn [next].
    assert (Eu : u32 (N.of_nat n + 1) = N.of_nat (Datatypes.S n)).
    { unfold u32. change (2 ^ 32) with 4294967296. rewrite N.mod_small; lia. }
    rewrite Eu. destruct (IH (Datatypes.S n) s1 F1 ltac:(lia)) as (s2 & E & F2). exists s2. split; [exact E|].
    replace (n + Datatypes.S k)%nat with (Datatypes.S n + k)%nat by lia. exact F2.
Qed.

Lemma calmly_start : calmly [] (start clk W8 true).
Proof.
  constructor.
  - apply sound_start.
  - reflexivity.
  - constructor.
  - intros k [].
  - intros [].
  - cbn. discriminate.
  - constructor.
Qed.

Lemma settled_start : settled_at 0 (test_start clk).
Proof.
  destruct (calmly_step [] (start clk W8 true) (SetPeriod 0) calmly_start I) as (w & E & Q); try discriminate.
  { constructor. }
  cbn in E. injection E as <-. eexists. eexists. constructor; [exact Q|..]; try reflexivity.
  all: try constructor; try (cbn; lia).
Qed.

Lemma test_passes : forall n, N.of_nat n <= 65535 ->
  exists s, end_to_end m clk lose size n = Runs s
  /\ h_received (t_handler s) = h_expected (t_handler s) /\ h_received (t_handler s) <= N.of_nat n
  /\ (h_received (t_handler s) < N.of_nat n -> In (h_received (t_handler s)) (map es_id (e_sources (t_enc s))))
  /\ ((forall i, lose i = false) -> h_received (t_handler s) = N.of_nat n).
Proof.
  intros n Hn. destruct (rounds_go n 0 _ settled_start Hn) as (s & E & l & w & F). exists s. split; [exact E|].
  cbn [Nat.add] in F. destruct F as [Q Fe Fd Fh Fs Fa Ft Fb Fl]. rewrite Fh. cbn [count_to h_received h_expected].
  assert (En : length (w_sent w) = n) by (rewrite Fs, map_length, seq_length; reflexivity).
  assert (Ro : roomy (length (w_sent w)) l) by (intros k H; destruct (q_window _ _ Q k H)).
  destruct (handed_seq _ _ _ _ _ (q_run _ _ Q) (calmly_lossy _ _ Q) Ro) as (_ & Le & _).
  split; [reflexivity|]. split; [lia|]. split.
  - intros Hlt. rewrite <- Fe. apply (C76_due_is_in_window _ _ _ _ _ (q_run _ _ Q) (calmly_lossy _ _ Q) Ro). lia.
  - intros H. rewrite (C42_all_delivered _ _ _ _ _ _ (q_run _ _ Q) (proj2 (proj2 (calmly_lossy _ _ Q))) (q_code _ _ Q) (Fl H)), En.
    reflexivity.
Qed.

(** ** end_to_end_mt.cc *)

Variable lose_ack : nat -> bool.

Definition packet_at (w : world) (k : nat) (p : packet) : Prop := nth_error (w_out w) k = Some p.

(** Steps of the sending thread that are still to be done before the next datum. *)
Definition due (s : threads) : nat :=
  if x_send s then 0 else match x_packets s with [] => 1 | _ => 2 end.

(** After [t] turns of the sending thread, with [n] data sent; [qs] and [ps] are the positions of the packets in the queue
    and in the packet handler. *)
Record together (t n : nat) (qs ps : list nat) (l : list action) (w : world) (s : threads) : Prop := {
  to_calm : calmly l w;
  to_enc : w_enc w = x_enc s;
  to_dec : w_dec w = x_dec s;
  to_handler : x_handler s = count_to (length (w_got w));
  to_sent : w_sent w = map (generated size) (seq 0 n);
  to_id : x_id s = N.of_nat n;
  to_turns : (3 * n <= t + due s)%nat;
  to_idle : x_send s = true -> x_packets s = [];
  to_queue : Forall2 (packet_at w) qs (x_to_dec s);
  to_pending : Forall2 (packet_at w) ps (x_packets s);
  to_sorted : StronglySorted le (arrivals l ++ qs ++ ps);
  to_below : Forall (fun k => (k < length (w_out w))%nat) (arrivals l ++ qs ++ ps);
  to_acks : Forall (fun p => In p (w_acks w)) (x_acks s);
  to_acks_queue : Forall (fun p => In p (w_acks w)) (x_to_enc s)
}.

Lemma at_more w w' ks l : (exists more, w_out w' = w_out w ++ more) -> Forall2 (packet_at w) ks l -> Forall2 (packet_at w') ks l.
Proof.
  intros [more E] H. induction H as [|k p ks l H _ IH]; constructor; [|exact IH]. unfold packet_at in *. rewrite E.
  rewrite nth_error_app1; [exact H|]. apply nth_error_Some. congruence.
Qed.

Lemma sorted_middle (a b c : list nat) x : StronglySorted le (a ++ b ++ x :: c) -> StronglySorted le (a ++ b ++ c).
Proof.
  rewrite !app_assoc. generalize (a ++ b). intros l H. induction l as [|y l IH]; cbn [app] in *.
  - inversion H; assumption.
  - apply StronglySorted_inv in H. destruct H as [H F]. constructor; [apply IH, H|].
    apply Forall_app in F. destruct F as [F1 F2]. inversion F2; subst. apply Forall_app. split; assumption.
Qed.

Lemma step_sender_goes t n qs ps l w s : together t n qs ps l w s -> N.of_nat t < 3 * 65535 ->
  exists n' qs' ps' l' w' s', step_sender m lose size s = Runs s' /\ together (Datatypes.S t) n' qs' ps' l' w' s'.
Proof.
  intros [Q Te Td Th Ts Ti Tt Tl Tq Tp To Tb Ta Tk] Ht. unfold step_sender.
  destruct (x_packets s) as [|p rest] eqn:Ep.
  - inversion Tp; subst. rewrite app_nil_r in *. destruct (x_send s) eqn:Ex.
    + assert (Hg : length (given l) = n).
      { rewrite <- (sd_sent _ _ _ _ _ _ (q_sound _ _ Q)), Ts, map_length, seq_length. reflexivity. }
      unfold due in Tt. rewrite Ex in Tt.
      destruct (calm_data l w (generate_data (x_id s) size) Q) as (e & out & w' & Ee & Q' & E1 & E2 & E3 & E4 & E5 & E6 & E7).
      { apply generated_legal, Hsize. }
      { rewrite Hg. lia. }
      rewrite <- Te, Ee. cbn [call].
      exists (Datatypes.S n), qs, (seq (length (w_out w)) (length out)), (l ++ [Data (generate_data (x_id s) size)]), w'. eexists. split; [reflexivity|].
      constructor; cbn [x_enc x_dec x_handler x_id x_send x_packets x_to_dec x_to_enc x_acks]; try congruence.
      * rewrite E3, Ts, seq_S, map_app, Ti. reflexivity.
      * rewrite Ti. unfold u32. change (2 ^ 32) with 4294967296. rewrite N.mod_small; lia.
      * unfold due. cbn [x_send x_packets]. destruct out; [congruence|]. lia.
      * apply (at_more w); [exists out; exact E4 | exact Tq].
      * unfold packet_at. rewrite E4. clear. generalize (w_out w). induction out as [|p out IH]; intros pre; cbn [length seq]; constructor.
        -- rewrite nth_error_app2, Nat.sub_diag by lia. reflexivity.
        -- specialize (IH (pre ++ [p])). rewrite app_length in IH. cbn [length] in IH. rewrite Nat.add_1_r, <- app_assoc in IH. exact IH.
      * rewrite arrivals_app. cbn [arrivals flat_map app]. rewrite app_nil_r, app_assoc.
        revert To Tb. generalize (arrivals l ++ qs). clear. intros a So Be.
        induction So as [|x a So IH Fa]; cbn [app].
        -- clear Be. generalize (length (w_out w)). induction (length out) as [|j IH]; intros b; cbn [seq]; constructor; [apply IH|].
           apply Forall_forall. intros y Hy. apply in_seq in Hy. lia.
        -- inversion Be; subst. constructor; [apply IH; assumption|]. apply Forall_app. split; [exact Fa|].
           apply Forall_forall. intros y Hy. apply in_seq in Hy. lia.
      * rewrite arrivals_app. cbn [arrivals flat_map app]. rewrite app_nil_r, app_assoc. apply Forall_app. rewrite E4, app_length. split.
        -- revert Tb. apply Forall_impl. intros k Hk. lia.
        -- apply Forall_forall. intros y Hy. apply in_seq in Hy. lia.
      * rewrite E6. exact Ta.
      * rewrite E6. exact Tk.
    + unfold due in Tt. rewrite Ex, Ep in Tt. cbv iota in Tt. destruct (x_to_enc s) as [|p rest] eqn:Et.
      * exists n, qs, [], l, w. eexists. split; [reflexivity|].
        constructor; cbn [x_enc x_dec x_handler x_id x_send x_packets x_to_dec x_to_enc x_acks]; rewrite ?app_nil_r; try assumption; try congruence.
        unfold due. cbn [x_send]. lia.
      * inversion Tk as [|? ? Hp Hr]; subst.
        destruct (calm_ackarrive l w p Q Hp) as (e & k & w' & j & En & Q' & E1 & E2 & E3 & E4 & E5 & E6).
        rewrite <- Te, En. cbn [call]. exists n, qs, [], (l ++ [AckArrive j]), w'. eexists. split; [reflexivity|].
        constructor; cbn [x_enc x_dec x_handler x_id x_send x_packets x_to_dec x_to_enc x_acks]; rewrite ?arrivals_app; cbn [arrivals flat_map app]; rewrite ?app_nil_r; try congruence.
        -- unfold due. cbn [x_send]. lia.
        -- apply (at_more w); [exists []; rewrite app_nil_r; exact E4 | exact Tq].
        -- constructor.
        -- rewrite E4. exact Tb.
        -- rewrite E6. exact Ta.
        -- rewrite E6. exact Hr.
  - inversion Tp as [|k ? ks ? Hk Hks]; subst.
    assert (Ex : x_send s = false) by (destruct (x_send s); [specialize (Tl eq_refl); discriminate | reflexivity]).
    unfold due in Tt. rewrite Ex, Ep in Tt. cbv iota in Tt.
    assert (Hd : forall s', x_send s' = false -> (1 <= due s')%nat). { intros s' H. unfold due. rewrite H. destruct (x_packets s'); lia. }
    destruct (lose (x_nb_packets s)).
    + exists n, qs, ks, l, w. eexists. split; [reflexivity|].
      constructor; cbn [x_enc x_dec x_handler x_id x_send x_packets x_to_dec x_to_enc x_acks]; try assumption; try congruence.
      * match goal with |- context [due ?x] => specialize (Hd x Ex) end. lia.
      * apply (sorted_middle _ _ _ k), To.
      * rewrite !Forall_app in *. destruct Tb as (T1 & T2 & T3). inversion T3; subst. auto.
    + exists n, (qs ++ [k]), ks, l, w. eexists. split; [reflexivity|].
      constructor; cbn [x_enc x_dec x_handler x_id x_send x_packets x_to_dec x_to_enc x_acks]; try assumption; try congruence.
      * match goal with |- context [due ?x] => specialize (Hd x Ex) end. lia.
      * apply Forall2_app; [exact Tq | constructor; [exact Hk | constructor]].
      * rewrite <- app_assoc. exact To.
      * rewrite <- app_assoc. exact Tb.
Qed.

Lemma step_receiver_goes t n qs ps l w s : together t n qs ps l w s ->
  exists qs' l' w' s', step_receiver m clk lose_ack size s = Runs s' /\ together t n qs' ps l' w' s'.
Proof.
  intros [Q Te Td Th Ts Ti Tt Tl Tq Tp To Tb Ta Tk]. unfold step_receiver. destruct (x_acks s) as [|p rest] eqn:Ea.
  - destruct (x_to_dec s) as [|p rest] eqn:Eq.
    + exists qs, l, w, s. split; [reflexivity|]. constructor; rewrite ?Ea, ?Eq; assumption.
    + inversion Tq as [|k ? ks ? Hk Hks]; subst.
      destruct (calm_arrive l w k p Q Hk) as (d & out & c & w' & Ed & Q' & E1 & E2 & E3 & E4 & E5 & E6).
      { intros i Hi. cbn [app] in To. apply sorted_app_le in To. destruct To as [_ To]. apply To; [exact Hi | left; reflexivity]. }
      rewrite <- Td, Ed. cbn [call].
      assert (Es : w_sent w' = map (generated size) (seq 0 (length (w_sent w')))) by (rewrite E3, Ts, map_length, seq_length; reflexivity).
      rewrite Th, (calm_checks w (l ++ [Arrive k]) w' size (to_user out) Hsize Q' Es E5). cbn [next].
      exists ks, (l ++ [Arrive k]), w'. eexists. split; [reflexivity|].
      constructor; cbn [x_enc x_dec x_handler x_id x_send x_packets x_to_dec x_to_enc x_acks]; try congruence.
      * exact Tt.
      * exact Tl.
      * apply (at_more w); [exists []; rewrite app_nil_r; exact E4 | exact Hks].
      * apply (at_more w); [exists []; rewrite app_nil_r; exact E4 | exact Tp].
      * rewrite arrivals_app, <- app_assoc. exact To.
      * rewrite arrivals_app, <- app_assoc, E4. exact Tb.
      * rewrite E6. apply Forall_forall. intros x Hx. apply in_or_app. right. exact Hx.
      * rewrite E6. revert Tk. apply Forall_impl. intros x Hx. apply in_or_app. left. exact Hx.
  - inversion Ta as [|? ? Hp Hr]; subst. exists qs, l, w. eexists. split; [reflexivity|].
    constructor; cbn [x_enc x_dec x_handler x_id x_send x_packets x_to_dec x_to_enc x_acks]; try assumption.
    destruct (lose_ack (x_nb_acks s)); [exact Tk|]. apply Forall_app. split; [exact Tk|]. constructor; [exact Hp | constructor].
Qed.

Definition sender_turns (turns : list bool) : nat := length (filter (fun t => t) turns).

Lemma schedule_goes turns : forall t n qs ps l w s, together t n qs ps l w s -> N.of_nat (t + sender_turns turns) <= 3 * 65535 ->
  exists n' qs' ps' l' w' s', schedule m clk lose lose_ack size turns s = Runs s'
  /\ together (t + sender_turns turns) n' qs' ps' l' w' s'.
Proof.
  induction turns as [|[|] turns IH]; intros t n qs ps l w s T Hn; cbn [schedule].
  - exists n, qs, ps, l, w, s. split; [reflexivity|]. cbn. rewrite Nat.add_0_r. exact T.
  - unfold sender_turns in *. cbn [filter length] in *.
    destruct (step_sender_goes _ _ _ _ _ _ _ T) as (n1 & qs1 & ps1 & l1 & w1 & s1 & -> & T1); [lia|]. cbn [next].
    rewrite <- Nat.add_succ_comm in *. apply (IH _ _ _ _ _ _ _ T1 Hn).
  - unfold sender_turns in *. cbn [filter length] in *.
    destruct (step_receiver_goes _ _ _ _ _ _ _ T) as (qs1 & l1 & w1 & s1 & -> & T1). cbn [next]. apply (IH _ _ _ _ _ _ _ T1 Hn).
Qed.

Lemma threads_pass turns : N.of_nat (sender_turns turns) <= 3 * 65535 ->
  exists s, end_to_end_mt m clk lose lose_ack size turns = Runs s
  /\ h_received (x_handler s) = h_expected (x_handler s) /\ h_received (x_handler s) <= x_id s
  /\ (h_received (x_handler s) < x_id s -> In (h_received (x_handler s)) (map es_id (e_sources (x_enc s)))).
Proof.
  intros Hn.
  assert (T0 : together 0 0 [] [] [] (start clk W8 true) (threads_start clk)).
  { constructor; [apply calmly_start|..]; try reflexivity; constructor. }
  destruct (schedule_goes turns _ _ _ _ _ _ _ T0 Hn) as (n & qs & ps & l & w & s & E & T). exists s. split; [exact E|].
  destruct T as [Q Te Td Th Ts Ti _ _ _ _ _ _ _ _]. rewrite Th, Ti. cbn [count_to h_received h_expected].
  assert (En : length (w_sent w) = n) by (rewrite Ts, map_length, seq_length; reflexivity).
  assert (Ro : roomy (length (w_sent w)) l) by (intros k H; destruct (q_window _ _ Q k H)).
  destruct (handed_seq _ _ _ _ _ (q_run _ _ Q) (calmly_lossy _ _ Q) Ro) as (_ & Le & _).
  split; [reflexivity|]. split; [lia|].
  intros Hlt. rewrite <- Te. apply (C76_due_is_in_window _ _ _ _ _ (q_run _ _ Q) (calmly_lossy _ _ Q) Ro). lia.
Qed.

End Steps.

(** ** C77 *)

(** end_to_end.cc never fails, whatever is lost: no exception of the library, no failed assertion, no undefined behaviour,
    and the data handler accepts each datum: right size, right number, right contents. If data are missing at the end,
    the first missing one is in the window of the encoder. Without losses nothing is missing. *)
Theorem C77_end_to_end :
  forall m clk lose size n, good_size size -> N.of_nat n <= 65535 ->
  exists s, end_to_end m clk lose size n = Runs s
  /\ h_received (t_handler s) = h_expected (t_handler s) /\ h_received (t_handler s) <= N.of_nat n
  /\ (h_received (t_handler s) < N.of_nat n -> In (h_received (t_handler s)) (map es_id (e_sources (t_enc s))))
  /\ ((forall i, lose i = false) -> h_received (t_handler s) = N.of_nat n).
Proof. intros m clk lose size n Hs. apply test_passes, Hs. Qed.
Print Assumptions C77_end_to_end.

(** The same for end_to_end_mt.cc and all schedules of its two threads, as long as the sending thread has at most
    3 * 65535 turns, enough for 65535 data. *)
Theorem C77_threads :
  forall m clk lose_packet lose_ack size turns, good_size size -> N.of_nat (sender_turns turns) <= 3 * 65535 ->
  exists s, end_to_end_mt m clk lose_packet lose_ack size turns = Runs s
  /\ h_received (x_handler s) = h_expected (x_handler s) /\ h_received (x_handler s) <= x_id s
  /\ (h_received (x_handler s) < x_id s -> In (h_received (x_handler s)) (map es_id (e_sources (x_enc s)))).
Proof. intros m clk lp la size turns Hs. apply threads_pass, Hs. Qed.
Print Assumptions C77_threads.

(** *** Examples *)

Example C77_size : good_size 1024 /\ good_size 4.
Proof. repeat split; cbn; try reflexivity; lia. Qed.

(** Twelve data; two sources are lost and recovered, the last but one is lost and missing at the end. *)
Definition unlucky (i : nat) : bool := existsb (Nat.eqb i) [1; 8; 12]%nat.

Example C77_applies :
  (exists s, end_to_end Debug still unlucky 4 12 = Runs s /\ h_received (t_handler s) = 10 /\ t_lost_dec s = 3
     /\ d_decoded (dc_core (t_dec s)) = 2)
  /\ exists s, end_to_end_mt Debug still unlucky (fun _ => false) 4 (concat (repeat [true; false; true] 20)) = Runs s
     /\ x_id s = 13 /\ h_received (x_handler s) = 10.
Proof.
  split.
  - eexists. split; [vm_compute; reflexivity|]. vm_compute. repeat split.
  - eexists. split; [vm_compute; reflexivity|]. vm_compute. repeat split.
Qed.

(** The handler rejects everything but the datum that is due. *)
Example C77_checks :
  check 4 (count_to 5) (generate_data 6 4) = Fails Check /\ check 8 (count_to 5) (generate_data 5 4) = Fails Check
  /\ check 8 (count_to 5) [5; 0; 0; 0; 6; 0; 0; 0] = Fails Check /\ check 8 (count_to 5) (generate_data 5 8) = Runs (count_to 6).
Proof. repeat split. Qed.
