(** * What an adaptive sender takes for loss

    C87: the number of losses from which an adaptive sender computes its rate, in terms of what was
    emitted and what arrived in the closed system. *)
From Coq Require Import ZArith NArith List Bool Lia Arith.
From Verif Require Import Outcome GF GFRegion Containers Packetizer PacketizerFacts PropsPacketizer Rate RateExact
  Encoder EncoderRun EncoderFacts EncoderHistory EncoderSafe PropsEncoder PropsRate
  DetailDecoder Decoder DecoderInv DecoderOuter System SystemInv SystemRun PropsSystem.
Import ListNotations.
Open Scope N_scope.

(** ** Two records of a run *)

(** The acks the sender hears, an ack whose call returns: the place of the ack, and the number of packets emitted so far. *)
Definition hears (m : mode) (w : world) (a : action) : list (nat * nat) :=
  match a with
  | AckArrive j =>
      match nth_error (w_acks w) j with
      | Some p => match snd (estep m (w_enc w) (EPacket p)) with Ok _ => [(j, length (w_out w))] | _ => [] end
      | None => []
      end
  | _ => []
  end.

(** For each ack that the receiver emits, the number of packets that have arrived, whatever became of them. *)
Definition covers (w w' : world) : list nat :=
  repeat (length (w_arrived w')) (length (w_acks w') - length (w_acks w)).

Fixpoint watch (m : mode) (clk : clock) (w : world) (l : list action) : list (nat * nat) * list nat :=
  match l with
  | [] => ([], [])
  | a :: l' =>
      match wstep m clk w a with
      | Ok w' => (hears m w a ++ fst (watch m clk w' l'), covers w w' ++ snd (watch m clk w' l'))
      | _ => ([], [])
      end
  end.

(** Packets that had been emitted when an ack was last heard. *)
Definition marked (heard : list (nat * nat)) : nat := snd (last heard (0%nat, 0%nat)).

(** Packets that had arrived at the ack with this place, and at the one before it. *)
Definition covered (cs : list nat) (j : nat) : nat := nth j cs 0%nat.
Definition before (cs : list nat) (j : nat) : nat := match j with O => 0%nat | Datatypes.S i => nth i cs 0%nat end.

(** The rate from this number of emitted packets, and of packets said to have arrived (C55). *)
Definition rate_from (sent received rate : N) : Prop :=
  (~ one_in_98 sent received -> rate = intended_rate sent received) /\ (one_in_98 sent received -> rate = 50).

(** ** Invariant *)

Lemma watch_app m clk l l' : forall w w1, wrun m clk w l = Ok w1 ->
  watch m clk w (l ++ l') = (fst (watch m clk w l) ++ fst (watch m clk w1 l'), snd (watch m clk w l) ++ snd (watch m clk w1 l')).
Proof.
  induction l as [|a l IH]; intros w w1 H.
  - cbn in H. injection H as <-. cbn [app watch fst snd]. now destruct (watch m clk w l').
  - cbn [wrun] in H. apply bind_ok in H as (w2 & H1 & H2). cbn [app watch]. rewrite H1.
    rewrite (IH _ _ H2). cbn [fst snd]. now rewrite !app_assoc.
Qed.

Lemma read_the_ack m ids nb a n : nb < 65536 -> read_ack m (the_ack ids nb) = Ok (a, n) -> a_nb a = nb.
Proof.
  intros Hn H. unfold the_ack in H.
  assert (Hp : concat (write_ack {| a_ids := ids; a_nb := nb |}) = be 1 0 ++ be 2 nb ++ concat (write_ids ids)).
  { unfold write_ack. rewrite concat_app. cbn [concat a_nb a_ids]. now rewrite !app_nil_r, <- app_assoc. }
  rewrite Hp in H. rewrite read_ack_parse in H by (apply assert_announced; now intros _).
  unfold pack, pbind in H. rewrite !pbe_be in H. change (256 ^ N.of_nat 2) with 65536 in H.
  rewrite N.mod_small in H by exact Hn. destruct (pids _) as [[l r]|]; [|discriminate].
  cbn [result] in H. injection H as <- _. reflexivity.
Qed.

Record told (m : mode) (f : field) (o : bool) (w : world) (h : list (nat * nat)) (c : list nat) : Prop := {
  t_enc : exists ops, erun m (new_encoder f) ops = Ok (w_enc w, w_out w);
  t_marked : (marked h <= length (w_out w))%nat;
  t_sent : e_nb_sent_packets (w_enc w) = u16 (N.of_nat (length (w_out w) - marked h));
  t_dec : exists tr, dhistory f o tr (w_dec w) /\ since tr = N.of_nat (length (w_arrived w) - last c 0%nat);
  t_last : (last c 0 <= length (w_arrived w))%nat;
  t_acks : length c = length (w_acks w);
  t_mono : forall j, (j < length c)%nat -> (before c j <= covered c j <= length (w_arrived w))%nat;
  t_each : forall j p, nth_error (w_acks w) j = Some p ->
    exists l, p = the_ack l (u16 (N.of_nat (covered c j - before c j)))
}.

Lemma u16_small n : u16 n < 65536.
Proof. unfold u16. apply N.mod_lt. discriminate. Qed.

(** A call of the sender. *)
Lemma told_sender m f o w op data w' h c :
  told m f o w h c -> sender m w op data = Ok w' ->
  told m f o w' (match op with
                 | EPacket _ => match snd (estep m (w_enc w) op) with
                                | Ok _ => h ++ [(0%nat, length (w_out w))] | _ => h end
                 | _ => h end) c.
Proof.
  intros [(ops & Hr) Hm Hs Hd Hl Ha Hmo He] H. unfold sender in H.
  destruct (estep m (w_enc w) op) as [e r] eqn:E. cbn [snd]. apply bind_ok in H as (out & S & H). injection H as <-.
  assert (Hf : ~ is_fault r) by (intros [x ->]; discriminate).
  assert (Eo : out = emitted r) by (destruct r; cbn in S; [injection S as <-; reflexivity|injection S as <-; reflexivity|discriminate]).
  assert (R1 : erun m (w_enc w) [op] = Ok (e, out)).
  { cbn [erun]. rewrite E. destruct r as [x|x|x]; cbn in S; [|injection S as <-; reflexivity|discriminate].
    cbn [bind]. injection S as ->. now rewrite app_nil_r. }
  assert (Keep : Forall (no_ack m) [op] ->
    told m f o {| w_enc := e; w_dec := w_dec w; w_sent := w_sent w ++ data; w_out := w_out w ++ out; w_arrived := w_arrived w;
                  w_got := w_got w; w_acks := w_acks w; w_lists := w_lists w ++ map (fun _ => map es_id (e_sources e)) (of_type 1 out) |} h c).
  { intros Hn. constructor; cbn [w_enc w_dec w_out w_arrived w_acks]; try assumption.
    - exists (ops ++ [op]). eapply erun_app_ok; eassumption.
    - rewrite app_length. lia.
    - rewrite (sent_since m [op] Hn _ _ _ R1) by (rewrite Hs; apply u16_small).
      rewrite Hs, u16_add, app_length. f_equal. lia. }
  destruct op as [d|p| |b|k|n|b]; try (apply Keep; constructor; [exact I | constructor]).
  pose proof E as E2. apply estep_packet in E2 as (q & En & Hq & A & Em); [|assumption].
  destruct r as [x|x|x]; [| |destruct Hf; eexists; reflexivity].
  - cbn in S. injection S as ->. cbn [emitted] in Em. subst out.
    assert (Q : exists n, q = Ok n).
    { cbn [estep] in E. rewrite En in E. destruct q as [n|y|y]; [eexists; reflexivity|discriminate|discriminate]. }
    destruct Q as (n & ->). destruct (ap_ok _ _ _ _ _ A n eq_refl) as (a & _ & Er & _ & Z & _).
    constructor; cbn [w_enc w_dec w_out w_arrived w_acks]; try assumption.
    + exists (ops ++ [EPacket p]). eapply erun_app_ok; eassumption.
    + unfold marked. rewrite last_last, app_nil_r. cbn [snd]. lia.
    + unfold marked. rewrite last_last, app_nil_r. cbn [snd]. rewrite Z, Nat.sub_diag. reflexivity.
  - apply Keep. constructor; [|constructor]. cbn [no_ack].
    cbn [estep] in E. rewrite En in E. destruct q as [n|y|y]; try discriminate.
    destruct (ap_throw _ _ _ _ _ A y eq_refl) as (_ & _ & _ & [(b & q & -> & Hb)|(_ & Hr2)]).
    + left. exact Hb.
    + right. intros z. rewrite Hr2. discriminate.
Qed.

(** The record of the heard acks matters only through the numbers of emitted packets. *)
Lemma told_marked m f o w h h' c : marked h = marked h' -> told m f o w h c -> told m f o w h' c.
Proof. intros E [H1 H2 H3 H4 H5 H6 H7 H8]. rewrite E in *. constructor; assumption. Qed.

(** A call of the receiver. *)
Lemma told_receiver m clk f o w op arr w' h c : told m f o w h c -> receiver m clk w op arr = Ok w' ->
  brings op = N.of_nat (length arr) -> told m f o w' h (c ++ covers w w').
Proof.
  intros [He Hm Hs (tr & Hd & Hc) Hl Ha Hmo Hk] H Hb. unfold receiver in H.
  destruct (dstep m clk (w_dec w) op) as [d r] eqn:E. apply bind_ok in H as (out & S & H). injection H as <-.
  assert (D : dhistory f o (tr ++ [(op, out)]) d /\ emits op tr (w_dec w) d out).
  { destruct r as [x|x|x]; cbn in S; [| |discriminate].
    - injection S as ->. eapply dstep_history; eassumption.
    - injection S as <-. split; [eapply dstep_throw_history; eassumption|]. intros k p K. destruct k; discriminate. }
  destruct D as (D & Em). unfold covers. cbn [w_arrived w_acks]. rewrite !app_length.
  replace (length (w_acks w) + length (to_network out) - length (w_acks w))%nat with (length (to_network out)) by lia.
  set (t := (length (w_arrived w) + length arr)%nat).
  assert (Cj : forall i, (length c <= i)%nat -> (i - length c < length (to_network out))%nat ->
    nth i (c ++ repeat t (length (to_network out))) 0%nat = t).
  { intros i I1 I2. rewrite app_nth2 by lia. apply (repeat_spec (length (to_network out))). apply nth_In.
    rewrite repeat_length. exact I2. }
  constructor; cbn [w_enc w_dec w_out w_arrived w_acks]; try assumption.
  - exists (tr ++ [(op, out)]). split; [exact D|]. rewrite since_snoc, app_length. fold t.
    destruct (to_network out) as [|p ps] eqn:Eo.
    + cbn [length repeat]. rewrite app_nil_r, Hc, Hb. lia.
    + cbn [length]. change (repeat t (Datatypes.S (length ps))) with (t :: repeat t (length ps)).
      replace (t :: repeat t (length ps)) with (repeat t (length ps) ++ [t]) by (symmetry; apply repeat_cons).
      rewrite app_assoc, last_last, Nat.sub_diag. reflexivity.
  - rewrite app_length. fold t. destruct (to_network out) as [|p ps] eqn:Eo.
    + cbn [length repeat]. rewrite app_nil_r. lia.
    + cbn [length]. change (repeat t (Datatypes.S (length ps))) with (t :: repeat t (length ps)).
      replace (t :: repeat t (length ps)) with (repeat t (length ps) ++ [t]) by (symmetry; apply repeat_cons).
      rewrite app_assoc, last_last. lia.
  - rewrite !app_length, repeat_length. lia.
  - intros j Lj. rewrite app_length, repeat_length in Lj. destruct (Nat.lt_ge_cases j (length c)) as [L|L].
    + specialize (Hmo j L). unfold covered, before in *. rewrite app_nth1 by lia. rewrite app_length.
      destruct j as [|j]; [lia|]. rewrite app_nth1 by lia. lia.
    + unfold covered, before. rewrite Cj by lia. rewrite app_length. fold t. destruct j as [|j]; [lia|].
      destruct (Nat.lt_ge_cases j (length c)) as [L2|L2]; [|rewrite Cj by lia; lia].
      rewrite app_nth1 by lia. specialize (Hmo j L2). unfold covered in Hmo. lia.
  - intros j p Hj. destruct (Nat.lt_ge_cases j (length (w_acks w))) as [L|L].
    + rewrite nth_error_app1 in Hj by exact L. destruct (Hk j p Hj) as (l & ->). exists l. do 2 f_equal. f_equal.
      unfold covered, before. rewrite app_nth1 by lia. destruct j as [|j]; [reflexivity|]. rewrite app_nth1 by lia. reflexivity.
    + rewrite nth_error_app2 in Hj by exact L. destruct (Em _ _ Hj) as (l & -> & _). exists l. f_equal.
      assert (Lk : (j - length (w_acks w) < length (to_network out))%nat) by (apply nth_error_Some; congruence).
      unfold covered at 1. rewrite Cj by lia. unfold before.
      destruct (Nat.eqb_spec (j - length (w_acks w)) 0) as [Z|Z].
      * rewrite Hc, Hb. f_equal. assert (X : match j with O => 0%nat | Datatypes.S i => nth i (c ++ repeat t (length (to_network out))) 0%nat end = last c 0%nat).
        { destruct j as [|j].
          - assert (length c = 0%nat) by lia. destruct c; [reflexivity|discriminate].
          - rewrite app_nth1 by lia. assert (Lc : length c = Datatypes.S j) by lia. clear - Lc.
            destruct c as [|x c _] using rev_ind; [discriminate|]. rewrite app_length in Lc. cbn in Lc.
            rewrite last_last, app_nth2 by lia. replace (j - length c)%nat with 0%nat by lia. reflexivity. }
        rewrite X. unfold t. lia.
      * destruct j as [|j]; [lia|]. rewrite Cj by lia. rewrite Nat.sub_diag. reflexivity.
Qed.

Lemma watch_told m clk f o l w : wrun m clk (start clk f o) l = Ok w ->
  told m f o w (fst (watch m clk (start clk f o) l)) (snd (watch m clk (start clk f o) l)).
Proof.
  revert w. induction l as [|a l IH] using rev_ind; intros w' R.
  - cbn in R. injection R as <-. cbn [watch fst snd]. constructor; cbn; try lia; try reflexivity.
    + exists []. reflexivity.
    + exists []. split; [|reflexivity]. apply (dtrace_history m clk). constructor.
    + intros j p H. destruct j; discriminate.
  - apply wrun_snoc in R as (w & R & E). specialize (IH _ R). rewrite (watch_app _ _ _ _ _ _ R). cbn [fst snd].
    set (h := fst (watch m clk (start clk f o) l)) in *. set (c := snd (watch m clk (start clk f o) l)) in *.
    cbn [watch]. rewrite E. cbn [fst snd]. rewrite !app_nil_r.
    assert (Snd : forall op data, sender m w op data = Ok w' -> covers w w' = []).
    { intros op data H. unfold sender in H. destruct (estep m (w_enc w) op) as [e r]. apply bind_ok in H as (out & _ & H).
      injection H as <-. unfold covers. cbn [w_acks]. rewrite Nat.sub_diag. reflexivity. }
    destruct a as [d| |b|n|n|b| | |t|n|k|j]; cbn [wstep] in E; cbn [hears]; try rewrite app_nil_r.
    1-6: rewrite (Snd _ _ E), app_nil_r; exact (told_sender _ _ _ _ _ _ _ _ _ IH E).
    1-4: eapply told_receiver; [exact IH | exact E | reflexivity].
    + destruct (nth_error (w_out w) k) as [p|] eqn:Ek.
      * eapply told_receiver; [exact IH | exact E |].
        destruct (t_enc _ _ _ _ _ _ IH) as (ops & Hr). pose proof (h_types _ _ _ _ (history_of_run _ _ _ _ _ Hr)) as Ht.
        rewrite Forall_forall in Ht. specialize (Ht p (nth_error_In _ _ Ek)). cbn [brings length].
        destruct p as [|b q]; [unfold type_of in Ht; cbn [nth] in Ht; lia|]. unfold type_of in Ht. cbn [nth] in Ht.
        destruct Ht as [->| ->]; reflexivity.
      * injection E as <-. unfold covers. rewrite Nat.sub_diag. cbn [repeat]. rewrite app_nil_r. exact IH.
    + destruct (nth_error (w_acks w) j) as [p|] eqn:Ej.
      * rewrite (Snd _ _ E), app_nil_r. pose proof (told_sender _ _ _ _ _ _ _ _ _ IH E) as T.
        destruct (snd (estep m (w_enc w) (EPacket p))).
        -- eapply told_marked; [|exact T]. unfold marked. rewrite !last_last. reflexivity.
        -- rewrite app_nil_r. exact T.
        -- rewrite app_nil_r. exact T.
      * injection E as <-. unfold covers. rewrite Nat.sub_diag. cbn [repeat]. rewrite !app_nil_r. exact IH.
Qed.

(** ** C87 *)

(** An ack that is heard. The rate is that for: the packets emitted since an ack was last heard, whether they
    arrived, were lost or are on their way; and the packets that arrived between the emission of the ack before this one
    and that of this one, whether the sender heard the ack before or not. Both modulo [2 ^ 16]. *)
Theorem C87_perceived :
  forall m clk f o l w j w', wrun m clk (start clk f o) l = Ok w -> wstep m clk w (AckArrive j) = Ok w' ->
  hears m w (AckArrive j) <> [] ->
  let '(heard, cs) := watch m clk (start clk f o) l in
  let sent := N.of_nat (length (w_out w) - marked heard) mod 65536 in
  let received := N.of_nat (covered cs j - before cs j) mod 65536 in
  (e_adaptive (w_enc w) = false -> e_rate (w_enc w') = e_rate (w_enc w))
  /\ (e_adaptive (w_enc w) = true -> rate_from sent received (e_rate (w_enc w'))).
Proof.
  intros m clk f o l w j w' R E Hh. pose proof (watch_told _ _ _ _ _ _ R) as T.
  destruct (watch m clk (start clk f o) l) as [h c]. cbn [fst snd] in T. cbv zeta.
  cbn [hears wstep] in *. destruct (nth_error (w_acks w) j) as [p|] eqn:Ej; [|now destruct Hh].
  destruct (t_each _ _ _ _ _ _ T _ _ Ej) as (ids & Ep).
  unfold sender in E. destruct (estep m (w_enc w) (EPacket p)) as [e r] eqn:Ee. cbn [snd] in Hh.
  destruct r as [x|x|x]; [|now destruct Hh|now destruct Hh]. cbn [survive bind] in E. injection E as <-. cbn [w_enc].
  pose proof Ee as E2. apply estep_packet in E2 as (q & En & Hq & A & _); [|intros [y K]; discriminate].
  cbn [estep] in Ee. rewrite En in Ee. destruct q as [n|y|y]; try discriminate.
  destruct (ap_ok _ _ _ _ _ A n eq_refl) as (a & _ & Er & _ & _ & Hn & Hy). split; [exact Hn|].
  intros Ad. specialize (Hy Ad). rewrite Ep in Er. apply read_the_ack in Er; [|apply u16_small].
  rewrite Er, (t_sent _ _ _ _ _ _ T) in Hy.
  destruct (C55_rate_formula _ _ (u16_small (N.of_nat (length (w_out w) - marked h))) (u16_small (N.of_nat (covered c j - before c j)))) as (F1 & F2).
  unfold u16 in *. split; intros H.
  - rewrite (F1 H) in Hy. congruence.
  - destruct (F2 H) as (F3 & _). rewrite F3 in Hy. congruence.
Qed.
Print Assumptions C87_perceived.

(** When the sender hears each ack once and in order, the ack [j] follows the ack heard last. *)
Definition next_ack (heard : list (nat * nat)) (j : nat) : Prop :=
  (heard = [] /\ j = 0%nat) \/ (heard <> [] /\ j = Datatypes.S (fst (last heard (0%nat, 0%nat)))).

(** Packets emitted when the ack heard last was heard but not arrived when it was sent: lost, or on their way. *)
Definition missing_before (heard : list (nat * nat)) (cs : list nat) : Z :=
  match heard with
  | [] => 0%Z
  | _ => (Z.of_nat (marked heard) - Z.of_nat (covered cs (fst (last heard (0%nat, 0%nat)))))%Z
  end.

(** Then the losses it perceives are the growth, from the hearing of the ack before to the hearing of this one, of the number of
    packets emitted but not arrived when the ack was sent: the sender counts packets on their way
    as lost, once, and finds them again when they arrive. If nothing more is missing than before, the rate is 50. *)
Theorem C87_all_heard :
  forall m clk f o l w j w', wrun m clk (start clk f o) l = Ok w -> wstep m clk w (AckArrive j) = Ok w' ->
  hears m w (AckArrive j) <> [] -> e_adaptive (w_enc w) = true ->
  let '(heard, cs) := watch m clk (start clk f o) l in
  let sent := (length (w_out w) - marked heard)%nat in
  let received := (covered cs j - before cs j)%nat in
  let missing := (Z.of_nat (length (w_out w)) - Z.of_nat (covered cs j))%Z in
  next_ack heard j -> N.of_nat sent < 65536 -> N.of_nat received < 65536 ->
  (Z.of_nat sent - Z.of_nat received = missing - missing_before heard cs)%Z
  /\ rate_from (N.of_nat sent) (N.of_nat received) (e_rate (w_enc w'))
  /\ ((missing <= missing_before heard cs)%Z -> e_rate (w_enc w') = 50).
Proof.
  intros m clk f o l w j w' R E Hh Ad. pose proof (watch_told _ _ _ _ _ _ R) as T.
  pose proof (C87_perceived _ _ _ _ _ _ _ _ R E Hh) as P.
  destruct (watch m clk (start clk f o) l) as [h c]. cbn [fst snd] in T. cbv zeta in *. intros Hx Hs Hr.
  assert (B : missing_before h c = (Z.of_nat (marked h) - Z.of_nat (before c j))%Z).
  { destruct Hx as [(-> & ->)|(Hx & ->)]; [reflexivity|]. destruct h; [now destruct Hx|]. reflexivity. }
  rewrite B in *. clear B Hx.
  destruct P as (_ & P). specialize (P Ad). rewrite (N.mod_small _ _ Hs), (N.mod_small _ _ Hr) in P.
  assert (Lj : (j < length c)%nat).
  { rewrite (t_acks _ _ _ _ _ _ T). apply nth_error_Some. intros K. apply Hh. cbn [hears]. rewrite K. reflexivity. }
  pose proof (t_mono _ _ _ _ _ _ T j Lj) as Mo. pose proof (t_marked _ _ _ _ _ _ T) as Ma.
  split; [lia|]. split; [exact P|]. intros Hm. destruct P as (P1 & P2).
  set (s := N.of_nat (length (w_out w) - marked h)) in *. set (r := N.of_nat (covered c j - before c j)) in *.
  assert (Sr : s <= r) by (unfold s, r; lia).
  rewrite P1 by (unfold one_in_98; lia). unfold intended_rate. cbv zeta.
  destruct (N.eqb_spec s 0) as [Z|Z]; [reflexivity|]. cbn [orb].
  destruct (Z.ltb_spec (100 * (Z.of_N s - Z.of_N r)) (Z.of_N s)) as [_|K]; [reflexivity|lia].
Qed.
Print Assumptions C87_all_heard.

(** When acks are lost, the packets they announced count as lost: here no packet is missing at the ack heard last, with the place [i], nor at this one. *)
Theorem C87_unheard_acks :
  forall m clk f o l w j w' i s, wrun m clk (start clk f o) l = Ok w -> wstep m clk w (AckArrive j) = Ok w' ->
  hears m w (AckArrive j) <> [] -> e_adaptive (w_enc w) = true ->
  let '(heard, cs) := watch m clk (start clk f o) l in
  let sent := (length (w_out w) - s)%nat in
  let received := (covered cs j - before cs j)%nat in
  heard <> [] -> last heard (0%nat, 0%nat) = (i, s) -> (i < j)%nat -> s = covered cs i -> length (w_out w) = covered cs j ->
  N.of_nat sent < 65536 ->
  (Z.of_nat sent - Z.of_nat received = Z.of_nat (before cs j) - Z.of_nat (covered cs i))%Z
  /\ (covered cs i <= before cs j)%nat
  /\ rate_from (N.of_nat sent) (N.of_nat received) (e_rate (w_enc w')).
Proof.
  intros m clk f o l w j w' i s R E Hh Ad. pose proof (watch_told _ _ _ _ _ _ R) as T.
  pose proof (C87_perceived _ _ _ _ _ _ _ _ R E Hh) as P.
  destruct (watch m clk (start clk f o) l) as [h c]. cbn [fst snd] in T. cbv zeta in *. intros _ La Lij Es Ej Hs.
  destruct P as (_ & P). specialize (P Ad). unfold marked in P. rewrite La in P. cbn [snd] in P.
  assert (Lj : (j < length c)%nat).
  { rewrite (t_acks _ _ _ _ _ _ T). apply nth_error_Some. intros K. apply Hh. cbn [hears]. rewrite K. reflexivity. }
  assert (Mono : forall a b, (a <= b)%nat -> (b < length c)%nat -> (covered c a <= covered c b)%nat).
  { intros a b Lab. induction Lab as [|b Lab IH]; intros Lb; [lia|]. specialize (IH ltac:(lia)).
    pose proof (t_mono _ _ _ _ _ _ T (Datatypes.S b) Lb) as Mb. cbn [before] in Mb. unfold covered in *. lia. }
  assert (Bi : (covered c i <= before c j)%nat).
  { destruct j as [|j]; [lia|]. cbn [before]. fold (covered c j). apply Mono; lia. }
  pose proof (t_mono _ _ _ _ _ _ T j Lj) as Mj.
  rewrite (N.mod_small _ _ Hs) in P. rewrite N.mod_small in P by lia.
  split; [lia|]. split; [exact Bi|]. exact P.
Qed.
Print Assumptions C87_unheard_acks.

(** Three rounds in which one packet is emitted and arrives at once, and is acked at once. *)
Definition rounds : list action :=
  [SetAdaptive true; Data [1]; Arrive 0; Ack; AckArrive 0; Data [2]; Arrive 1; Ack; Data [3]; Arrive 2; Ack].

Definition told_by (l : list action) (j : nat) : option ((list (nat * nat) * list nat) * list N) :=
  match wrun Debug still (start still W8 true) l with
  | Ok w => match hears Debug w (AckArrive j), wstep Debug still w (AckArrive j) with
            | _ :: _, Ok w' => Some (watch Debug still (start still W8 true) l,
                [e_rate (w_enc w); e_rate (w_enc w'); N.of_nat (length (w_out w)); N.of_nat (length (w_arrived w))])
            | _, _ => None
            end
  | _ => None
  end.

(** The second ack heard in time: nothing is missing. Heard late: of two packets one has yet to be announced, the rate is one, and
    the third ack brings it back to 50. The third ack without the second one: one of two packets is taken for lost. *)
Example C87_cases :
  told_by (firstn 8 rounds) 1 = Some (([(0, 1)], [1; 2])%nat, [50; 50; 2; 2])
  /\ told_by rounds 1 = Some (([(0, 1)], [1; 2; 3])%nat, [50; 1; 3; 3])
  /\ told_by (rounds ++ [AckArrive 1]) 2 = Some (([(0, 1); (1, 3)], [1; 2; 3])%nat, [1; 50; 3; 3])
  /\ told_by rounds 2 = Some (([(0, 1)], [1; 2; 3])%nat, [50; 1; 3; 3])
  /\ told_by [SetAdaptive true; Data [1]; Data [2]; Arrive 1; Ack] 0 = Some (([], [1])%nat, [5; 1; 2; 1]).
Proof. vm_compute. repeat split. Qed.

(** So the rate does not follow the losses. Each packet arrives, once and in order, and yet the rate of a repair after each
    source is computed, because an ack is lost. *)
Theorem C87_no_loss_refuted :
  exists l w j w', wrun Debug still (start still W8 true) l = Ok w /\ e_adaptive (w_enc w) = true
  /\ w_arrived w = seq 0 (length (w_out w)) /\ w_got w = w_sent w /\ hears Debug w (AckArrive j) <> []
  /\ wstep Debug still w (AckArrive j) = Ok w' /\ e_rate (w_enc w') = 1.
Proof.
  exists rounds. do 3 eexists. split; [vm_compute; reflexivity|]. split; [reflexivity|]. split; [reflexivity|].
  split; [reflexivity|]. split; [|split; [instantiate (2 := 2%nat); vm_compute; reflexivity|reflexivity]].
  vm_compute. discriminate.
Qed.
Print Assumptions C87_no_loss_refuted.

(** A packet that arrives twice makes up for one that is lost: half of the packets are lost and the rate is the one without loss. *)
Theorem C87_duplicate_hides_refuted :
  exists l w j w', wrun Debug still (start still W8 true) l = Ok w /\ e_adaptive (w_enc w) = true
  /\ length (w_out w) = 2%nat /\ ~ In 0%nat (w_arrived w) /\ hears Debug w (AckArrive j) <> []
  /\ wstep Debug still w (AckArrive j) = Ok w' /\ e_rate (w_enc w') = 50.
Proof.
  exists [SetAdaptive true; Data [1]; Data [2]; Arrive 1; Arrive 1; Ack]. do 3 eexists. split; [vm_compute; reflexivity|].
  split; [reflexivity|]. split; [reflexivity|]. split; [cbn; lia|].
  split; [|split; [instantiate (2 := 0%nat); vm_compute; reflexivity|reflexivity]]. vm_compute. discriminate.
Qed.
Print Assumptions C87_duplicate_hides_refuted.
