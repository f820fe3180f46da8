(** * Identifiers that restart: C50 *)
From Coq Require Import ZArith NArith Arith List Bool Lia Sorted.
From Verif Require Import Outcome GF Containers ContainersFacts Packetizer PropsPacketizer
  Encoder EncoderRun EncoderFacts EncoderHistory EncoderSafe DetailDecoder Decoder DecoderInv DecoderStep DecoderFacts
  DecoderOuter System SystemInv SystemRun SystemFifo PropsSystem PropsRecover.
Import ListNotations.
Open Scope N_scope.

Lemma sender_is m w op data w' : sender m w op data = Ok w' -> exists e r, estep m (w_enc w) op = (e, r)
  /\ ~ is_fault r /\ w_out w' = w_out w ++ emitted r /\ w_enc w' = e.
Proof.
  intros E. unfold sender in E. destruct (estep m (w_enc w) op) as [e r]. exists e, r. split; [reflexivity|].
  apply bind_ok in E. destruct E as (out & Eo & E). apply survive_ok in Eo. destruct Eo as [Hf Hr]. split; [exact Hf|].
  match type of E with Ok ?x = _ => assert (Ew : w' = x) by congruence end. rewrite Ew.
  split; [|reflexivity]. cbn [w_out]. f_equal. destruct Hr as [->|[-> [x ->]]]; reflexivity.
Qed.

(** The sender's next identifier, however many data were sent. *)
Lemma next_id m clk f o w : reach m clk f o w -> e_source_id (w_enc w) = N.of_nat (length (w_sent w)) mod 2 ^ 32.
Proof.
  revert w. apply reach_ind; [reflexivity|]. intros w a w' R IH E.
  assert (Same : w_sent w' = w_sent w -> e_source_id (w_enc w') = e_source_id (w_enc w) ->
    e_source_id (w_enc w') = N.of_nat (length (w_sent w')) mod 2 ^ 32) by (intros -> ->; exact IH).
  assert (Snd : forall op, sender m w op [] = Ok w' -> match op with EData _ => False | _ => True end ->
    e_source_id (w_enc w') = N.of_nat (length (w_sent w')) mod 2 ^ 32).
  { intros op H Hop. apply Same; [apply sender_extends in H; rewrite <- app_nil_r; apply H|].
    apply sender_is in H. destruct H as (e & r & H & Hf & _ & ->). destruct op; try contradiction;
      try (apply estep_setters in H; [apply H | exact Hf | exact I]).
    - apply estep_packet in H; [|exact Hf]. destruct H as (q & _ & _ & A & _). apply A.
    - apply estep_repair in H; [|exact Hf]. destruct H as (out & _ & H). apply generate_repair_ok in H.
      destruct H as (r0 & w0 & _ & _ & _ & H). apply H. }
  destruct a; cbn [wstep] in E; try (eapply Snd; [exact E | exact I]);
    try (apply Same; apply receiver_extends in E; [apply E | f_equal; apply E]).
  - pose proof (sender_extends _ _ _ _ _ E) as (_ & Es & _). rewrite Es, app_length. cbn [length].
    apply sender_is in E. destruct E as (e & r & E & Hf & _ & ->).
    apply estep_data in E; [|exact Hf]. destruct E as (out & _ & A). rewrite (ad_source_id _ _ _ _ _ A), IH.
    unfold u32. change (2 ^ 32) with 4294967296. rewrite N.add_mod_idemp_l by discriminate. f_equal. lia.
  - destruct (nth_error (w_out w) k); [|assert (w' = w) by congruence; subst; exact IH].
    apply Same; apply receiver_extends in E; [apply E | f_equal; apply E].
  - destruct (nth_error (w_acks w) j); [|assert (w' = w) by congruence; subst; exact IH].
    eapply Snd; [exact E | exact I].
Qed.

(** ** C50: identifiers restart *)

(** The source packet of datum number [n] (from 0) has the identifier [n mod 2^32]. *)
Theorem C50_identifier_of_datum :
  forall m clk f o w d w', reach m clk f o w -> wstep m clk w (Data d) = Ok w' -> e_systematic (w_enc w) = true ->
  source_packet_at m w' (length (w_out w)) (N.of_nat (length (w_sent w)) mod 2 ^ 32).
Proof.
  intros m clk f o w d w' R E Hs. pose proof (next_id _ _ _ _ _ R) as Hi.
  cbn [wstep] in E. apply sender_is in E. destruct E as (e & r & E & Hf & Eo & _).
  apply estep_data in E; [|exact Hf]. destruct E as (out & -> & A). destruct (ad_out _ _ _ _ _ A) as (first & rest & -> & O1 & _).
  rewrite Hi in O1. set (id := N.of_nat (length (w_sent w)) mod 2 ^ 32) in *.
  assert (Hid : id < 2 ^ 32) by (apply N.mod_upper_bound; discriminate).
  destruct (C01_any_source m id d Hid) as (s & R1 & R2 & _). unfold on_wire in R1. rewrite <- (O1 Hs) in R1.
  exists first, s. eexists. split; [|split; [|split; [exact R1 | exact R2]]].
  - rewrite Eo. cbn [emitted]. rewrite nth_error_app2 by lia. rewrite Nat.sub_diag. reflexivity.
  - rewrite (O1 Hs). reflexivity.
Qed.
Print Assumptions C50_identifier_of_datum.

(** A packet about sources that are obsolete for the receiver. *)
Definition stale (m : mode) (w : world) (p : packet) : Prop :=
  (exists s n, get_packet_type p = Ok TSource /\ read_source m p = Ok (s, n) /\ obsolete w (ds_id s))
  \/ (exists r n, get_packet_type p = Ok TRepair /\ read_repair m p = Ok (r, n) /\ dr_ids r <> []
      /\ forall x, In x (dr_ids r) -> obsolete w x).

Lemma stale_nop m clk w p : stale m w p -> exists d n, dec_packet m clk (w_dec w) p = (d, Ok ([], n))
  /\ dc_core d = dc_core (w_dec w).
Proof.
  intros H. assert (Hne : p <> []).
  { intros ->. destruct H as [(s & n & H & _)|(r & n & H & _)]; discriminate. }
  unfold dec_packet. assert (Ha : assert_ m (Nat.ltb 0 (length p)) = Ok tt).
  { destruct p; [congruence|]. destruct m; reflexivity. }
  rewrite Ha. cbn [bind]. destruct H as [(s & n & Ht & Er & Ho)|(r & n & Ht & Er & Hr & Ho)]; rewrite Ht; cbv zeta; rewrite Er; cbn [bind];
    unfold call_core; cbn [count_packet dc_core].
  - rewrite recv_source_old by (left; exact Ho). cbn [bind]. rewrite skipn_all. cbn [handle_sources finish bind].
    do 2 eexists. split; reflexivity.
  - assert (X : recv_repair m (dc_core (w_dec w)) r = Ok (dc_core (w_dec w))).
    { unfold recv_repair. destruct (dr_ids r) as [|x l] eqn:El; [congruence|].
      replace (assert_ m (negb (Nat.eqb (length (x :: l)) 0))) with (Ok tt) by (destruct m; reflexivity). cbn [bind].
      assert (Hl : In (last (x :: l) 0) (x :: l)).
      { clear. revert x. induction l as [|y l IH]; intros x; [left; reflexivity|]. right. apply IH. }
      rewrite (Ho _ Hl). reflexivity. }
    rewrite X. cbn [bind]. rewrite skipn_all. cbn [handle_sources finish bind]. do 2 eexists. split; reflexivity.
Qed.

(** Whatever the two sides do: as long as only such packets arrive, nothing is
    delivered, and the same packets stay obsolete. *)
Theorem C50_dead_stream :
  forall m clk l w w', wrun m clk w l = Ok w' ->
  (forall k p, In (Arrive k) l -> nth_error (w_out w') k = Some p -> stale m w p) ->
  w_got w' = w_got w /\ (forall x, obsolete w' x <-> obsolete w x).
Proof.
  intros m clk l w w' E H.
  assert (G : w_got w' = w_got w /\ dc_core (w_dec w') = dc_core (w_dec w)).
  2: { destruct G as [G1 G2]. split; [exact G1|]. intros x. unfold obsolete. rewrite G2. reflexivity. }
  revert w E H. induction l as [|a l IH]; intros w E H; cbn [wrun] in E.
  - assert (w' = w) by congruence. subst. split; reflexivity.
  - apply bind_ok in E. destruct E as (w1 & E1 & E).
    assert (G1 : w_got w1 = w_got w /\ dc_core (w_dec w1) = dc_core (w_dec w)).
    { destruct (x_out _ _ (wrun_extends _ _ _ _ _ E)) as [more Hmore].
      assert (Snd : forall op data, sender m w op data = Ok w1 -> w_got w1 = w_got w /\ dc_core (w_dec w1) = dc_core (w_dec w)).
      { intros op data S1. apply sender_extends in S1. destruct S1 as (_ & _ & _ & -> & _ & ->). split; reflexivity. }
      assert (Rcv : forall op arr, receiver m clk w op arr = Ok w1 ->
        to_user (match snd (dstep m clk (w_dec w) op) with Ok x => x | _ => [] end) = [] ->
        dc_core (fst (dstep m clk (w_dec w) op)) = dc_core (w_dec w) ->
        w_got w1 = w_got w /\ dc_core (w_dec w1) = dc_core (w_dec w)).
      { intros op arr S1 Hu Hc. unfold receiver in S1. destruct (dstep m clk (w_dec w) op) as [d r]. cbn [fst snd] in *.
        apply bind_ok in S1. destruct S1 as (out & So & S1). apply survive_ok in So. destruct So as [Hf Hr].
        match type of S1 with Ok ?x = _ => assert (Ew : w1 = x) by congruence end. rewrite Ew. cbn [w_got w_dec].
        split; [|exact Hc]. destruct Hr as [Er|[Er [x Ex]]]; [rewrite Er in Hu; rewrite Hu | rewrite Er; cbn [to_user flat_map]]; apply app_nil_r. }
      destruct a; cbn [wstep] in E1; try (eapply Snd; exact E1).
      - eapply Rcv; [exact E1 | |]; cbn [dstep]; unfold generate_ack, generate_ack_of; reflexivity.
      - eapply Rcv; [exact E1 | |]; cbn [dstep]; unfold maybe_ack, maybe_ack_of, generate_ack_of;
          destruct (_ <=? _); try reflexivity; destruct (_ =? 0)%Z; try reflexivity; destruct (_ <=? _)%Z; reflexivity.
      - eapply Rcv; [exact E1 | |]; reflexivity.
      - eapply Rcv; [exact E1 | |]; cbn [dstep]; unfold set_ack_nb_packets;
          destruct (assert_ m (0 <? nb)); cbn [bind finish fst snd]; reflexivity.
      - destruct (nth_error (w_out w) k) as [p|] eqn:Ek; [|assert (w1 = w) by congruence; subst; split; reflexivity].
        destruct (stale_nop m clk w p) as (d & n & Ed & Ec).
        { apply (H k); [left; reflexivity|]. pose proof E1 as X. apply receiver_extends in X. destruct X as (_ & _ & Eo & _).
          rewrite Hmore, Eo, nth_error_app1; [exact Ek|]. apply nth_error_Some. congruence. }
        eapply Rcv; [exact E1 | |]; cbn [dstep]; rewrite Ed; [reflexivity | exact Ec].
      - destruct (nth_error (w_acks w) j); [eapply Snd; exact E1 | assert (w1 = w) by congruence; subst; split; reflexivity]. }
    destruct G1 as [G1 G2]. destruct (IH w1 E) as [I1 I2].
    { intros k p Hk Hp. specialize (H k p (or_intror Hk) Hp). unfold stale, obsolete in *. rewrite G2. exact H. }
    split; congruence.
Qed.
Print Assumptions C50_dead_stream.

(** So the source packet of datum number [n] is useless for a receiver for which
    [n mod 2^32] is obsolete, whenever it arrives. *)
Theorem C50_reused_identifier_lost :
  forall m clk f o w d w' w2 w3, reach m clk f o w -> wstep m clk w (Data d) = Ok w' -> e_systematic (w_enc w) = true ->
  (exists l, wrun m clk w' l = Ok w2) -> obsolete w2 (N.of_nat (length (w_sent w)) mod 2 ^ 32) ->
  wstep m clk w2 (Arrive (length (w_out w))) = Ok w3 -> w_got w3 = w_got w2.
Proof.
  intros m clk f o w d w' w2 w3 R E Hs [l E2] Ho E3.
  destruct (C50_identifier_of_datum m clk f o w d w' R E Hs) as (p & s & q & Hp & Ht & Er & Ei).
  assert (Hp2 : nth_error (w_out w2) (length (w_out w)) = Some p).
  { destruct (x_out _ _ (wrun_extends _ _ _ _ _ E2)) as [more ->]. rewrite nth_error_app1; [exact Hp|].
    apply nth_error_Some. congruence. }
  destruct (C50_dead_stream m clk [Arrive (length (w_out w))] w2 w3) as [G _].
  - cbn [wrun]. rewrite E3. reflexivity.
  - intros k p' [Hk|[]] Hp'. injection Hk as <-.
    assert (Eo : w_out w3 = w_out w2) by (cbn [wstep] in E3; rewrite Hp2 in E3; apply receiver_extends in E3; apply E3).
    rewrite Eo, Hp2 in Hp'. assert (p' = p) by congruence. subst p'. left. exists s, q. rewrite Ei. auto.
  - exact G.
Qed.
Print Assumptions C50_reused_identifier_lost.

(** *** A run with more than 2^32 data *)

Lemma many_data m clk f n : forall w, safe f (w_enc w) -> f = W8 ->
  exists w', wrun m clk w (repeat (Data [1]) n) = Ok w' /\ safe f (w_enc w') /\ w_dec w' = w_dec w
  /\ w_got w' = w_got w /\ w_arrived w' = w_arrived w /\ w_sent w' = w_sent w ++ repeat [1] n
  /\ e_systematic (w_enc w') = e_systematic (w_enc w).
Proof.
  induction n as [|n IH]; intros w Sf ->.
  - exists w. cbn [repeat]. rewrite app_nil_r. auto 10.
  - destruct (estep_safe m W8 (w_enc w) (EData [1]) Sf) as (e & r & E & Hf & Sf').
    { split; [|split]; cbn; [lia | reflexivity | reflexivity]. }
    { discriminate. }
    destruct (sender m w (EData [1]) [[1]]) as [w1|x|x] eqn:E1.
    + pose proof (sender_extends _ _ _ _ _ E1) as (_ & X1 & X2 & X3 & _ & X4).
      destruct (sender_is _ _ _ _ _ E1) as (e' & r' & E' & Hf' & _ & Ee').
      assert (Ee : w_enc w1 = e) by congruence.
      destruct (IH w1) as (w' & A1 & A2 & A3 & A4 & A5 & A6 & A7); [rewrite Ee; exact Sf' | reflexivity|].
      exists w'. cbn [repeat wrun wstep]. rewrite E1. cbn [bind]. split; [exact A1|]. split; [exact A2|].
      split; [congruence|]. split; [congruence|]. split; [congruence|]. split.
      * rewrite A6, X1, <- app_assoc. reflexivity.
      * rewrite A7, Ee. apply estep_data in E; [|exact Hf]. destruct E as (out & _ & A). apply A.
    + exfalso. unfold sender in E1. rewrite E in E1. destruct r; cbn in E1; discriminate.
    + exfalso. unfold sender in E1. rewrite E in E1. destruct r as [o|y|y]; cbn in E1; try discriminate. apply Hf. exists y. reflexivity.
Qed.

(** Losses, but no reordering; the datum sent last arrives and is not delivered. *)
Theorem C50_wraparound_refuted :
  exists l w k, wrun Debug still (start still W8 false) l = Ok w /\ Forall (legal_action W8) l
  /\ N.of_nat (length (w_sent w)) = 2 ^ 32 + 1 /\ last (w_sent w) [] = [2]
  /\ In k (w_arrived w) /\ source_packet_at Debug w k 0 /\ fifo w /\ (1 < k)%nat
  /\ ~ In [2] (w_got w).
Proof.
  assert (Big : exists k, N.of_nat k = 4294967294) by (exists (N.to_nat 4294967294); apply N2Nat.id).
  destruct Big as [big Hbig].
  set (before := [SetWindow 1; Data [1]; Data [1]; Repair; Arrive 2]).
  set (w0 := ending Debug W8 false before).
  assert (E0 : wrun Debug still (start still W8 false) before = Ok w0) by (vm_compute; reflexivity).
  assert (Sf : safe W8 (w_enc w0)).
  { constructor; try (vm_compute; reflexivity). vm_compute. repeat constructor; discriminate. }
  destruct (many_data Debug still W8 big w0 Sf eq_refl) as (w1 & E1 & Sf1 & D1 & G1 & A1 & S1 & Y1).
  assert (R1 : reach Debug still W8 false w1).
  { exists (before ++ repeat (Data [1]) big). rewrite (SystemRun.wrun_app _ _ _ _ _ _ E0). exact E1. }
  destruct (estep_safe Debug W8 (w_enc w1) (EData [2]) Sf1) as (e & r & E & Hf & _).
  { split; [|split]; cbn; [lia | reflexivity | reflexivity]. }
  { discriminate. }
  assert (X2 : exists w2, wstep Debug still w1 (Data [2]) = Ok w2).
  { cbn [wstep]. unfold sender. rewrite E. destruct r as [o|y|y]; cbn [survive bind]; eauto. destruct Hf. exists y. reflexivity. }
  destruct X2 as [w2 E2].
  assert (L1 : N.of_nat (length (w_sent w1)) = 2 ^ 32).
  { rewrite S1, app_length, repeat_length. change (length (w_sent w0)) with 2%nat. change (2 ^ 32) with 4294967296. lia. }
  assert (Y : e_systematic (w_enc w1) = true) by (rewrite Y1; vm_compute; reflexivity).
  pose proof (C50_identifier_of_datum _ _ _ _ _ _ _ R1 E2 Y) as P2. rewrite L1 in P2.
  change (2 ^ 32 mod 2 ^ 32) with 0 in P2.
  pose proof (sender_extends _ _ _ _ _ E2) as (_ & S2 & A2 & G2 & _ & D2).
  assert (Ob : obsolete w2 0) by (unfold obsolete; rewrite D2, D1; vm_compute; reflexivity).
  set (k := length (w_out w1)) in *.
  assert (E3 : exists w3, wstep Debug still w2 (Arrive k) = Ok w3).
  { destruct P2 as (p & s & q & Hp & Ht & Er & Ei). cbn [wstep]. rewrite Hp. unfold receiver. cbn [dstep].
    destruct (stale_nop Debug still w2 p) as (d' & n' & Ed & _).
    { left. exists s, q. rewrite Ei. auto. }
    rewrite Ed. cbn [bind survive]. eauto. }
  destruct E3 as [w3 E3].
  assert (G3 : w_got w3 = w_got w2).
  { apply (C50_reused_identifier_lost Debug still W8 false w1 [2] w2 w2 w3 R1 E2 Y); [exists []; reflexivity | | exact E3].
    rewrite L1. exact Ob. }
  assert (X3 : w_arrived w3 = w_arrived w2 ++ [k] /\ w_sent w3 = w_sent w2 /\ w_out w3 = w_out w2).
  { destruct P2 as (p & s & q & Hp & _). cbn [wstep] in E3. rewrite Hp in E3. apply receiver_extends in E3. repeat split; apply E3. }
  destruct X3 as (A3 & S3 & O3).
  assert (Hk : (2 < k)%nat).
  { unfold k. destruct (x_out _ _ (wrun_extends _ _ _ _ _ E1)) as [more ->]. rewrite app_length.
    change (length (w_out w0)) with 3%nat. lia. }
  exists (before ++ repeat (Data [1]) big ++ [Data [2]; Arrive k]), w3, k.
  split; [|split; [|split; [|split; [|split; [|split; [|split; [|split]]]]]]].
  - rewrite (SystemRun.wrun_app _ _ _ _ _ _ E0), (SystemRun.wrun_app _ _ _ _ _ _ E1). cbn [wrun]. rewrite E2. cbn [bind].
    rewrite E3. reflexivity.
  - apply Forall_app. split; [repeat constructor; cbn; lia|]. apply Forall_app. split.
    + apply Forall_forall. intros x Hx. apply repeat_spec in Hx. subst x. repeat constructor; cbn; lia.
    + repeat constructor; cbn; lia.
  - rewrite S3, S2, app_length. cbn [length]. lia.
  - rewrite S3, S2. apply last_last.
  - rewrite A3. apply in_app_iff. right. left. reflexivity.
  - destruct P2 as (p & s & q & Hp & P2). exists p, s, q. rewrite O3. split; [exact Hp | exact P2].
  - unfold fifo. rewrite A3, A2, A1. change (w_arrived w0) with [2%nat]. cbn [app].
    constructor; [constructor; constructor|]. constructor; [lia | constructor].
  - lia.
  - rewrite G3, G2, G1. change (w_got w0) with [[1]]. intros [H|[]]. discriminate.
Qed.
Print Assumptions C50_wraparound_refuted.

(** A case for the hypotheses of [C50_dead_stream], with a source packet and a
    repair packet that are stale. That of [C50_reused_identifier_lost]: the first
    datum of the same run; with a reused identifier: [C50_wraparound_refuted]. *)
Definition bypassed : list action :=
  [SetWindow 1; Data [1]; Repair; Data [1]; Repair; Arrive 3].

Example C50_case :
  let w := ending Debug W8 true bypassed in
  wrun Debug still (start still W8 true) bypassed = Ok w
  /\ w_got w = [[1]]
  /\ (exists p, nth_error (w_out w) 0 = Some p /\ stale Debug w p)
  /\ (exists p, nth_error (w_out w) 1 = Some p /\ stale Debug w p).
Proof.
  cbv zeta. split; [vm_compute; reflexivity|]. split; [vm_compute; reflexivity|].
  split; eexists; (split; [vm_compute; reflexivity|]).
  - left. do 2 eexists. split; [vm_compute; reflexivity|]. split; vm_compute; reflexivity.
  - right. do 2 eexists. split; [vm_compute; reflexivity|]. split; [vm_compute; reflexivity|].
    split; [discriminate|]. intros x Hx. vm_compute in Hx. destruct Hx as [<-|[]]. vm_compute. reflexivity.
Qed.

Example C50_lost_case :
  let w0 := ending Debug W8 true [SetWindow 1] in
  let w1 := ending Debug W8 true [SetWindow 1; Data [1]] in
  let w := ending Debug W8 true bypassed in
  reach Debug still W8 true w0 /\ e_systematic (w_enc w0) = true
  /\ wstep Debug still w0 (Data [1]) = Ok w1
  /\ wrun Debug still w1 [Repair; Data [1]; Repair; Arrive 3] = Ok w
  /\ obsolete w (N.of_nat (length (w_sent w0)) mod 2 ^ 32)
  /\ (length (w_out w0) < length (w_out w))%nat.
Proof.
  cbv zeta. split; [exists [SetWindow 1]; vm_compute; reflexivity|]. vm_compute. repeat split. repeat constructor.
Qed.
