(** * What the settings of a receiver cannot change

    C51: the acks (their schedule, the clock, explicit calls) never change what
    is delivered. C52: ordering changes only when data are delivered. *)
From Coq Require Import ZArith NArith PeanoNat List Bool Lia.
From Verif Require Import Outcome GF Containers ContainersFacts Packetizer PacketizerFacts PropsPacketizer
  Matrix Encoder DetailDecoder Decoder DecoderFacts DecoderOuter DecoderOrder PropsDecoder.
Import ListNotations.
Open Scope N_scope.
Open Scope outcome_scope.

(** ** Vocabulary *)

(** The packets among the calls. *)
Fixpoint packets (ops : list dop) : list packet :=
  match ops with
  | [] => []
  | DPacket p :: l => p :: packets l
  | _ :: l => packets l
  end.

(** The precondition of [set_ack_nb_packets] (decoder.hh 273). *)
Definition legal_setting (op : dop) : Prop := match op with DSetNb n => 0 < n | _ => True end.

(** ** What depends on the packets only *)

Definition core_packet (m : mode) (c : ddec) (p : packet) : outcome ddec :=
  t <- (_ <- assert_ m (Nat.ltb 0 (length p)) ;; get_packet_type p) ;;
  match t with
  | TRepair => '(r, _) <- read_repair m p ;; recv_repair m c r
  | TSource => '(s, _) <- read_source m p ;; recv_source m c (ds_id s) (ds_data s)
  | TAck => Throw PacketTypeError
  end.

Fixpoint core_run (m : mode) (c : ddec) (ps : list packet) : outcome ddec :=
  match ps with
  | [] => Ok c
  | p :: l =>
      match core_packet m c p with
      | Ok c' => core_run m c' l
      | Throw _ => core_run m c l
      | Fault x => Fault x
      end
  end.

Lemma handle_sources_user clk l : forall d, to_user (snd (handle_sources clk d l)) = map v_data l
  /\ dc_core (fst (handle_sources clk d l)) = dc_core d.
Proof.
  induction l as [|v l IH]; intros d; cbn [handle_sources]; [auto|].
  destruct (handle_source clk d v) as [d1 o1] eqn:E1.
  assert (X : (exists a, o1 = ToUser (v_data v) :: a /\ to_user a = []) /\ dc_core d1 = dc_core d).
  { unfold handle_source, maybe_ack_of, generate_ack_of in E1.
    destruct (_ <=? _); [|destruct (_ =? _)%Z; [|destruct (_ <=? _)%Z]]; injection E1 as <- <-; (split; [eexists; split; reflexivity | auto]). }
  destruct X as ((a & -> & Ha) & X1).
  specialize (IH d1). destruct (handle_sources clk d1 l) as [d2 o2]. cbn [fst snd] in *.
  destruct IH as (I1 & I2). split; [|congruence].
  rewrite <- app_comm_cons. cbn [to_user map]. f_equal. rewrite <- I1. clear - Ha.
  induction a as [|[x|x] a IH]; cbn in *; [reflexivity | discriminate | auto].
Qed.

Lemma call_core_user clk d run c : run (dc_core d) = Ok c -> moves (dc_core d) c ->
  exists d' out new, call_core clk d run = Ok (d', out) /\ dc_core d' = c
  /\ d_log c = d_log (dc_core d) ++ new /\ to_user out = map v_data new.
Proof.
  intros Ec M. unfold call_core. rewrite Ec. cbn [bind]. destruct (mv_log _ _ M) as [new El].
  pose proof (handle_sources_user clk (skipn (length (d_log (dc_core d))) (d_log c)) (with_core d c)) as H.
  destruct (handle_sources _ _ _) as [d2 o2]. cbn [fst snd] in H. destruct H as (H1 & H2).
  exists d2, o2, new. split; [reflexivity|]. split; [exact H2|]. split; [exact El|].
  rewrite H1, El, skipn_app, skipn_all, Nat.sub_diag. reflexivity.
Qed.

Lemma dec_packet_core m clk d p :
  match core_packet m (dc_core d) p with
  | Ok c => exists d' out n new, dec_packet m clk d p = (d', Ok (out, n)) /\ dc_core d' = c
      /\ d_log c = d_log (dc_core d) ++ new /\ to_user out = map v_data new
  | Throw x => exists d', dec_packet m clk d p = (d', Throw x) /\ dc_core d' = dc_core d
  | Fault x => exists d', dec_packet m clk d p = (d', Fault x)
  end.
Proof.
  unfold core_packet, dec_packet.
  destruct (bind (assert_ m (Nat.ltb 0 (length p))) _) as [t|x|x]; cbn [bind]; [|eauto | eauto].
  destruct t; [eauto | |]; cbv zeta.
  - destruct (read_repair m p) as [[r n]|x|x]; cbn [bind finish]; [|eauto | eauto].
    change (dc_core d) with (dc_core (count_packet d 1 0)). set (d0 := count_packet d 1 0).
    destruct (recv_repair m (dc_core d0) r) as [c|x|x] eqn:Ec.
    + destruct (call_core_user clk d0 (fun c => recv_repair m c r) c Ec (recv_repair_moves _ _ _ _ Ec)) as (d' & out & new & E & H).
      rewrite E. cbn [bind finish]. exists d', out, n, new. auto.
    + unfold call_core. rewrite Ec. cbn [bind finish]. eauto.
    + unfold call_core. rewrite Ec. cbn [bind finish]. eauto.
  - destruct (read_source m p) as [[s n]|x|x]; cbn [bind finish]; [|eauto | eauto].
    change (dc_core d) with (dc_core (count_packet d 0 1)). set (d0 := count_packet d 0 1).
    destruct (recv_source m (dc_core d0) (ds_id s) (ds_data s)) as [c|x|x] eqn:Ec.
    + destruct (call_core_user clk d0 (fun c => recv_source m c (ds_id s) (ds_data s)) c Ec (recv_source_moves _ _ _ _ _ Ec)) as (d' & out & new & E & H).
      rewrite E. cbn [bind finish]. exists d', out, n, new. auto.
    + unfold call_core. rewrite Ec. cbn [bind finish]. eauto.
    + unfold call_core. rewrite Ec. cbn [bind finish]. eauto.
Qed.

Lemma to_user_app a b : to_user (a ++ b) = to_user a ++ to_user b.
Proof. induction a as [|[x|x] a IH]; cbn; [reflexivity | rewrite IH; reflexivity | exact IH]. Qed.

Lemma drun_core m clk ops : Forall legal_setting ops -> forall d,
  match core_run m (dc_core d) (packets ops) with
  | Ok c => exists d' out new, drun m clk d ops = Ok (d', out) /\ dc_core d' = c
      /\ d_log c = d_log (dc_core d) ++ new /\ to_user out = map v_data new
  | Throw _ => False
  | Fault x => drun m clk d ops = Fault x
  end.
Proof.
  induction 1 as [|op ops Hop _ IH]; intros d.
  - cbn [packets core_run drun]. exists d, [], []. rewrite app_nil_r. auto.
  - assert (Other : forall d1 out, dstep m clk d op = (d1, Ok out) -> to_user out = [] -> dc_core d1 = dc_core d ->
      packets (op :: ops) = packets ops ->
      match core_run m (dc_core d) (packets (op :: ops)) with
      | Ok c => exists d' out new, drun m clk d (op :: ops) = Ok (d', out) /\ dc_core d' = c
          /\ d_log c = d_log (dc_core d) ++ new /\ to_user out = map v_data new
      | Throw _ => False
      | Fault x => drun m clk d (op :: ops) = Fault x
      end).
    { intros d1 out E Hu Hc ->. cbn [drun]. rewrite E, <- Hc. specialize (IH d1). destruct (core_run m (dc_core d1) (packets ops)).
      - destruct IH as (d' & o' & new & E' & H1 & H2 & H3). exists d', (out ++ o'), new. rewrite E'. cbn [bind].
        split; [reflexivity|]. rewrite to_user_app, Hu. auto.
      - exact IH.
      - rewrite IH. reflexivity. }
    destruct op as [p| | |t|n].
    + cbn [packets core_run drun dstep]. clear Other. pose proof (dec_packet_core m clk d p) as H.
      destruct (core_packet m (dc_core d) p) as [c|x|x].
      * destruct H as (d1 & out & n & new & E & <- & L & U). rewrite E. cbn [bind].
        specialize (IH d1). destruct (core_run m (dc_core d1) (packets ops)).
        -- destruct IH as (d' & o' & new' & E' & H1 & H2 & H3). exists d', (out ++ o'), (new ++ new'). rewrite E'. cbn [bind].
           split; [reflexivity|]. split; [exact H1|]. split; [rewrite H2, L, app_assoc; reflexivity|].
           rewrite to_user_app, map_app, U, H3. reflexivity.
        -- exact IH.
        -- rewrite IH. reflexivity.
      * destruct H as (d1 & E & Ec). rewrite E. cbn [bind]. specialize (IH d1). rewrite Ec in IH.
        destruct (core_run m (dc_core d) (packets ops)); assumption.
      * destruct H as (d1 & E). rewrite E. reflexivity.
    + apply (Other _ _ (eq_refl _)); reflexivity.
    + cbn [dstep] in Other. destruct (maybe_ack clk d) as [d1 o1] eqn:E. apply (Other d1 o1 eq_refl); [| |reflexivity];
        unfold maybe_ack, maybe_ack_of, generate_ack_of in E;
        (destruct (_ <=? _); [|destruct (_ =? _)%Z; [|destruct (_ <=? _)%Z]]; injection E as <- <-; reflexivity).
    + apply (Other _ _ (eq_refl _)); reflexivity.
    + cbn [legal_setting] in Hop. cbn [dstep] in Other. unfold set_ack_nb_packets in Other.
      replace (0 <? n) with true in Other by (symmetry; apply N.ltb_lt, Hop).
      replace (assert_ m true) with (Ok tt) in Other by (destruct m; reflexivity). cbn [bind finish] in Other.
      apply (Other _ _ (eq_refl _)); reflexivity.
Qed.

(** ** C51: acks never change what is delivered *)

(** Two receivers in the same decoding state get the same packets. Their clocks,
    ack periods, ack thresholds and calls of [generate_ack], [maybe_ack] and of
    the setters may differ. *)
Theorem C51_acks_do_not_matter :
  forall m clk1 clk2 d1 d2 ops1 ops2,
  dc_core d1 = dc_core d2 -> packets ops1 = packets ops2 ->
  Forall legal_setting ops1 -> Forall legal_setting ops2 ->
  match drun m clk1 d1 ops1, drun m clk2 d2 ops2 with
  | Ok (d1', out1), Ok (d2', out2) => to_user out1 = to_user out2 /\ dc_core d1' = dc_core d2'
  | Fault x, Fault y => x = y
  | _, _ => False
  end.
Proof.
  intros m clk1 clk2 d1 d2 ops1 ops2 Ec Ep L1 L2.
  pose proof (drun_core m clk1 ops1 L1 d1) as H1. pose proof (drun_core m clk2 ops2 L2 d2) as H2.
  rewrite Ec, Ep in H1. destruct (core_run m (dc_core d2) (packets ops2)) as [c|x|x].
  - destruct H1 as (d1' & o1 & n1 & -> & E1 & G1 & U1). destruct H2 as (d2' & o2 & n2 & -> & E2 & G2 & U2).
    rewrite G1 in G2. apply app_inv_head in G2. split; congruence.
  - contradiction.
  - rewrite H1, H2. reflexivity.
Qed.
Print Assumptions C51_acks_do_not_matter.

(** The same receiver with other ack settings. *)
Corollary C51_ack_settings :
  forall m clk1 clk2 f o ops1 ops2,
  packets ops1 = packets ops2 -> Forall legal_setting ops1 -> Forall legal_setting ops2 ->
  forall d1 d2 out1 out2, drun m clk1 (new_dec clk1 f o) ops1 = Ok (d1, out1) ->
  drun m clk2 (new_dec clk2 f o) ops2 = Ok (d2, out2) -> to_user out1 = to_user out2 /\ held d1 = held d2.
Proof.
  intros m clk1 clk2 f o ops1 ops2 Ep L1 L2 d1 d2 out1 out2 E1 E2.
  pose proof (C51_acks_do_not_matter m clk1 clk2 (new_dec clk1 f o) (new_dec clk2 f o) ops1 ops2 eq_refl Ep L1 L2) as H.
  rewrite E1, E2 in H. destruct H as [H1 H2]. split; [exact H1|]. unfold held. rewrite H2. reflexivity.
Qed.
Print Assumptions C51_ack_settings.

(** ** C52: ordering changes only when data are delivered *)

Lemma copy_be_bound p n : forall pos acc v k, Forall (fun b => b < 256) p -> copy_be p pos n acc = Ok v ->
  acc < 256 ^ k -> v < 256 ^ (k + N.of_nat n).
Proof.
  induction n as [|n IH]; intros pos acc v k B H Ha; cbn [copy_be] in H.
  - injection H as <-. rewrite N.add_0_r. exact Ha.
  - destruct (nth_error p pos) as [b|] eqn:Eb; [|discriminate]. apply nth_error_In in Eb. rewrite Forall_forall in B. specialize (B b Eb) as Hb.
    apply (IH _ _ _ (k + 1)) in H; [|apply Forall_forall, B|].
    + replace (k + N.of_nat (S n)) with (k + 1 + N.of_nat n) by lia. exact H.
    + rewrite N.pow_add_r, N.pow_1_r. nia.
Qed.

Lemma source_id_small m p s n : Forall (fun b => b < 256) p -> read_source m p = Ok (s, n) -> small (ds_id s).
Proof.
  intros B H. unfold read_source in H. apply bind_ok in H. destruct H as (_ & _ & H). cbv zeta in H.
  apply bind_ok in H. destruct H as ([t c1] & _ & H). apply bind_ok in H. destruct H as ([id c2] & Ei & H).
  apply bind_ok in H. destruct H as ([sz c3] & _ & H). apply bind_ok in H. destruct H as (c4 & _ & H).
  assert (Es : ds_id s = id) by (injection H as <- _; reflexivity). rewrite Es. unfold small.
  destruct c1 as [pos ml]. unfold read in Ei. destruct (Nat.ltb ml 4); [discriminate|].
  apply bind_ok in Ei. destruct Ei as (v & Ev & Ei). assert (v = id) by congruence. subst v.
  apply (copy_be_bound _ _ _ _ _ 0 B) in Ev; [exact Ev | reflexivity].
Qed.

Lemma core_run_twin m ps : Forall (Forall (fun b => b < 256)) ps -> forall d lg, inv d lg ->
  relo (twin lg) (core_run m d ps) (core_run m (unord d lg) ps).
Proof.
  induction 1 as [|p ps B _ IH]; intros d lg I; cbn [core_run].
  - cbn [relo]. apply twin_refl, I.
  - assert (X : relo (twin lg) (core_packet m d p) (core_packet m (unord d lg) p)).
    { unfold core_packet. apply relo_eq. intros t _. destruct t; [reflexivity | |].
      - apply relo_eq. intros [r n] E. apply recv_repair_twin; [exact I|].
        destruct (proj2 (C08_parsed_ids m p) r n E) as [_ S]. rewrite Forall_forall in S. exact S.
      - apply relo_eq. intros [s n] E. apply recv_source_twin; [exact I|]. eapply source_id_small; eassumption. }
    destruct (core_packet m d p) as [c|x|x], (core_packet m (unord d lg) p) as [c'|x'|x']; cbn [relo] in X; try contradiction.
    + destruct X as (lg' & -> & Inc & I'). eapply relo_weaken; [exact Inc|]. apply IH, I'.
    + apply IH, I.
    + cbn [relo]. exact X.
Qed.

(** A receiver with ordering and one without get the same packets (any bytes,
    from anywhere). They make the same faults; they hold the same sources, with the
    same contents, miss the same ones, keep the same repairs and count the same;
    whatever the one with ordering delivers, the other one delivers too. *)
Theorem C52_ordering_only_delays :
  forall m clk1 clk2 f ops1 ops2,
  packets ops1 = packets ops2 -> Forall (Forall (fun b => b < 256)) (packets ops1) ->
  Forall legal_setting ops1 -> Forall legal_setting ops2 ->
  match drun m clk1 (new_dec clk1 f true) ops1, drun m clk2 (new_dec clk2 f false) ops2 with
  | Ok (d1, out1), Ok (d2, out2) =>
      d_sources (dc_core d1) = d_sources (dc_core d2)
      /\ d_missing (dc_core d1) = d_missing (dc_core d2)
      /\ d_repairs (dc_core d1) = d_repairs (dc_core d2)
      /\ (forall x, too_old d1 x <-> too_old d2 x)
      /\ d_decoded (dc_core d1) = d_decoded (dc_core d2)
      /\ d_useless (dc_core d1) = d_useless (dc_core d2)
      /\ d_failed (dc_core d1) = d_failed (dc_core d2)
      /\ incl (to_user out1) (to_user out2)
  | Fault x, Fault y => x = y
  | _, _ => False
  end.
Proof.
  intros m clk1 clk2 f ops1 ops2 Ep B L1 L2.
  pose proof (drun_core m clk1 ops1 L1 (new_dec clk1 f true)) as H1.
  pose proof (drun_core m clk2 ops2 L2 (new_dec clk2 f false)) as H2. cbn [new_dec dc_core] in H1, H2. rewrite <- Ep in H2.
  pose proof (core_run_twin m (packets ops1) B (new_ddec f true) [] (new_inv f)) as T.
  change (unord (new_ddec f true) []) with (new_ddec f false) in T.
  destruct (core_run m (new_ddec f true) (packets ops1)) as [c1|x|x], (core_run m (new_ddec f false) (packets ops1)) as [c2|y|y];
    cbn [relo] in T; try contradiction.
  - destruct H1 as (d1 & o1 & n1 & -> & E1 & G1 & U1). destruct H2 as (d2 & o2 & n2 & -> & E2 & G2 & U2).
    destruct T as (lg & Et & _ & I). cbn [new_ddec d_log app] in G1, G2. unfold too_old. rewrite E1, E2, Et.
    cbn [unord d_sources d_missing d_repairs d_last d_decoded d_useless d_failed].
    split; [reflexivity|]. split; [reflexivity|]. split; [reflexivity|]. split; [reflexivity|].
    split; [reflexivity|]. split; [reflexivity|]. split; [reflexivity|].
    rewrite U1, U2, <- G1, <- G2, Et. cbn [unord d_log]. intros x Hx. apply in_map_iff in Hx. destruct Hx as (v & <- & Hv).
    assert (Hp : In (v_id v, v_data v) (pairs lg)).
    { apply (iv_log _ _ I). unfold pairs. apply in_map_iff. exists v. auto. }
    unfold pairs in Hp. apply in_map_iff in Hp. destruct Hp as (w & Ew & Hw). apply in_map_iff. exists w. split; [congruence | exact Hw].
  - rewrite H1, H2. exact T.
Qed.
Print Assumptions C52_ordering_only_delays.

(** Source 1 is lost and rebuilt; the second receiver acks at each packet, on
    request and by its clock, the first one never; a foreign packet throws. *)
Definition quiet_calls : list dop :=
  [DSetNb 100; DPacket (spkt 0); DPacket (spkt 2); DPacket [9; 9]; DPacket (rpkt 0 [0; 1; 2]); DPacket (spkt 4)].
Definition chatty_calls : list dop :=
  [DSetNb 1; DPacket (spkt 0); DAck; DSetPeriod 5; DPacket (spkt 2); DPacket [9; 9]; DMaybe; DSetNb 2;
   DPacket (rpkt 0 [0; 1; 2]); DAck; DPacket (spkt 4); DMaybe].
Definition fast : clock := fun n => (Z.of_nat n * 7000000)%Z.

Definition user_of (r : outcome (dec * list dout)) : list (list N) :=
  match r with Ok (_, out) => to_user out | _ => [] end.
Definition network_of (r : outcome (dec * list dout)) : nat :=
  match r with Ok (_, out) => length (to_network out) | _ => 0%nat end.

Example C51_case :
  packets quiet_calls = packets chatty_calls /\ Forall legal_setting quiet_calls /\ Forall legal_setting chatty_calls
  /\ user_of (drun Debug still (new_dec still W8 true) quiet_calls) = [datum 0; datum 1; datum 2]
  /\ user_of (drun Debug fast (new_dec fast W8 true) chatty_calls) = [datum 0; datum 1; datum 2]
  /\ network_of (drun Debug still (new_dec still W8 true) quiet_calls) = 0%nat
  /\ network_of (drun Debug fast (new_dec fast W8 true) chatty_calls) = 7%nat.
Proof.
  split; [reflexivity|]. split; [repeat constructor|]. split; [repeat constructor|].
  repeat split; vm_compute; reflexivity.
Qed.

(** Without ordering the same packets deliver 2 before 1, and 4 at once. *)
Example C52_case :
  Forall (Forall (fun b => b < 256)) (packets quiet_calls)
  /\ user_of (drun Debug fast (new_dec fast W8 false) chatty_calls) = [datum 0; datum 2; datum 1; datum 4].
Proof. split; [repeat constructor | vm_compute; reflexivity]. Qed.

(** The setting's precondition matters: a debug build aborts on
    [set_ack_nb_packets 0]. *)
Example C51_illegal_setting : drun Debug still (new_dec still W8 true) [DSetNb 0] = Fault AssertFailure.
Proof. reflexivity. Qed.
