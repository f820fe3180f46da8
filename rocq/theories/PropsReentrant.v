(** * A data handler that calls the receiver

    C79: asking for acks or changing the ack settings from inside the data handler
    is safe; giving the receiver another packet there is not. *)
From Coq Require Import ZArith NArith PeanoNat List Bool Lia.
From Verif Require DecoderThrow.
From Verif Require Import Outcome GF Containers ContainersFacts Packetizer Matrix Encoder DetailDecoder Decoder DecoderFacts
  DecoderOuter PropsDecoder PropsModes DecoderHandlersFacts Reentrant ReentrantFacts.
Import ListNotations.
Open Scope N_scope.
Open Scope outcome_scope.

(** ** Vocabulary *)

(** A call of [generate_ack], [maybe_ack], [set_ack_period] or, with a number above
    zero, [set_ack_nb_packets]. *)
Definition about_acks (op : dop) : Prop := gives_packet op = false /\ legal_setting op.

(** A data handler that makes such calls only. *)
Definition only_about_acks (react : reaction) : Prop :=
  forall seen x, Forall about_acks (react seen x).

(** A data handler that makes no call. *)
Definition no_calls : reaction := fun _ _ => [].

(** ** One packet *)

(** A call about acks ends, leaves the decoding state and gives the user no data. *)
Lemma call_about_acks depth react m clk d out op : about_acks op ->
  exists d' a, re_call (S depth) react m clk (d, out) op = Ok (d', out ++ a)
  /\ dc_core d' = dc_core d /\ to_user a = [].
Proof.
  intros [Hp Hl]. destruct op as [p| | |x|n]; [discriminate| | | |]; cbn [re_call].
  - exists (fst (generate_ack d)), (snd (generate_ack d)). split; [reflexivity|]. split; reflexivity.
  - destruct (maybe_ack clk d) as [d' a] eqn:E. exists d', a. split; [reflexivity|].
    unfold maybe_ack, maybe_ack_of, generate_ack_of in E.
    destruct (_ <=? _); [|destruct (_ =? _)%Z; [|destruct (_ <=? _)%Z]]; injection E as <- <-; split; reflexivity.
  - exists (set_ack_period d x), []. rewrite app_nil_r. repeat split.
  - cbn [legal_setting] in Hl. unfold set_ack_nb_packets. replace (0 <? n) with true by (symmetry; apply N.ltb_lt, Hl).
    replace (assert_ m true) with (Ok tt) by (destruct m; reflexivity). cbn [bind].
    eexists. exists []. rewrite app_nil_r. split; [reflexivity|]. split; reflexivity.
Qed.

Lemma calls_about_acks depth react m clk ops : Forall about_acks ops -> forall d out,
  exists d' a, fold_left (fun t op => t <- t ;; re_call (S depth) react m clk t op) ops (Ok (d, out)) = Ok (d', out ++ a)
  /\ dc_core d' = dc_core d /\ to_user a = [].
Proof.
  induction 1 as [|op ops Hop _ IH]; intros d out.
  - exists d, []. cbn [fold_left]. rewrite app_nil_r. auto.
  - cbn [fold_left bind]. destruct (call_about_acks depth react m clk d out op Hop) as (d1 & a1 & E1 & C1 & U1). rewrite E1.
    destruct (IH d1 (out ++ a1)) as (d2 & a2 & E2 & C2 & U2). exists d2, (a1 ++ a2).
    split; [rewrite E2, app_assoc; reflexivity|]. split; [congruence|]. rewrite to_user_app, U1, U2. reflexivity.
Qed.

(** The callback with such a handler. *)
Lemma handle_about_acks depth react m clk : only_about_acks react -> forall d out c v,
  exists d' a, re_handle (re_call (S depth) react m clk) react clk (d, out) c v = Ok ((d', out ++ ToUser (v_data v) :: a), c, false)
  /\ to_user a = []
  /\ (react (to_user out) (v_data v) = [DAck] ->
      exists rest, a = snd (generate_ack_of (mkeys (d_sources c)) d) ++ rest).
Proof.
  intros H d out c v. unfold re_handle. specialize (H (to_user out) (v_data v)).
  destruct (calls_about_acks depth react m clk _ H (with_core d c) (out ++ [ToUser (v_data v)])) as (d1 & a1 & E1 & C1 & U1).
  rewrite E1. cbn [bind]. destruct (maybe_ack clk d1) as [d2 a2] eqn:E2.
  assert (X : dc_core d2 = c /\ to_user a2 = []).
  { unfold maybe_ack, maybe_ack_of, generate_ack_of in E2. cbn [dc_core with_core] in C1.
    destruct (_ <=? _); [|destruct (_ =? _)%Z; [|destruct (_ <=? _)%Z]]; injection E2 as <- <-; split; auto. }
  destruct X as [C2 U2]. exists d2, (a1 ++ a2).
  split; [|split].
  - rewrite C2. replace (existsb gives_packet _) with false; [rewrite <- !app_assoc; reflexivity|].
    symmetry. apply not_true_is_false. intros Hx. apply existsb_exists in Hx. destruct Hx as (op & Ho & Hx).
    rewrite Forall_forall in H. apply H in Ho. destruct Ho as [Ho _]. congruence.
  - rewrite to_user_app, U1, U2. reflexivity.
  - intros Hr. rewrite Hr in E1. cbn [fold_left bind] in E1. unfold re_call in E1.
    change (generate_ack (with_core d c)) with (generate_ack_of (mkeys (d_sources c)) (with_core d c)) in E1.
    cbn [generate_ack_of] in E1.
    injection E1 as _ E1. apply app_inv_head in E1.
    exists a2. rewrite <- E1. reflexivity.
Qed.

(** What a packet does, for a callback that leaves the decoding state. *)
Lemma packet_sim cb (R : N -> N -> list event -> shared -> Prop) m d out p :
  (forall a b l t c v, R a b l t -> mkeys (d_sources c) = v_known v ->
     exists t', cb t c v = Ok (t', c, false) /\ R a b (l ++ [v]) t') ->
  (forall a b, R a b [] (count_packet d a b, out)) ->
  match core_packet m (dc_core d) p with
  | Ok c => exists a b d' out' new, re_packet cb m (d, out) p = Ok (with_core d' c, out')
      /\ d_log c = d_log (dc_core d) ++ new /\ R a b new (d', out')
  | Throw _ => exists d', re_packet cb m (d, out) p = Ok (d', out) /\ dc_core d' = dc_core d
  | Fault x => re_packet cb m (d, out) p = Fault x
  end.
Proof.
  intros Q R0. unfold core_packet, re_packet.
  destruct (bind (assert_ m (Nat.ltb 0 (length p))) _) as [t|x|x]; cbn [bind]; [|eauto | reflexivity].
  destruct t; [eauto | |]; cbv zeta.
  - destruct (read_repair m p) as [[r n]|x|x]; cbn [bind]; [|exists (count_packet d 1 0); auto | reflexivity].
    assert (G : good (R 1 0) (d_log (dc_core d)) (count_packet d 1 0, out) (dc_core d)).
    { exists []. rewrite app_nil_r. auto. }
    pose proof (re_recv_repair_sim cb (R 1 0) (Q 1 0) (d_log (dc_core d)) m _ _ r G) as H.
    change (dc_core (count_packet d 1 0)) with (dc_core d).
    destruct (recv_repair m (dc_core d) r) as [c|x|x]; cbn [sim] in H.
    + destruct H as ([d' out'] & E & new & L & H). exists 1, 0, d', out', new. rewrite E. auto.
    + rewrite H. exists (count_packet d 1 0). auto.
    + rewrite H. reflexivity.
  - destruct (read_source m p) as [[s n]|x|x]; cbn [bind]; [|exists (count_packet d 0 1); auto | reflexivity].
    assert (G : good (R 0 1) (d_log (dc_core d)) (count_packet d 0 1, out) (dc_core d)).
    { exists []. rewrite app_nil_r. auto. }
    pose proof (re_recv_source_sim cb (R 0 1) (Q 0 1) (d_log (dc_core d)) m _ _ (ds_id s) (ds_data s) G) as H.
    change (dc_core (count_packet d 0 1)) with (dc_core d).
    destruct (recv_source m (dc_core d) (ds_id s) (ds_data s)) as [c|x|x]; cbn [sim] in H.
    + destruct H as ([d' out'] & E & new & L & H). exists 0, 1, d', out', new. rewrite E. auto.
    + rewrite H. exists (count_packet d 0 1). auto.
    + rewrite H. reflexivity.
Qed.

(** ** C79: calls about acks from inside the data handler *)

Lemma run_about_acks depth react m clk : only_about_acks react -> forall ops d out, Forall legal_setting ops ->
  match core_run m (dc_core d) (packets ops) with
  | Ok c => exists d' a new, fold_left (fun t op => t <- t ;; re_call (S (S depth)) react m clk t op) ops (Ok (d, out)) = Ok (d', out ++ a)
      /\ dc_core d' = c /\ d_log c = d_log (dc_core d) ++ new /\ to_user a = map v_data new
  | Throw _ => False
  | Fault x => fold_left (fun t op => t <- t ;; re_call (S (S depth)) react m clk t op) ops (Ok (d, out)) = Fault x
  end.
Proof.
  intros Q. induction ops as [|op ops IH]; intros d out Hl.
  - cbn [packets core_run fold_left]. exists d, [], []. rewrite !app_nil_r. auto.
  - pose proof (Forall_inv Hl) as Hop. apply Forall_inv_tail in Hl. cbn [fold_left bind].
    destruct (gives_packet op) eqn:Eg.
    + destruct op as [p| | | |]; try discriminate. cbn [packets core_run].
      change (re_call (S (S depth)) react m clk (d, out) (DPacket p))
        with (re_packet (re_handle (re_call (S depth) react m clk) react clk) m (d, out) p).
      pose (R := fun (_ _ : N) l (t : shared) => exists a, snd t = out ++ a /\ to_user a = map v_data l).
      assert (H : forall a0 b0 l t c1 v, R a0 b0 l t -> mkeys (d_sources c1) = v_known v ->
        exists t', re_handle (re_call (S depth) react m clk) react clk t c1 v = Ok (t', c1, false) /\ R a0 b0 (l ++ [v]) t').
      { intros a0 b0 l [d1 o1] c1 v (a & Ea & Ua) _. destruct (handle_about_acks depth react m clk Q d1 o1 c1 v) as (d2 & a2 & E2 & U2 & _).
        eexists. split; [exact E2|]. exists (a ++ ToUser (v_data v) :: a2). cbn [snd] in *. rewrite Ea, <- app_assoc.
        split; [reflexivity|]. rewrite to_user_app, map_app, Ua. cbn [to_user map]. rewrite U2. reflexivity. }
      assert (R0 : forall a0 b0, R a0 b0 [] (count_packet d a0 b0, out)) by (intros a0 b0; exists []; rewrite app_nil_r; auto).
      apply (packet_sim _ R m d out p H) in R0. clear H. rename R0 into H.
      destruct (core_packet m (dc_core d) p) as [c|x|x].
      * destruct H as (a0 & b0 & d' & out' & new & E & L & (a & Ea & Ua)).
        cbn [snd] in Ea. subst out'. rewrite E. specialize (IH (with_core d' c) (out ++ a) Hl). cbn [dc_core with_core] in IH.
        destruct (core_run m c (packets ops)) as [c2|x|x]; [|exact IH | exact IH].
        destruct IH as (d2 & a2 & new2 & E2 & C2 & L2 & U2). exists d2, (a ++ a2), (new ++ new2).
        split; [rewrite E2, app_assoc; reflexivity|]. split; [exact C2|]. split; [rewrite L2, L, app_assoc; reflexivity|].
        rewrite to_user_app, map_app, Ua, U2. reflexivity.
      * destruct H as (d' & E & C).
        rewrite E. specialize (IH d' out Hl). rewrite C in IH. exact IH.
      * rewrite H. clear. induction ops as [|op ops IH]; [reflexivity|]. cbn [fold_left bind]. exact IH.
    + destruct (call_about_acks (S depth) react m clk d out op (conj Eg Hop)) as (d1 & a1 & E1 & C1 & U1). rewrite E1.
      specialize (IH d1 (out ++ a1) Hl). rewrite C1 in IH.
      replace (packets (op :: ops)) with (packets ops) by (destruct op; [discriminate | | | |]; reflexivity).
      destruct (core_run m (dc_core d) (packets ops)) as [c2|x|x]; [|exact IH | exact IH].
      destruct IH as (d2 & a2 & new2 & E2 & C2 & L2 & U2). exists d2, (a1 ++ a2), new2.
      split; [rewrite E2, app_assoc; reflexivity|]. split; [exact C2|]. split; [exact L2|].
      rewrite to_user_app, U1, U2. reflexivity.
Qed.

(** The data handler may ask for acks and change the ack settings, depending on all
    it has got. The receiver then delivers the same data, ends in the same decoding
    state and makes the same faults as one whose handler makes no call, whatever
    the clocks and the explicit calls around it. *)
Theorem C79_calls_about_acks :
  forall m clk1 clk2 react depth d1 d2 ops1 ops2,
  only_about_acks react -> (2 <= depth)%nat ->
  dc_core d1 = dc_core d2 -> packets ops1 = packets ops2 ->
  Forall legal_setting ops1 -> Forall legal_setting ops2 ->
  match re_run depth react m clk1 d1 ops1, drun m clk2 d2 ops2 with
  | Ok (d1', out1), Ok (d2', out2) => to_user out1 = to_user out2 /\ dc_core d1' = dc_core d2'
  | Fault x, Fault y => x = y
  | _, _ => False
  end.
Proof.
  intros m clk1 clk2 react depth d1 d2 ops1 ops2 Q Hd Ec Ep L1 L2.
  destruct depth as [|[|depth]]; [lia | lia |].
  pose proof (run_about_acks depth react m clk1 Q ops1 d1 [] L1) as H1. pose proof (drun_core m clk2 ops2 L2 d2) as H2.
  unfold re_run. rewrite Ec, Ep in H1. destruct (core_run m (dc_core d2) (packets ops2)) as [c|x|x].
  - destruct H1 as (d1' & o1 & n1 & -> & E1 & G1 & U1). destruct H2 as (d2' & o2 & n2 & -> & E2 & G2 & U2).
    rewrite G1 in G2. apply app_inv_head in G2. cbn [app]. split; congruence.
  - contradiction.
  - rewrite H1, H2. reflexivity.
Qed.
Print Assumptions C79_calls_about_acks.

(** ** The model with handlers that make no calls is the receiver of Decoder.v *)

Lemma with_core_ack clk d c v : handle_source clk (with_core d c) v
  = (with_core (fst (handle_source clk d v)) c, snd (handle_source clk d v)).
Proof.
  unfold handle_source, maybe_ack_of, generate_ack_of. cbn [with_core dc_ack_nb dc_ack dc_period dc_reads dc_last_date].
  destruct (_ <=? _); [reflexivity|]. destruct (_ =? _)%Z; [reflexivity|]. destruct (_ <=? _)%Z; reflexivity.
Qed.

Lemma handle_sources_core clk l : forall d c, handle_sources clk (with_core d c) l
  = (with_core (fst (handle_sources clk d l)) c, snd (handle_sources clk d l)).
Proof.
  induction l as [|v l IH]; intros d c; cbn [handle_sources]; [reflexivity|].
  rewrite with_core_ack. destruct (handle_source clk d v) as [d1 o1]. cbn [fst snd]. rewrite IH.
  destruct (handle_sources clk d1 l) as [d2 o2]. reflexivity.
Qed.

Lemma handle_sources_snoc clk l v : forall d, handle_sources clk d (l ++ [v])
  = (fst (handle_source clk (fst (handle_sources clk d l)) v),
     snd (handle_sources clk d l) ++ snd (handle_source clk (fst (handle_sources clk d l)) v)).
Proof.
  induction l as [|w l IH]; intros d; cbn [handle_sources app].
  - cbn [fst snd app]. destruct (handle_source clk d v) as [d1 o1]. cbn [fst snd]. rewrite app_nil_r. reflexivity.
  - destruct (handle_source clk d w) as [d1 o1]. rewrite IH. destruct (handle_sources clk d1 l) as [d2 o2]. cbn [fst snd].
    rewrite app_assoc. reflexivity.
Qed.

Lemma with_core_twice d a b : with_core (with_core d a) b = with_core d b.
Proof. reflexivity. Qed.

Lemma packet_without_calls depth m clk d out p :
  re_packet (re_handle (re_call depth no_calls m clk) no_calls clk) m (d, out) p =
  match dec_packet m clk d p with
  | (d', Ok (o, _)) => Ok (d', out ++ o)
  | (d', Throw _) => Ok (d', out)
  | (_, Fault x) => Fault x
  end.
Proof.
  pose (cb := re_handle (re_call depth no_calls m clk) no_calls clk). fold cb.
  pose (R := fun d0 l (t : shared) => snd t = out ++ snd (handle_sources clk d0 l)
             /\ forall c, with_core (fst t) c = with_core (fst (handle_sources clk d0 l)) c).
  assert (Q : forall d0 l t c v, R d0 l t -> mkeys (d_sources c) = v_known v ->
              exists t', cb t c v = Ok (t', c, false) /\ R d0 (l ++ [v]) t').
  { intros d0 l [d1 o1] c v [E1 E2] Hk. unfold cb, re_handle. cbn [no_calls fold_left bind existsb]. unfold maybe_ack.
    cbn [with_core dc_core]. rewrite Hk, E2. cbn [fst snd] in *.
    unfold R. rewrite handle_sources_snoc. cbn [fst snd].
    set (d2 := fst (handle_sources clk d0 l)) in *. pose proof (with_core_ack clk d2 c v) as W.
    unfold handle_source in *. destruct (maybe_ack_of clk (v_known v) (with_core d2 c)) as [d3 a3].
    destruct (maybe_ack_of clk (v_known v) d2) as [d4 a4]. cbn [fst snd] in *.
    assert (X : d3 = with_core d4 c /\ a3 = a4) by (split; congruence). destruct X as [-> ->].
    eexists. split; [reflexivity|]. cbn [fst snd]. split; [rewrite E1, <- !app_assoc; reflexivity | reflexivity]. }
  assert (G : forall d0, dc_core d0 = dc_core d -> good (R d0) (d_log (dc_core d)) (d0, out) (dc_core d)).
  { intros d0 _. exists []. rewrite app_nil_r. split; [reflexivity|]. split; [cbn [handle_sources fst snd]; rewrite app_nil_r; reflexivity | reflexivity]. }
  assert (F : forall d0 run x, dc_core d0 = dc_core d -> sim (R d0) (d_log (dc_core d)) x (run (dc_core d)) ->
    match x with
    | Ok (d', o, c) => Ok (with_core d' c, o)
    | Throw _ => Ok (d0, out)
    | Fault e => Fault e
    end = match finish d0 ('(d, o) <- call_core clk d0 run ;; Ok (d, (o, O))) with
          | (d', Ok (o, _)) => Ok (d', out ++ o)
          | (d', Throw _) => Ok (d', out)
          | (_, Fault e) => Fault e
          end).
  { intros d0 run x Ec H. unfold call_core. rewrite Ec. destruct (run (dc_core d)) as [c|e|e]; cbn [sim bind] in *.
    - destruct H as ([d' o'] & -> & l & El & [E1 E2]). cbn [fst snd] in *.
      rewrite El, skipn_app, skipn_all, Nat.sub_diag. cbn [skipn app]. rewrite handle_sources_core. cbn [bind finish].
      rewrite E1, E2. reflexivity.
    - rewrite H. reflexivity.
    - rewrite H. reflexivity. }
  unfold re_packet, dec_packet.
  destruct (bind (assert_ m (Nat.ltb 0 (length p))) _) as [t|x|x]; [|reflexivity | reflexivity].
  destruct t; [reflexivity | |]; cbv zeta.
  - destruct (read_repair m p) as [[r n]|x|x]; cbn [bind]; [|reflexivity | reflexivity].
    set (d0 := count_packet d 1 0).
    pose proof (F d0 (fun c => recv_repair m c r) _ eq_refl (re_recv_repair_sim cb (R d0) (Q d0) _ m _ _ r (G d0 eq_refl))) as H.
    cbn [dc_core d0 count_packet] in *. change (dc_core d0) with (dc_core d). rewrite H. clear H.
    destruct (call_core clk d0 _) as [[d' o]|x|x]; reflexivity.
  - destruct (read_source m p) as [[s n]|x|x]; cbn [bind]; [|reflexivity | reflexivity].
    set (d0 := count_packet d 0 1).
    pose proof (F d0 (fun c => recv_source m c (ds_id s) (ds_data s)) _ eq_refl (re_recv_source_sim cb (R d0) (Q d0) _ m _ _ (ds_id s) (ds_data s) (G d0 eq_refl))) as H.
    change (dc_core d0) with (dc_core d). rewrite H. clear H.
    destruct (call_core clk d0 _) as [[d' o]|x|x]; reflexivity.
Qed.

(** A data handler that makes no calls: the same data, acks, counters and faults as
    in [drun]. *)
Theorem C79_without_calls :
  forall m clk depth d ops,
  (1 <= depth)%nat -> re_run depth no_calls m clk d ops = drun m clk d ops.
Proof.
  intros m clk [|depth] d ops Hd; [lia|]. clear Hd. unfold re_run.
  assert (H : forall out, fold_left (fun t op => t <- t ;; re_call (S depth) no_calls m clk t op) ops (Ok (d, out))
    = ('(d, o) <- drun m clk d ops ;; Ok (d, out ++ o))).
  { revert d. induction ops as [|op ops IH]; intros d out.
    - cbn [fold_left drun bind]. rewrite app_nil_r. reflexivity.
    - cbn [fold_left drun bind].
      assert (X : re_call (S depth) no_calls m clk (d, out) op =
        match dstep m clk d op with (d', Ok o) => Ok (d', out ++ o) | (d', Throw _) => Ok (d', out) | (_, Fault x) => Fault x end).
      { destruct op as [p| | |x|n].
        - change (re_call (S depth) no_calls m clk (d, out) (DPacket p))
            with (re_packet (re_handle (re_call depth no_calls m clk) no_calls clk) m (d, out) p).
          rewrite packet_without_calls. cbn [dstep]. destruct (dec_packet m clk d p) as [d' [[o n]|x|x]]; reflexivity.
        - reflexivity.
        - cbn [re_call dstep]. destruct (maybe_ack clk d); reflexivity.
        - cbn [re_call dstep]. rewrite app_nil_r. reflexivity.
        - cbn [re_call dstep]. destruct (set_ack_nb_packets m d n); cbn [bind finish]; rewrite ?app_nil_r; reflexivity. }
      rewrite X. destruct (dstep m clk d op) as [d' [o|x|x]].
      + rewrite IH. destruct (drun m clk d' ops) as [[d2 o2]|x|x]; cbn [bind]; [rewrite app_assoc; reflexivity | reflexivity | reflexivity].
      + apply IH.
      + clear. induction ops as [|op ops IH]; [reflexivity|]. cbn [fold_left bind]. exact IH. }
  rewrite H. destruct (drun m clk d ops) as [[d' o]|x|x]; reflexivity.
Qed.
Print Assumptions C79_without_calls.

(** ** An ack asked for inside the handler does not have the datum at hand *)

(** An unordered receiver gets a new source. If the data handler asks for an ack
    when it gets the datum, this ack lists the sources held before the packet: not
    the one just delivered, which is only stored after the handler returned. *)
Theorem C79_ack_inside :
  forall m clk f tr d p id x n react depth d' out,
  receiver m clk f false tr d -> source_packet m p id x n ->
  ~ too_old d id -> ~ In id (held d) ->
  only_about_acks react -> react [] x = [DAck] -> (2 <= depth)%nat ->
  re_run depth react m clk d [DPacket p] = Ok (d', out) ->
  exists rest nb,
    out = ToUser x :: ToNetwork (concat (write_ack {| a_ids := held d; a_nb := nb |})) :: rest.
Proof.
  intros m clk f tr d p id x n react depth d' out T (Ht & s & Es & Ei & Ed) Ho Hh Q Hr Hd H.
  destruct depth as [|[|depth]]; [lia | lia |]. clear Hd.
  apply dtrace_history in T. pose proof (dh_ids _ _ _ _ T) as A. pose proof (dh_in_order _ _ _ _ T) as I.
  assert (Hk : ssorted (mkeys (d_sources (dc_core d)))) by apply (dh_good _ _ _ _ T). clear T.
  unfold re_run in H. cbn [fold_left bind] in H.
  change (re_call (S (S depth)) react m clk (d, []) (DPacket p))
    with (re_packet (re_handle (re_call (S depth) react m clk) react clk) m (d, []) p) in H.
  unfold re_packet in H.
  replace (assert_ m (Nat.ltb 0 (length p))) with (Ok tt) in H
    by (destruct p; [discriminate Ht | destruct m; reflexivity]).
  cbn [bind] in H. rewrite (has_type_source p Ht), Es in H. cbn [bind] in H. cbv zeta in H. rewrite Ei, Ed in H.
  set (d0 := count_packet d 0 1) in *. change (dc_core d0) with (dc_core d) in H.
  pose (R := fun l (t : shared) => match l with
    | [] => snd t = [] /\ a_ids (dc_ack (fst t)) = []
    | v :: _ => v_data v = x -> ssorted (v_known v) -> exists rest nb, snd t
        = ToUser x :: ToNetwork (concat (write_ack {| a_ids := v_known v; a_nb := nb |})) :: rest
    end).
  assert (QR : forall l t c v, R l t -> mkeys (d_sources c) = v_known v ->
    exists t', re_handle (re_call (S depth) react m clk) react clk t c v = Ok (t', c, false) /\ R (l ++ [v]) t').
  { intros l [d1 o1] c v Hl Hc. destruct (handle_about_acks depth react m clk Q d1 o1 c v) as (d2 & a & E & _ & Ha).
    eexists. split; [exact E|]. destruct l as [|w l]; cbn [R app fst snd] in *.
    - destruct Hl as [-> Hl]. intros Hv Hs. rewrite Hv in Ha. destruct (Ha Hr) as [rest ->]. rewrite Hc, Hv.
      destruct (generate_ack_of (v_known v) d1) as [d3 o3] eqn:Eg. apply generate_ack_of_spec in Eg; [|exact Hl | exact Hs].
      destruct Eg as (_ & _ & _ & _ & _ & ->). cbn [snd app]. eexists. eexists. reflexivity.
    - intros Hw Hs. destruct (Hl Hw Hs) as (rest & nb & ->). eexists. exists nb. rewrite <- !app_comm_cons. reflexivity. }
  assert (G0 : good R (d_log (dc_core d)) (d0, []) (dc_core d)).
  { exists []. rewrite app_nil_r. split; [reflexivity|]. split; [reflexivity | exact A]. }
  pose proof (re_recv_source_sim _ R QR (d_log (dc_core d)) m _ _ id x G0) as X.
  destruct (recv_source m (dc_core d) id x) as [c|e|e] eqn:Er; cbn [sim] in X.
  - destruct X as ([d1 o1] & E1 & new & El & X). rewrite E1 in H. injection H as _ <-.
    assert (Y : exists rest, d_log c = d_log (dc_core d) ++ {| v_id := id; v_data := x; v_known := mkeys (d_sources (dc_core d)) |} :: rest).
    { unfold recv_source in Er. rewrite (not_too_old _ _ Ho) in Er.
      destruct (mmem id (d_sources (dc_core d))) eqn:Em; [exfalso; apply Hh; apply mmem_spec, Em|].
      apply bind_ok in Er. destruct Er as (c1 & Ea & Er). apply attempt_moves in Er.
      unfold enough in Ea. cbn [add_source] in Ea. unfold announce in Ea. rewrite I in Ea. cbn [negb bind] in Ea.
      apply bind_ok in Ea. destruct Ea as (c2 & E2 & Ea). apply no_longer_missing_moves in E2.
      apply bind_ok in Ea. destruct Ea as (c3 & E3 & Ea). apply scan_moves in E3; [|apply add_source_moves].
      apply store_moves in Ea. pose proof (moves_trans _ _ _ (moves_trans _ _ _ (moves_trans _ _ _ E2 E3) Ea) Er) as M.
      destruct (mv_log _ _ M) as [rest E]. exists rest. rewrite E. cbn [callback d_log]. rewrite <- app_assoc. reflexivity. }
    destruct Y as [rest Y]. rewrite Y in El. apply app_inv_head in El. subst new. exact (X eq_refl Hk).
  - exfalso. exact (DecoderThrow.recv_source_quiet _ _ _ _ _ Er).
  - rewrite X in H. discriminate.
Qed.
Print Assumptions C79_ack_inside.

(** ** Giving the receiver a packet from inside its data handler *)

(** The handler gives the receiver packet [p] on the first datum only. *)
Definition gives_once (p : packet) : reaction :=
  fun seen _ => match seen with [] => [DPacket p] | _ => [] end.

(** If it gives the packet being handled once more, the datum is delivered twice;
    a build with assertions stops. *)
Theorem C79_same_packet_refuted :
  exists p, (exists d out, re_run 3 (gives_once p) Release still (new_dec still W8 false) [DPacket p] = Ok (d, out)
             /\ to_user out = [datum 0; datum 0])
  /\ re_run 3 (gives_once p) Debug still (new_dec still W8 false) [DPacket p] = Fault AssertFailure
  /\ (exists d out, drun Release still (new_dec still W8 false) [DPacket p; DPacket p] = Ok (d, out)
       /\ to_user out = [datum 0]).
Proof.
  exists (spkt 0). split; [|split].
  - eexists. eexists. split; vm_compute; reflexivity.
  - vm_compute. reflexivity.
  - eexists. eexists. split; vm_compute; reflexivity.
Qed.
Print Assumptions C79_same_packet_refuted.

(** On an ordered receiver, the next datum is then lost: it is held but never
    delivered, although its packet arrives. *)
Theorem C79_ordered_loss_refuted :
  exists p q r, exists d out,
  re_run 3 (gives_once p) Release still (new_dec still W8 true) [DPacket p; DPacket q; DPacket r] = Ok (d, out)
  /\ to_user out = [datum 0; datum 0; datum 2] /\ held d = [0; 1; 2]
  /\ exists d' out', drun Release still (new_dec still W8 true) [DPacket p; DPacket p; DPacket q; DPacket r] = Ok (d', out')
      /\ to_user out' = [datum 0; datum 1; datum 2].
Proof.
  exists (spkt 0), (spkt 1), (spkt 2). eexists. eexists. split; [vm_compute; reflexivity|].
  split; [vm_compute; reflexivity|]. split; [vm_compute; reflexivity|].
  eexists. eexists. split; vm_compute; reflexivity.
Qed.
Print Assumptions C79_ordered_loss_refuted.

(** The hypotheses are met: a handler that asks for an ack on each datum and
    changes the settings on the second, and packets with a repair. *)
Example C79_case :
  let react := fun seen (_ : list N) => match seen with [_] => [DSetNb 7; DAck; DMaybe] | _ => [DAck] end in
  let ops := map DPacket [spkt 1; rpkt 0 [0; 1]; spkt 2] in
  only_about_acks react /\ Forall legal_setting ops
  /\ exists d out, re_run 2 react Debug still (new_dec still W8 true) ops = Ok (d, out)
     /\ to_user out = [datum 0; datum 1; datum 2] /\ length (to_network out) = 3%nat /\ dc_ack_nb d = 7.
Proof.
  cbv zeta. split; [|split].
  - intros [|a [|b seen]] x; repeat constructor.
  - repeat constructor.
  - eexists. eexists. split; [vm_compute; reflexivity|]. split; [|split]; vm_compute; reflexivity.
Qed.

(** The ack of the handler on the second datum lists the first source only. *)
Example C79_ack_inside_case :
  let d := after false [spkt 0] in
  (exists tr, receiver Debug still W8 false tr d)
  /\ source_packet Debug (spkt 4) 4 (datum 4) 11
  /\ ~ too_old d 4 /\ ~ In 4 (held d) /\ only_about_acks (fun _ _ => [DAck])
  /\ exists d' out, re_run 2 (fun _ _ => [DAck]) Debug still d [DPacket (spkt 4)] = Ok (d', out)
     /\ to_network out = [concat (write_ack {| a_ids := [0]; a_nb := 2 |})] /\ held d' = [0; 4].
Proof.
  cbv zeta. split; [apply after_receiver; vm_compute; reflexivity|].
  split; [split; [vm_compute; reflexivity | eexists; split; [vm_compute; reflexivity | split; vm_compute; reflexivity]]|].
  split; [intros (l & E & _); vm_compute in E; discriminate|].
  split; [vm_compute; intros [H|[]]; discriminate|].
  split; [intros seen x; repeat constructor|].
  eexists. eexists. split; [|split]; vm_compute; reflexivity.
Qed.
