(** * The handlers of the receiver

    C59: the protocol of their calls. C60: what an exception of the data handler
    does. C61: when an exception ends the program. *)
From Coq Require Import ZArith NArith PeanoNat List Bool Lia.
From Verif Require Import Outcome GF Containers ContainersFacts Packetizer Matrix Encoder EncoderRun Handlers
  DetailDecoder Decoder DecoderFacts DecoderThrow DecoderHandlers DecoderHandlersFacts PropsDecoder PropsModes.
Import ListNotations.
Open Scope N_scope.
Open Scope outcome_scope.

(** ** Vocabulary *)

(** The calls of the handlers come in blocks: a datum; the pieces of an ack and its
    end. *)
Inductive block : Type :=
| Datum (data : list N)
| Ack (pieces : list (list N)).

Definition calls_of (b : block) : list ucall :=
  match b with
  | Datum x => [UData x]
  | Ack w => map (fun b => UPacket (HBytes b)) w ++ [UPacket HEnd]
  end.

(** What the handlers get with a block, in the terms of [Decoder.v]. *)
Definition means (b : block) : dout :=
  match b with
  | Datum x => ToUser x
  | Ack w => ToNetwork (concat w)
  end.

Definition interrupted (r : ures) : Prop := r = UThrew \/ r = UTerminate.

(** The data that the data handler accepted. *)
Fixpoint accepted (tr : list ucall) : list (list N) :=
  match tr with
  | [] => []
  | UData x :: l => x :: accepted l
  | UPacket _ :: l => accepted l
  end.

(** ** Lemmas *)

Lemma ufeed_quiet u calls : forall tr tr', ufeed u tr calls = (tr', false) -> tr' = tr ++ map UPacket calls.
Proof.
  induction calls as [|c calls IH]; intros tr tr' H; cbn [ufeed] in H.
  - injection H as <-. rewrite app_nil_r. reflexivity.
  - destruct (u tr (UPacket c)); [discriminate|]. apply IH in H. rewrite H, <- app_assoc. reflexivity.
Qed.

Lemma ack_calls w : map UPacket (packet_calls w) = calls_of (Ack w).
Proof. unfold packet_calls. rewrite map_app, map_map. reflexivity. Qed.

Lemma ugenerate_quiet u known d tr o : ugenerate_ack u known (d, tr) = (o, false) ->
  exists w, generate_ack_of known d = (fst o, [means (Ack w)]) /\ snd o = tr ++ calls_of (Ack w).
Proof.
  unfold ugenerate_ack, generate_ack_of. destruct (ufeed _ _ _) as [tr' []] eqn:E; [discriminate|]. intros H. injection H as <-.
  apply ufeed_quiet in E. rewrite ack_calls in E. eexists. split; [reflexivity|]. exact E.
Qed.

Lemma umaybe_quiet u clk known d tr o : umaybe_ack u clk known (d, tr) = (o, false) ->
  exists bs, maybe_ack_of clk known d = (fst o, map means bs) /\ snd o = tr ++ concat (map calls_of bs).
Proof.
  unfold umaybe_ack, maybe_ack_of. cbn [fst snd]. destruct (_ <=? _).
  - destruct (ugenerate_ack u known (d, tr)) as [[d1 tr1] []] eqn:E; [discriminate|]. intros H. injection H as <-.
    apply ugenerate_quiet in E. destruct E as (w & E1 & E2). cbn [fst snd] in *. rewrite E1. exists [Ack w].
    cbn [map concat]. rewrite app_nil_r. auto.
  - destruct (_ =? _)%Z; [intros H; injection H as <-; exists []; cbn; rewrite app_nil_r; auto|].
    destruct (_ <=? _)%Z.
    + destruct (ugenerate_ack u known (d, tr)) as [[d1 tr1] []] eqn:E; [discriminate|]. intros H. injection H as <-.
      apply ugenerate_quiet in E. destruct E as (w & E1 & E2). cbn [fst snd] in *. rewrite E1. exists [Ack w].
      cbn [map concat]. rewrite app_nil_r. auto.
    + intros H. injection H as <-. exists []. cbn. rewrite app_nil_r. auto.
Qed.

Lemma uhandle_quiet u clk d tr v o : uhandle_source u clk (d, tr) v = (o, false) ->
  exists bs, handle_source clk d v = (fst o, map means bs) /\ snd o = tr ++ concat (map calls_of bs).
Proof.
  unfold uhandle_source, handle_source. destruct (u tr _); [discriminate|]. intros H. apply umaybe_quiet in H.
  destruct H as (bs & E1 & E2). rewrite E1. exists (Datum (v_data v) :: bs). split; [reflexivity|].
  rewrite E2, <- app_assoc. reflexivity.
Qed.

Lemma handle_sources_app clk l1 : forall d l2, handle_sources clk d (l1 ++ l2) =
  (let '(d1, o1) := handle_sources clk d l1 in let '(d2, o2) := handle_sources clk d1 l2 in (d2, o1 ++ o2)).
Proof.
  induction l1 as [|v l1 IH]; intros d l2; cbn [app handle_sources].
  - destruct (handle_sources clk d l2). reflexivity.
  - destruct (handle_source clk d v) as [d1 o1]. rewrite IH. destruct (handle_sources clk d1 l1) as [d2 o2].
    destruct (handle_sources clk d2 l2) as [d3 o3]. rewrite app_assoc. reflexivity.
Qed.

Lemma runs_quiet u clk o0 l o : runs (uhandle_source u clk) o0 l o ->
  exists bs, handle_sources clk (fst o0) l = (fst o, map means bs) /\ snd o = snd o0 ++ concat (map calls_of bs).
Proof.
  induction 1 as [[d tr]|[d tr] l [d1 tr1] v [d2 tr2] _ (bs & E1 & E2) H].
  - exists []. cbn. rewrite app_nil_r. auto.
  - apply uhandle_quiet in H. destruct H as (bs' & E3 & E4). cbn [fst snd] in *. exists (bs ++ bs').
    rewrite handle_sources_app, E1. cbn [handle_sources]. rewrite E3. rewrite !map_app, concat_app, app_nil_r.
    split; [reflexivity|]. rewrite E4, E2, app_assoc. reflexivity.
Qed.

Lemma maybe_with_core clk known d c :
  maybe_ack_of clk known (with_core d c) = (let '(d', out) := maybe_ack_of clk known d in (with_core d' c, out)).
Proof.
  unfold maybe_ack_of, generate_ack_of. cbn [with_core dc_ack_nb dc_ack dc_period dc_reads dc_last_date].
  destruct (_ <=? _); [reflexivity|]. destruct (_ =? _)%Z; [reflexivity|]. destruct (_ <=? _)%Z; reflexivity.
Qed.

Lemma handle_with_core clk l : forall d c,
  handle_sources clk (with_core d c) l = (let '(d', out) := handle_sources clk d l in (with_core d' c, out)).
Proof.
  induction l as [|v l IH]; intros d c; cbn [handle_sources]; [reflexivity|]. unfold handle_source. rewrite maybe_with_core.
  destruct (maybe_ack_of clk (v_known v) d) as [d1 o1]. rewrite IH. destruct (handle_sources clk d1 l). reflexivity.
Qed.

Lemma start_good {T} (cb : T -> event -> T * bool) t d : good cb t (d_log d) t d.
Proof. exists []. rewrite app_nil_r. split; [reflexivity | constructor]. Qed.

(** A call of m_decoder. *)
Lemma ufinish_sim u clk d tr x run o r :
  sim (uhandle_source u clk) (d, tr) (d_log (dc_core d)) x (run (dc_core d)) ->
  ufinish (d, tr) x = (o, r) -> ~ interrupted r ->
  match r with
  | UDone => exists bs, call_core clk d run = Ok (fst o, map means bs) /\ snd o = tr ++ concat (map calls_of bs)
  | UError e => call_core clk d run = Throw e /\ o = (d, tr)
  | UFault e => call_core clk d run = Fault e
  | _ => False
  end.
Proof.
  unfold call_core. destruct x as [[d1 tr1] c|[d1 tr1] c|e| |e]; cbn [sim ufinish]; intros H E Hn; injection E as <- <-.
  - destruct H as (E & l & El & R). rewrite E. cbn [bind]. rewrite El, skipn_app, skipn_all, Nat.sub_diag.
    cbn [skipn app]. apply runs_quiet in R. destruct R as (bs & E1 & E2). cbn [fst snd] in *.
    rewrite handle_with_core, E1. exists bs. auto.
  - exfalso. apply Hn. left. reflexivity.
  - rewrite H. auto.
  - exfalso. apply Hn. right. reflexivity.
  - rewrite H. reflexivity.
Qed.

Definition matches (r : ures) (d : dec) (tr : list ucall) (o : outer) (model : dec * outcome (list dout)) : Prop :=
  match r with
  | UDone => exists bs, model = (fst o, Ok (map means bs)) /\ snd o = tr ++ concat (map calls_of bs)
  | UError e => model = (fst o, Throw e) /\ snd o = tr
  | UFault e => exists d', model = (d', Fault e)
  | _ => False
  end.

Lemma upacket_matches u m clk d tr p o r : upacket u m clk (d, tr) p = (o, r) -> ~ interrupted r ->
  matches r d tr o (dstep m clk d (DPacket p)).
Proof.
  intros H Hn. unfold upacket in H. cbn [dstep]. unfold dec_packet.
  destruct (bind (assert_ m _) _) as [[]|x|x] eqn:Et.
  - injection H as <- <-. cbn. auto.
  - cbv zeta in H |- *. set (d1 := count_packet d 1 0) in *. destruct (read_repair m p) as [[rp n]|x|x]; cbn [bind].
    + assert (X := ufinish_sim u clk d1 tr _ (fun c => recv_repair m c rp) o r
         (trecv_repair_sim _ _ _ m (d1, tr) (dc_core d1) rp (start_good _ _ _)) H Hn).
      destruct r; cbn [matches] in *; try contradiction.
      * destruct X as (bs & -> & E2). cbn [bind finish]. eauto.
      * destruct X as (-> & ->). cbn [bind finish]. auto.
      * rewrite X. cbn [bind finish]. eauto.
    + injection H as <- <-. cbn. auto.
    + injection H as <- <-. cbn. eauto.
  - cbv zeta in H |- *. set (d1 := count_packet d 0 1) in *. destruct (read_source m p) as [[s n]|x|x]; cbn [bind].
    + assert (X := ufinish_sim u clk d1 tr _ (fun c => recv_source m c (ds_id s) (ds_data s)) o r
         (trecv_source_sim _ _ _ m (d1, tr) (dc_core d1) (ds_id s) (ds_data s) (start_good _ _ _)) H Hn).
      destruct r; cbn [matches] in *; try contradiction.
      * destruct X as (bs & -> & E2). cbn [bind finish]. eauto.
      * destruct X as (-> & ->). cbn [bind finish]. auto.
      * rewrite X. cbn [bind finish]. eauto.
    + injection H as <- <-. cbn. auto.
    + injection H as <- <-. cbn. eauto.
  - injection H as <- <-. cbn. auto.
  - injection H as <- <-. cbn. eauto.
Qed.

Lemma ustep_matches u m clk d tr op o r : ustep u m clk (d, tr) op = (o, r) -> ~ interrupted r ->
  matches r d tr o (dstep m clk d op).
Proof.
  intros H Hn. destruct op as [p| | |t|n]; cbn [ustep fst snd] in H.
  - eapply upacket_matches; eassumption.
  - destruct (ugenerate_ack _ _ _) as [o1 []] eqn:E; injection H as <- <-; [exfalso; apply Hn; left; reflexivity|].
    apply ugenerate_quiet in E. destruct E as (w & E1 & E2). cbn [dstep]. unfold generate_ack. rewrite E1.
    exists [Ack w]. cbn [map concat]. rewrite app_nil_r. auto.
  - destruct (umaybe_ack _ _ _ _) as [o1 []] eqn:E; injection H as <- <-; [exfalso; apply Hn; left; reflexivity|].
    apply umaybe_quiet in E. destruct E as (bs & E1 & E2). cbn [dstep]. unfold maybe_ack. rewrite E1. exists bs. auto.
  - injection H as <- <-. cbn. exists []. cbn. rewrite app_nil_r. auto.
  - cbn [dstep]. destruct (set_ack_nb_packets m d n) as [d1|x|x]; injection H as <- <-; cbn.
    + exists []. cbn. rewrite app_nil_r. auto.
    + auto.
    + eauto.
Qed.

Definition last_fault (rs : list (list ucall * ures)) : option fault :=
  match last rs ([], UDone) with (_, UFault x) => Some x | _ => None end.

Lemma last_fault_cons x rs : (forall f, snd x <> UFault f) -> last_fault (x :: rs) = last_fault rs.
Proof. intros H. unfold last_fault. destruct rs; [|reflexivity]. cbn. destruct x as [c r]. cbn in H. destruct r as [| |e| |f]; try reflexivity. exfalso. apply (H f). reflexivity. Qed.

Lemma skip_own {A} (l l' : list A) : skipn (length l) (l ++ l') = l'.
Proof. rewrite skipn_app, skipn_all, Nat.sub_diag. reflexivity. Qed.

(** ** C59: the protocol of the calls *)

(** Any calls of the user during which no handler throws. The handlers run
    during the calls, yet the result is that of the model [drun], in which the
    calls of the handlers are only listed: same state, same errors, and the
    same data and acks in the same order. The pieces of an ack come without any
    other call between them. *)
Theorem C59_handler_protocol :
  forall u m clk ops d tr o rs, urun u m clk (d, tr) ops = (o, rs) ->
  (forall calls r, In (calls, r) rs -> ~ interrupted r) ->
  match drun m clk d ops with
  | Ok (d', out) => fst o = d' /\ last_fault rs = None
      /\ exists bs, out = map means bs /\ concat (map fst rs) = concat (map calls_of bs)
  | Throw _ => False
  | Fault x => last_fault rs = Some x
  end.
Proof.
  intros u m clk. induction ops as [|op ops IH]; intros d tr o rs H Hn; cbn [urun drun snd] in *.
  - injection H as <- <-. split; [reflexivity|]. split; [reflexivity|]. exists []. auto.
  - destruct (ustep u m clk (d, tr) op) as [[d1 tr1] r] eqn:E. cbn [snd] in H.
    assert (Hr : ~ interrupted r).
    { destruct r; try (destruct (urun u m clk (d1, tr1) ops) as [o2 rs2]); injection H as _ <-; eapply Hn; left; reflexivity. }
    pose proof (ustep_matches u m clk d tr op (d1, tr1) r E Hr) as X.
    destruct r; cbn [matches fst snd] in X; try contradiction.
    + destruct X as (bs & -> & E2). destruct (urun u m clk (d1, tr1) ops) as [o2 rs2] eqn:E3. injection H as <- <-.
      specialize (IH _ _ _ _ E3 (fun c r Hi => Hn c r (or_intror Hi))).
      rewrite last_fault_cons by (cbn; discriminate). destruct (drun m clk d1 ops) as [[d2 out]|x|x]; cbn [bind]; [|exact IH..].
      destruct IH as (I1 & I2 & bs' & -> & I4). split; [exact I1|]. split; [exact I2|].
      exists (bs ++ bs'). rewrite !map_app, concat_app. split; [reflexivity|]. cbn [map concat fst]. rewrite I4, E2, skip_own. reflexivity.
    + destruct X as (-> & ->). destruct (urun u m clk (d1, tr) ops) as [o2 rs2] eqn:E3. injection H as <- <-.
      specialize (IH _ _ _ _ E3 (fun c r Hi => Hn c r (or_intror Hi))).
      rewrite last_fault_cons by (cbn; discriminate). destruct (drun m clk d1 ops) as [[d2 out]|y|y]; [|exact IH..].
      cbn [map concat fst]. rewrite skipn_all. exact IH.
    + destruct X as (d' & ->). injection H as <- <-. reflexivity.
Qed.
Print Assumptions C59_handler_protocol.

(** Handlers that never throw. *)
Definition calm (u : uhandler) : Prop := forall tr c, u tr c = false.

Lemma ufeed_calm u calls : calm u -> forall tr, snd (ufeed u tr calls) = false.
Proof. intros C. induction calls as [|c calls IH]; intros tr; cbn [ufeed]; [reflexivity|]. rewrite C. apply IH. Qed.

Lemma ugenerate_calm u known o : calm u -> snd (ugenerate_ack u known o) = false.
Proof.
  intros C. unfold ugenerate_ack. destruct o as [d tr]. pose proof (ufeed_calm u (packet_calls (write_ack (dc_ack (fill_ack known d)))) C tr) as H.
  destruct (ufeed _ _ _) as [tr' b]. cbn in H. subst b. reflexivity.
Qed.

Lemma umaybe_calm u clk known o : calm u -> snd (umaybe_ack u clk known o) = false.
Proof.
  intros C. unfold umaybe_ack. pose proof (ugenerate_calm u known o C) as H. destruct (ugenerate_ack u known o) as [o1 b]. cbn in H. subst b.
  destruct (_ <=? _); [reflexivity|]. destruct (_ =? _)%Z; [reflexivity|]. destruct (_ <=? _)%Z; reflexivity.
Qed.

Lemma not_threw u clk o0 o : calm u -> ~ threw (uhandle_source u clk) o0 o.
Proof.
  intros C (l & [d tr] & v & _ & H). unfold uhandle_source in H. rewrite C in H.
  pose proof (umaybe_calm u clk (v_known v) (d, tr ++ [UData (v_data v)]) C) as X. rewrite H in X. discriminate.
Qed.

Lemma ufinish_calm u clk o0 L x y o : calm u -> sim (uhandle_source u clk) o0 L x y -> ~ interrupted (snd (ufinish o x)).
Proof.
  intros C H [E|E]; destruct x as [[d1 tr1] c|[d1 tr1] c|e| |e]; try discriminate E; cbn [sim] in H.
  - exact (not_threw _ _ _ _ C H).
  - destruct H as (t & H). exact (not_threw _ _ _ _ C H).
Qed.

Lemma ustep_calm u m clk o op : calm u -> ~ interrupted (snd (ustep u m clk o op)).
Proof.
  intros C.
  destruct o as [d tr]. destruct op as [p| | |t|n]; cbn [ustep fst snd].
  - unfold upacket. destruct (bind (assert_ m _) _) as [[]|x|x]; cbv zeta; try (intros [E|E]; discriminate E).
    + destruct (read_repair m p) as [[rp k]|x|x]; try (intros [E|E]; discriminate E).
      eapply ufinish_calm; [exact C|]. apply trecv_repair_sim, start_good.
    + destruct (read_source m p) as [[s k]|x|x]; try (intros [E|E]; discriminate E).
      eapply ufinish_calm; [exact C|]. apply trecv_source_sim, start_good.
  - pose proof (ugenerate_calm u (mkeys (d_sources (dc_core d))) (d, tr) C) as H. destruct (ugenerate_ack _ _ _) as [o1 b].
    cbn in H |- *. subst b. intros [E|E]; discriminate E.
  - pose proof (umaybe_calm u clk (mkeys (d_sources (dc_core d))) (d, tr) C) as H. destruct (umaybe_ack _ _ _ _) as [o1 b].
    cbn in H |- *. subst b. intros [E|E]; discriminate E.
  - intros [E|E]; discriminate E.
  - destruct (set_ack_nb_packets m d n); intros [E|E]; discriminate E.
Qed.

(** The hypothesis of C59 is met by all handlers that throw nothing. *)
Theorem C59_calm_handlers :
  forall u m clk ops o rs o', calm u -> urun u m clk o ops = (o', rs) ->
  forall calls r, In (calls, r) rs -> ~ interrupted r.
Proof.
  intros u m clk. induction ops as [|op ops IH]; intros o rs o' C H calls r Hi; cbn [urun] in H.
  - injection H as <- <-. destruct Hi.
  - pose proof (ustep_calm u m clk o op C) as Hs. destruct (ustep u m clk o op) as [o1 r1]. cbn [snd] in Hs.
    destruct r1; try (destruct (urun u m clk o1 ops) as [o2 rs2] eqn:E3); injection H as <- <-;
      (destruct Hi as [Hi|Hi]; [injection Hi as _ <-; exact Hs|]);
      solve [eapply IH; eassumption | destruct Hi].
Qed.
Print Assumptions C59_calm_handlers.

(** ** C60: exceptions of the data handler *)

(** The traces only grow. *)
Lemma ufeed_trace u calls : forall tr, exists l, fst (ufeed u tr calls) = tr ++ l.
Proof.
  induction calls as [|c calls IH]; intros tr; cbn [ufeed]; [exists []; rewrite app_nil_r; reflexivity|].
  destruct (u tr (UPacket c)); [exists []; rewrite app_nil_r; reflexivity|].
  destruct (IH (tr ++ [UPacket c])) as (l & E). exists (UPacket c :: l). rewrite E, <- app_assoc. reflexivity.
Qed.

Lemma ugenerate_trace u known o : exists l, snd (fst (ugenerate_ack u known o)) = snd o ++ l.
Proof.
  destruct o as [d tr]. unfold ugenerate_ack. destruct (ufeed_trace u (packet_calls (write_ack (dc_ack (fill_ack known d)))) tr) as (l & E).
  destruct (ufeed _ _ _) as [tr' []]; cbn in *; eauto.
Qed.

Lemma umaybe_trace u clk known o : exists l, snd (fst (umaybe_ack u clk known o)) = snd o ++ l.
Proof.
  unfold umaybe_ack. destruct (ugenerate_trace u known o) as (l & E). destruct (ugenerate_ack u known o) as [o1 b]. cbn in E.
  assert (R : exists l, snd o = snd o ++ l) by (exists []; rewrite app_nil_r; reflexivity).
  destruct (_ <=? _); [destruct b; cbn; eauto|]. destruct (_ =? _)%Z; [exact R|]. destruct (_ <=? _)%Z; [destruct b; cbn; eauto | exact R].
Qed.

Lemma uhandle_trace u clk o v o' b : uhandle_source u clk o v = (o', b) ->
  (o' = o /\ b = true) \/ exists l, snd o' = snd o ++ UData (v_data v) :: l.
Proof.
  destruct o as [d tr]. unfold uhandle_source. destruct (u tr _); intros H.
  - injection H as <- <-. auto.
  - destruct (umaybe_trace u clk (v_known v) (d, tr ++ [UData (v_data v)])) as (l & E). rewrite H in E. cbn in E. right.
    exists l. rewrite E, <- app_assoc. reflexivity.
Qed.

Lemma runs_trace u clk o l o' : runs (uhandle_source u clk) o l o' -> exists k, snd o' = snd o ++ k.
Proof.
  induction 1 as [o|o l o1 v o2 _ (k & E) H]; [exists []; rewrite app_nil_r; reflexivity|].
  apply uhandle_trace in H. destruct H as [[_ H]|(k' & E')]; [discriminate|]. exists (k ++ UData (v_data v) :: k').
  rewrite E', E, app_assoc. reflexivity.
Qed.

Lemma threw_trace u clk o o' : threw (uhandle_source u clk) o o' -> exists k, snd o' = snd o ++ k.
Proof.
  intros (l & o1 & v & R & H). apply runs_trace in R. destruct R as (k & E). apply uhandle_trace in H.
  destruct H as [[-> _]|(k' & E')]; [eauto|]. exists (k ++ UData (v_data v) :: k'). rewrite E', E, app_assoc. reflexivity.
Qed.

(** The data handler throws for the datum of a source packet, before any other
    handler returned: the decoding algorithm is as it was. *)
Lemma refused u m clk d tr c id data o c' : (d_in_order c = false \/ id = d_first c) ->
  trecv_source (uhandle_source u clk) m (d, tr) c id data = TThrew o c' -> snd o = tr -> c' = c /\ o = (d, tr).
Proof.
  set (cb := uhandle_source u clk). intros Ho H Ht. unfold trecv_source in H.
  destruct (outdated c id); [discriminate|]. destruct (mmem id (d_sources c)); [discriminate|].
  unfold enough in H. cbn [tadd_source] in H.
  assert (Rest : forall t1 c1, good cb t1 (d_log c1) t1 c1 -> forall k,
    sim cb t1 (d_log c1) (tbind (tlift (no_longer_missing m c1 id data) (fun d => tbind (tscan (tadd_source cb k m) m (mkeys (d_missing d)) t1 d)
        (fun t d => tlift (store m d id data) (fun d => TOk t d)))) (fun t d => tattempt cb m t d))
      (bind (bind (no_longer_missing m c1 id data) (fun d => bind (scan (add_source k m) m (mkeys (d_missing d)) d)
         (fun d => bind (store m d id data) (fun d => Ok d)))) (fun d => attempt_full_decoding m d))).
  { intros t1 c1 G k. apply sim_bind.
    - apply sim_lift. intros d1 E1. apply no_longer_missing_log in E1. apply (good_same cb t1 _ t1 c1 d1 E1) in G.
      apply sim_bind; [apply tscan_sim; [intros; apply tadd_source_sim; assumption | exact G]|]. intros t2 d2 G2.
      apply sim_lift. intros d3 E3. apply store_log in E3. split; [reflexivity|]. exact (good_same cb t1 _ t2 d2 d3 E3 G2).
    - intros t2 d2 G2. apply tattempt_sim, G2. }
  assert (Grow : forall k' t1, snd t1 = tr ++ k' -> k' <> [] -> forall L x y, sim cb t1 L x y -> x = TThrew o c' -> False).
  { intros k' t1 E1 Hk L x y S ->. cbn [sim] in S. apply threw_trace in S. destruct S as (k2 & E2). rewrite Ht, E1, <- app_assoc in E2.
    rewrite <- (app_nil_r tr) in E2 at 1. apply app_inv_head in E2. destruct k'; [congruence | discriminate]. }
  assert (First : forall t1 c1, tcallback cb (d, tr) c id data = TOk t1 c1 -> exists k, snd t1 = tr ++ k /\ k <> []).
  { intros t1 c1 E. unfold tcallback in E. destruct (cb (d, tr) _) as [t2 []] eqn:Ec; [discriminate|]. injection E as <- _.
    apply uhandle_trace in Ec. destruct Ec as [[_ X]|(l & X)]; [discriminate|]. cbn in X. eexists. split; [exact X | discriminate]. }
  assert (Own : forall t1 c1, tcallback cb (d, tr) c id data = TThrew t1 c1 -> snd t1 = tr -> c1 = c /\ t1 = (d, tr)).
  { intros t1 c1 E E1. unfold tcallback in E. destruct (cb (d, tr) _) as [t2 []] eqn:Ec; [|discriminate]. injection E as -> <-.
    split; [reflexivity|]. apply uhandle_trace in Ec. destruct Ec as [[-> _]|(l & X)]; [reflexivity|]. cbn in X. rewrite E1 in X.
    rewrite <- (app_nil_r tr) in X at 1. apply app_inv_head in X. discriminate. }
  unfold tannounce in H. destruct (negb (d_in_order c)) eqn:En.
  - destruct (tcallback cb (d, tr) c id data) as [t1 c1|t1 c1| | |] eqn:E; cbn [tbind] in H; try discriminate.
    + exfalso. destruct (First _ _ eq_refl) as (k & Ek & Hk). exact (Grow k t1 Ek Hk _ _ _ (Rest t1 c1 (start_good _ _ _) _) H).
    + injection H as -> ->. apply (Own _ _ eq_refl Ht).
  - destruct Ho as [Ho|Ho]; [rewrite Ho in En; discriminate|]. rewrite Ho, N.eqb_refl, <- Ho in H.
    destruct (tcallback cb (d, tr) c id data) as [t1 c1|t1 c1| | |] eqn:E; cbn [tbind] in H; try discriminate.
    + exfalso. destruct (First _ _ eq_refl) as (k & Ek & Hk). set (c2 := with_first c1 _) in H.
      pose proof (tflush_sim cb t1 (d_log c2) m t1 c2 (start_good _ _ _)) as S. destruct (tflush cb m t1 c2) as [t2 c3|t2 c3| | |] eqn:Ef; cbn [tbind] in H; try discriminate.
      * cbn [sim] in S. destruct S as (_ & l & _ & R). apply runs_trace in R. destruct R as (k2 & E2). rewrite Ek, <- app_assoc in E2.
        refine (Grow (k ++ k2) t2 E2 _ _ _ _ (Rest t2 c3 (start_good _ _ _) _) H). destruct k; [congruence | discriminate].
      * exact (Grow k t1 Ek Hk _ _ _ S H).
    + injection H as -> ->. apply (Own _ _ eq_refl Ht).
Qed.

(** If the data handler throws for the datum of a source packet, then the receiver
    only has counted the packet: the packet is as if lost, and it can be given
    again. The datum must be the first thing the handlers get: always so for a
    receiver without ordering; with ordering, if it is the next in order. *)
Theorem C60_refused_datum :
  forall u m clk d tr p s n d',
  get_packet_type p = Ok TSource -> read_source m p = Ok (s, n) ->
  (d_in_order (dc_core d) = false \/ ds_id s = d_first (dc_core d)) ->
  upacket u m clk (d, tr) p = ((d', tr), UThrew) ->
  d' = count_packet d 0 1.
Proof.
  intros u m clk d tr p s n d' Ht Hs Ho H. unfold upacket in H. rewrite Ht in H.
  destruct (assert_ m _) as [[]|x|x]; cbn [bind] in H; [|discriminate..]. cbv zeta in H. rewrite Hs in H.
  destruct (trecv_source _ _ _ _ _ _) as [[d1 t1] c1|[d1 t1] c1|x| |x] eqn:E; cbn [ufinish] in H; try discriminate.
  assert (t1 = tr) by congruence. subst t1.
  apply refused in E; [|exact Ho | reflexivity]. destruct E as (-> & E2). injection E2 as ->.
  assert (E3 : d' = with_core (count_packet d 0 1) (dc_core (count_packet d 0 1))) by congruence.
  rewrite E3. destruct d. reflexivity.
Qed.
Print Assumptions C60_refused_datum.

(** The packets of the calls that did not throw. *)
Fixpoint kept (ops : list dop) (rs : list (list ucall * ures)) : list dop :=
  match ops, rs with
  | op :: ops', (_, r) :: rs' => match r with UThrew => kept ops' rs' | _ => op :: kept ops' rs' end
  | _, _ => []
  end.

(** In the calls that threw, no handler returned, and packets were source packets. *)
Definition refusals (ops : list dop) (rs : list (list ucall * ures)) : Prop :=
  forall i p calls, nth_error ops i = Some (DPacket p) -> nth_error rs i = Some (calls, UThrew) ->
  calls = [] /\ hd 0 p = 2.

Lemma dstep_core m clk d e op : dc_core d = dc_core e -> legal_setting op ->
  match dstep m clk d op, dstep m clk e op with
  | (d', Ok o1), (e', Ok o2) => dc_core d' = dc_core e' /\ to_user o1 = to_user o2
      /\ d_in_order (dc_core d') = d_in_order (dc_core d)
  | (d', Throw _), (e', Throw _) => dc_core d' = dc_core e' /\ dc_core d' = dc_core d
  | (_, Fault x), (_, Fault y) => x = y
  | _, _ => False
  end.
Proof.
  assert (G : forall known d, dc_core (fst (generate_ack_of known d)) = dc_core d /\ to_user (snd (generate_ack_of known d)) = [])
    by (intros; split; reflexivity).
  assert (M : forall known d, dc_core (fst (maybe_ack_of clk known d)) = dc_core d /\ to_user (snd (maybe_ack_of clk known d)) = []).
  { intros known d0. unfold maybe_ack_of. destruct (_ <=? _); [split; reflexivity|]. destruct (_ =? _)%Z; [split; reflexivity|].
    destruct (_ <=? _)%Z; split; reflexivity. }
  intros E L. destruct op as [p| | |t|n]; cbn [dstep].
  - pose proof (dec_packet_core m clk d p) as A. pose proof (dec_packet_core m clk e p) as B. rewrite <- E in B.
    destruct (core_packet m (dc_core d) p) as [c|x|x] eqn:Ec.
    + destruct A as (d' & o1 & n1 & new1 & -> & A1 & A2 & A3). destruct B as (e' & o2 & n2 & new2 & -> & B1 & B2 & B3).
      cbn [bind]. rewrite A1, B1. split; [reflexivity|]. rewrite A2 in B2. apply app_inv_head in B2. split; [congruence|].
      unfold core_packet in Ec. apply bind_ok in Ec. destruct Ec as (ty & _ & Ec). destruct ty; [discriminate| |].
      * apply bind_ok in Ec. destruct Ec as ([r k] & _ & Ec). apply (mv_in_order _ _ (recv_repair_moves _ _ _ _ Ec)).
      * apply bind_ok in Ec. destruct Ec as ([s k] & _ & Ec). apply (mv_in_order _ _ (recv_source_moves _ _ _ _ _ Ec)).
    + destruct A as (d' & -> & A1). destruct B as (e' & -> & B1). cbn [bind]. rewrite A1, B1, E. auto.
    + destruct A as (d' & ->). destruct B as (e' & ->). reflexivity.
  - unfold generate_ack. split; [exact E | split; reflexivity].
  - unfold maybe_ack. destruct (M (mkeys (d_sources (dc_core d))) d) as (A1 & A2), (M (mkeys (d_sources (dc_core e))) e) as (B1 & B2).
    destruct (maybe_ack_of clk _ d), (maybe_ack_of clk _ e). cbn in *. rewrite A1, B1, A2, B2. auto.
  - cbn. auto.
  - cbn in L. unfold set_ack_nb_packets. assert (X : (0 <? n) = true) by (apply N.ltb_lt, L). rewrite X.
    destruct m; cbn; auto.
Qed.

Lemma accepted_app a b : accepted (a ++ b) = accepted a ++ accepted b.
Proof. induction a as [|[x|c] a IH]; cbn; [reflexivity | rewrite IH; reflexivity | exact IH]. Qed.

Lemma accepted_blocks bs : accepted (concat (map calls_of bs)) = to_user (map means bs).
Proof.
  assert (W : forall w, accepted (map (fun b => UPacket (HBytes b)) w) = []) by (induction w; [reflexivity | exact IHw]).
  induction bs as [|[x|w] bs IH]; cbn [map concat calls_of means to_user]; [reflexivity| |].
  - cbn. rewrite IH. reflexivity.
  - rewrite !accepted_app, W. exact IH.
Qed.

(** No data in the calls of an interrupted ack. *)
Lemma ufeed_accepted u calls : forall tr, accepted (fst (ufeed u tr calls)) = accepted tr.
Proof.
  induction calls as [|c calls IH]; intros tr; cbn [ufeed]; [reflexivity|]. destruct (u tr (UPacket c)); [reflexivity|].
  rewrite IH, accepted_app. apply app_nil_r.
Qed.

Lemma ugenerate_threw u known d tr o : ugenerate_ack u known (d, tr) = (o, true) ->
  dc_core (fst o) = dc_core d /\ accepted (snd o) = accepted tr.
Proof.
  unfold ugenerate_ack. pose proof (ufeed_accepted u (packet_calls (write_ack (dc_ack (fill_ack known d)))) tr) as H.
  destruct (ufeed _ _ _) as [tr' []]; [|discriminate]. intros E. injection E as <-. cbn in *. auto.
Qed.

Lemma umaybe_threw u clk known d tr o : umaybe_ack u clk known (d, tr) = (o, true) ->
  dc_core (fst o) = dc_core d /\ accepted (snd o) = accepted tr.
Proof.
  unfold umaybe_ack. cbn [fst snd]. destruct (ugenerate_ack u known (d, tr)) as [o1 []] eqn:E.
  - apply ugenerate_threw in E. destruct (_ <=? _); [intros H; injection H as <-; exact E|].
    destruct (_ =? _)%Z; [discriminate|]. destruct (_ <=? _)%Z; [intros H; injection H as <-; exact E | discriminate].
  - destruct (_ <=? _); [discriminate|]. destruct (_ =? _)%Z; [discriminate|]. destruct (_ <=? _)%Z; discriminate.
Qed.

Lemma upacket_terminate u m clk d tr p o : upacket u m clk (d, tr) p = (o, UTerminate) ->
  d_in_order (dc_core d) = true /\ get_packet_type p = Ok TRepair.
Proof.
  intros H. unfold upacket in H. destruct (assert_ m _) as [[]|x|x]; cbn [bind] in H; [|discriminate..].
  destruct (get_packet_type p) as [[]|x|x]; try discriminate; cbv zeta in H.
  - destruct (read_repair m p) as [[rp k]|x|x]; [|discriminate..]. split; [|reflexivity].
    destruct (d_in_order (dc_core d)) eqn:Ho; [reflexivity|]. exfalso.
    pose proof (trecv_repair_lives (uhandle_source u clk) m (count_packet d 1 0, tr) (dc_core (count_packet d 1 0)) rp Ho) as X.
    destruct (trecv_repair _ _ _ _ _) as [[] ?|[] ?|?| |?]; cbn [ufinish] in H; congruence.
  - destruct (read_source m p) as [[s k]|x|x]; [|discriminate..]. exfalso.
    pose proof (trecv_source_lives (uhandle_source u clk) m (count_packet d 0 1, tr) (dc_core (count_packet d 0 1)) (ds_id s) (ds_data s)) as X.
    destruct (trecv_source _ _ _ _ _ _) as [[] ?|[] ?|?| |?]; cbn [ufinish] in H; congruence.
Qed.

Lemma source_type m p x : hd 0 p = 2 -> bind (assert_ m (Nat.ltb 0 (length p))) (fun _ => get_packet_type p) = x ->
  x = Ok TSource.
Proof.
  destruct p as [|b p]; cbn [hd length]; intros H E; [discriminate|]. subst b.
  change (Nat.ltb 0 (S (length p))) with true in E. destruct m; cbn in E; congruence.
Qed.

(** A receiver without ordering, and any calls of the user. If handlers throw only
    when they get the datum of a source packet as their first call, or during
    calls that send an ack, then the receiver decodes and delivers what it would
    have done if these source packets had been lost. *)
Theorem C60_refusals_are_losses :
  forall u m clk ops d tr o rs,
  d_in_order (dc_core d) = false -> Forall legal_setting ops ->
  urun u m clk (d, tr) ops = (o, rs) -> refusals ops rs ->
  match drun m clk d (kept ops rs) with
  | Ok (d', out) => dc_core (fst o) = dc_core d' /\ accepted (concat (map fst rs)) = to_user out
      /\ last_fault rs = None
  | Throw _ => False
  | Fault x => last_fault rs = Some x
  end.
Proof.
  intros u m clk ops d tr o rs Ho L H R. assert (E : dc_core d = dc_core d) by reflexivity. revert E. generalize d at 2 3. intros e.
  revert d e tr o rs Ho H R. induction L as [|op ops Lop L IH]; intros d e tr o rs Ho H R E; cbn [urun] in H.
  - injection H as <- <-. cbn. auto.
  - destruct (ustep u m clk (d, tr) op) as [[d1 tr1] r] eqn:Es. cbn [snd] in H.
    assert (Go : forall d2 e2, (d_in_order (dc_core d2) = false) -> dc_core d2 = dc_core e2 -> forall tr2 o2 rs2, urun u m clk (d2, tr2) ops = (o2, rs2) ->
      forall x, rs = x :: rs2 -> match drun m clk e2 (kept ops rs2) with
      | Ok (d', out) => dc_core (fst o2) = dc_core d' /\ accepted (concat (map fst rs2)) = to_user out /\ last_fault rs2 = None
      | Throw _ => False | Fault x => last_fault rs2 = Some x end).
    { intros d2 e2 Ho2 E2 tr2 o2 rs2 H2 x ->. eapply IH; [exact Ho2 | exact H2 | | exact E2].
      intros i p calls Hi Hr. apply (R (S i) p calls); assumption. }
    assert (Quiet : ~ interrupted r -> 
      match drun m clk e (op :: kept ops (tl rs)) with
      | Ok (d', out) => dc_core (fst o) = dc_core d' /\ accepted (concat (map fst rs)) = to_user out /\ last_fault rs = None
      | Throw _ => False | Fault x => last_fault rs = Some x end).
    { intros Hr. pose proof (ustep_matches u m clk d tr op (d1, tr1) r Es Hr) as X. pose proof (dstep_core m clk d e op E Lop) as D.
      cbn [drun]. destruct r; cbn [matches fst snd] in X; try contradiction.
      - destruct X as (bs & Ed & E2). rewrite Ed in D. destruct (dstep m clk e op) as [e1 [out1|y|y]]; try contradiction.
        destruct D as (D1 & D2 & D3). destruct (urun u m clk (d1, tr1) ops) as [o2 rs2] eqn:E3. injection H as <- <-.
        specialize (Go d1 e1 (eq_trans D3 Ho) D1 _ _ _ E3 _ eq_refl). cbn [tl].
        rewrite last_fault_cons by (cbn; discriminate). destruct (drun m clk e1 (kept ops rs2)) as [[d2 out]|y|y]; cbn [bind]; [|exact Go..].
        destruct Go as (G1 & G2 & G3). split; [exact G1|]. split; [|exact G3]. cbn [map concat fst].
        rewrite accepted_app, G2, to_user_app, E2, skip_own, accepted_blocks, <- D2. reflexivity.
      - destruct X as (Ed & ->). rewrite Ed in D. destruct (dstep m clk e op) as [e1 [out1|y|y]]; try contradiction.
        destruct D as (D1 & D2). destruct (urun u m clk (d1, tr) ops) as [o2 rs2] eqn:E3. injection H as <- <-.
        specialize (Go d1 e1 (eq_trans (f_equal _ D2) Ho) D1 _ _ _ E3 _ eq_refl). cbn [tl].
        rewrite last_fault_cons by (cbn; discriminate). cbn [map concat fst]. rewrite skipn_all. exact Go.
      - destruct X as (d' & Ed). rewrite Ed in D. destruct (dstep m clk e op) as [e1 [out1|y|y]]; try contradiction.
        injection H as <- <-. subst y. reflexivity. }
    destruct r.
    + destruct (urun u m clk (d1, tr1) ops) as [o2 rs2]. injection H as <- <-. apply Quiet. intros [X|X]; discriminate.
    + clear Quiet. destruct (urun u m clk (d1, tr1) ops) as [o2 rs2] eqn:E3. injection H as <- <-. cbn [kept].
      assert (K : dc_core d1 = dc_core d /\ accepted (skipn (length tr) tr1) = []).
      { destruct op as [p| | |t|n]; cbn [ustep fst snd] in Es.
        - destruct (R O p _ eq_refl eq_refl) as (Rc & Rt). rewrite Rc. split; [|reflexivity]. unfold upacket in Es.
          destruct (bind _ _) eqn:Ety; pose proof (source_type m p _ Rt Ety) as Ety2; try discriminate Ety2.
          injection Ety2 as ->. cbv zeta in Es. destruct (read_source m p) as [[s k]|y|y] eqn:Er; [|discriminate..].
          set (d0 := count_packet d 0 1) in Es.
          destruct (trecv_source _ _ _ _ _ _) as [[d2 t2] c2|[d2 t2] c2|y| |y] eqn:E0; cbn [ufinish] in Es; try discriminate.
          assert (t2 = tr1) by congruence. subst t2.
          assert (tr1 = tr).
          { pose proof (trecv_source_sim (uhandle_source u clk) (d0, tr) (d_log (dc_core d0)) m (d0, tr) (dc_core d0) (ds_id s) (ds_data s) (start_good _ _ _)) as S.
            rewrite E0 in S. cbn [sim] in S. apply threw_trace in S. destruct S as (k2 & S). cbn [snd] in S. rewrite S, skip_own in Rc.
            rewrite S, Rc, app_nil_r. reflexivity. }
          subst tr1. apply refused in E0; [|left; exact Ho | reflexivity]. destruct E0 as (E0 & _).
          assert (E1 : d1 = with_core d2 c2) by congruence. rewrite E1, E0. reflexivity.
        - destruct (ugenerate_ack _ _ _) as [o1 []] eqn:Eg; [|discriminate]. assert (o1 = (d1, tr1)) by congruence. subst o1.
          destruct (ugenerate_trace u (mkeys (d_sources (dc_core d))) (d, tr)) as (l & El). rewrite Eg in El. cbn in El.
          apply ugenerate_threw in Eg. destruct Eg as (G1 & G2). split; [exact G1|]. cbn in G2. rewrite El in G2 |- *. rewrite skip_own.
          rewrite accepted_app in G2. rewrite <- (app_nil_r (accepted tr)) in G2 at 2. apply app_inv_head in G2. exact G2.
        - destruct (umaybe_ack _ _ _ _) as [o1 []] eqn:Eg; [|discriminate]. assert (o1 = (d1, tr1)) by congruence. subst o1.
          destruct (umaybe_trace u clk (mkeys (d_sources (dc_core d))) (d, tr)) as (l & El). rewrite Eg in El. cbn in El.
          apply umaybe_threw in Eg. destruct Eg as (G1 & G2). split; [exact G1|]. cbn in G2. rewrite El in G2 |- *. rewrite skip_own.
          rewrite accepted_app in G2. rewrite <- (app_nil_r (accepted tr)) in G2 at 2. apply app_inv_head in G2. exact G2.
        - discriminate.
        - destruct (set_ack_nb_packets m d n); discriminate. }
      destruct K as (K1 & K2). rewrite last_fault_cons by (cbn; discriminate). cbn [map concat fst]. rewrite accepted_app, K2.
      apply (Go d1 e (eq_trans (f_equal _ K1) Ho) (eq_trans K1 E) _ _ _ E3 _ eq_refl).
    + destruct (urun u m clk (d1, tr1) ops) as [o2 rs2]. injection H as <- <-. apply Quiet. intros [X|X]; discriminate.
    + exfalso. destruct op as [p| | |t|n]; cbn [ustep fst snd] in Es.
      * apply upacket_terminate in Es. destruct Es as (Es & _). congruence.
      * destruct (ugenerate_ack _ _ _) as [o1 []]; discriminate.
      * destruct (umaybe_ack _ _ _ _) as [o1 []]; discriminate.
      * discriminate.
      * destruct (set_ack_nb_packets m d n); discriminate.
    + injection H as <- <-. cbn [kept]. assert (Q := Quiet (fun X => match X with or_introl Y | or_intror Y => ltac:(discriminate Y) end)).
      cbn [tl] in Q. replace (kept ops []) with (@nil dop) in * by (destruct ops; reflexivity). exact Q.
Qed.
Print Assumptions C60_refusals_are_losses.

(** *** Examples and refutations *)

(** The packets of a sender. *)
Definition sent (ops : list eop) : list packet :=
  match erun Debug (new_encoder W8) ops with Ok (_, l) => l | _ => [] end.

(** Handlers that throw once: for the datum [x], if [k] calls returned before. *)
Definition fails_once (x : list N) (k : nat) : uhandler := fun tr c =>
  match c with
  | UData y => if list_eq_dec N.eq_dec x y then Nat.eqb (length tr) k else false
  | _ => false
  end.

(** Two data; the handler refuses the first at its first arrival. *)
Example C60_case :
  let ps := sent [EData [1; 2]; EData [3; 4; 5]; ERepair] in
  let ops := [DPacket (nth 0 ps []); DPacket (nth 1 ps []); DAck; DPacket (nth 2 ps [])] in
  let rs := snd (urun (fails_once [1; 2] 0) Debug still (new_dec still W8 false, []) ops) in
  map snd rs = [UThrew; UDone; UDone; UDone]
  /\ accepted (concat (map fst rs)) = [[3; 4; 5]; [1; 2]]
  /\ refusals ops rs /\ Forall legal_setting ops.
Proof.
  cbv zeta. set (rs := snd _). vm_compute in rs. split; [reflexivity|]. split; [reflexivity|]. split.
  - intros i p calls Hi Hr. destruct i as [|[|[|[|i]]]]; cbn in Hr; try discriminate Hr; [|destruct i; discriminate Hr].
    injection Hr as <-. injection Hi as <-. split; reflexivity.
  - repeat constructor.
Qed.

(** With ordering: the refused datum is the next in order. *)
Example C60_ordered_case :
  let p := nth 0 (sent [EData [1; 2]]) [] in
  let d := new_dec still W8 true in
  get_packet_type p = Ok TSource /\ (exists s n, read_source Debug p = Ok (s, n) /\ ds_id s = d_first (dc_core d))
  /\ exists d', upacket (fails_once [1; 2] 0) Debug still (d, []) p = ((d', []), UThrew).
Proof.
  cbv zeta. split; [vm_compute; reflexivity|]. split; [eexists; eexists; split; vm_compute; reflexivity|].
  eexists. vm_compute. reflexivity.
Qed.

(** An exception while an ack is written costs nothing: the next attempt writes the ack that
    the first would have written, and leaves the receiver in the same state. *)
Lemma inserted_in known : forall s x, In x (fold_left (fun s x => sinsert x s) known s) <-> In x known \/ In x s.
Proof.
  induction known as [|y known IH]; intros s x; cbn [fold_left]; [cbn; tauto|].
  rewrite IH, sinsert_in. cbn [In]. intuition congruence.
Qed.

Lemma inserted_sorted known : forall s, ssorted s -> ssorted (fold_left (fun s x => sinsert x s) known s).
Proof. induction known as [|y known IH]; intros s H; cbn [fold_left]; [exact H | apply IH, sinsert_sorted, H]. Qed.

Theorem C60_interrupted_ack :
  forall u u' m clk d tr d1 tr1 tr1' d2 tr2, ssorted (a_ids (dc_ack d)) ->
  ustep u m clk (d, tr) DAck = ((d1, tr1), UThrew) ->
  ustep u' m clk (d1, tr1') DAck = ((d2, tr2), UDone) ->
  exists pieces, dstep m clk d DAck = (d2, Ok [ToNetwork (concat pieces)]) /\ tr2 = tr1' ++ calls_of (Ack pieces).
Proof.
  intros u u' m clk d tr d1 tr1 tr1' d2 tr2 Hs H1 H2. cbn [ustep fst] in H1, H2.
  destruct (ugenerate_ack u (mkeys (d_sources (dc_core d))) (d, tr)) as [o b] eqn:G1.
  destruct b; [|discriminate]. assert (o = (d1, tr1)) by congruence. subst o. clear H1.
  assert (E1 : d1 = fill_ack (mkeys (d_sources (dc_core d))) d).
  { unfold ugenerate_ack in G1. destruct (ufeed u tr _) as [t []]; congruence. }
  destruct (ugenerate_ack u' (mkeys (d_sources (dc_core d1))) (d1, tr1')) as [o b] eqn:G2.
  destruct b; [discriminate|]. assert (o = (d2, tr2)) by congruence. subst o. clear H2.
  apply ugenerate_quiet in G2. destruct G2 as (w & G2 & Et). cbn [fst snd means] in G2, Et. exists w. split; [|exact Et].
  rewrite E1 in G2. change (dc_core (fill_ack _ d)) with (dc_core d) in G2.
  cbn [dstep]. unfold generate_ack. set (known := mkeys (d_sources (dc_core d))) in *.
  assert (Eq : generate_ack_of known (fill_ack known d) = generate_ack_of known d).
  { unfold generate_ack_of. cbn [fill_ack dc_ack a_ids a_nb dc_period dc_ack_nb dc_last_date dc_core dc_nb_repairs dc_nb_sources dc_nb_acks dc_reads].
    replace (fold_left _ known (fold_left _ known (a_ids (dc_ack d)))) with (fold_left (fun s x => sinsert x s) known (a_ids (dc_ack d)));
      [reflexivity|].
    apply ssorted_ext; try (repeat apply inserted_sorted; exact Hs). intros x. rewrite !inserted_in. tauto. }
  rewrite Eq in G2. rewrite G2. reflexivity.
Qed.
Print Assumptions C60_interrupted_ack.

(** The handler throws at the second piece of the first ack. *)
Example C60_interrupted_case :
  let u : uhandler := fun tr c => Nat.eqb (length tr) 2 in
  let p := nth 0 (sent [EData [1; 2]]) [] in
  let d := fst (dstep Debug still (new_dec still W8 true) (DPacket p)) in
  ssorted (a_ids (dc_ack d)) /\ mkeys (d_sources (dc_core d)) = [0] /\ a_nb (dc_ack d) = 1
  /\ exists o1 o2, ustep u Debug still (d, [UData [1; 2]]) DAck = (o1, UThrew)
     /\ ustep (fun _ _ => false) Debug still (fst o1, snd o1) DAck = (o2, UDone)
     /\ length (snd o1) = 2%nat /\ length (snd o2) = 7%nat.
Proof.
  cbv zeta. split; [vm_compute; constructor|]. split; [vm_compute; reflexivity|]. split; [vm_compute; reflexivity|].
  eexists. eexists. split; [vm_compute; reflexivity|]. split; [vm_compute; reflexivity|]. split; reflexivity.
Qed.

(** Exceptions for recovered data are not losses. The datum [1;2] arrives, so that
    [3;4;5] is recovered, which the handler refuses. Then [1;2] is delivered again
    when its packet arrives again. *)
Theorem C60_delivered_once_refuted :
  exists u m ops o rs, urun u m still (new_dec still W8 false, []) ops = (o, rs)
  /\ last_fault rs = None
  /\ ~ NoDup (accepted (concat (map fst rs)))
  /\ exists d out, drun m still (new_dec still W8 false) ops = Ok (d, out) /\ NoDup (to_user out).
Proof.
  pose (ps := sent [EData [1; 2]; EData [3; 4; 5]; ERepair]).
  exists (fails_once [3; 4; 5] 1), Debug, [DPacket (nth 2 ps []); DPacket (nth 0 ps []); DPacket (nth 0 ps [])].
  eexists. eexists. split; [vm_compute; reflexivity|]. split; [reflexivity|]. split.
  - vm_compute. intros H. inversion H as [|a l Ha _]. apply Ha. left. reflexivity.
  - eexists. eexists. split; [vm_compute; reflexivity|]. vm_compute. constructor; [|constructor; [|constructor]].
    + intros [E|[]]; discriminate.
    + intros [].
Qed.
Print Assumptions C60_delivered_once_refuted.

(** An exception while several data are recovered together leaves the repairs and
    the missing sources, although one source is now known. The next packet fails
    an assertion; without assertions, the matrix of the decoding has entries that
    nobody wrote. *)
Theorem C60_exceptions_harmless_refuted :
  exists u ops,
  (forall m, exists o rs, urun u m still (new_dec still W8 false, []) ops = (o, rs)
     /\ map snd rs = [UDone; UThrew; UFault (match m with Debug => AssertFailure | Release => Uninitialised end)])
  /\ forall m, exists ps, drun m still (new_dec still W8 false) ops = Ok ps.
Proof.
  pose (ps := sent [EData [1; 2]; EData [3; 4; 5]; ERepair; ERepair]).
  exists (fails_once [1; 2] 0), [DPacket (nth 2 ps []); DPacket (nth 3 ps []); DPacket (nth 1 ps [])]. split.
  - intros []; eexists; eexists; (split; [vm_compute; reflexivity | reflexivity]).
  - intros []; eexists; vm_compute; reflexivity.
Qed.
Print Assumptions C60_exceptions_harmless_refuted.

(** ** C61: exceptions that end the program *)

(** std::terminate is only called for a receiver with ordering, when it gets a
    repair. Everywhere else an exception of a handler reaches the user. *)
Theorem C61_terminate :
  forall u m clk d tr op o, ustep u m clk (d, tr) op = (o, UTerminate) ->
  d_in_order (dc_core d) = true /\ exists p, op = DPacket p /\ get_packet_type p = Ok TRepair.
Proof.
  intros u m clk d tr op o H. destruct op as [p| | |t|n]; cbn [ustep fst snd] in H.
  - apply upacket_terminate in H. destruct H as (H1 & H2). eauto.
  - destruct (ugenerate_ack _ _ _) as [o1 []]; discriminate.
  - destruct (umaybe_ack _ _ _ _) as [o1 []]; discriminate.
  - discriminate.
  - destruct (set_ack_nb_packets m d n); discriminate.
Qed.
Print Assumptions C61_terminate.

(** There it happens: the datum [3;4] waits for [1;2], which is lost. A repair that
    does not cover [1;2] makes the receiver deliver [3;4] in [drop_outdated]. *)
Theorem C61_exceptions_reach_the_user_refuted :
  exists u m ops o rs, urun u m still (new_dec still W8 true, []) ops = (o, rs)
  /\ map snd rs = [UDone; UTerminate].
Proof.
  pose (ps := sent [ESetWindow 1; EData [1; 2]; EData [3; 4]; EData [5; 6]; ERepair]).
  exists (fails_once [3; 4] 0), Debug, [DPacket (nth 1 ps []); DPacket (nth 3 ps [])].
  eexists. eexists. split; [vm_compute; reflexivity | reflexivity].
Qed.
Print Assumptions C61_exceptions_reach_the_user_refuted.

(** Without interruptions: a datum, an ack by hand. *)
Example C59_case :
  let rs := snd (urun (fun _ _ => false) Debug still (new_dec still W8 false, [])
                   [DPacket (nth 0 (sent [EData [1; 2]]) []); DAck; DPacket [0]]) in
  rs = [([UData [1; 2]], UDone);
        ([UPacket (HBytes [0]); UPacket (HBytes [0; 1]); UPacket (HBytes [0; 1]); UPacket (HBytes [0; 0; 0; 0]); UPacket HEnd], UDone);
        ([], UError PacketTypeError)].
Proof. vm_compute. reflexivity. Qed.
