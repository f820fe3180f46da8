(** * The closed system over a channel on which nothing overtakes *)
From Coq Require Import ZArith NArith List Bool Lia Sorted.
From Verif Require Import Outcome GF Containers ContainersFacts Packetizer PacketizerFacts PropsPacketizer
  Encoder EncoderRun EncoderFacts EncoderHistory EncoderSafe DetailDecoder Decoder DecoderAlgebra DecoderInv
  DecoderStep DecoderFacts DecoderOuter DecoderThrow DecoderHeld DecoderProgress DecoderPrompt Genuine System SystemInv SystemRun SystemArrive.
Import ListNotations.
Open Scope N_scope.

(** The repairs emitted before a source do not cover it. *)
Definition later (gs : list what) : Prop :=
  forall i j W n x, (i < j)%nat -> nth_error gs i = Some (GRepair W n) ->
  nth_error gs j = Some (GSource x) -> n <= x.

Lemma same_length {A B} (R : A -> B -> Prop) l l' : Forall2 R l l' -> length l = length l'.
Proof. induction 1; cbn [length]; congruence. Qed.

Lemma type_2 p : get_packet_type p = Ok TSource -> type_of p = 2.
Proof.
  intros H. pose proof (type_byte p) as T. rewrite H in T. unfold has_type in T. destruct p as [|b p]; [discriminate|].
  apply N.eqb_eq in T. exact T.
Qed.

(** The sources a step emits: at most one, in the first place, with the next identifier. *)
Lemma emitted_source m clk w a w' new k p : wstep m clk w a = Ok w' -> w_out w' = w_out w ++ new ->
  nth_error new k = Some p -> type_of p = 2 ->
  k = 0%nat /\ exists d, p = concat (write_source {| es_id := e_source_id (w_enc w); es_data := d |}).
Proof.
  intros H Hn Hk Ht.
  assert (Snd : forall op data, sender m w op data = Ok w' -> exists e r, estep m (w_enc w) op = (e, r)
    /\ ~ is_fault r /\ (r = Ok new \/ new = [])).
  { intros op data E. unfold sender in E. destruct (estep m (w_enc w) op) as [e r]. exists e, r. split; [reflexivity|].
    apply bind_ok in E. destruct E as (out & Eo & E). apply survive_ok in Eo. destruct Eo as [Hf Hr]. split; [exact Hf|].
    assert (Eq : w_out w' = w_out w ++ out).
    { apply (f_equal (fun r => match r with Ok y => w_out y | _ => [] end)) in E. symmetry. exact E. }
    rewrite Hn in Eq. apply app_inv_head in Eq. subst out. destruct Hr as [Hr|[Hr _]]; auto. }
  assert (Rcv : w_out w' = w_out w -> new = []).
  { intros E. rewrite E in Hn. rewrite <- (app_nil_r (w_out w)) in Hn at 1. apply app_inv_head in Hn. congruence. }
  assert (Nil : new = [] -> False) by (intros ->; destruct k; discriminate).
  destruct a; cbn [wstep] in H;
    try (exfalso; apply Nil, Rcv; apply receiver_extends in H; apply H);
    try (destruct (Snd _ _ H) as (e & r & E & Hf & Hr); destruct Hr as [Hr|Hr]; [|destruct (Nil Hr)]).
  - apply estep_data in E; [|exact Hf]. destruct E as (out & Er & A). assert (out = new) by congruence. subst out.
    destruct A. destruct ad_out as (first & rest & -> & O1 & O2 & O3 & O4).
    assert (Hrest : forall q, In q rest -> type_of q = 1).
    { intros q Hq. destruct (N.eq_dec (u32 (e_source_id (w_enc w) + 1) mod e_rate (w_enc w)) 0) as [Hz|Hz].
      - destruct (O3 Hz) as (q' & -> & Rq). destruct Hq as [<-|[]]. eapply repair_of_type, Rq.
      - rewrite (O4 Hz) in Hq. destruct Hq. }
    destruct k as [|k].
    + split; [reflexivity|]. cbn [nth_error] in Hk. assert (p = first) by congruence. subst p.
      destruct (e_systematic (w_enc w)) eqn:Es; [exists d; apply O1; reflexivity|].
      specialize (O2 eq_refl). apply repair_of_type in O2. congruence.
    + cbn [nth_error] in Hk. apply nth_error_In in Hk. apply Hrest in Hk. congruence.
  - apply estep_repair in E; [|exact Hf]. destruct E as (out & Er & A). assert (out = new) by congruence. subst out.
    apply generate_repair_ok in A. destruct A as (r0 & w0 & E1 & E2 & -> & _).
    apply nth_error_In in Hk. destruct Hk as [<-|[]]. exfalso.
    assert (X : repair_of m (Encoder.e_field (w_enc w)) (e_repair_id (w_enc w)) (e_sources (w_enc w)) (concat w0)).
    { exists r0, w0. auto. }
    apply repair_of_type in X. congruence.
  - exfalso. apply Nil. apply estep_setters in E; [|exact Hf | exact I]. destruct E as [E _]. congruence.
  - exfalso. apply Nil. apply estep_setters in E; [|exact Hf | exact I]. destruct E as [E _]. congruence.
  - exfalso. apply Nil. apply estep_setters in E; [|exact Hf | exact I]. destruct E as [E _]. congruence.
  - exfalso. apply Nil. apply estep_setters in E; [|exact Hf | exact I]. destruct E as [E _]. congruence.
  - exfalso. destruct (nth_error (w_out w) k0).
    + apply Nil, Rcv. apply receiver_extends in H. apply H.
    + apply Nil, Rcv. congruence.
  - exfalso. destruct (nth_error (w_acks w) j) eqn:Ej; [|apply Nil, Rcv; congruence].
    destruct (Snd _ _ H) as (e & r & E & Hf & Hr). destruct Hr as [Hr|Hr]; [|destruct (Nil Hr)].
    apply estep_packet in E; [|exact Hf]. destruct E as (q & _ & _ & _ & E). rewrite Hr in E. cbn in E. apply Nil, E.
Qed.

Section Fifo.
Variable m : mode.
Variable clk : clock.
Variable f : field.
Variable o : bool.

Lemma step_later all gs gs' w a w' : lim all <= LIM -> wok all m f o gs w -> wok all m f o (gs ++ gs') w' ->
  wstep m clk w a = Ok w' -> later gs -> later (gs ++ gs').
Proof.
  intros Hl B B' E H i j W n x Hij Hi Hj.
  pose proof (ok_chan _ _ _ _ _ _ B) as C. pose proof (ok_chan _ _ _ _ _ _ B') as C'.
  pose proof (same_length _ _ _ (ch_is _ _ _ _ _ _ _ _ C)) as Hlen.
  pose proof (same_length _ _ _ (ch_is _ _ _ _ _ _ _ _ C')) as Hlen'. rewrite app_length in Hlen'.
  destruct (x_out _ _ (wstep_extends _ _ _ _ _ E)) as [new Hnew].
  assert (Hi' : (j <= length gs)%nat -> nth_error gs i = Some (GRepair W n)).
  { intros L. rewrite nth_error_app1 in Hi by lia. exact Hi. }
  destruct (Nat.lt_ge_cases j (length gs)) as [L|L].
  - rewrite nth_error_app1 in Hj by exact L. apply (H i j W n x Hij); [apply Hi'; lia | exact Hj].
  - assert (Hp : exists p, nth_error (w_out w') j = Some p /\ is all m f p (GSource x)).
    { destruct (nth_error (w_out w') j) as [p|] eqn:Ep.
      - destruct (forall2_nth _ _ _ (ch_is _ _ _ _ _ _ _ _ C') j p Ep) as (g & Hg & Is). exists p. split; [reflexivity|].
        assert (g = GSource x) by congruence. subst g. exact Is.
      - apply nth_error_None in Ep. assert (nth_error (gs ++ gs') j = None).
        { apply nth_error_None. rewrite app_length. lia. }
        congruence. }
    destruct Hp as (p & Ep & Hx & Ht & s & q & R1 & R2 & _).
    rewrite Hnew, nth_error_app2 in Ep by lia.
    destruct (emitted_source m clk w a w' new _ p E Hnew Ep (type_2 _ Ht)) as (Hk & d & Hd).
    assert (Hjl : j = length gs) by lia.
    pose proof (ok_enc _ _ _ _ _ _ B) as Be. rewrite (eo_source_id _ _ _ _ Be) in Hd.
    assert (Hsent : nsent w < 2 ^ 32).
    { destruct (ok_sent _ _ _ _ _ _ B) as [rest Er]. unfold lim in Hl. rewrite Er, app_length in Hl. unfold nsent.
      unfold LIM in Hl. change (2 ^ 32) with 4294967296. lia. }
    destruct (C01_any_source m (nsent w) d Hsent) as (s' & R1' & R2' & _). unfold on_wire in R1'.
    rewrite <- Hd, R1 in R1'.
    assert (s = s') by congruence. subst s'.
    destruct (ch_new _ _ _ _ _ _ _ _ C i W n (Hi' ltac:(lia))) as [Hle _]. lia.
Qed.

Lemma calm_new : calm (new_ddec f o).
Proof. apply calm_nil. reflexivity. Qed.

Lemma dec_kept w a w' : wstep m clk w a = Ok w' -> (forall k, a <> Arrive k) -> core_of w' = core_of w.
Proof.
  intros H Ha.
  assert (Snd : forall op data, sender m w op data = Ok w' -> core_of w' = core_of w).
  { intros op data E. apply sender_extends in E. unfold core_of. destruct E as (_ & _ & _ & _ & _ & ->). reflexivity. }
  assert (Rcv : forall op, receiver m clk w op [] = Ok w' -> match op with DPacket _ => False | _ => True end ->
    core_of w' = core_of w).
  { intros op E Hop. unfold receiver in E. destruct (dstep m clk (w_dec w) op) as [d r] eqn:Ed.
    apply bind_ok in E. destruct E as (out & _ & E).
    assert (Ec : core_of w' = dc_core d).
    { apply (f_equal (fun r => match r with Ok y => core_of y | _ => dc_core d end)) in E. symmetry. exact E. }
    rewrite Ec. unfold core_of. destruct op; [destruct Hop | | | |]; cbn [dstep] in Ed.
    - unfold generate_ack, generate_ack_of in Ed. injection Ed as <- _. reflexivity.
    - unfold maybe_ack, maybe_ack_of, generate_ack_of in Ed.
      destruct (_ <=? _); [injection Ed as <- _; reflexivity|].
      destruct (_ =? 0)%Z; [injection Ed as <- _; reflexivity|].
      destruct (_ <=? _)%Z; injection Ed as <- _; reflexivity.
    - injection Ed as <- _. reflexivity.
    - unfold set_ack_nb_packets in Ed. destruct (assert_ m (0 <? nb)); cbn [bind finish] in Ed; injection Ed as <- _; reflexivity. }
  destruct a; cbn [wstep] in H; try (eapply Snd; exact H); try (eapply Rcv; [exact H | exact I]).
  - destruct (Ha k eq_refl).
  - destruct (nth_error (w_acks w) j); [eapply Snd; exact H|]. congruence.
Qed.

(** Missing sources are older than a source that arrives. *)
Lemma not_missing all gs w k x : wok all m f o gs w -> later gs -> (forall i, In i (w_arrived w) -> (i <= k)%nat) ->
  nth_error gs k = Some (GSource x) -> forall y, miss (core_of w) y -> y < x.
Proof.
  intros B H Hle Hk y Hy. destruct (ok_last _ _ _ _ _ _ B) as [[_ E]|(i & W & n & Hi & Ha & _ & Hm & _)].
  - unfold miss in Hy. rewrite E in Hy. destruct Hy.
  - pose proof (Hle i Ha) as Hik. assert (i <> k) by (intros ->; congruence).
    assert (Hn : n <= x) by (apply (H i k W n x); [lia | exact Hi | exact Hk]). specialize (Hm y Hy). lia.
Qed.

Lemma fifo_last w w' k : fifo w' -> w_arrived w' = w_arrived w ++ [k] -> forall i, In i (w_arrived w) -> (i <= k)%nat.
Proof.
  unfold fifo. intros H E. rewrite E in H. clear E. induction (w_arrived w) as [|a l IH]; [intros i []|].
  cbn [app] in H. inversion H as [|? ? H1 H2]; subst. intros i [<-|Hi]; [|apply IH; assumption].
  rewrite Forall_forall in H2. apply H2, in_app_iff. right. left. reflexivity.
Qed.

(** What arrives, and what the decoding algorithm does with it. *)
Inductive arrival (all : list (list N)) (d : ddec) (p : packet) (g : what) : Prop :=
| Arrival_source s q x : g = GSource x -> read_source m p = Ok (s, q) -> get_packet_type p = Ok TSource ->
    ds_id s = x -> ds_data s = S all x -> x < lim all -> ~ miss d x -> arrival all d p g
| Arrival_repair r q W n : g = GRepair W n -> read_repair m p = Ok (r, q) -> get_packet_type p = Ok TRepair ->
    dr_ids r = W -> W <> [] -> acceptable f (S all) (lim all) d r -> arrival all d p g.

Lemma arrival_of all gs w k p : Forall (ok_datum f) all -> lim all <= LIM -> wok all m f o gs w -> later gs ->
  (forall i, In i (w_arrived w) -> (i <= k)%nat) -> nth_error (w_out w) k = Some p ->
  exists g, nth_error gs k = Some g /\ arrival all (core_of w) p g.
Proof.
  intros Ha Hl B Lt Hle Hk. pose proof B as [B1 B2 B3 B4 B5 B6 B7].
  destruct (forall2_nth _ _ _ (ch_is _ _ _ _ _ _ _ _ B3) k p Hk) as (g & Hg & Hp). exists g. split; [exact Hg|].
  destruct g as [x|W n].
  - destruct Hp as (Hx & Ht & s & q & R1 & R2 & R3). apply Arrival_source with s q x; try assumption; try reflexivity.
    intros Hm. pose proof (not_missing all gs w k x B Lt Hle Hg x Hm). lia.
  - pose proof Hp as (Ht & Hne & Hs & Hlt & Hn & r & q & R1 & R2 & R3).
    apply Arrival_repair with r q W n; try assumption; try reflexivity.
    eapply accept; try eassumption.
    + apply (do_inv _ _ _ _ B5).
    + intros i Hi _. apply Hle, Hi.
Qed.

(** An arrival in order. *)
Lemma arrival_step all gs w k p w1 : Forall (ok_datum f) all -> lim all <= LIM -> wok all m f o gs w -> later gs ->
  calm (core_of w) -> prompt (lim all) (core_of w) -> (forall i, In i (w_arrived w) -> (i <= k)%nat) ->
  nth_error (w_out w) k = Some p -> wstep m clk w (Arrive k) = Ok w1 ->
  calm (core_of w1) /\ prompt (lim all) (core_of w1) /\ keeps (core_of w) (core_of w1).
Proof.
  intros Ha Hl B Lt Q P Hle Ek E.
  destruct (arrival_of all gs w k p Ha Hl B Lt Hle Ek) as (g & Hg & A).
  pose proof (do_inv _ _ _ _ (ok_dec _ _ _ _ _ _ B)) as I.
  cbn [wstep] in E. rewrite Ek in E. unfold receiver in E. cbn [dstep] in E.
  destruct (dec_packet m clk (w_dec w) p) as [d r] eqn:Ed.
  assert (Ec : core_of w1 = dc_core d).
  { apply bind_ok in E. destruct E as (out & _ & E).
    apply (f_equal (fun r => match r with Ok y => core_of y | _ => dc_core d end)) in E. symmetry. exact E. }
  rewrite Ec. destruct r as [[out q]|e|e]; [| |discriminate].
  - apply dec_packet_ok in Ed; [|apply (do_good _ _ _ _ (ok_dec _ _ _ _ _ _ B)) | apply (do_ids _ _ _ _ (ok_dec _ _ _ _ _ _ B))].
    destruct Ed as [s c nw Et Er Ecc Rn|r c nw Et Er Hr Ecc Rn]; destruct Rn as (_ & -> & _).
    + destruct A as [s' q' x Eg R1 Ht R2 R3 Hx Hm|r' q' W n Eg R1 Ht R2 Hne Acc]; [|congruence].
      assert (s' = s) by congruence. subst s'. rewrite R3, R2 in Ecc. fold (core_of w) in Ecc.
      destruct (source_progress f (S all) m (lim all) Hl (core_of w) x I Q Hx Hm) as (d1 & E2 & Q1 & _).
      destruct (source_prompt f (S all) m (lim all) Hl (core_of w) x c I Q P Hx Hm Ecc) as [P1 K1].
      assert (c = d1) by congruence. subst. auto.
    + destruct A as [s' q' x Eg R1 Ht R2 R3 Hx Hm|r' q' W n Eg R1 Ht R2 Hne Acc]; [congruence|].
      assert (r' = r) by congruence. subst r'. fold (core_of w) in Ecc.
      destruct (repair_progress f (S all) m (lim all) Hl (HS _ f Ha) (core_of w) r I Q Acc) as (d1 & E2 & Q1).
      { congruence. }
      destruct (repair_prompt f (S all) m (lim all) Hl (core_of w) r c I Q P Acc Ecc) as [P1 K1].
      assert (c = d1) by congruence. subst. auto.
  - assert (Hk : keeps (core_of w) (core_of w)) by (apply keeps_same; repeat split).
    apply dec_packet_throw in Ed. destruct Ed as [(_ & _ & ->)|[(_ & ->)|(_ & ->)]]; auto.
Qed.

(** The invariant of runs. *)
Theorem run_fifo w w' : reach m clk f o w -> extends w w' -> within_limits f w' -> fifo w ->
  exists gs, wok (w_sent w') m f o gs w /\ later gs /\ calm (core_of w) /\ prompt (lim (w_sent w')) (core_of w).
Proof.
  intros R X L. revert w R X.
  apply (reach_ind m clk f o (fun w => extends w w' -> fifo w ->
     exists gs, wok (w_sent w') m f o gs w /\ later gs /\ calm (core_of w) /\ prompt (lim (w_sent w')) (core_of w))).
  - intros _ _. exists []. split; [apply wok_start; eapply lim_bound, L|]. split; [|split; [apply calm_new|]].
    + intros i j W n x _ Hi. destruct i; discriminate.
    + intros _. split; [|reflexivity]. split; [|intros []].
      constructor; try (intros x []); try (intros x Hx; destruct Hx). apply ssorted_nil.
  - intros w a w1 R IH E X Hfi. pose proof (wstep_extends _ _ _ _ _ E) as X1.
    destruct IH as (gs & B & Lt & Q & P).
    { eapply extends_trans; eassumption. }
    { eapply fifo_before; eassumption. }
    destruct (wstep_wok m clk f o (w_sent w') gs w a w1 (data_ok _ _ L) (lim_bound _ _ L) B E (fifo_repairs _ Hfi))
      as (new & E1 & _ & H).
    { destruct (x_sent _ _ X) as [rest Er]. exists rest. exact Er. }
    { apply whole_sizes; assumption. }
    destruct H as [gs' H].
    { pose proof (wl_lists _ _ (limits_before _ _ _ X L)) as W. rewrite E1 in W. apply Forall_app in W. apply W. }
    exists (gs ++ gs'). split; [exact H|]. split; [eapply step_later; try eassumption; eapply lim_bound, L|].
    assert (Other : (forall k, a <> Arrive k) -> calm (core_of w1) /\ prompt (lim (w_sent w')) (core_of w1)).
    { intros Ha. rewrite (dec_kept _ _ _ E Ha). auto. }
    destruct a; try (apply Other; discriminate).
    destruct (nth_error (w_out w) k) as [p|] eqn:Ek.
    2: { cbn [wstep] in E. rewrite Ek in E. assert (w1 = w) by congruence. subst. auto. }
    assert (Hle : forall i, In i (w_arrived w) -> (i <= k)%nat).
    { apply fifo_last with w1; [exact Hfi|]. cbn [wstep] in E. rewrite Ek in E. apply receiver_extends in E. apply E. }
    destruct (arrival_step (w_sent w') gs w k p w1 (data_ok _ _ L) (lim_bound _ _ L) B Lt Q P Hle Ek E) as (A1 & A2 & _).
    auto.
Qed.

(** ** Progress *)

(** An arrival in order never goes wrong: the call returns, without exception. *)
Theorem arrival_returns w k p : reach m clk f o w -> within_limits f w -> fifo w ->
  (forall i, In i (w_arrived w) -> (i <= k)%nat) -> nth_error (w_out w) k = Some p ->
  exists d out n, dec_packet m clk (w_dec w) p = (d, Ok (out, n)).
Proof.
  intros R L Hfi Hle Ek.
  destruct (run_fifo w w R (extends_refl w) L Hfi) as (gs & B & Lt & Q & _).
  destruct (arrival_of (w_sent w) gs w k p (data_ok _ _ L) (lim_bound _ _ L) B Lt Hle Ek) as (g & Hg & A).
  pose proof (do_inv _ _ _ _ (ok_dec _ _ _ _ _ _ B)) as I.
  unfold dec_packet.
  assert (Hne : p <> []).
  { intros ->. destruct A as [s' q' x Eg R1 Ht|r' q' W n Eg R1 Ht]; discriminate. }
  assert (Ha : assert_ m (Nat.ltb 0 (length p)) = Ok tt).
  { destruct p as [|b p]; [congruence|]. destruct m; reflexivity. }
  rewrite Ha. cbn [bind].
  destruct A as [s q x Eg R1 Ht R2 R3 Hx Hm|r q W n Eg R1 Ht R2 Hne2 Acc]; rewrite Ht; cbv zeta; rewrite R1; cbn [bind].
  - destruct (source_progress f (S (w_sent w)) m (lim (w_sent w)) (lim_bound _ _ L) (core_of w) x I Q Hx Hm)
      as (d1 & E2 & _). unfold call_core. cbn [count_packet dc_core]. rewrite R3, R2.
    change (dc_core (w_dec w)) with (core_of w). rewrite E2. cbn [bind].
    destruct (handle_sources _ _ _) as [d2 out]. cbn [finish bind survive]. eauto.
  - destruct (repair_progress f (S (w_sent w)) m (lim (w_sent w)) (lim_bound _ _ L)
          (HS _ f (data_ok _ _ L)) (core_of w) r I Q Acc) as (d1 & E2 & _).
    { congruence. }
    unfold call_core. cbn [count_packet dc_core].
    change (dc_core (w_dec w)) with (core_of w). rewrite E2. cbn [bind].
    destruct (handle_sources _ _ _) as [d2 out]. cbn [finish bind survive]. eauto.
Qed.

Theorem arrival_progress w k : reach m clk f o w -> within_limits f w -> fifo w ->
  (forall i, In i (w_arrived w) -> (i <= k)%nat) -> exists w', wstep m clk w (Arrive k) = Ok w'.
Proof.
  intros R L Hfi Hle. cbn [wstep]. destruct (nth_error (w_out w) k) as [p|] eqn:Ek; [|eauto].
  destruct (arrival_returns w k p R L Hfi Hle Ek) as (d & out & n & E).
  unfold receiver. cbn [dstep]. rewrite E. cbn [survive bind]. eauto.
Qed.

End Fifo.

(** ** Whole runs *)

(** The positions whose packets are given to the receiver. *)
Definition arrivals (l : list action) : list nat :=
  flat_map (fun a => match a with Arrive k => [k] | _ => [] end) l.

(** The data given to the sender. *)
Definition given (l : list action) : list (list N) :=
  flat_map (fun a => match a with Data d => [d] | _ => [] end) l.

(** Calls that respect the contracts of the library (asserts of encoder.hh 75-87,
    decoder.hh 274, configuration). *)
Definition legal_action (f : field) (a : action) : Prop :=
  match a with
  | Data d => (0 < length d)%nat /\ N.of_nat (length d) < 65536 /\ aligned f (length d) = true
              /\ Forall (fun b => b < 256) d
  | SetRate k => 0 < k
  | SetWindow n => 0 < n
  | SetNb n => 0 < n
  | _ => True
  end.

Lemma sorted_snoc l (k : nat) : StronglySorted le l -> (forall i, In i l -> (i <= k)%nat) -> StronglySorted le (l ++ [k]).
Proof.
  intros H Hk. induction H as [|a l H IH H2]; cbn [app]; [constructor; [constructor | constructor]|].
  constructor.
  - apply IH. intros i Hi. apply Hk. right. exact Hi.
  - apply Forall_app. split; [exact H2|]. constructor; [apply Hk; left; reflexivity | constructor].
Qed.

Lemma sorted_app_le l1 l2 : StronglySorted le (l1 ++ l2) -> StronglySorted le l1
  /\ forall i j, In i l1 -> In j l2 -> (i <= j)%nat.
Proof.
  induction l1 as [|a l1 IH]; cbn [app]; intros H; [split; [constructor | intros i j []]|].
  inversion H as [|? ? H1 H2]; subst. destruct (IH H1) as [A B]. rewrite Forall_forall in H2. split.
  - constructor; [exact A|]. apply Forall_forall. intros i Hi. apply H2, in_app_iff. left. exact Hi.
  - intros i j [<-|Hi] Hj; [apply H2, in_app_iff; right; exact Hj | apply B; assumption].
Qed.

Section Total.
Variable m : mode.
Variable clk : clock.
Variable f : field.
Variable o : bool.

Record sound (l : list action) (w : world) : Prop := {
  sd_reach : reach m clk f o w;
  sd_fifo : fifo w;
  sd_arrived : forall i, In i (w_arrived w) -> In i (arrivals l);
  sd_sent : w_sent w = given l;
  sd_safe : safe f (w_enc w)
}.

Lemma sound_start : sound [] (start clk f o).
Proof.
  constructor; try apply new_safe; try (cbn; constructor).
  - exists []. reflexivity.
  - intros i [].
Qed.

Lemma arrivals_app l l' : arrivals (l ++ l') = arrivals l ++ arrivals l'.
Proof. apply flat_map_app. Qed.

Lemma given_app l l' : given (l ++ l') = given l ++ given l'.
Proof. apply flat_map_app. Qed.

Lemma sound_limits l w : sound l w -> Forall (legal_action f) l -> N.of_nat (length (given l)) <= 65535 ->
  sizes_fit f w -> within_limits f w.
Proof.
  intros [R Fi _ Es _] Hl Hn Hz. eapply short_runs; try eassumption.
  - apply fifo_repairs, Fi.
  - rewrite Es. apply Forall_forall. intros d Hd. unfold given in Hd. apply in_flat_map in Hd.
    destruct Hd as (a & Ha & Hd). rewrite Forall_forall in Hl. specialize (Hl a Ha).
    destruct a; try contradiction. destruct Hd as [<-|[]]. exact Hl.
  - rewrite Es. exact Hn.
Qed.

(** One step of a run. *)
Lemma limited_step l w a : sound l w -> Forall (legal_action f) (l ++ [a]) -> within_limits f w ->
  StronglySorted le (arrivals (l ++ [a])) -> (a = Repair -> e_sources (w_enc w) <> []) ->
  exists w', wstep m clk w a = Ok w' /\ sound (l ++ [a]) w'.
Proof.
  intros S0 Hl L Hs Hr. apply Forall_app in Hl. destruct Hl as [Hl Ha]. apply Forall_inv in Ha.
  pose proof S0 as [R Fi Har Es Sf].
  rewrite arrivals_app in Hs.
  assert (Snd : forall op data, legal_op f op -> (op = ERepair -> e_sources (w_enc w) <> []) ->
     arrivals [a] = [] -> given [a] = data -> wstep m clk w a = sender m w op data ->
     exists w', wstep m clk w a = Ok w' /\ sound (l ++ [a]) w').
  { intros op data Hop Hre Ea Eg Est. destruct (estep_safe m f (w_enc w) op Sf Hop Hre) as (e' & r & E & Hnf & Sf').
    assert (Ex : exists w', wstep m clk w a = Ok w' /\ w_arrived w' = w_arrived w /\ w_sent w' = w_sent w ++ data
        /\ w_enc w' = e').
    { rewrite Est. unfold sender. rewrite E. destruct r as [out|x|x]; cbn [survive bind].
      - eexists. split; [reflexivity|]. repeat split.
      - eexists. split; [reflexivity|]. repeat split.
      - destruct Hnf. exists x. reflexivity. }
    destruct Ex as (w' & E' & A1 & A2 & A3). exists w'. split; [exact E'|]. constructor.
    - eapply reach_step; eassumption.
    - unfold fifo. rewrite A1. exact Fi.
    - intros i Hi. rewrite A1 in Hi. rewrite arrivals_app. apply in_app_iff. left. apply Har, Hi.
    - rewrite A2, given_app, Es, Eg. reflexivity.
    - rewrite A3. exact Sf'. }
  assert (Rcv : forall op, arrivals [a] = [] -> given [a] = [] -> wstep m clk w a = receiver m clk w op [] ->
     ~ is_fault (snd (dstep m clk (w_dec w) op)) ->
     exists w', wstep m clk w a = Ok w' /\ sound (l ++ [a]) w').
  { intros op Ea Eg Est Hnf.
    assert (Ex : exists w', wstep m clk w a = Ok w' /\ w_arrived w' = w_arrived w /\ w_sent w' = w_sent w
        /\ w_enc w' = w_enc w).
    { rewrite Est. unfold receiver. destruct (dstep m clk (w_dec w) op) as [d r]. cbn [snd] in Hnf.
      destruct r as [out|x|x]; cbn [survive bind].
      - eexists. split; [reflexivity|]. cbn. rewrite app_nil_r. repeat split.
      - eexists. split; [reflexivity|]. cbn. rewrite app_nil_r. repeat split.
      - destruct Hnf. exists x. reflexivity. }
    destruct Ex as (w' & E' & A1 & A2 & A3). exists w'. split; [exact E'|]. constructor.
    - eapply reach_step; eassumption.
    - unfold fifo. rewrite A1. exact Fi.
    - intros i Hi. rewrite A1 in Hi. rewrite arrivals_app. apply in_app_iff. left. apply Har, Hi.
    - rewrite A2, given_app, Es, Eg, app_nil_r. reflexivity.
    - rewrite A3. exact Sf. }
  assert (Idle : arrivals [a] = [] \/ (exists k, a = Arrive k) -> given [a] = [] -> wstep m clk w a = Ok w ->
     exists w', wstep m clk w a = Ok w' /\ sound (l ++ [a]) w').
  { intros _ Eg E. exists w. split; [exact E|]. constructor; try assumption.
    - intros i Hi. rewrite arrivals_app. apply in_app_iff. left. apply Har, Hi.
    - rewrite given_app, Es, Eg, app_nil_r. reflexivity. }
  destruct a.
  - apply (Snd (EData d) [d]); try reflexivity; [|discriminate]. split; [apply Ha|]. split; apply Ha.
  - apply (Snd ERepair []); try reflexivity. intros _. apply Hr. reflexivity.
  - apply (Snd (ESetCode systematic) []); try reflexivity. discriminate.
  - apply (Snd (ESetRate rate) []); try reflexivity; [exact Ha | discriminate].
  - apply (Snd (ESetWindow size) []); try reflexivity; [exact Ha | discriminate].
  - apply (Snd (ESetAdaptive adaptive) []); try reflexivity. discriminate.
  - apply (Rcv DAck); try reflexivity. cbn [dstep]. unfold generate_ack, generate_ack_of. intros [x X]. discriminate.
  - apply (Rcv DMaybe); try reflexivity. cbn [dstep]. destruct (maybe_ack clk (w_dec w)) as [d out]. intros [x X]. discriminate.
  - apply (Rcv (DSetPeriod period)); try reflexivity. intros [x X]. discriminate.
  - apply (Rcv (DSetNb nb)); try reflexivity. cbn [dstep legal_action] in *. unfold set_ack_nb_packets.
    assert (E : assert_ m (0 <? nb) = Ok tt).
    { apply N.ltb_lt in Ha. rewrite Ha. destruct m; reflexivity. }
    rewrite E. cbn [bind finish snd]. intros [x X]. discriminate.
  - assert (Hle : forall i, In i (w_arrived w) -> (i <= k)%nat).
    { intros i Hi. apply sorted_app_le in Hs. destruct Hs as [_ Hs]. apply Hs; [apply Har, Hi | left; reflexivity]. }
    destruct (arrival_progress m clk f o w k R L Fi Hle) as [w' E].
    destruct (nth_error (w_out w) k) as [p|] eqn:Ek.
    2: { apply Idle; [right; eauto | reflexivity|]. cbn [wstep]. rewrite Ek. reflexivity. }
    exists w'. split; [exact E|].
    assert (X : w_arrived w' = w_arrived w ++ [k] /\ w_sent w' = w_sent w /\ w_enc w' = w_enc w).
    { cbn [wstep] in E. rewrite Ek in E. apply receiver_extends in E. repeat split; apply E. }
    destruct X as (A1 & A2 & A3). constructor.
    + eapply reach_step; eassumption.
    + unfold fifo. rewrite A1. apply sorted_snoc; assumption.
    + intros i Hi. rewrite A1 in Hi. rewrite arrivals_app. apply in_app_iff in Hi. apply in_app_iff.
      destruct Hi as [Hi|Hi]; [left; apply Har, Hi | right; exact Hi].
    + rewrite A2, given_app, Es. cbn. rewrite app_nil_r. reflexivity.
    + rewrite A3. exact Sf.
  - destruct (nth_error (w_acks w) j) as [p|] eqn:Ej.
    2: { apply Idle; [left; reflexivity | reflexivity|]. cbn [wstep]. rewrite Ej. reflexivity. }
    apply (Snd (EPacket p) []); try reflexivity; [|discriminate|].
    + destruct (run_fifo m clk f o w w R (extends_refl w) L Fi) as (gs & B & _).
      pose proof (ok_acks _ _ _ _ _ _ B) as K. rewrite Forall_forall in K.
      destruct (K p (nth_error_In _ _ Ej)) as (ids & nb & -> & _). split; [discriminate|].
      apply write_ack_bytes.
    + cbn [wstep]. rewrite Ej. reflexivity.
Qed.

Lemma sound_step l w a : sound l w -> Forall (legal_action f) (l ++ [a]) -> N.of_nat (length (given l)) <= 65535 ->
  StronglySorted le (arrivals (l ++ [a])) -> (a = Repair -> e_sources (w_enc w) <> []) ->
  sizes_fit f w -> exists w', wstep m clk w a = Ok w' /\ sound (l ++ [a]) w'.
Proof.
  intros S0 Hl Hn Hs Hr Hz. apply limited_step; try assumption. apply (sound_limits l w S0); try assumption.
  apply Forall_app in Hl. apply Hl.
Qed.

Lemma sound_step_other : f <> W32 -> forall l w a, sound l w -> Forall (legal_action f) (l ++ [a]) ->
  N.of_nat (length (given l)) <= 65535 ->
  StronglySorted le (arrivals (l ++ [a])) -> (a = Repair -> e_sources (w_enc w) <> []) ->
  exists w', wstep m clk w a = Ok w' /\ sound (l ++ [a]) w'.
Proof. intros Hf l w a S0 Hl Hn Hs Hr. apply sound_step; try assumption. apply sizes_fit_other, Hf. Qed.

Lemma wrun_app w l l' : wrun m clk w (l ++ l') = (w' <- wrun m clk w l ;; wrun m clk w' l').
Proof.
  revert w. induction l as [|a l IH]; intros w; [reflexivity|]. cbn [app wrun].
  destruct (wstep m clk w a); cbn [bind]; auto.
Qed.

Theorem run_total l : Forall (legal_action f) l -> N.of_nat (length (given l)) <= 65535 ->
  StronglySorted le (arrivals l) -> sizes_fit_during m clk f o l ->
  (exists w, wrun m clk (start clk f o) l = Ok w /\ sound l w)
  \/ exists before after w, l = before ++ Repair :: after
     /\ wrun m clk (start clk f o) before = Ok w /\ e_sources (w_enc w) = [].
Proof.
  induction l as [|a l IH] using rev_ind; intros Hl Hn Hs Hz.
  - left. exists (start clk f o). split; [reflexivity | apply sound_start].
  - pose proof Hl as Hl'. pose proof Hs as Hs'. apply Forall_app in Hl'. destruct Hl' as [Hl' _].
    rewrite arrivals_app in Hs'. apply sorted_app_le in Hs'. destruct Hs' as [Hs' _].
    assert (Hn' : N.of_nat (length (given l)) <= 65535).
    { rewrite given_app, app_length in Hn. lia. }
    assert (Hz' : sizes_fit_during m clk f o l).
    { intros b c w -> E. apply (Hz b (c ++ [a]) w); [symmetry; apply app_assoc | exact E]. }
    destruct (IH Hl' Hn' Hs' Hz') as [(w & E & S0)|(b & c & w & -> & E & Hw)].
    + assert (D : (a = Repair /\ e_sources (w_enc w) = []) \/ (a = Repair -> e_sources (w_enc w) <> [])).
      { destruct (e_sources (w_enc w)); [|right; discriminate]. destruct a; try (right; discriminate). left. split; reflexivity. }
      destruct D as [[-> D]|D].
      * right. exists l, [], w. auto.
      * left. destruct (sound_step l w a S0 Hl Hn' Hs D (Hz l [a] w eq_refl E)) as (w' & E' & S'). exists w'. split; [|exact S'].
        rewrite wrun_app, E. cbn [bind wrun]. rewrite E'. reflexivity.
    + right. exists b, (c ++ [a]), w. split; [|auto]. rewrite <- app_assoc. reflexivity.
Qed.

End Total.
