(** * What the acks say and when they are sent: C39, C40, C80 *)
From Coq Require Import ZArith NArith List Bool Lia Arith Sorted.
From Verif Require Import Outcome GF Containers ContainersFacts Packetizer PropsPacketizer
  Encoder EncoderRun EncoderHistory DetailDecoder Decoder DecoderInv DecoderStep DecoderFacts DecoderOuter DecoderHeld
  System SystemInv SystemRun PropsSystem PropsWire.
From Verif Require PropsDecoder.
Import ListNotations.
Open Scope N_scope.

(** ** C39: the contents behind an ack *)

(** The receiver stores the bytes [data] for the source [x]. *)
Definition stores (w : world) (x : N) (data : list N) : Prop := In (x, data) (d_sources (dc_core (w_dec w))).

(** What is stored for the source [x] is the datum number [x] given to the sender. *)
Theorem C39_stored_content :
  forall m clk f o w x data, normal m clk f o w -> stores w x data ->
  nth_error (w_sent w) (N.to_nat x) = Some data.
Proof.
  intros m clk f o w x data (R & Ho & L) H. unfold stores in H.
  destruct (run_wok m clk f o w w R (extends_refl w) L Ho) as [gs B].
  destruct B as [_ _ _ _ D _ _]. destruct D as [_ _ _ I _ _]. destruct I as [C Ge _ _].
  destruct (c_sources _ _ _ _ C) as [Ms G].
  assert (Hk : In x (mkeys (d_sources (dc_core (w_dec w))))) by (apply in_map_iff; exists (x, data); auto).
  assert (Hx : x < lim (w_sent w)) by (apply Ge; left; left; exact Hk).
  assert (Hf : mfind x (d_sources (dc_core (w_dec w))) = Some data) by (apply in_mfind; assumption).
  apply G in Hf. subst data. unfold S, lim in *.
  apply nth_error_nth'. lia.
Qed.
Print Assumptions C39_stored_content.

(** The calls of a receiver in the closed system. *)
Lemma system_receiver m clk f o w : reach m clk f o w -> exists tr, PropsDecoder.receiver m clk f o tr (w_dec w).
Proof.
  revert w. apply (reach_ind m clk f o (fun w => exists tr, PropsDecoder.receiver m clk f o tr (w_dec w))).
  - exists []. constructor.
  - intros w a w' _ (tr & T) H.
    assert (Snd : forall op data, sender m w op data = Ok w' -> exists tr, PropsDecoder.receiver m clk f o tr (w_dec w')).
    { intros op data Hs. apply sender_extends in Hs. destruct Hs as (_ & _ & _ & _ & _ & B). exists tr. rewrite B. exact T. }
    assert (Rcv : forall op l, receiver m clk w op l = Ok w' -> exists tr, PropsDecoder.receiver m clk f o tr (w_dec w')).
    { intros op l Hs. unfold receiver in Hs. destruct (dstep m clk (w_dec w) op) as [d r] eqn:Ed.
      apply bind_ok in Hs. destruct Hs as (out & Es & Hs). injection Hs as <-. cbn [w_dec].
      destruct r as [out'|e|e]; [| |discriminate Es].
      - exists (tr ++ [(op, out')]). eapply Trace_step; eassumption.
      - exists (tr ++ [(op, [])]). eapply Trace_throw; eassumption. }
    destruct a; cbn [wstep] in H; try (eapply Snd; exact H); try (eapply Rcv; exact H).
    + destruct (nth_error (w_out w) k); [eapply Rcv; exact H|]. assert (w' = w) by congruence. subst. eauto.
    + destruct (nth_error (w_acks w) j); [eapply Snd; exact H|]. assert (w' = w) by congruence. subst. eauto.
Qed.

(** Each ack emitted by a step lists sources whose original contents the receiver
    stores before or after the step, and all that it stores before and after. *)
Theorem C39_acked_content :
  forall m clk f o w a w' new p,
  reach m clk f o w -> wstep m clk w a = Ok w' -> normal m clk f o w' ->
  w_acks w' = w_acks w ++ new -> In p new ->
  exists ids nb, p = concat (write_ack {| a_ids := ids; a_nb := nb |})
  /\ (forall x, In x ids -> exists data, nth_error (w_sent w') (N.to_nat x) = Some data
        /\ (stores w x data \/ stores w' x data))
  /\ (forall x data, stores w x data -> stores w' x data -> In x ids).
Proof.
  intros m clk f o w a w' new p R H Nm En Hp.
  assert (Nw : normal m clk f o w).
  { pose proof (wstep_extends _ _ _ _ _ H) as X. destruct Nm as (_ & Ho & L). split; [exact R|]. split.
    - eapply repairs_in_order_before; eassumption.
    - eapply limits_before; eassumption. }
  destruct (system_receiver _ _ _ _ _ R) as [tr T].
  assert (Snd : forall op data, sender m w op data = Ok w' -> new = []).
  { intros op data Hs. unfold sender in Hs. destruct (estep m (w_enc w) op) as [e r]. apply bind_ok in Hs.
    destruct Hs as (out & _ & Hs). injection Hs as <-. cbn [w_acks] in En.
    rewrite <- (app_nil_r (w_acks w)) in En at 1. apply app_inv_head in En. auto. }
  assert (Same : w' = w -> new = []).
  { intros ->. rewrite <- (app_nil_r (w_acks w)) in En at 1. apply app_inv_head in En. auto. }
  assert (Rcv : forall op l, receiver m clk w op l = Ok w' -> exists out, dstep m clk (w_dec w) op = (w_dec w', Ok out) /\ to_network out = new).
  { intros op l Hs. unfold receiver in Hs. destruct (dstep m clk (w_dec w) op) as [d r] eqn:Ed.
    apply bind_ok in Hs. destruct Hs as (out & Es & Hs). injection Hs as <-. cbn [w_dec w_acks] in *.
    apply app_inv_head in En. destruct r as [out'|e|e]; [| |discriminate Es]; cbn [survive] in Es.
    - assert (out' = out) by congruence. subst. eauto.
    - assert (out = []) by congruence. subst. contradiction. }
  assert (Key : exists op out, dstep m clk (w_dec w) op = (w_dec w', Ok out) /\ to_network out = new).
  { destruct a; cbn [wstep] in H; try (apply Snd in H; subst; contradiction); try (apply Rcv in H; eauto).
    - destruct (nth_error (w_out w) k); [apply Rcv in H; eauto|]. rewrite Same in Hp by congruence. contradiction.
    - destruct (nth_error (w_acks w) j); [apply Snd in H; subst; contradiction|]. rewrite Same in Hp by congruence. contradiction. }
  destruct Key as (op & out & Ed & <-). apply In_nth_error in Hp as (i & Hi).
  destruct (PropsDecoder.C39_acks_truthful m clk f o tr _ op out _ i p T Ed Hi) as (ids & nb & -> & _ & Lo & Up & _).
  exists ids, nb. split; [reflexivity|]. split.
  - intros x Hx. destruct (Up x Hx) as [Hh|Hh]; unfold PropsDecoder.held in Hh; apply in_map_iff in Hh;
      destruct Hh as ((x' & data) & Ex & Hh); cbn [fst] in Ex; subst x'; exists data; (split; [|auto]).
    + apply (C39_stored_content _ _ _ _ _ _ _ Nw) in Hh. destruct (x_sent _ _ (wstep_extends _ _ _ _ _ H)) as [l ->].
      rewrite nth_error_app1; [exact Hh|]. apply nth_error_Some. congruence.
    + apply (C39_stored_content _ _ _ _ _ _ _ Nm Hh).
  - intros x data Ha Hb. apply Lo; apply in_map_iff; exists (x, data); auto.
Qed.
Print Assumptions C39_acked_content.

(** ** C40: the schedule of the acks of a call *)

(** [threshold] packets, or [period] milliseconds (unless 0), after the last ack. Dates are in nanoseconds; [reads] readings of the clock were made.
    The outputs of a call: each datum handed out is followed by an ack if there are enough packets, or enough time passed; [count] is the number of
    packets since the last ack, at the date [last]. An ack carries this number, is dated by the next reading of the clock and starts a new count. *)
Inductive schedule (clk : clock) (threshold : N) (period : Z)
  : N -> Z -> nat -> list dout -> N -> Z -> nat -> Prop :=
| schedule_end count last reads : schedule clk threshold period count last reads [] count last reads
| schedule_ack count last reads data ids rest count' last' reads' :
    threshold <= count \/ (period <> 0 /\ clk reads - last >= period * 1000000)%Z ->
    schedule clk threshold period 0 (clk reads) (1 + reads) rest count' last' reads' ->
    schedule clk threshold period count last reads
      (ToUser data :: ToNetwork (concat (write_ack {| a_ids := ids; a_nb := count |})) :: rest) count' last' reads'
| schedule_time count last reads data rest count' last' reads' :
    count < threshold -> (period <> 0 /\ clk reads - last < period * 1000000)%Z ->
    schedule clk threshold period count last (1 + reads) rest count' last' reads' ->
    schedule clk threshold period count last reads (ToUser data :: rest) count' last' reads'
| schedule_count count last reads data rest count' last' reads' :
    count < threshold -> period = 0%Z ->
    schedule clk threshold period count last reads rest count' last' reads' ->
    schedule clk threshold period count last reads (ToUser data :: rest) count' last' reads'.

Lemma handle_sources_schedule clk l : forall d d' out, handle_sources clk d l = (d', out) ->
  schedule clk (dc_ack_nb d) (dc_period d) (a_nb (dc_ack d)) (dc_last_date d) (dc_reads d) out
    (a_nb (dc_ack d')) (dc_last_date d') (dc_reads d').
Proof.
  induction l as [|v l IH]; intros d d' out H; cbn [handle_sources] in H.
  - assert (d' = d /\ out = []) as [-> ->] by (split; congruence). constructor.
  - unfold handle_source, maybe_ack_of, generate_ack_of in H.
    destruct (N.leb_spec (dc_ack_nb d) (a_nb (dc_ack d))) as [Hc|Hc];
      [|destruct (Z.eqb_spec (dc_period d) 0) as [Hz|Hz];
        [|destruct (Z.leb_spec (dc_period d * 1000000) (clk (dc_reads d) - dc_last_date d)) as [Ht|Ht]]];
      match type of H with (let '(_, _) := handle_sources clk ?x l in _) = _ =>
        destruct (handle_sources clk x l) as [d1 o1] eqn:E; apply IH in E end;
      apply pair_equal_spec in H; destruct H as [<- <-]; cbn [app].
    + apply schedule_ack; [left; exact Hc | exact E].
    + apply schedule_count; [exact Hc | exact Hz | exact E].
    + apply schedule_ack; [right; split; [exact Hz | lia] | exact E].
    + apply schedule_time; [exact Hc | split; [exact Hz | lia] | exact E].
Qed.

(** A call with a packet counts the packet and then follows the schedule, until the state in which the next call starts. *)
Theorem C40_packet_schedule :
  forall m clk f o tr d p d' out,
  PropsDecoder.receiver m clk f o tr d -> dstep m clk d (DPacket p) = (d', Ok out) ->
  schedule clk (dc_ack_nb d) (dc_period d) ((since tr + 1) mod 65536) (dc_last_date d) (dc_reads d) out
    (since (tr ++ [(DPacket p, out)]) mod 65536) (dc_last_date d') (dc_reads d').
Proof.
  intros m clk f o tr d p d' out T H.
  assert (T' : PropsDecoder.receiver m clk f o (tr ++ [(DPacket p, out)]) d') by (eapply Trace_step; eassumption).
  apply dtrace_history in T, T'. pose proof (dh_since _ _ _ _ T) as Es. pose proof (dh_since _ _ _ _ T') as Es'.
  unfold u16 in Es'. change 65536 with (2 ^ 16) in *. rewrite <- Es'. clear Es' T T'.
  assert (K : exists c a b l, handle_sources clk (with_core (count_packet d a b) c) l = (d', out)).
  { cbn [dstep] in H. unfold dec_packet in H.
    destruct (_ <- assert_ m (Nat.ltb 0 (length p)) ;; get_packet_type p) as [[]|x|x]; try (cbn [bind] in H; congruence).
    - destruct (read_repair m p) as [[r n]|x|x]; cbn [bind finish] in H; try congruence.
      unfold call_core in H. cbn [count_packet dc_core] in H.
      destruct (recv_repair m (dc_core d) r) as [c|x|x]; cbn [bind finish] in H; try congruence.
      destruct (handle_sources _ _ _) as [d1 o1] eqn:E; cbn [bind finish] in H. exists c, 1, 0. eexists.
      rewrite E. congruence.
    - destruct (read_source m p) as [[s n]|x|x]; cbn [bind finish] in H; try congruence.
      unfold call_core in H. cbn [count_packet dc_core] in H.
      destruct (recv_source m (dc_core d) (ds_id s) (ds_data s)) as [c|x|x]; cbn [bind finish] in H; try congruence.
      destruct (handle_sources _ _ _) as [d1 o1] eqn:E; cbn [bind finish] in H. exists c, 0, 1. eexists.
      rewrite E. congruence. }
  destruct K as (c & a & b & l & K). apply handle_sources_schedule in K.
  cbn [with_core count_packet dc_ack_nb dc_period dc_ack a_nb dc_last_date dc_reads] in K.
  rewrite Es, u16_add in K. exact K.
Qed.
Print Assumptions C40_packet_schedule.

(** The schedule leaves no choice: where the acks are is determined by the clock and the numbers. *)
Definition kind (x : dout) : bool := match x with ToUser _ => true | ToNetwork _ => false end.

Theorem C40_schedule_unique :
  forall clk th per c l r out c1 l1 r1 out' c2 l2 r2,
  schedule clk th per c l r out c1 l1 r1 -> schedule clk th per c l r out' c2 l2 r2 ->
  length (to_user out) = length (to_user out') ->
  map kind out = map kind out' /\ c1 = c2 /\ l1 = l2 /\ r1 = r2.
Proof.
  intros clk th per c l r out c1 l1 r1 out' c2 l2 r2 H. revert out' c2 l2 r2.
  induction H; intros out' c2 l2 r2 H' E; inversion H'; subst; cbn [to_user length] in E; try discriminate;
    try (auto; fail); try lia; cbn [map kind];
    match goal with IH : forall out' c2 l2 r2, schedule _ _ _ _ _ _ out' c2 l2 r2 -> _, S : schedule _ _ _ _ _ _ ?x c2 l2 r2 |- _ =>
      destruct (IH x c2 l2 r2 S) as (A & B & C & D); [lia|] end; rewrite A; auto.
Qed.
Print Assumptions C40_schedule_unique.

(** ** C80: the acks of the closed system *)

(** Each ack has the layout, with sources each of which is stored or out of date by now. *)
Theorem C80_system_acks :
  forall m clk f o w p, normal m clk f o w -> In p (w_acks w) ->
  exists nb ids, ack_layout nb ids p /\ forall x, In x ids -> held w x \/ obsolete w x.
Proof.
  intros m clk f o w p (R & Ho & L) H.
  destruct (run_wok m clk f o w w R (extends_refl w) L Ho) as [gs B].
  destruct B as [_ _ _ A _ _ _]. rewrite Forall_forall in A.
  destruct (A p H) as (ids & nb & -> & Hn & Hs & [Hc Hf] & Hk).
  exists nb, ids. split; [apply layout_of_ack; assumption|].
  intros x Hx. destruct (Hk x Hx) as [[[Z|[]]|Z] _]; auto.
Qed.
Print Assumptions C80_system_acks.

(** In the story of C27 the step [Ack] emits an ack for four sources, one of them recovered; the receiver stores their contents. *)
Example C39_C80_case : forall o,
  let w := ending Debug W8 o (firstn 10 story) in let w' := ending Debug W8 o (firstn 11 story) in
  reach Debug still W8 o w /\ wstep Debug still w Ack = Ok w' /\ normal Debug still W8 o w'
  /\ w_acks w' = w_acks w ++ [concat (write_ack {| a_ids := [0; 1; 2; 3]; a_nb := 5 |})]
  /\ stores w' 1 (sample 1).
Proof.
  intros o w w'.
  assert (E : wrun Debug still (start still W8 o) (firstn 10 story) = Ok w) by (subst w; destruct o; vm_compute; reflexivity).
  assert (E' : wrun Debug still (start still W8 o) (firstn 11 story) = Ok w') by (subst w'; destruct o; vm_compute; reflexivity).
  split; [eexists; exact E|]. split; [subst w w'; destruct o; vm_compute; reflexivity|].
  split; [apply run_normal with (firstn 11 story); [discriminate | exact E' |]; subst w'; destruct o; vm_compute; reflexivity|].
  subst w w'. split; destruct o; vm_compute; auto.
Qed.

(** A clock that advances a millisecond between two readings, a period of two milliseconds: the arrival of source 0 lets an ordered receiver hand out
    four data; an ack follows the second and the last one. *)
Definition ticking : clock := fun n => (Z.of_nat n * 1000000)%Z.

Example C40_schedule_case :
  let ops := [DSetPeriod 2] ++ map (fun i => DPacket (PropsDecoder.spkt i)) [1; 2; 3] in
  exists tr d, PropsDecoder.receiver Debug ticking W8 true tr d /\ map fst tr = ops
  /\ exists d' out, dstep Debug ticking d (DPacket (PropsDecoder.spkt 0)) = (d', Ok out)
  /\ map kind out = [true; true; false; true; true; false].
Proof.
  intros ops. destruct (drun Debug ticking (new_dec ticking W8 true) ops) as [[d out]| |] eqn:E.
  - destruct (PropsDecoder.run_receiver _ _ _ _ _ _ _ E) as (tr & T & Eo & _). exists tr, d. split; [exact T|]. split; [exact Eo|].
    vm_compute in E. injection E as <- _. eexists. eexists. split; vm_compute; reflexivity.
  - exfalso. vm_compute in E. discriminate.
  - exfalso. vm_compute in E. discriminate.
Qed.
