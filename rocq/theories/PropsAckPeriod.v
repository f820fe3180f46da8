(** * C86: how long an ack period may be *)
From Coq Require Import ZArith NArith List Bool Lia Arith.
From Verif Require Import Outcome GF Containers Packetizer Packet Encoder EncoderRun DetailDecoder Decoder DecoderOuter AckPeriod CApi CSession PropsCSession.
Import ListNotations.
Open Scope N_scope.

(** The longest period, in milliseconds: 292 years. *)
Definition longest : Z := 9223372036854.
Definition short (t : Z) : Prop := (- longest <= t <= longest)%Z.

(** Nanoseconds of a clock that started at 0 less than 292 years ago. *)
Definition young (clk : clock) : Prop := forall i, (0 <= clk i < 2 ^ 63)%Z.
Definition steady (clk : clock) : Prop := forall i j, (i <= j)%nat -> (clk i <= clk j)%Z.

Definition short_op (op : dop) : Prop := match op with DSetPeriod t => short t | _ => True end.

(** ** Periods in range *)

Definition timely (d : dec) : Prop := (0 <= dc_last_date d < 2 ^ 63)%Z /\ short (dc_period d).

Lemma int64_ok z : (- 2 ^ 63 <= z < 2 ^ 63)%Z -> int64 z = Ok z.
Proof.
  intros H. unfold int64. destruct (Z.leb_spec (- 2 ^ 63) z); [|lia]. destruct (Z.ltb_spec z (2 ^ 63)); [|lia]. reflexivity.
Qed.

Lemma int64_over z : (z < - 2 ^ 63 \/ 2 ^ 63 <= z)%Z -> int64 z = Fault SignedOverflow.
Proof.
  intros H. unfold int64. destruct (Z.leb_spec (- 2 ^ 63) z); destruct (Z.ltb_spec z (2 ^ 63)); try reflexivity. lia.
Qed.

Lemma maybe64 clk known d : young clk -> timely d ->
  maybe_ack64 clk known d = Ok (maybe_ack_of clk known d) /\ timely (fst (maybe_ack_of clk known d)).
Proof.
  intros Y [L P]. unfold maybe_ack64, maybe_ack_of. destruct (dc_ack_nb d <=? a_nb (dc_ack d)).
  - split; [reflexivity|]. split; [apply Y|exact P].
  - destruct (dc_period d =? 0)%Z; [split; [reflexivity|split; assumption]|].
    pose proof (Y (dc_reads d)) as Yd. unfold short, longest in P. rewrite !int64_ok by lia. cbn [bind].
    rewrite Z.ltb_antisym. destruct (dc_period d * 1000000 <=? clk (dc_reads d) - dc_last_date d)%Z; cbn [negb].
    + split; [reflexivity|]. split; [exact Yd|exact P].
    + split; [reflexivity|]. split; [exact L|exact P].
Qed.

Lemma handle64 clk : young clk -> forall l d, timely d ->
  handle_sources64 clk d l = Ok (handle_sources clk d l) /\ timely (fst (handle_sources clk d l)).
Proof.
  intros Y. induction l as [|v l IH]; intros d T; [split; [reflexivity|exact T]|].
  cbn [handle_sources64 handle_sources]. unfold handle_source64, handle_source.
  destruct (maybe64 clk (v_known v) d Y T) as [-> T1]. destruct (maybe_ack_of clk (v_known v) d) as [d1 o1]. cbn [bind fst] in *.
  destruct (IH d1 T1) as [-> T2]. destruct (handle_sources clk d1 l) as [d2 o2]. split; [reflexivity|exact T2].
Qed.

Lemma step64 m clk d op : young clk -> timely d -> short_op op ->
  dstep64 m clk d op = dstep m clk d op /\ timely (fst (dstep m clk d op)).
Proof.
  intros Y T So. destruct op as [p| | |t|n]; cbn [dstep64 dstep].
  - unfold dec_packet64, dec_packet. destruct (bind (assert_ m (Nat.ltb 0 (length p))) (fun _ => get_packet_type p)) as [[| |]| |]; try (split; [reflexivity|exact T]).
    + destruct (read_repair m p) as [[r n]| |]; cbn [bind finish]; try (split; [reflexivity|exact T]).
      unfold call_core64, call_core. cbn [count_packet dc_core].
      destruct (recv_repair m (dc_core d) r) as [c| |]; cbn [bind finish]; try (split; [reflexivity|exact T]).
      match goal with |- context [handle_sources64 clk ?x ?l] => destruct (handle64 clk Y l x T) as [-> T2]; destruct (handle_sources clk x l) as [d2 o2] end.
      split; [reflexivity|exact T2].
    + destruct (read_source m p) as [[r n]| |]; cbn [bind finish]; try (split; [reflexivity|exact T]).
      unfold call_core64, call_core. cbn [count_packet dc_core].
      destruct (recv_source m (dc_core d) (ds_id r) (ds_data r)) as [c| |]; cbn [bind finish]; try (split; [reflexivity|exact T]).
      match goal with |- context [handle_sources64 clk ?x ?l] => destruct (handle64 clk Y l x T) as [-> T2]; destruct (handle_sources clk x l) as [d2 o2] end.
      split; [reflexivity|exact T2].
  - split; [reflexivity|exact T].
  - unfold maybe_ack. destruct (maybe64 clk (mkeys (d_sources (dc_core d))) d Y T) as [-> T1].
    destruct (maybe_ack_of clk (mkeys (d_sources (dc_core d))) d) as [d1 o1]. split; [reflexivity|exact T1].
  - split; [reflexivity|]. split; [apply T|exact So].
  - split; [reflexivity|]. unfold set_ack_nb_packets. destruct (assert_ m (0 <? n)); cbn [bind finish]; exact T.
Qed.

Lemma run64 m clk : young clk -> forall ops d, timely d -> Forall short_op ops -> drun64 m clk d ops = drun m clk d ops.
Proof.
  intros Y. induction ops as [|op ops IH]; intros d T F; [reflexivity|]. inversion F as [|x y F1 F2]; subst. cbn [drun64 drun].
  destruct (step64 m clk d op Y T F1) as [-> T1]. destruct (dstep m clk d op) as [d1 [out|x|x]]; cbn [fst] in T1.
  - rewrite IH by assumption. reflexivity.
  - apply IH; assumption.
  - reflexivity.
Qed.

(** With periods of at most 292 years, the 64-bit arithmetic does what unbounded arithmetic does, for
    any calls in any order. *)
Theorem C86_short_periods :
  forall m clk f ordered ops, young clk -> Forall short_op ops ->
  drun64 m clk (new_dec clk f ordered) ops = drun m clk (new_dec clk f ordered) ops.
Proof.
  intros m clk f o ops Y F. apply run64; [exact Y| |exact F]. split; [apply Y|]. unfold short, longest. cbn [new_dec dc_period]. lia.
Qed.
Print Assumptions C86_short_periods.

(** ** Longer periods *)

Lemma long_over t : ~ short t -> int64 (t * 1000000) = Fault SignedOverflow.
Proof. intros H. apply int64_over. unfold short, longest in H. lia. Qed.

Lemma maybe_long clk known d : ~ short (dc_period d) -> a_nb (dc_ack d) < dc_ack_nb d ->
  maybe_ack64 clk known d = Fault SignedOverflow.
Proof.
  intros P A. unfold maybe_ack64. destruct (N.leb_spec (dc_ack_nb d) (a_nb (dc_ack d))); [lia|].
  destruct (Z.eqb_spec (dc_period d) 0) as [Z0|_]; [exfalso; apply P; rewrite Z0; unfold short, longest; lia|].
  rewrite (long_over _ P). unfold int64. match goal with |- context [if ?b then _ else _] => destruct b end; reflexivity.
Qed.

Lemma handled_user clk l : forall d, to_user (snd (handle_sources clk d l)) = map v_data l.
Proof.
  induction l as [|v l IH]; intros d; [reflexivity|]. cbn [handle_sources]. unfold handle_source.
  assert (N0 : to_user (snd (maybe_ack_of clk (v_known v) d)) = []).
  { unfold maybe_ack_of. destruct (_ <=? _); [reflexivity|]. destruct (_ =? _)%Z; [reflexivity|]. destruct (_ <=? _)%Z; reflexivity. }
  destruct (maybe_ack_of clk (v_known v) d) as [d1 o1]. specialize (IH d1). destruct (handle_sources clk d1 l) as [d2 o2].
  cbn [snd] in *. cbn [app to_user map]. rewrite to_user_app, N0, IH. reflexivity.
Qed.

(** One packet: either nothing is delivered and the number of packets since the last ack
    is one more, or the callback overflows. *)
Lemma packet_long m clk d p : ~ short (dc_period d) -> a_nb (dc_ack d) + 1 < dc_ack_nb d -> dc_ack_nb d < 65536 ->
  match dec_packet m clk d p with
  | (d', Ok (out, n)) =>
      (out = [] /\ dec_packet64 m clk d p = (d', Ok (out, n)) /\ dc_period d' = dc_period d /\ dc_ack_nb d' = dc_ack_nb d
        /\ a_nb (dc_ack d') = a_nb (dc_ack d) + 1)
      \/ (to_user out <> [] /\ exists d1, dec_packet64 m clk d p = (d1, Fault SignedOverflow))
  | (d', Throw x) => dec_packet64 m clk d p = (d', Throw x) /\ dc_period d' = dc_period d /\ dc_ack_nb d' = dc_ack_nb d
        /\ a_nb (dc_ack d') <= a_nb (dc_ack d) + 1
  | (d', Fault x) => True
  end.
Proof.
  intros P A B. assert (U : u16 (a_nb (dc_ack d) + 1) = a_nb (dc_ack d) + 1) by (apply u16_small; lia).
  unfold dec_packet64, dec_packet. destruct (bind (assert_ m (Nat.ltb 0 (length p))) (fun _ => get_packet_type p)) as [[| |]| |]; try exact I;
    try (split; [reflexivity|]; split; [reflexivity|]; split; [reflexivity|lia]).
  - destruct (read_repair m p) as [[r n]|x|x]; cbn [bind finish];
      [|split; [reflexivity|]; split; [reflexivity|]; split; [reflexivity|cbn [count_packet dc_ack a_nb]; lia]|exact I].
    unfold call_core64, call_core. cbn [count_packet dc_core].
    pose proof (DecoderThrow.recv_repair_quiet m (dc_core d) r) as Q. destruct (recv_repair m (dc_core d) r) as [c|x|x]; cbn [bind finish]; [|exfalso; exact (Q x eq_refl)|exact I].
    match goal with |- context [handle_sources clk ?x ?ev] => set (d0 := x); destruct ev as [|v l] end.
    + cbn [handle_sources handle_sources64 bind finish]. left. split; [reflexivity|]. split; [reflexivity|]. split; [reflexivity|]. split; [reflexivity|exact U].
    + pose proof (handled_user clk (v :: l) d0) as H. cbn [handle_sources64]. unfold handle_source64.
      rewrite maybe_long; [|exact P|unfold d0; cbn [with_core count_packet dc_ack dc_ack_nb a_nb]; rewrite U; exact A]. cbn [bind finish].
      destruct (handle_sources clk d0 (v :: l)) as [d2 o2]. cbn [bind finish snd] in *. right. split; [rewrite H; discriminate|eexists; reflexivity].
  - destruct (read_source m p) as [[r n]|x|x]; cbn [bind finish];
      [|split; [reflexivity|]; split; [reflexivity|]; split; [reflexivity|cbn [count_packet dc_ack a_nb]; lia]|exact I].
    unfold call_core64, call_core. cbn [count_packet dc_core].
    pose proof (DecoderThrow.recv_source_quiet m (dc_core d) (ds_id r) (ds_data r)) as Q. destruct (recv_source m (dc_core d) (ds_id r) (ds_data r)) as [c|x|x]; cbn [bind finish]; [|exfalso; exact (Q x eq_refl)|exact I].
    match goal with |- context [handle_sources clk ?x ?ev] => set (d0 := x); destruct ev as [|v l] end.
    + cbn [handle_sources handle_sources64 bind finish]. left. split; [reflexivity|]. split; [reflexivity|]. split; [reflexivity|]. split; [reflexivity|exact U].
    + pose proof (handled_user clk (v :: l) d0) as H. cbn [handle_sources64]. unfold handle_source64.
      rewrite maybe_long; [|exact P|unfold d0; cbn [with_core count_packet dc_ack dc_ack_nb a_nb]; rewrite U; exact A]. cbn [bind finish].
      destruct (handle_sources clk d0 (v :: l)) as [d2 o2]. cbn [bind finish snd] in *. right. split; [rewrite H; discriminate|eexists; reflexivity].
Qed.

Lemma run_long m clk l : forall d d' out, ~ short (dc_period d) -> a_nb (dc_ack d) + N.of_nat (length l) < dc_ack_nb d -> dc_ack_nb d < 65536 ->
  drun m clk d (map DPacket l) = Ok (d', out) -> to_user out <> [] -> drun64 m clk d (map DPacket l) = Fault SignedOverflow.
Proof.
  induction l as [|p l IH]; intros d d' out P A B E U.
  - cbn [map drun] in E. injection E as <- <-. exfalso. apply U. reflexivity.
  - cbn [map drun drun64 dstep dstep64 length] in *. pose proof (packet_long m clk d p P ltac:(lia) B) as H.
    destruct (dec_packet m clk d p) as [d1 [[o1 n]|x|x]]; cbn [bind] in E.
    + destruct H as [(-> & -> & P1 & N1 & A1)|(U1 & d2 & ->)]; cbn [bind].
      * destruct (drun m clk d1 (map DPacket l)) as [[d2 o2]| |] eqn:E2; try discriminate. cbn [bind] in E. injection E as <- <-.
        cbn [app] in *. rewrite (IH d1 d2 o2); [reflexivity|rewrite P1; exact P|rewrite A1, N1; lia|rewrite N1; exact B|exact E2|exact U].
      * reflexivity.
    + destruct H as (-> & P1 & N1 & A1). cbn [bind].
      rewrite (IH d1 d' out); [reflexivity|rewrite P1; exact P|rewrite N1; lia|rewrite N1; exact B|exact E|exact U].
    + discriminate.
Qed.

(** With a longer period, the first datum delivered is undefined behaviour. (Fewer than
    50 packets, so that it is not the number of packets that triggers the ack.) *)
Theorem C86_long_period_refuted :
  forall m clk f ordered t l d' out, ~ short t -> (length l < 50)%nat ->
  drun m clk (new_dec clk f ordered) (DSetPeriod t :: map DPacket l) = Ok (d', out) -> to_user out <> [] ->
  drun64 m clk (new_dec clk f ordered) (DSetPeriod t :: map DPacket l) = Fault SignedOverflow.
Proof.
  intros m clk f o t l d' out P L E U. cbn [drun drun64 dstep dstep64] in *.
  destruct (drun m clk (set_ack_period (new_dec clk f o) t) (map DPacket l)) as [[d2 o2]| |] eqn:E2; try discriminate.
  cbn [bind] in E. injection E as <- <-. cbn [app] in U.
  rewrite (run_long m clk l _ d2 o2); [reflexivity|exact P| | |exact E2|exact U]; cbn [set_ack_period with_ack_params new_dec dc_ack dc_ack_nb a_nb]; lia.
Qed.
Print Assumptions C86_long_period_refuted.

(** ** Negative periods *)

(** Each datum is followed by an ack. *)
Inductive answered : list dout -> Prop :=
| answered_nil : answered []
| answered_cons data ack l : answered l -> answered (ToUser data :: ToNetwork ack :: l).

Lemma answered_app a b : answered a -> answered b -> answered (a ++ b).
Proof. intros A B. induction A; cbn [app]; [exact B|]. constructor. exact IHA. Qed.

Lemma answered_counts l : answered l -> length (to_network l) = length (to_user l).
Proof. intros A. induction A; cbn [to_network to_user length]; [reflexivity|]. rewrite IHA. reflexivity. Qed.

Definition eager (clk : clock) (d : dec) : Prop := (dc_period d < 0)%Z /\ (dc_last_date d <= clk (dc_reads d))%Z.

Lemma maybe_eager clk known d : steady clk -> eager clk d ->
  exists d' a, maybe_ack_of clk known d = (d', [ToNetwork a]) /\ eager clk d'.
Proof.
  intros S [P L]. unfold maybe_ack_of.
  assert (G : eager clk (read_clock clk true (fst (generate_ack_of known d)))).
  { split; [exact P|]. cbn [generate_ack_of fst read_clock dc_last_date dc_reads]. apply S. lia. }
  destruct (dc_ack_nb d <=? a_nb (dc_ack d)); [eexists _, _; split; [reflexivity|exact G]|].
  destruct (Z.eqb_spec (dc_period d) 0); [lia|]. destruct (Z.leb_spec (dc_period d * 1000000) (clk (dc_reads d) - dc_last_date d)); [|lia].
  eexists _, _. split; [reflexivity|exact G].
Qed.

Lemma handle_eager clk : steady clk -> forall l d, eager clk d ->
  answered (snd (handle_sources clk d l)) /\ eager clk (fst (handle_sources clk d l)).
Proof.
  intros S. induction l as [|v l IH]; intros d E; [split; [constructor|exact E]|]. cbn [handle_sources]. unfold handle_source.
  destruct (maybe_eager clk (v_known v) d S E) as (d1 & a & -> & E1). destruct (IH d1 E1) as [A2 E2].
  destruct (handle_sources clk d1 l) as [d2 o2]. cbn [fst snd app] in *. split; [constructor; exact A2|exact E2].
Qed.

Lemma packet_eager m clk d p : steady clk -> eager clk d ->
  eager clk (fst (dec_packet m clk d p)) /\ forall out n, snd (dec_packet m clk d p) = Ok (out, n) -> answered out.
Proof.
  intros S E. unfold dec_packet. destruct (bind (assert_ m (Nat.ltb 0 (length p))) (fun _ => get_packet_type p)) as [[| |]| |];
    try (split; [exact E|discriminate]).
  - destruct (read_repair m p) as [[r n]|x|x]; cbn [bind finish]; try (split; [exact E|discriminate]).
    unfold call_core. cbn [count_packet dc_core]. destruct (recv_repair m (dc_core d) r) as [c|x|x]; cbn [bind finish]; try (split; [exact E|discriminate]).
    match goal with |- context [handle_sources clk ?x ?l] => destruct (handle_eager clk S l x E) as [A E2]; destruct (handle_sources clk x l) as [d2 o2] end.
    cbn [fst snd] in *. split; [exact E2|]. intros out k H. injection H as <- <-. exact A.
  - destruct (read_source m p) as [[r n]|x|x]; cbn [bind finish]; try (split; [exact E|discriminate]).
    unfold call_core. cbn [count_packet dc_core]. destruct (recv_source m (dc_core d) (ds_id r) (ds_data r)) as [c|x|x]; cbn [bind finish]; try (split; [exact E|discriminate]).
    match goal with |- context [handle_sources clk ?x ?l] => destruct (handle_eager clk S l x E) as [A E2]; destruct (handle_sources clk x l) as [d2 o2] end.
    cbn [fst snd] in *. split; [exact E2|]. intros out k H. injection H as <- <-. exact A.
Qed.

Lemma run_eager m clk l : steady clk -> forall d d' out, eager clk d -> drun m clk d (map DPacket l) = Ok (d', out) -> answered out.
Proof.
  intros S. induction l as [|p l IH]; intros d d' out E R.
  - injection R as <- <-. constructor.
  - cbn [map drun dstep] in R. destruct (packet_eager m clk d p S E) as [E1 A1]. destruct (dec_packet m clk d p) as [d1 [[o1 n]|x|x]]; cbn [fst snd bind] in *.
    + destruct (drun m clk d1 (map DPacket l)) as [[d2 o2]| |] eqn:R2; try discriminate. cbn [bind] in R. injection R as <- <-.
      apply answered_app; [exact (A1 o1 n eq_refl)|exact (IH d1 d2 o2 E1 R2)].
    + exact (IH d1 d' out E1 R).
    + discriminate.
Qed.

(** A receiver with a negative period sends an ack after each datum. *)
Theorem C86_negative_period :
  forall m clk f ordered t l d' out, young clk -> steady clk -> short t -> (t < 0)%Z ->
  drun64 m clk (new_dec clk f ordered) (DSetPeriod t :: map DPacket l) = Ok (d', out) -> answered out.
Proof.
  intros m clk f o t l d' out Y S H T E. rewrite C86_short_periods in E; [|exact Y|constructor; [exact H|]].
  2:{ apply Forall_forall. intros op Hop. apply in_map_iff in Hop. destruct Hop as (p & <- & _). exact I. }
  cbn [drun dstep] in E. destruct (drun m clk (set_ack_period (new_dec clk f o) t) (map DPacket l)) as [[d2 o2]| |] eqn:R; try discriminate.
  cbn [bind] in E. injection E as <- <-. cbn [app]. refine (run_eager m clk l S _ _ _ _ R).
  split; [exact T|]. cbn [set_ack_period with_ack_params new_dec dc_last_date dc_reads]. apply S. lia.
Qed.
Print Assumptions C86_negative_period.

(** ** The C interface *)

Lemma for_decoder_receive l : for_decoder (map Receive l) = map DPacket l.
Proof. induction l as [|p l IH]; [reflexivity|]. cbn [map for_decoder]. rewrite IH. reflexivity. Qed.

(** A C program that asks for the largest period (or for another one among the largest of size_t)
    in order to get no acks gets one for each datum. *)
Theorem C86_largest_c_period_refuted :
  forall m clk f ordered err h junk n l s', young clk -> steady clk ->
  2 ^ 64 - 9223372036854 <= n < 2 ^ 64 -> Forall (fun p => N.of_nat (length p) < 65536) l ->
  crun m clk (new_session clk f ordered err h) (program (map (pair junk) (UsePeriod n :: map Receive l))) = Ok s' ->
  length (c_acks s') = length (c_read s')
  /\ exists out, drun64 m clk (new_dec clk f ordered) (DSetPeriod (Z.of_N n - 2 ^ 64) :: map DPacket l) = Ok (c_dec s', out)
     /\ c_read s' = to_user out /\ c_acks s' = to_network out.
Proof.
  intros m clk f o err h junk n l s' Y S Hn F E.
  pose proof (C65_program m clk (map (pair junk) (UsePeriod n :: map Receive l)) (new_session clk f o err h)) as H.
  rewrite E, map_map in H. cbn [snd] in H. rewrite map_id in H.
  destruct H as (_ & _ & out & D & R & A).
  - left. exists []. reflexivity.
  - apply Forall_forall. intros x Hx. apply in_map_iff in Hx. destruct Hx as (a & <- & Ha). cbn [snd]. destruct Ha as [<-|Ha].
    + exact (proj2 Hn).
    + apply in_map_iff in Ha. destruct Ha as (p & <- & Hp). rewrite Forall_forall in F. exact (F p Hp).
  - cbn [for_decoder] in D. rewrite for_decoder_receive in D. cbn [new_session c_dec c_read c_acks app] in *.
    assert (Sg : signed n = (Z.of_N n - 2 ^ 64)%Z).
    { unfold signed. destruct (N.ltb_spec n (2 ^ 63)) as [X|_]; [|reflexivity]. change (2 ^ 64) with 18446744073709551616 in Hn. change (2 ^ 63) with 9223372036854775808 in X. lia. }
    rewrite Sg in D. change (2 ^ 64)%N with 18446744073709551616 in Hn.
    assert (Sh : short (Z.of_N n - 2 ^ 64)) by (unfold short, longest; lia).
    assert (D' : drun64 m clk (new_dec clk f o) (DSetPeriod (Z.of_N n - 2 ^ 64) :: map DPacket l) = Ok (c_dec s', out)).
    { rewrite C86_short_periods; [exact D|exact Y|]. constructor; [exact Sh|].
      apply Forall_forall. intros op Hop. apply in_map_iff in Hop. destruct Hop as (p & <- & _). exact I. }
    split; [|exists out; split; [exact D'|split; assumption]].
    rewrite R, A. apply answered_counts. refine (C86_negative_period m clk f o _ l _ _ Y S Sh _ D'). lia.
Qed.
Print Assumptions C86_largest_c_period_refuted.

(** ** Cases *)

(** A clock that advances by a millisecond, a thousand times. *)
Definition ticking : clock := fun i => (Z.of_nat (Nat.min i 1000) * 1000000)%Z.
Definition two : list packet := [[2; 0; 0; 0; 0; 0; 2; 1; 2]; [2; 0; 0; 0; 1; 0; 1; 3]].

Example C86_clock_case : young ticking /\ steady ticking.
Proof. split; [intros i|intros i j H]; unfold ticking; lia. Qed.

Definition acks_of (r : outcome (dec * list dout)) : option (nat * nat) :=
  match r with Ok (_, out) => Some (length (to_user out), length (to_network out)) | _ => None end.

(** Two data with the period 0, with the longest one, with one millisecond more, and with -1. *)
Example C86_case :
  acks_of (drun64 Debug ticking (new_dec ticking W8 true) (DSetPeriod 0 :: map DPacket two)) = Some (2%nat, 0%nat)
  /\ acks_of (drun64 Debug ticking (new_dec ticking W8 true) (DSetPeriod longest :: map DPacket two)) = Some (2%nat, 0%nat)
  /\ acks_of (drun Debug ticking (new_dec ticking W8 true) (DSetPeriod (longest + 1) :: map DPacket two)) = Some (2%nat, 0%nat)
  /\ acks_of (drun64 Debug ticking (new_dec ticking W8 true) (DSetPeriod (longest + 1) :: map DPacket two)) = None
  /\ acks_of (drun64 Debug ticking (new_dec ticking W8 true) (DSetPeriod (-1) :: map DPacket two)) = Some (2%nat, 2%nat).
Proof. vm_compute. repeat split; reflexivity. Qed.

Example C86_c_case :
  exists s', crun Debug ticking (new_session ticking W8 true {| ce_type := NoError; ce_message := Null |} {| h_live := []; h_next := 0 |})
    (program (map (pair (fun _ => 7)) (UsePeriod (2 ^ 64 - 1) :: map Receive two))) = Ok s'
  /\ c_read s' = [[1; 2]; [3]] /\ length (c_acks s') = 2%nat.
Proof. eexists. split; [vm_compute; reflexivity|]. split; reflexivity. Qed.
