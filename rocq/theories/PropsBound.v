(** * Properties of the receiver: bounded by what it was given (C90) *)
From Coq Require Import ZArith NArith Arith List Bool Lia.
From Verif Require Import Outcome GF Containers ContainersFacts Packetizer Encoder DetailDecoder Decoder DecoderInv DecoderFacts
  DecoderOuter DecoderBound.
Import ListNotations.
Open Scope N_scope.
Open Scope outcome_scope.

(** ** Specification *)

(** The number of source and repair packets among the calls. *)
Definition packets (ops : list dop) : nat :=
  length (filter (fun op => match op with DPacket (1 :: _) => true | DPacket (2 :: _) => true | _ => false end) ops).

(** The number of times the user asks for an ack. *)
Definition ack_calls (ops : list dop) : nat :=
  length (filter (fun op => match op with DAck => true | DMaybe => true | _ => false end) ops).

(** The identifiers of the sources that a packet is about. *)
Definition mentions (m : mode) (p : packet) (x : N) : Prop :=
  (exists s n, get_packet_type p = Ok TSource /\ read_source m p = Ok (s, n) /\ x = ds_id s)
  \/ (exists r n, get_packet_type p = Ok TRepair /\ read_repair m p = Ok (r, n) /\ In x (dr_ids r)).

(** No packet is about the last identifier of 32 bits (or one beyond, for lists that are no bytes). *)
Definition below_last (m : mode) (ops : list dop) : Prop :=
  forall p x, In (DPacket p) ops -> mentions m p x -> x < 4294967295.

(** ** Proofs *)

Lemma packets_app a b : packets (a ++ b) = (packets a + packets b)%nat.
Proof. unfold packets. rewrite filter_app, app_length. reflexivity. Qed.

Lemma ack_calls_app a b : ack_calls (a ++ b) = (ack_calls a + ack_calls b)%nat.
Proof. unfold ack_calls. rewrite filter_app, app_length. reflexivity. Qed.

Lemma packets_one p : get_packet_type p = Ok TSource \/ get_packet_type p = Ok TRepair -> packets [DPacket p] = 1%nat.
Proof.
  intros H. pose proof (type_byte p) as T. destruct p as [|b p]; [destruct H as [H|H]; discriminate|].
  destruct H as [H|H]; rewrite H in T; cbn [has_type] in T; apply N.eqb_eq in T; subst b; reflexivity.
Qed.

Lemma maybe_ack_few clk known d d' out : maybe_ack_of clk known d = (d', out) ->
  to_user out = [] /\ (length (to_network out) <= 1)%nat.
Proof.
  unfold maybe_ack_of, generate_ack_of. intros H.
  destruct (dc_ack_nb d <=? a_nb (dc_ack d)); [apply pair_equal_spec in H; destruct H as [_ <-]; cbn; auto|].
  destruct (dc_period d =? 0)%Z; [apply pair_equal_spec in H; destruct H as [_ <-]; cbn; auto|].
  destruct (dc_period d * 1000000 <=? clk (dc_reads d) - dc_last_date d)%Z; apply pair_equal_spec in H; destruct H as [_ <-]; cbn; auto.
Qed.

Lemma handle_sources_few clk l : forall d d' out, handle_sources clk d l = (d', out) ->
  (length (to_network out) <= length (to_user out))%nat.
Proof.
  induction l as [|v l IH]; intros d d' out H; cbn [handle_sources] in H.
  - apply pair_equal_spec in H. destruct H as [_ <-]. cbn. lia.
  - unfold handle_source in H. destruct (maybe_ack_of clk (v_known v) d) as [d1 o1] eqn:E1.
    destruct (handle_sources clk d1 l) as [d2 o2] eqn:E2. apply pair_equal_spec in H. destruct H as [_ <-].
    apply maybe_ack_few in E1. destruct E1 as [A B]. apply IH in E2. cbn [app to_user to_network].
    rewrite to_user_app, to_network_app, A. cbn [app length]. rewrite app_length. lia.
Qed.

Lemma packet_few m clk d p d' out n : dec_packet m clk d p = (d', Ok (out, n)) ->
  (length (to_network out) <= length (to_user out))%nat.
Proof.
  intros H. unfold dec_packet in H.
  destruct (_ <- assert_ m (Nat.ltb 0 (length p)) ;; get_packet_type p) as [[| |]| |]; try discriminate; cbv zeta in H;
    apply finish_ok in H; apply bind_ok in H; destruct H as ([r k] & _ & H);
    apply bind_ok in H; destruct H as ([d1 o] & E2 & H); assert (o = out) by congruence; subst o;
    unfold call_core in E2; apply bind_ok in E2; destruct E2 as (c & _ & E2);
    match type of E2 with Ok ?x = _ => assert (E3 : x = (d1, out)) by congruence end;
    exact (handle_sources_few _ _ _ _ _ E3).
Qed.

Lemma step_few m clk d op d' out : dstep m clk d op = (d', Ok out) ->
  (length (to_network out) <= length (to_user out) + ack_calls [op])%nat.
Proof.
  intros H. destruct op as [p| | |t|n]; cbn [dstep] in H.
  - destruct (dec_packet m clk d p) as [d1 [[o k]| |]] eqn:E; cbn [bind] in H; try congruence.
    assert (o = out) by congruence. subst o. apply packet_few in E. lia.
  - unfold generate_ack, generate_ack_of in H. apply pair_equal_spec in H. destruct H as [_ H].
    assert (E : out = [ToNetwork (concat (write_ack {| a_ids := fold_left (fun s x => sinsert x s) (mkeys (d_sources (dc_core d))) (a_ids (dc_ack d)); a_nb := a_nb (dc_ack d) |}))]) by congruence.
    rewrite E. cbn. lia.
  - destruct (maybe_ack clk d) as [d1 o1] eqn:E. assert (o1 = out) by congruence. subst o1. unfold maybe_ack in E.
    apply maybe_ack_few in E. cbn [ack_calls filter length]. change (ack_calls [DMaybe]) with 1%nat. lia.
  - assert (out = []) by congruence. subst. cbn. lia.
  - apply finish_ok in H. apply bind_ok in H. destruct H as (d1 & _ & H). assert (out = []) by congruence. subst. cbn. lia.
Qed.

Lemma trace_few m clk d0 tr d : dtrace m clk d0 tr d ->
  (length (to_network (outputs tr)) <= length (to_user (outputs tr)) + ack_calls (map fst tr))%nat.
Proof.
  induction 1 as [|tr d op out d' T IH H|tr d op e d' T IH H]; [cbn; lia| |];
    rewrite outputs_snoc, map_app, ack_calls_app, to_user_app, to_network_app, !app_length.
  - apply step_few in H. cbn [map fst]. lia.
  - cbn [to_user to_network length]. lia.
Qed.

Section Trace.
Variables (m : mode) (clk : clock) (f : field) (o : bool).
Variable K : nat.
Variable P : N -> Prop.
Hypothesis HK : (1 <= K)%nat.
Hypothesis HP : K = 1%nat -> forall x, P x -> x < LIM.

Lemma step_pays d op d' r : (forall p x, op = DPacket p -> mentions m p x -> P x) ->
  good 0 (dc_core d) -> a_ids (dc_ack d) = [] -> fine P (dc_core d) ->
  dstep m clk d op = (d', r) -> (forall x, r <> Fault x) -> pays K P (packets [op]) (dc_core d) (dc_core d').
Proof.
  intros Hm G Ha F H Hr. assert (Same : dc_core d' = dc_core d -> pays K P (packets [op]) (dc_core d) (dc_core d')).
  { intros ->. apply (pays_more K P HK HP 0); [lia|]. apply (pays_refl K P HK HP), F. }
  destruct op as [p| | |t|n]; cbn [dstep] in H.
  - destruct (dec_packet m clk d p) as [d1 x] eqn:E. apply pair_equal_spec in H. destruct H as [-> H].
    destruct x as [[out n]|e|e]; cbn [bind] in H; [| |contradiction (Hr e); symmetry; exact H].
    + apply dec_packet_ok in E; [|exact G | exact Ha].
      destruct E as [s c new Et Er Ec R|rp c new Et Er Hs Ec R]; destruct R as (_ & Hc & _); rewrite Hc, packets_one by auto.
      * refine (recv_source_pays m K P HK HP _ _ _ _ F _ Ec).
        eapply Hm; [reflexivity|]. left. eauto.
      * refine (recv_repair_pays m K P HK HP _ _ _ F _ Ec).
        apply Forall_forall. intros x Hx. eapply Hm; [reflexivity|]. right. exists rp, n. auto.
    + apply Same. apply dec_packet_throw in E. destruct E as [(_ & _ & ->)|[(_ & ->)|(_ & ->)]]; reflexivity.
  - apply Same. unfold generate_ack, generate_ack_of in H. apply pair_equal_spec in H. destruct H as [<- _]. reflexivity.
  - apply Same. destruct (maybe_ack clk d) as [d1 o1] eqn:E. apply pair_equal_spec in H. destruct H as [-> _].
    unfold maybe_ack in E. apply maybe_ack_of_spec in E; [|exact Ha | apply G]. destruct E as ([K1 _ _ _ _] & _). exact K1.
  - apply Same. apply pair_equal_spec in H. destruct H as [<- _]. reflexivity.
  - apply Same. unfold set_ack_nb_packets in H. destruct (assert_ m (0 <? n)); cbn [bind finish] in H; apply pair_equal_spec in H; destruct H as [<- _]; reflexivity.
Qed.

Lemma trace_pays tr d : dtrace m clk (new_dec clk f o) tr d ->
  (forall p x, In (DPacket p) (map fst tr) -> mentions m p x -> P x) ->
  pays K P (packets (map fst tr)) (new_ddec f o) (dc_core d).
Proof.
  induction 1 as [|tr d op out d' T IH H|tr d op e d' T IH H]; intros Hm.
  - apply (pays_refl K P HK HP). constructor; cbn; try constructor. intros r rep [].
  - rewrite map_app, packets_app. rewrite map_app in Hm. pose proof (dtrace_history _ _ _ _ _ _ T) as Hh.
    assert (Q : pays K P (packets (map fst tr)) (new_ddec f o) (dc_core d)).
    { apply IH. intros p x Hin. apply Hm, in_app_iff. left. exact Hin. }
    apply (pays_trans K P HK HP _ _ _ _ _ Q). eapply step_pays with (5 := H).
    + intros p x ->. apply Hm, in_app_iff. right. left. reflexivity.
    + apply Hh.
    + apply Hh.
    + apply Q.
    + discriminate.
  - rewrite map_app, packets_app. rewrite map_app in Hm. pose proof (dtrace_history _ _ _ _ _ _ T) as Hh.
    assert (Q : pays K P (packets (map fst tr)) (new_ddec f o) (dc_core d)).
    { apply IH. intros p x Hin. apply Hm, in_app_iff. left. exact Hin. }
    apply (pays_trans K P HK HP _ _ _ _ _ Q). eapply step_pays with (5 := H).
    + intros p x ->. apply Hm, in_app_iff. right. left. reflexivity.
    + apply Hh.
    + apply Hh.
    + apply Q.
    + discriminate.
Qed.

Lemma run_pays ops d out : drun m clk (new_dec clk f o) ops = Ok (d, out) ->
  (forall p x, In (DPacket p) ops -> mentions m p x -> P x) ->
  pays K P (packets ops) (new_ddec f o) (dc_core d) /\ length (to_user out) = length (d_log (dc_core d))
  /\ (length (to_network out) <= length (to_user out) + ack_calls ops)%nat.
Proof.
  intros R Hm. destruct (drun_dtrace _ _ _ _ _ _ _ _ (Trace_start m clk (new_dec clk f o)) R) as (tr & T & <- & <-).
  cbn [app] in T. split; [apply trace_pays; assumption|]. pose proof (dtrace_history _ _ _ _ _ _ T) as Hh.
  split; [|exact (trace_few _ _ _ _ _ T)]. change (concat (map snd tr)) with (outputs tr).
  rewrite (dh_log _ _ _ _ Hh). apply map_length.
Qed.
End Trace.

(** ** Theorems *)

(** Whatever the packets are and in whatever order, mutilated or crafted, as long as none is about
    the last identifier: the data handed over, those that wait for their turn and the repairs kept
    are together at most as many as the packets. *)
Theorem C90_data :
  forall m clk f o ops d out, drun m clk (new_dec clk f o) ops = Ok (d, out) -> below_last m ops ->
  (length (to_user out) + length (d_ordered (dc_core d)) + length (d_repairs (dc_core d)) <= packets ops)%nat.
Proof.
  intros m clk f o ops d out R B.
  destruct (run_pays m clk f o 1 (fun x => x < LIM) (le_n 1) (fun _ x H => H) ops d out R B) as ([_ Q _ _ _] & L & _).
  unfold DecoderBound.out in Q. cbn [new_ddec d_log d_ordered d_repairs length] in Q. lia.
Qed.

(** With the last identifier too, they are at most twice as many. *)
Theorem C90_any_data :
  forall m clk f o ops d out, drun m clk (new_dec clk f o) ops = Ok (d, out) ->
  (length (to_user out) + length (d_ordered (dc_core d)) + 2 * length (d_repairs (dc_core d)) <= 2 * packets ops)%nat.
Proof.
  intros m clk f o ops d out R. assert (H1 : (1 <= 2)%nat) by lia. assert (H2 : 2%nat = 1%nat -> forall x : N, True -> x < LIM) by discriminate.
  destruct (run_pays m clk f o 2 (fun _ => True) H1 H2 ops d out R) as ([_ Q _ _ _] & L & _); [intros; exact I|].
  unfold DecoderBound.out in Q. cbn [new_ddec d_log d_ordered d_repairs length] in Q. lia.
Qed.

(** The sources and the repairs kept are at most as many as the packets. *)
Theorem C90_kept :
  forall m clk f o ops d out, drun m clk (new_dec clk f o) ops = Ok (d, out) ->
  (length (d_sources (dc_core d)) + length (d_repairs (dc_core d)) <= packets ops)%nat.
Proof.
  intros m clk f o ops d out R. assert (H1 : (1 <= 2)%nat) by lia. assert (H2 : 2%nat = 1%nat -> forall x : N, True -> x < LIM) by discriminate.
  destruct (run_pays m clk f o 2 (fun _ => True) H1 H2 ops d out R) as ([_ _ Q _ _] & L & _); [intros; exact I|].
  cbn [new_ddec d_sources d_repairs length] in Q. lia.
Qed.

(** The acks sent are at most as many as the data handed over and the calls that ask for one. *)
Theorem C90_acks :
  forall m clk f o ops d out, drun m clk (new_dec clk f o) ops = Ok (d, out) ->
  (length (to_network out) <= length (to_user out) + ack_calls ops)%nat
  /\ (length (to_network out) <= 2 * packets ops + ack_calls ops)%nat
  /\ (below_last m ops -> (length (to_network out) <= packets ops + ack_calls ops)%nat).
Proof.
  intros m clk f o ops d out R. pose proof (C90_any_data _ _ _ _ _ _ _ R) as A. pose proof (C90_data _ _ _ _ _ _ _ R) as B.
  assert (H1 : (1 <= 2)%nat) by lia. assert (H2 : 2%nat = 1%nat -> forall x : N, True -> x < LIM) by discriminate.
  destruct (run_pays m clk f o 2 (fun _ => True) H1 H2 ops d out R) as (_ & _ & Q); [intros; exact I|].
  split; [exact Q|]. split; [lia|]. intros Hb. specialize (B Hb). lia.
Qed.

(** ** Examples and limits *)

(** A crafted repair packet: number, sources, encoded size, one byte of symbol. *)
Definition craft (number : N) (ids : list N) (enc : N) (b : N) : packet :=
  concat ([be 1 1; be 4 number; be 2 1; [b]] ++ write_ids ids ++ [be 2 enc; be 2 1; [b]]).

Definition source_packet (id : N) (data : list N) : packet := concat (write_source {| es_id := id; es_data := data |}).

Definition no_time : clock := fun _ => 0%Z.

(** Data, bytes of data, acks, packets, and what is kept. *)
Definition tally (m : mode) (f : field) (o : bool) (ops : list dop) : option (nat * nat * nat * nat * (nat * nat * nat * nat)) :=
  match drun m no_time (new_dec no_time f o) ops with
  | Ok (d, out) => Some (length (to_user out), length (concat (to_user out)), length (to_network out), packets ops,
      (length (d_ordered (dc_core d)), length (d_repairs (dc_core d)), length (d_sources (dc_core d)), length (d_missing (dc_core d))))
  | _ => None
  end.

(** Sources in disorder, a repair of three sources of which one is known, an ack, a packet cut short, a datum
    that waits, a duplicate: 7 packets. Two data, one datum waiting and one repair kept. *)
Definition mixed : list dop :=
  [DPacket (source_packet 1 [5]); DPacket (source_packet 0 [6]); DPacket (craft 0 [1; 2; 4] 3 7); DAck; DPacket [1; 2; 3];
   DPacket (source_packet 7 [8]); DPacket (source_packet 7 [8]); DMaybe; DPacket [2]].

Example C90_case :
  tally Debug W8 true mixed = Some (2%nat, 2%nat, 1%nat, 7%nat, (1%nat, 1%nat, 2%nat, 2%nat)) /\ ack_calls mixed = 2%nat.
Proof. vm_compute. split; reflexivity. Qed.

(** The hypothesis of [C90_data], for packets about a few sources. *)
Example C90_case_below : below_last Debug mixed.
Proof.
  intros p x Hin Hm. unfold mixed in Hin. cbn [In] in Hin.
  destruct Hm as [(s & n & _ & R & ->)|(r & n & _ & R & Hx)];
    repeat match type of Hin with _ \/ _ => destruct Hin as [Hin|Hin] | False => destruct Hin end;
    try discriminate Hin; injection Hin as <-; vm_compute in R; try discriminate R.
  all: injection R as <- _; try reflexivity.
  cbn [dr_ids In] in Hx. destruct Hx as [<-|[<-|[<-|[]]]]; reflexivity.
Qed.

(** The last identifier: the number of the next source to hand over wraps to 0, and the last two
    sources are handed over twice. Three packets, four data. *)
Definition last_ones : list dop :=
  [DPacket (craft 0 [4294967294; 4294967295] 1 7); DPacket (source_packet 4294967294 [5]);
   DPacket (craft 1 [4294967294; 4294967295] 1 7)].

Definition handed (m : mode) (f : field) (o : bool) (ops : list dop) : option (nat * nat * nat) :=
  match tally m f o ops with Some (data, bytes, _, given, _) => Some (data, bytes, given) | None => None end.

Lemma handed_run m f o ops data bytes given : handed m f o ops = Some (data, bytes, given) ->
  exists d out, drun m no_time (new_dec no_time f o) ops = Ok (d, out)
  /\ length (to_user out) = data /\ length (concat (to_user out)) = bytes /\ packets ops = given.
Proof.
  unfold handed, tally. destruct (drun m no_time (new_dec no_time f o) ops) as [[d out]| |]; try discriminate.
  intros H. exists d, out. injection H as A B C. auto.
Qed.

Theorem C90_last_identifier_refuted :
  exists m clk f o ops d out, drun m clk (new_dec clk f o) ops = Ok (d, out)
  /\ (packets ops < length (to_user out))%nat.
Proof.
  assert (H : handed Debug W8 true last_ones = Some (4%nat, 2%nat, 3%nat)) by (vm_compute; reflexivity).
  apply handed_run in H. destruct H as (d & out & R & A & _ & B).
  exists Debug, no_time, W8, true, last_ones, d, out. split; [exact R|]. rewrite A, B. repeat constructor.
Qed.

(** The bytes are not bounded by the bytes received: two repairs of one byte with crafted sizes. *)
Definition puffed : list dop := [DPacket (craft 0 [0; 1] 200 7); DPacket (craft 1 [0; 1] 199 9)].

(** The bytes given to the receiver. *)
Definition bytes_in (ops : list dop) : nat :=
  length (concat (map (fun op => match op with DPacket p => p | _ => [] end) ops)).

Theorem C90_bytes_refuted :
  exists m clk f o ops d out, drun m clk (new_dec clk f o) ops = Ok (d, out) /\ below_last m ops
  /\ (8 * bytes_in ops < length (concat (to_user out)))%nat.
Proof.
  assert (H : handed Debug W8 true puffed = Some (2%nat, 370%nat, 2%nat)) by (vm_compute; reflexivity).
  apply handed_run in H. destruct H as (d & out & R & _ & A & _).
  exists Debug, no_time, W8, true, puffed, d, out. split; [exact R|]. split.
  - intros p x Hin Hm. destruct Hin as [Hin|[Hin|[]]]; injection Hin as <-; destruct Hm as [(s & n & T & _)|(r & n & _ & Rd & Hx)];
      try (vm_compute in T; discriminate T); vm_compute in Rd; injection Rd as <- _; cbn [dr_ids In] in Hx;
      destruct Hx as [<-|[<-|[]]]; reflexivity.
  - rewrite A. assert (E : bytes_in puffed = 44%nat) by (vm_compute; reflexivity). rewrite E. lia.
Qed.

Print Assumptions C90_data.
Print Assumptions C90_any_data.
Print Assumptions C90_kept.
Print Assumptions C90_acks.
Print Assumptions C90_last_identifier_refuted.
Print Assumptions C90_bytes_refuted.
