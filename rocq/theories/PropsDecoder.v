(** * Properties of the receiver

    C10, C32, C35, C36, C38 to C41 and C49, for all packets and all states that
    any sequence of calls can reach. *)
From Coq Require Import ZArith NArith List Bool Lia.
From Verif Require Import Outcome GF GFField Containers ContainersFacts Packetizer PacketizerFacts
  Matrix MatrixFacts PropsMatrix Encoder DetailDecoder Decoder Dispatch DecoderAlgebra DecoderStep DecoderFacts
  DecoderOuter.
Import ListNotations.
Open Scope N_scope.
Open Scope outcome_scope.

(** ** Vocabulary *)

(** A receiver after any calls, with any arguments, that made no fault; [tr] has
    the calls and what the handlers got. *)
Definition receiver (m : mode) (clk : clock) (f : field) (in_order : bool)
  (tr : list (dop * list dout)) (d : dec) : Prop :=
  dtrace m clk (new_dec clk f in_order) tr d.

(** The identifiers of the sources the receiver holds, of those it knows to be
    missing, and its pending repairs. *)
Definition held (d : dec) : list N := map fst (d_sources (dc_core d)).
Definition missing (d : dec) : list N := map fst (d_missing (dc_core d)).
Definition pending (d : dec) : list (N * drepair) := d_repairs (dc_core d).

(** Older than the oldest source of the newest window. *)
Definition too_old (d : dec) (id : N) : Prop :=
  exists l, d_last (dc_core d) = Some l /\ id < l.

Lemma too_old_spec d id : too_old d id <-> outdated (dc_core d) id = true.
Proof.
  unfold too_old, outdated, not_outdated. destruct (d_last (dc_core d)) as [l|].
  - rewrite negb_true_iff, N.leb_gt. split; [intros (l' & E & H); congruence | eauto].
  - split; [intros (l' & E & H); discriminate | discriminate].
Qed.

Lemma not_too_old d id : ~ too_old d id -> outdated (dc_core d) id = false.
Proof. intros H. rewrite too_old_spec in H. destruct (outdated (dc_core d) id); congruence. Qed.

(** A packet of source [id] with contents [data]. *)
Definition source_packet (m : mode) (p : packet) (id : N) (data : list N) (n : nat) : Prop :=
  has_type 2 p = true /\ exists s, read_source m p = Ok (s, n) /\ ds_id s = id /\ ds_data s = data.

(** A packet of the repair [r]. *)
Definition repair_packet (m : mode) (p : packet) (r : drepair) (n : nat) : Prop :=
  has_type 1 p = true /\ read_repair m p = Ok (r, n).

Lemma has_type_source p : has_type 2 p = true -> get_packet_type p = Ok TSource.
Proof.
  intros H. pose proof (type_byte p) as T.
  destruct (get_packet_type p) as [[]| |]; try reflexivity; exfalso.
  - rewrite (type_excl p 0 2 T) in H by discriminate. discriminate.
  - rewrite (type_excl p 1 2 T) in H by discriminate. discriminate.
  - destruct T as (_ & _ & T). congruence.
  - destruct T as (_ & _ & T). congruence.
Qed.

Lemma has_type_repair p : has_type 1 p = true -> get_packet_type p = Ok TRepair.
Proof.
  intros H. pose proof (type_byte p) as T.
  destruct (get_packet_type p) as [[]| |]; try reflexivity; exfalso.
  - rewrite (type_excl p 0 1 T) in H by discriminate. discriminate.
  - rewrite (type_excl p 2 1 T) in H by discriminate. discriminate.
  - destruct T as (_ & T & _). congruence.
  - destruct T as (_ & T & _). congruence.
Qed.

Lemma has_type_ack p : has_type 0 p = true -> get_packet_type p = Ok TAck.
Proof.
  intros H. pose proof (type_byte p) as T.
  destruct (get_packet_type p) as [[]| |]; try reflexivity; exfalso.
  - rewrite (type_excl p 1 0 T) in H by discriminate. discriminate.
  - rewrite (type_excl p 2 0 T) in H by discriminate. discriminate.
  - destruct T as (T & _ & _). congruence.
  - destruct T as (T & _ & _). congruence.
Qed.

Lemma source_processed m clk d p id data n d' out k : good 0 (dc_core d) -> a_ids (dc_ack d) = [] ->
  source_packet m p id data n -> dec_packet m clk d p = (d', Ok (out, k)) ->
  exists c new, k = n /\ recv_source m (dc_core d) id data = Ok c /\ ran d d' 1 0 c new out.
Proof.
  intros G A (T & s & R & <- & <-) H. apply dec_packet_ok in H; [|exact G | exact A].
  apply has_type_source in T.
  destruct H as [s' c new Et Er Ec X|r c new Et _ _ _ _]; [|congruence].
  assert (s' = s /\ k = n) as [-> ->] by (split; congruence). eauto.
Qed.

Lemma repair_processed m clk d p r n d' out k : good 0 (dc_core d) -> a_ids (dc_ack d) = [] ->
  repair_packet m p r n -> dec_packet m clk d p = (d', Ok (out, k)) ->
  exists c new, k = n /\ ssorted (dr_ids r) /\ recv_repair m (dc_core d) r = Ok c /\ ran d d' 0 1 c new out.
Proof.
  intros G A (T & R) H. apply dec_packet_ok in H; [|exact G | exact A].
  apply has_type_repair in T.
  destruct H as [s' c new Et Er Ec X|r' c new Et Er Hs Ec X]; [congruence|].
  assert (r' = r /\ k = n) as [-> ->] by (split; congruence). exists c, new. auto.
Qed.

(** ** C10: routing *)

Theorem C10_dispatch_routes :
  forall m clk e d p,
  (has_type 0 p = true ->
     let '(e', r) := notify m e p in
     exists r', dispatch m clk e d p = (e', d, r') /\ (forall n, r = Ok n -> r' = Ok ([], n))
     /\ (forall x, r = Throw x -> r' = Throw x) /\ (forall x, r = Fault x -> r' = Fault x))
  /\ (has_type 1 p = true \/ has_type 2 p = true ->
     let '(d', r) := dec_packet m clk d p in dispatch m clk e d p = (e, d', r)).
Proof.
  intros m clk e d p. split.
  - intros T. destruct (notify m e p) as [e' r] eqn:E. apply has_type_ack in T.
    unfold dispatch. rewrite T, E. eexists. split; [reflexivity|].
    split; [intros n -> | split; intros x ->]; reflexivity.
  - intros T. destruct (dec_packet m clk d p) as [d' r] eqn:E. unfold dispatch.
    destruct T as [T|T]; [apply has_type_repair in T | apply has_type_source in T]; rewrite T, E; reflexivity.
Qed.

(** A non-empty packet whose type byte is none of 0, 1 and 2. *)
Definition unknown_type (p : packet) : Prop := exists b q, p = b :: q /\ 2 < b.

Lemma unknown_throws p : unknown_type p -> get_packet_type p = Throw PacketTypeError.
Proof.
  intros (b & q & -> & H). unfold get_packet_type.
  destruct (N.eqb_spec b 0); [lia|]. destruct (N.eqb_spec b 1); [lia|]. destruct (N.eqb_spec b 2); [lia|]. reflexivity.
Qed.

Lemma assert_non_empty {A} m (p : packet) (x : outcome A) : p <> [] ->
  (_ <- assert_ m (Nat.ltb 0 (length p)) ;; x) = x.
Proof. intros H. destruct p; [contradiction|]. destruct m; reflexivity. Qed.

Lemma has_type_non_empty t p : has_type t p = true -> p <> [].
Proof. destruct p; [discriminate | discriminate]. Qed.

Theorem C10_foreign_packets_rejected :
  forall m clk e d p,
  (has_type 1 p = true \/ has_type 2 p = true \/ unknown_type p -> notify m e p = (e, Throw PacketTypeError))
  /\ (has_type 0 p = true \/ unknown_type p -> dec_packet m clk d p = (d, Throw PacketTypeError))
  /\ (unknown_type p -> dispatch m clk e d p = (e, d, Throw PacketTypeError)).
Proof.
  intros m clk e d p.
  assert (U : unknown_type p -> p <> []) by (intros (b & q & -> & _); discriminate).
  split; [|split].
  - intros T. unfold notify. rewrite assert_non_empty.
    + destruct T as [T|[T|T]]; [apply has_type_repair in T | apply has_type_source in T | apply unknown_throws in T];
        rewrite T; reflexivity.
    + destruct T as [T|[T|T]]; [apply has_type_non_empty in T | apply has_type_non_empty in T | apply U in T]; exact T.
  - intros T. unfold dec_packet. rewrite assert_non_empty.
    + destruct T as [T|T]; [apply has_type_ack in T | apply unknown_throws in T]; rewrite T; reflexivity.
    + destruct T as [T|T]; [apply has_type_non_empty in T | apply U in T]; exact T.
  - intros T. unfold dispatch. rewrite unknown_throws by exact T. reflexivity.
Qed.
Print Assumptions C10_dispatch_routes.
Print Assumptions C10_foreign_packets_rejected.

Example C10_case : unknown_type [7; 1; 2] /\ has_type 0 (concat (write_ack {| a_ids := [3]; a_nb := 2 |})) = true.
Proof. split; [exists 7, [1; 2]; split; [reflexivity | lia] | vm_compute; reflexivity]. Qed.

(** ** C35: useless and duplicate packets *)

(** A source that is already held or outdated: the packet is counted, nothing else
    happens. *)
Theorem C35_old_source :
  forall m clk d p id data n,
  source_packet m p id data n -> (In id (held d) \/ too_old d id) ->
  exists d', dec_packet m clk d p = (d', Ok ([], n))
  /\ dc_core d' = dc_core d /\ dc_nb_acks d' = dc_nb_acks d.
Proof.
  intros m clk d p id data n (T & s & R & E1 & E2) H. subst. pose proof (has_type_non_empty _ _ T) as Ne. apply has_type_source in T.
  assert (X : recv_source m (dc_core d) (ds_id s) (ds_data s) = Ok (dc_core d)).
  { apply recv_source_old. destruct H as [H|H]; [right; exact H | left; apply too_old_spec, H]. }
  exists (with_core (count_packet d 0 1) (dc_core d)). split; [|split; reflexivity].
  unfold dec_packet. rewrite assert_non_empty by exact Ne. rewrite T. cbv zeta. rewrite R. cbn [bind].
  unfold call_core. cbn [count_packet dc_core]. rewrite X. cbn [bind].
  rewrite skipn_all. reflexivity.
Qed.

(** A repair that covers only outdated sources, or that is already pending. *)
Theorem C35_old_repair :
  forall m clk d p r n,
  repair_packet m p r n -> dr_ids r <> [] ->
  ((forall x, In x (dr_ids r) -> too_old d x) \/ In (dr_id r) (map fst (pending d))) ->
  exists d', dec_packet m clk d p = (d', Ok ([], n))
  /\ dc_core d' = dc_core d /\ dc_nb_acks d' = dc_nb_acks d.
Proof.
  intros m clk d p r n (T & R) Hn H. pose proof (has_type_non_empty _ _ T) as Ne. apply has_type_repair in T.
  assert (X : recv_repair m (dc_core d) r = Ok (dc_core d)).
  { unfold recv_repair. destruct (dr_ids r) as [|x l] eqn:El; [contradiction|].
    replace (assert_ m (negb (Nat.eqb (length (x :: l)) 0))) with (Ok tt) by (destruct m; reflexivity).
    cbn [bind].
    destruct (outdated (dc_core d) (last (x :: l) 0)) eqn:Eo; [reflexivity|].
    destruct H as [H|H].
    - exfalso. assert (Hl : too_old d (last (x :: l) 0)).
      { apply H. destruct (exists_last (l := x :: l)) as (l' & a & E); [discriminate|].
        rewrite E, last_last. apply in_or_app. right. left. reflexivity. }
      apply too_old_spec in Hl. congruence.
    - replace (mmem (dr_id r) (d_repairs (dc_core d))) with true; [reflexivity|].
      symmetry. apply mmem_spec. exact H. }
  exists (with_core (count_packet d 1 0) (dc_core d)). split; [|split; reflexivity].
  unfold dec_packet. rewrite assert_non_empty by exact Ne. rewrite T. cbv zeta. rewrite R. cbn [bind].
  unfold call_core. cbn [count_packet dc_core]. rewrite X. cbn [bind].
  rewrite skipn_all. reflexivity.
Qed.

Lemma ssorted_last l x : ssorted l -> In x l -> x <= last l 0.
Proof.
  revert x. induction l as [|y l IH]; intros x Hs; [intros []|]. apply ssorted_cons_inv in Hs. destruct Hs as [Hs Hy].
  destruct l as [|z l]; [intros [->|[]]; cbn; lia|].
  intros [->|Hx].
  - specialize (IH z Hs (or_introl eq_refl)). specialize (Hy z (or_introl eq_refl)).
    change (last (x :: z :: l) 0) with (last (z :: l) 0). lia.
  - apply IH; assumption.
Qed.

(** A repair whose sources are all held. Outdated sources are pruned; the useless
    repairs are counted; nothing is delivered, except by a receiver that
    orders, which may hand out data it held back. *)
Theorem C35_useless_repair :
  forall m clk f o tr d p r n d' out k,
  receiver m clk f o tr d -> repair_packet m p r n ->
  (forall x, In x (dr_ids r) -> In x (held d)) ->
  (exists x, In x (dr_ids r) /\ ~ too_old d x) -> ~ In (dr_id r) (map fst (pending d)) ->
  dec_packet m clk d p = (d', Ok (out, k)) ->
  let first := hd 0 (dr_ids r) in
  (forall x, In x (held d') <-> In x (held d) /\ first <= x)
  /\ (forall x, In x (missing d') <-> In x (missing d) /\ first <= x)
  /\ d_useless (dc_core d') = d_useless (dc_core d) + 1
  /\ d_decoded (dc_core d') = d_decoded (dc_core d)
  /\ (o = false -> to_user out = [] /\ to_network out = [])
  /\ (forall x, In x (to_user out) -> exists id, In (id, x) (d_sources (dc_core d))).
Proof.
  intros m clk f o tr d p r n d' out k T P Hk (z & Hz & Hz') Hd H first. subst first.
  pose proof (dtrace_history _ _ _ _ _ _ T) as D.
  destruct (repair_processed _ _ _ _ _ _ _ _ _ (dh_good _ _ _ _ D) (dh_ids _ _ _ _ D) P H)
    as (c & new & -> & Hs & Ec & R). clear H.
  unfold recv_repair in Ec. apply bind_ok in Ec. destruct Ec as (u & _ & Ec).
  destruct (dr_ids r) as [|first l] eqn:El; [destruct Hz|]. cbn [hd].
  assert (Eo : outdated (dc_core d) (last (first :: l) 0) = false).
  { apply not_too_old. intros (q & Eq & Hq). apply Hz'. exists q. split; [exact Eq|].
    pose proof (ssorted_last (first :: l) z Hs Hz). lia. }
  rewrite Eo in Ec.
  assert (Em : mmem (dr_id r) (d_repairs (dc_core d)) = false) by (apply mmem_false; exact Hd).
  rewrite Em in Ec. apply bind_ok in Ec. destruct Ec as (d1 & E1 & Ec).
  pose proof (drop_outdated_log _ _ _ _ E1) as (new1 & N1 & F1).
  apply drop_outdated_good in E1; [|apply D]. destruct E1 as (G1 & L1 & S1 & M1 & Dd & Du & Df & Dl).
  assert (Ef : forallb (fun id => mmem id (d_sources d1)) (first :: l) = true).
  { apply forallb_forall. intros x Hx. apply mmem_spec. rewrite S1. apply mfrom_keys. split; [apply Hk, Hx|].
    exact (sorted_hd (first :: l) x Hs Hx). }
  rewrite Ef in Ec. same Ec. destruct R as (Rl & Rc & _ & _ & _ & Ru & Rm).
  unfold held, missing. rewrite Rc. cbn [with_useless d_sources d_missing d_useless d_decoded].
  split; [intros x; rewrite S1; apply mfrom_keys|]. split; [exact M1|].
  split; [rewrite Du; reflexivity|]. split; [exact Dd|].
  cbn [with_useless d_log] in Rl. split; [|rewrite N1 in Rl; apply app_inv_head in Rl; subst new1;
    rewrite Ru; intros x Hx; apply in_map_iff in Hx; destruct Hx as (v & <- & Hv);
    rewrite Forall_forall in F1; exists (v_id v); apply mfind_in, F1, Hv].
  intros ->. pose proof (dh_in_order _ _ _ _ D) as Hi. specialize (Dl Hi). rewrite Dl in Rl.
  assert (new = []) as ->.
  { apply (f_equal (@length event)) in Rl. rewrite app_length in Rl. destruct new; [reflexivity | cbn in Rl; lia]. }
  split; [exact Ru|]. destruct (to_network out) as [|q qs] eqn:Eq; [reflexivity|].
  destruct (my_each _ _ _ _ Rm 0%nat q eq_refl) as (x & [] & _).
Qed.
Print Assumptions C35_old_source.
Print Assumptions C35_old_repair.
Print Assumptions C35_useless_repair.

(** Concrete packets for the examples: sources of four bytes, and genuine
    repairs of them. *)
Definition datum (i : N) : list N := [i; i + 1; i + 2; 3 * i].
Definition spkt (i : N) : packet := concat (write_source {| es_id := i; es_data := datum i |}).
Definition rpkt (rid : N) (ids : list N) : packet :=
  match encode W8 Debug rid (map (fun i => {| es_id := i; es_data := datum i |}) ids) with
  | Ok r => match write_repair Debug r with Ok l => concat l | _ => [] end
  | _ => []
  end.
Definition succeeds {A} (x : outcome A) : bool := match x with Ok _ => true | _ => false end.
Definition still : clock := fun _ => 0%Z.

Lemma run_receiver m clk f o ops d out : drun m clk (new_dec clk f o) ops = Ok (d, out) ->
  exists tr, receiver m clk f o tr d /\ map fst tr = ops /\ outputs tr = out.
Proof.
  intros H. apply drun_dtrace with (tr := []) (d0 := new_dec clk f o) in H; [|constructor].
  exact H.
Qed.

(** The state after some packets, in a build with assertions. *)
Definition after (o : bool) (l : list packet) : dec :=
  match drun Debug still (new_dec still W8 o) (map DPacket l) with
  | Ok (d, _) => d
  | _ => new_dec still W8 o
  end.

Lemma after_receiver o l : succeeds (drun Debug still (new_dec still W8 o) (map DPacket l)) = true ->
  exists tr, receiver Debug still W8 o tr (after o l).
Proof.
  intros H. unfold after. destruct (drun Debug still (new_dec still W8 o) (map DPacket l)) as [[d out]| |] eqn:E;
    try discriminate. apply run_receiver in E. destruct E as (tr & T & _). eauto.
Qed.

Definition parsed_repair (p : packet) : drepair :=
  match read_repair Debug p with
  | Ok (r, _) => r
  | _ => {| dr_id := 0; dr_ids := []; dr_enc := 0; dr_buf := []; dr_size := 0 |}
  end.
Definition parsed_length (p : packet) : nat := match read_repair Debug p with Ok (_, n) => n | _ => 0%nat end.

Example C35_case :
  let d := after false [spkt 1; spkt 2; spkt 3; spkt 5; rpkt 0 [1; 2; 3; 4; 5; 6]] in
  let p := rpkt 1 [2; 3; 5] in
  (exists tr, receiver Debug still W8 false tr d)
  /\ repair_packet Debug p (parsed_repair p) (parsed_length p)
  /\ dr_ids (parsed_repair p) = [2; 3; 5] /\ held d = [1; 2; 3; 5] /\ missing d = [4; 6]
  /\ map fst (pending d) = [0] /\ d_last (dc_core d) = Some 1
  /\ succeeds (snd (dec_packet Debug still d p)) = true
  /\ source_packet Debug (spkt 2) 2 (datum 2) 11 /\ source_packet Debug (spkt 0) 0 (datum 0) 11.
Proof.
  cbv zeta. split; [apply after_receiver; vm_compute; reflexivity|].
  split; [split; vm_compute; reflexivity|].
  do 5 (split; [vm_compute; reflexivity|]).
  split; [vm_compute; reflexivity|].
  split; (split; [vm_compute; reflexivity|]); eexists; (split; [vm_compute; reflexivity|]);
    split; vm_compute; reflexivity.
Qed.

(** A receiver that orders can hand out data when it gets a repair that covers only
    sources it holds: here the repair tells that the awaited source is outdated. *)
Theorem C35_always_silent_refuted :
  exists d p r n tr, receiver Debug still W8 true tr d /\ repair_packet Debug p r n
  /\ (forall x, In x (dr_ids r) -> In x (held d))
  /\ exists d' out, dec_packet Debug still d p = (d', Ok (out, n)) /\ to_user out <> [].
Proof.
  exists (after true [spkt 0; spkt 2; spkt 3]), (rpkt 0 [2; 3]), (parsed_repair (rpkt 0 [2; 3])), (parsed_length (rpkt 0 [2; 3])).
  destruct (after_receiver true [spkt 0; spkt 2; spkt 3]) as [tr T]; [vm_compute; reflexivity|].
  exists tr. split; [exact T|]. split; [split; vm_compute; reflexivity|].
  split; [intros x Hx; vm_compute in Hx; vm_compute; tauto|].
  eexists. eexists. split; [vm_compute; reflexivity | discriminate].
Qed.
Print Assumptions C35_always_silent_refuted.

(** ** C36: immediate delivery *)

Theorem C36_immediate_delivery :
  forall m clk f tr d p id data n d' out k,
  receiver m clk f false tr d -> source_packet m p id data n ->
  ~ too_old d id -> ~ In id (held d) ->
  dec_packet m clk d p = (d', Ok (out, k)) ->
  exists rest, to_user out = data :: rest.
Proof.
  intros m clk f tr d p id data n d' out k T P Ho Hh H.
  pose proof (dtrace_history _ _ _ _ _ _ T) as D.
  destruct (source_processed _ _ _ _ _ _ _ _ _ _ (dh_good _ _ _ _ D) (dh_ids _ _ _ _ D) P H)
    as (c & new & -> & Ec & R).
  destruct (recv_source_new _ _ _ _ _ Ec (not_too_old _ _ Ho) Hh) as [_ F].
  destruct (F (dh_in_order _ _ _ _ D)) as [rest E].
  destruct R as (Rl & _ & _ & _ & _ & Ru & _).
  rewrite E in Rl. apply app_inv_head in Rl. subst new. rewrite Ru. cbn [map v_data]. eauto.
Qed.
Print Assumptions C36_immediate_delivery.

(** Source 4 is received, and delivered before source 6 that it helps to recover. *)
Example C36_case :
  let d := after false [spkt 1; spkt 2; spkt 3; spkt 5; rpkt 0 [1; 2; 3; 4; 5; 6]] in
  (exists tr, receiver Debug still W8 false tr d)
  /\ source_packet Debug (spkt 4) 4 (datum 4) 11
  /\ ~ In 4 (held d) /\ d_last (dc_core d) = Some 1
  /\ exists d', dec_packet Debug still d (spkt 4) = (d', Ok ([ToUser (datum 4); ToUser (datum 6)], 11%nat)).
Proof.
  cbv zeta. split; [apply after_receiver; vm_compute; reflexivity|].
  split; [split; [vm_compute; reflexivity | eexists; split; [vm_compute; reflexivity | split; vm_compute; reflexivity]]|].
  split; [intros X; vm_compute in X; repeat (destruct X as [X|X]; [discriminate X|]); exact X|].
  split; [vm_compute; reflexivity|]. eexists. vm_compute. reflexivity.
Qed.

(** ** C38: outdated information is dropped *)

Theorem C38_outdated_dropped :
  forall m clk f o tr d p r n d' out k,
  receiver m clk f o tr d -> repair_packet m p r n ->
  (exists x, In x (dr_ids r) /\ ~ too_old d x) -> ~ In (dr_id r) (map fst (pending d)) ->
  dec_packet m clk d p = (d', Ok (out, k)) ->
  let first := hd 0 (dr_ids r) in
  (forall x, In x (held d') -> first <= x)
  /\ (forall x, In x (missing d') -> first <= x)
  /\ (forall i rep x, In (i, rep) (pending d') -> In x (dr_ids rep) -> first <= x).
Proof.
  intros m clk f o tr d p r n d' out k T P (z & Hz & Hz') Hd H first. subst first.
  pose proof (dtrace_history _ _ _ _ _ _ T) as D.
  destruct (repair_processed _ _ _ _ _ _ _ _ _ (dh_good _ _ _ _ D) (dh_ids _ _ _ _ D) P H)
    as (c & new & -> & Hs & Ec & R). clear H.
  destruct (recv_repair_good _ _ _ _ (dh_good _ _ _ _ D) Hs Ec) as [_ G].
  assert (G' : good (hd 0 (dr_ids r)) c).
  { apply G; [|exact Hd]. apply not_too_old. intros (q & Eq & Hq). apply Hz'. exists q. split; [exact Eq|].
    pose proof (ssorted_last (dr_ids r) z Hs Hz). lia. }
  destruct R as (_ & Rc & _). unfold held, missing, pending. rewrite Rc.
  split; [apply (gd_sources_b _ _ G')|]. split; [apply (gd_missing_b _ _ G')|].
  intros i rep x Hi Hx. apply in_mfind in Hi; [|apply G'].
  destruct (gd_repairs_b _ _ G' i rep Hi) as [_ X]. apply X, Hx.
Qed.
Print Assumptions C38_outdated_dropped.

Example C38_case :
  let d := after false [spkt 1; spkt 2; spkt 3; spkt 5; rpkt 0 [1; 2; 3; 4; 5; 6]] in
  let p := rpkt 1 [3; 5; 6; 7; 8] in
  (exists tr, receiver Debug still W8 false tr d)
  /\ repair_packet Debug p (parsed_repair p) (parsed_length p)
  /\ map fst (pending d) = [0] /\ d_last (dc_core d) = Some 1
  /\ held d = [1; 2; 3; 5]
  /\ held (fst (dec_packet Debug still d p)) = [3; 5]
  /\ missing (fst (dec_packet Debug still d p)) = [4; 6; 7; 8].
Proof.
  cbv zeta. split; [apply after_receiver; vm_compute; reflexivity|].
  split; [split; vm_compute; reflexivity|]. repeat split; vm_compute; reflexivity.
Qed.

(** ** C39: acks tell the truth *)

(** An ack emitted during a call lists held sources: at least those held before and
    after the call, at most those held before or after it; exactly those held if the
    call is not about a packet. The first ack of a call counts the packets since
    the previous ack, further ones of the same call count none. *)
Theorem C39_acks_truthful :
  forall m clk f o tr d op out d' i p,
  receiver m clk f o tr d -> dstep m clk d op = (d', Ok out) ->
  nth_error (to_network out) i = Some p ->
  exists ids nb, p = concat (write_ack {| a_ids := ids; a_nb := nb |})
  /\ ssorted ids
  /\ (forall x, In x (held d) -> In x (held d') -> In x ids)
  /\ (forall x, In x ids -> In x (held d) \/ In x (held d'))
  /\ nb = (if Nat.eqb i 0 then (since tr + brings op) mod 65536 else 0).
Proof.
  intros m clk f o tr d op out d' i p T H Hi.
  apply dtrace_history in T. destruct (dstep_history _ _ _ _ _ _ _ _ _ T H) as [_ E].
  destruct (E i p Hi) as (l & -> & Hs & A & B). exists l. eexists.
  split; [reflexivity|]. split; [exact Hs|]. split; [exact A|]. split; [exact B|].
  destruct (Nat.eqb i 0); reflexivity.
Qed.

Theorem C39_requested_acks :
  forall m clk f o tr d op out d',
  receiver m clk f o tr d -> op = DAck \/ op = DMaybe -> dstep m clk d op = (d', Ok out) ->
  out = [] \/ out = [ToNetwork (concat (write_ack {| a_ids := held d; a_nb := since tr mod 65536 |}))].
Proof.
  intros m clk f o tr d op out d' T Hop H. apply dtrace_history in T. destruct T as [G F I A S NS NR NA L B].
  assert (Hk : ssorted (mkeys (d_sources (dc_core d)))) by apply G.
  destruct Hop as [-> | ->]; cbn [dstep] in H.
  - destruct (generate_ack d) as [d1 o1] eqn:E. unfold generate_ack in E. apply generate_ack_of_spec in E; auto.
    right. destruct E as (_ & _ & _ & _ & _ & E). assert (o1 = out) by congruence. subst.
    unfold the_ack. rewrite S. reflexivity.
  - destruct (maybe_ack clk d) as [d1 o1] eqn:E. unfold maybe_ack in E. apply maybe_ack_of_spec in E; auto.
    assert (o1 = out) by congruence. subst. destruct E as (_ & _ & [(_ & E & _)|(_ & E & _)]); [right|left; exact E].
    rewrite E. unfold the_ack. rewrite S. reflexivity.
Qed.
Print Assumptions C39_acks_truthful.
Print Assumptions C39_requested_acks.

(** The third packet reaches the threshold; the next ack counts from zero. *)
Example C39_case :
  let ops := [DSetNb 3; DPacket (spkt 0); DPacket (rpkt 0 [0; 1; 2]); DPacket (spkt 1); DPacket (spkt 4); DAck] in
  exists d out, drun Debug still (new_dec still W8 false) ops = Ok (d, out)
  /\ to_network out = [concat (write_ack {| a_ids := [0]; a_nb := 3 |});
                       concat (write_ack {| a_ids := [0; 1; 2; 4]; a_nb := 1 |})].
Proof. cbv zeta. eexists. eexists. split; vm_compute; reflexivity. Qed.

(** ** C40: ack schedule *)

(** When an ack is due: enough packets since the last ack, or a non-zero period
    (milliseconds) elapsed between the last ack and the reading [now] of the
    clock (nanoseconds). *)
Definition ack_due (d : dec) (count : N) (now : Z) : Prop :=
  dc_ack_nb d <= count
  \/ (dc_period d <> 0 /\ dc_last_date d + dc_period d * 1000000 <= now)%Z.

Lemma due_ack_due clk d : due clk d <-> ack_due d (a_nb (dc_ack d)) (clk (dc_reads d)).
Proof. reflexivity. Qed.

(** Asking: an ack is emitted if and only if it is due. *)
Theorem C40_maybe_ack :
  forall m clk f o tr d d' out,
  receiver m clk f o tr d -> dstep m clk d DMaybe = (d', Ok out) ->
  (ack_due d (since tr mod 65536) (clk (dc_reads d)) <-> out <> [])
  /\ (out <> [] -> dc_last_date d' = clk (dc_reads d))
  /\ (out = [] -> dc_last_date d' = dc_last_date d).
Proof.
  intros m clk f o tr d d' out T H. apply dtrace_history in T. destruct T as [G F I A S NS NR NA L B].
  cbn [dstep] in H. destruct (maybe_ack clk d) as [d1 o1] eqn:E. unfold maybe_ack in E.
  apply maybe_ack_of_spec in E; [|exact A | apply G]. assert (o1 = out /\ d1 = d') as [-> ->] by (split; congruence).
  change (since tr mod 65536) with (u16 (since tr)). rewrite <- S, <- due_ack_due.
  destruct E as (_ & _ & [(X & -> & _ & _ & Y)|(X & -> & _ & _ & Y)]).
  - split; [split; [discriminate | auto]|]. split; [auto | discriminate].
  - split; [split; [contradiction | intros Z; contradiction Z; reflexivity]|]. split; [intros Z; contradiction Z; reflexivity | auto].
Qed.

(** Each delivery of a call is followed by an ack if and only if one is due at that
    moment: [before] are the deliveries of the call that precede [v]. *)
Theorem C40_after_each_delivery :
  forall clk d before v after d1 o1 d2 o2,
  a_ids (dc_ack d) = [] -> Forall (fun v => ssorted (v_known v)) (before ++ v :: after) ->
  handle_sources clk d before = (d1, o1) ->
  handle_sources clk d (before ++ v :: after) = (d2, o2) ->
  exists acks rest, o2 = o1 ++ ToUser (v_data v) :: acks ++ rest /\ to_user acks = []
  /\ (forall p rest', rest = ToNetwork p :: rest' -> False)
  /\ (ack_due d1 (a_nb (dc_ack d1)) (clk (dc_reads d1)) <-> acks <> []).
Proof.
  intros clk d bef v aft. revert d. induction bef as [|w bef IH]; intros d d1 o1 d2 o2 A F H1 H2.
  - cbn [handle_sources] in H1. apply pair_equal_spec in H1. destruct H1 as [<- <-].
    cbn [app handle_sources] in H2. unfold handle_source in H2.
    destruct (maybe_ack_of clk (v_known v) d) as [d3 o3] eqn:E3.
    destruct (handle_sources clk d3 aft) as [d4 o4] eqn:E4. apply pair_equal_spec in H2. destruct H2 as [_ <-].
    cbn [app] in F. inversion F as [|? ? Hv Hl]; subst.
    apply maybe_ack_of_spec in E3; [|exact A | exact Hv].
    exists o3, o4. split; [cbn [app]; reflexivity|].
    split; [destruct E3 as (_ & _ & [(_ & -> & _)|(_ & -> & _)]); reflexivity|].
    split.
    + intros p rest' ->. destruct aft as [|w aft]; cbn [handle_sources] in E4; [congruence|].
      unfold handle_source in E4. destruct (maybe_ack_of clk (v_known w) d3) as [d5 o5].
      destruct (handle_sources clk d5 aft) as [d6 o6]. apply pair_equal_spec in E4. destruct E4 as [_ E4]. discriminate.
    + rewrite <- due_ack_due. destruct E3 as (_ & _ & [(X & -> & _)|(X & -> & _)]).
      * split; [discriminate | auto].
      * split; [contradiction | intros Z; contradiction Z; reflexivity].
  - cbn [app handle_sources] in H1, H2. unfold handle_source in H1, H2.
    destruct (maybe_ack_of clk (v_known w) d) as [d3 o3] eqn:E3.
    cbn [app] in F. inversion F as [|? ? Hv Hl]; subst.
    apply maybe_ack_of_spec in E3; [|exact A | exact Hv]. destruct E3 as (_ & A3 & _).
    destruct (handle_sources clk d3 bef) as [d5 o5] eqn:E5.
    destruct (handle_sources clk d3 (bef ++ v :: aft)) as [d6 o6] eqn:E6.
    apply pair_equal_spec in H1, H2. destruct H1 as [-> <-], H2 as [-> <-].
    destruct (IH _ _ _ _ _ A3 Hl E5 E6) as (acks & rest & -> & U & N & D).
    exists acks, rest. split; [rewrite <- app_assoc; reflexivity | auto].
Qed.

(** No delivery, no ack; and no ack at all with a zero period and a threshold that
    is not reached. *)
Theorem C40_no_ack :
  forall m clk f o tr d p d' out n,
  receiver m clk f o tr d -> dec_packet m clk d p = (d', Ok (out, n)) ->
  (to_user out = [] \/ (dc_period d = 0%Z /\ (since tr + 1) mod 65536 < dc_ack_nb d)) ->
  to_network out = [].
Proof.
  intros m clk f o tr d p d' out n T H Hc.
  pose proof (dtrace_history _ _ _ _ _ _ T) as D. destruct D as [G F I A S NS NR NA L B].
  assert (X : exists c new so re, handle_sources clk (with_core (count_packet d re so) c) new = (d', out)
    /\ Forall (fun v => ssorted (v_known v)) new).
  { unfold dec_packet in H.
    destruct (_ <- assert_ m (Nat.ltb 0 (length p)) ;; get_packet_type p) as [[]| |] eqn:Et; try discriminate;
      cbv zeta in H; apply finish_ok in H.
    - apply bind_ok in H. destruct H as ([r k] & E1 & H). apply bind_ok in H. destruct H as ([d1 o1] & E2 & H).
      unfold call_core in E2. apply bind_ok in E2. destruct E2 as (c & Ec & E2). cbn [count_packet dc_core] in Ec, E2.
      destruct (recv_repair_observed _ _ _ _ G (read_repair_sorted _ _ _ _ E1) Ec) as (new & Ln & Fn).
      rewrite Ln, skipn_length_app in E2. exists c, new, 0, 1. split; [congruence|].
      eapply Forall_impl; [|exact Fn]. intros v Hv. apply Hv.
    - apply bind_ok in H. destruct H as ([r k] & E1 & H). apply bind_ok in H. destruct H as ([d1 o1] & E2 & H).
      unfold call_core in E2. apply bind_ok in E2. destruct E2 as (c & Ec & E2). cbn [count_packet dc_core] in Ec, E2.
      destruct (recv_source_observed _ _ _ _ _ G Ec) as (new & Ln & Fn).
      rewrite Ln, skipn_length_app in E2. exists c, new, 1, 0. split; [congruence|].
      eapply Forall_impl; [|exact Fn]. intros v Hv. apply Hv. }
  destruct X as (c & new & so & re & E & Fn).
  destruct Hc as [Hc|[Hp Hn]].
  - apply handle_sources_spec in E; [|exact A | exact Fn]. destruct E as [U M]. rewrite Hc in U.
    destruct new; [|discriminate]. destruct (to_network out) as [|q qs] eqn:Eq; [reflexivity|].
    destruct (my_each _ _ _ _ M 0%nat q eq_refl) as (x & [] & _).
  - change ((since tr + 1) mod 65536) with (u16 (since tr + 1)) in Hn. rewrite <- u16_add, <- S in Hn.
    assert (Hd : a_nb (dc_ack (with_core (count_packet d re so) c)) < dc_ack_nb (with_core (count_packet d re so) c)) by exact Hn.
    assert (Hz : dc_period (with_core (count_packet d re so) c) = 0%Z) by exact Hp.
    assert (A' : a_ids (dc_ack (with_core (count_packet d re so) c)) = []) by exact A.
    revert E Hd Hz A'. generalize (with_core (count_packet d re so) c) as d0. clear - Fn. intros d0.
    revert d0 out. induction new as [|v new IH]; intros d0 out E Hd Hz A; cbn [handle_sources] in E.
    + apply pair_equal_spec in E. destruct E as [_ <-]. reflexivity.
    + inversion Fn as [|? ? Hv Hl]; subst. unfold handle_source in E.
      destruct (maybe_ack_of clk (v_known v) d0) as [d1 o1] eqn:E1.
      destruct (handle_sources clk d1 new) as [d2 o2] eqn:E2. apply pair_equal_spec in E. destruct E as [-> <-].
      apply maybe_ack_of_spec in E1; [|exact A | exact Hv]. destruct E1 as (K & A1 & E1).
      destruct E1 as [(X & _)|(_ & -> & E1 & _)].
      * exfalso. destruct X as [X|[X _]]; [lia | contradiction].
      * cbn [app to_network]. apply (IH Hl d1); [exact E2 | | | exact A1].
        -- rewrite E1, (kp_ack_nb _ _ K). exact Hd.
        -- rewrite (kp_period _ _ K). exact Hz.
Qed.

(** Defaults and settings. *)
Theorem C40_settings :
  forall m clk f o, dc_period (new_dec clk f o) = 100%Z /\ dc_ack_nb (new_dec clk f o) = 50
  /\ (forall tr d, receiver m clk f o tr d -> dc_ack_nb d <= 128)
  /\ (forall d n d' out, dstep m clk d (DSetNb n) = (d', Ok out) ->
        dc_ack_nb d' = (if n <=? 128 then n else 128) /\ dc_period d' = dc_period d)
  /\ (forall d t d' out, dstep m clk d (DSetPeriod t) = (d', Ok out) ->
        dc_period d' = t /\ dc_ack_nb d' = dc_ack_nb d).
Proof.
  intros m clk f o. split; [reflexivity|]. split; [reflexivity|]. split; [|split].
  - intros tr d T. apply dtrace_history in T. apply T.
  - intros d n d' out H. cbn [dstep] in H. apply finish_ok in H. apply bind_ok in H. destruct H as (d1 & E & H).
    unfold set_ack_nb_packets in E. apply bind_ok in E. destruct E as (u & _ & E).
    assert (d' = with_ack_params d (dc_period d) (N.min n 128)) as -> by congruence.
    cbn [with_ack_params dc_ack_nb dc_period]. split; [|reflexivity]. destruct (N.leb_spec n 128); lia.
  - intros d t d' out H. cbn [dstep] in H. assert (d' = set_ack_period d t) as -> by congruence. split; reflexivity.
Qed.
Print Assumptions C40_maybe_ack.
Print Assumptions C40_after_each_delivery.
Print Assumptions C40_no_ack.
Print Assumptions C40_settings.

(** Two milliseconds pass at each reading of the clock; the period is 5 ms. *)
Example C40_case :
  let clk : clock := fun n => (Z.of_nat n * 2000000)%Z in
  let ops := [DSetPeriod 5; DPacket (spkt 0); DPacket (spkt 1); DPacket (spkt 2); DPacket (spkt 3)] in
  exists d out, drun Debug clk (new_dec clk W8 false) ops = Ok (d, out)
  /\ out = [ToUser (datum 0); ToUser (datum 1); ToUser (datum 2);
            ToNetwork (concat (write_ack {| a_ids := [0; 1]; a_nb := 3 |})); ToUser (datum 3)].
Proof. cbv zeta. eexists. eexists. split; vm_compute; reflexivity. Qed.

(** ** C41: counters *)

Theorem C41_packet_counters :
  forall m clk f o tr d, receiver m clk f o tr d ->
  dc_nb_sources d = given 2 tr mod 2 ^ 64
  /\ dc_nb_repairs d = given 1 tr mod 2 ^ 64
  /\ dc_nb_acks d = N.of_nat (length (to_network (outputs tr))) mod 2 ^ 64.
Proof. intros m clk f o tr d T. apply dtrace_history in T. destruct T. repeat split; assumption. Qed.

(** Without ordering, each delivery is a new source that was received, or is
    counted by nb_decoded(). *)
Theorem C41_decoded_counter :
  forall m clk f tr d p d' out n, receiver m clk f false tr d ->
  dec_packet m clk d p = (d', Ok (out, n)) ->
  let delivered := N.of_nat (length (to_user out)) in
  let decoded := d_decoded (dc_core d') - d_decoded (dc_core d) in
  d_decoded (dc_core d) <= d_decoded (dc_core d')
  /\ (has_type 1 p = true -> delivered = decoded)
  /\ (forall id data k, source_packet m p id data k ->
        (In id (held d) \/ too_old d id) /\ delivered = 0 /\ decoded = 0
        \/ (~ In id (held d) /\ ~ too_old d id) /\ delivered = 1 + decoded).
Proof.
  intros m clk f tr d p d' out n T H delivered decoded. subst delivered decoded.
  pose proof (dtrace_history _ _ _ _ _ _ T) as D. destruct D as [G F I A S NS NR NA L B].
  pose proof H as H0. apply dec_packet_ok in H0; [|exact G | exact A].
  destruct H0 as [s c new Et Er Ec R|r c new Et Er Hs Ec R].
  - destruct R as (Rl & Rc & _ & _ & _ & Ru & _). rewrite Rc, Ru, map_length.
    assert (Hlen : nlog c = nlog (dc_core d) + N.of_nat (length new)).
    { unfold nlog. rewrite Rl, app_length. lia. }
    assert (X : (In (ds_id s) (held d) \/ too_old d (ds_id s)) /\ new = [] /\ d_decoded c = d_decoded (dc_core d)
      \/ (~ In (ds_id s) (held d) /\ ~ too_old d (ds_id s))
         /\ N.of_nat (length new) + d_decoded (dc_core d) = 1 + d_decoded c /\ (1 <= length new)%nat).
    { destruct (outdated (dc_core d) (ds_id s)) eqn:Eo;
        [|destruct (mmem (ds_id s) (d_sources (dc_core d))) eqn:Em].
      - left. rewrite recv_source_old in Ec by (left; exact Eo). assert (c = dc_core d) by congruence. subst c.
        split; [right; apply too_old_spec, Eo|]. split; [|congruence].
        destruct new; [reflexivity|]. apply (f_equal (@length event)) in Rl. rewrite app_length in Rl.
        rewrite H0 in Rl. cbn in Rl. lia.
      - left. apply mmem_spec in Em. rewrite recv_source_old in Ec by (right; exact Em).
        assert (c = dc_core d) by congruence. subst c.
        split; [left; exact Em|]. split; [|congruence].
        destruct new; [reflexivity|]. apply (f_equal (@length event)) in Rl. rewrite app_length in Rl.
        rewrite H0 in Rl. cbn in Rl. lia.
      - right. apply mmem_false in Em. split; [split; [exact Em | rewrite too_old_spec; congruence]|].
        destruct (recv_source_new _ _ _ _ _ Ec Eo Em) as [Dl Df]. destruct (Dl I) as [_ Dl']. split; [lia|].
        destruct (Df I) as [rest Dr]. rewrite Dr in Rl. apply app_inv_head in Rl. subst new. cbn. lia. }
    assert (T2 : has_type 1 p = false).
    { pose proof (type_byte p) as Tb. rewrite Et in Tb. apply (type_excl _ 2); [exact Tb | discriminate]. }
    split; [destruct X as [(_ & _ & X)|(_ & X)]; lia|].
    split; [congruence|]. intros id data k (_ & s' & Er' & <- & _). assert (s' = s) by congruence. subst s'.
    destruct X as [(X & -> & Y)|(X & Y)]; [left | right]; (split; [exact X|]); [|lia].
    rewrite Y. cbn. split; [reflexivity | lia].
  - destruct R as (Rl & Rc & _ & _ & _ & Ru & _). rewrite Rc, Ru, map_length.
    apply recv_repair_delivers in Ec; [|exact G]. destruct (Ec I) as [_ Dl].
    assert (Hlen : nlog c = nlog (dc_core d) + N.of_nat (length new)).
    { unfold nlog. rewrite Rl, app_length. lia. }
    assert (T2 : has_type 2 p = false).
    { pose proof (type_byte p) as Tb. rewrite Et in Tb. apply (type_excl _ 1); [exact Tb | discriminate]. }
    split; [lia|]. split; [lia|]. intros id data k (T2' & _). congruence.
Qed.
Print Assumptions C41_packet_counters.
Print Assumptions C41_decoded_counter.

Example C41_case :
  let ops := [DPacket (spkt 0); DPacket (spkt 0); DPacket [2; 9]; DPacket (rpkt 0 [0; 1; 2]);
              DPacket (rpkt 1 [0; 1; 2]); DAck; DPacket (spkt 1)] in
  exists d out, drun Debug still (new_dec still W8 false) ops = Ok (d, out)
  /\ dc_nb_sources d = 4 /\ dc_nb_repairs d = 2 /\ dc_nb_acks d = 1 /\ d_decoded (dc_core d) = 2
  /\ to_user out = [datum 0; datum 1; datum 2].
Proof. cbv zeta. eexists. eexists. split; [vm_compute; reflexivity|]. repeat (split; [vm_compute; reflexivity|]). vm_compute. reflexivity. Qed.

(** ** C49: a failed decoding loses no data *)

(** A combination of pending repairs, not all weights zero, in which every missing
    source cancels out. *)
Definition dependent (f : field) (reps : list (N * drepair)) (ids : list N) : Prop :=
  exists weight : N -> N,
    (forall i, weight i < 2 ^ wbits f)
    /\ (exists i rep, In (i, rep) reps /\ weight i <> 0)
    /\ forall x, In x ids ->
       fold_right N.lxor 0
         (map (fun '(i, rep) => if existsb (N.eqb x) (dr_ids rep)
                                then gf_multiply f (coefficient f i x) (weight i) else 0) reps) = 0.

Lemma smem_existsb x l : smem x l = existsb (N.eqb x) l.
Proof.
  destruct (smem x l) eqn:E.
  - symmetry. apply existsb_exists. exists x. split; [apply smem_spec, E | apply N.eqb_refl].
  - symmetry. apply not_true_is_false. intros H. apply existsb_exists in H. destruct H as (y & Hy & Ey).
    apply N.eqb_eq in Ey. subst. apply smem_false in E. contradiction.
Qed.

Lemma coefficients_matrix f reps ms : length ms = length reps ->
  is_matrix f (length reps) (coefficients f reps ms).
Proof.
  intros H. split; [rewrite coefficients_length, H; reflexivity|].
  intros x Hx. unfold coefficients in Hx. apply in_concat in Hx. destruct Hx as (l & Hl & Hx).
  apply in_map_iff in Hl. destruct Hl as ([r rep] & <- & _). apply in_map_iff in Hx. destruct Hx as (y & <- & _).
  destruct (smem y (dr_ids rep)); [apply coefficient_elt|]. destruct f; reflexivity.
Qed.

Lemma map_seq_nth {A B} (g : A -> B) (l : list A) (h : nat -> B) :
  (forall k a, nth_error l k = Some a -> h k = g a) -> map h (seq 0 (length l)) = map g l.
Proof.
  revert h. induction l as [|a l IH]; intros h Hh; [reflexivity|].
  cbn [length seq map]. f_equal; [apply (Hh 0%nat); reflexivity|].
  rewrite <- seq_shift, map_map. apply IH. intros k b Hk. apply (Hh (S k)). exact Hk.
Qed.

Lemma dependent_kernel f reps ms : length ms = length reps -> dependent f reps ms ->
  exists x, in_kernel f (length reps) (coefficients f reps ms) x.
Proof.
  intros Hl (w & W1 & (i & rep & Hi & Hw) & W3). exists (map (fun p => w (fst p)) reps).
  split; [apply map_length|]. split.
  { intros y Hy. apply in_map_iff in Hy. destruct Hy as ([j rj] & <- & _). apply W1. }
  split; [exists (w i); split; [apply in_map_iff; exists (i, rep); auto | exact Hw]|].
  intros row Hrow. rewrite <- Hl in Hrow. destruct (nth_error ms row) as [x|] eqn:Ex;
    [|apply nth_error_None in Ex; lia].
  etransitivity; [|apply (W3 x); eapply nth_error_In, Ex]. unfold dot. f_equal. apply map_seq_nth.
  intros k [j rj] Hk. rewrite entry_at, <- Hl, (coefficients_at f reps ms k row j rj x Hk Ex).
  rewrite smem_existsb.
  assert (En : nth k (map (fun p => w (fst p)) reps) 0 = w j).
  { apply nth_error_nth. apply (map_nth_error (fun p => w (fst p))) in Hk. exact Hk. }
  rewrite En. destruct (existsb _ _); [reflexivity|]. unfold gf_multiply. reflexivity.
Qed.

(** The decoding itself. It runs in the middle of a call, so that its state
    is not one between two calls. The hypotheses: the maps are maps, the
    pending repairs refer only to missing sources, there are as many repairs as missing
    sources, and the repairs are dependent. *)
Theorem C49_failed_decoding :
  forall m c,
  ssorted (map fst (d_repairs c)) -> ssorted (map fst (d_missing c)) ->
  (forall i rep x, In (i, rep) (d_repairs c) -> In x (dr_ids rep) -> In x (map fst (d_missing c))) ->
  length (d_repairs c) = length (d_missing c) -> (2 <= length (d_repairs c))%nat ->
  dependent (d_field c) (d_repairs c) (map fst (d_missing c)) ->
  exists c' lost, attempt_full_decoding m c = Ok c'
  /\ In lost (map fst (d_repairs c))
  /\ (forall i rep, In (i, rep) (d_repairs c') <-> In (i, rep) (d_repairs c) /\ i <> lost)
  /\ (forall x, In x (map fst (d_missing c')) <-> In x (map fst (d_missing c)))
  /\ d_sources c' = d_sources c /\ d_ordered c' = d_ordered c /\ d_first c' = d_first c
  /\ d_last c' = d_last c /\ d_log c' = d_log c
  /\ d_decoded c' = d_decoded c /\ d_failed c' = d_failed c + 1.
Proof.
  intros m c Sr Sm Hm Hl H2 Hd.
  assert (Hk : length (map fst (d_missing c)) = length (d_repairs c)) by (rewrite map_length; congruence).
  destruct (dependent_kernel _ _ _ Hk Hd) as [x Hx].
  set (n := length (d_repairs c)) in *.
  assert (Hn : n <> 0%nat) by lia.
  pose proof (coefficients_matrix (d_field c) _ _ Hk) as Hmat. fold n in Hmat.
  assert (Hr : length (repeat 0 (n * n)) = (n * n)%nat) by apply repeat_length.
  destruct (C16_fails_iff_singular _ n _ _ Hn Hmat Hr) as [[_ S1] _].
  destruct (S1 (ex_intro _ x Hx)) as [k Ek].
  pose proof (C16_blames_last _ n _ _ k Hn Hmat Hr Ek) as Hkn.
  destruct (nth_error (d_repairs c) k) as [[r rep]|] eqn:En; [|apply nth_error_None in En; fold n in En; lia].
  pose proof (nth_error_In _ _ En) as Hin.
  eexists. exists r. split.
  { unfold attempt_full_decoding. cbv zeta. rewrite <- Hl. fold n.
    replace (Nat.eqb n 0) with false by (symmetry; apply Nat.eqb_neq; lia). cbn [orb].
    replace (Nat.ltb n n) with false by (symmetry; apply Nat.ltb_irrefl).
    rewrite Nat.eqb_refl.
    replace (assert_ m true) with (Ok tt) by (destruct m; reflexivity). cbn [bind].
    replace (assert_ m (Nat.ltb 1 n)) with (Ok tt).
    2:{ replace (Nat.ltb 1 n) with true by (symmetry; apply Nat.ltb_lt; lia). destruct m; reflexivity. }
    cbn [bind negb]. unfold mkeys. rewrite Ek. cbn [bind].
    unfold failed_decoding. cbn [with_failed d_repairs]. rewrite En. reflexivity. }
  split; [apply in_map_iff; exists (r, rep); auto|].
  cbn [with_repairs with_missing with_failed d_repairs d_missing d_sources d_ordered d_first d_last d_log d_decoded d_failed].
  split; [|split].
  - intros i rp. split.
    + intros Hi. apply in_mfind in Hi; [|apply merase_sorted, Sr]. rewrite mfind_merase in Hi by exact Sr.
      destruct (N.eqb_spec i r); [discriminate|]. split; [apply mfind_in, Hi | assumption].
    + intros [Hi Hne]. apply mfind_in. rewrite mfind_merase by exact Sr.
      destruct (N.eqb_spec i r); [contradiction|]. apply in_mfind; assumption.
  - intros y. destruct (unlink_or_create_good r (dr_ids rep) (d_missing c) Sm) as [_ U].
    unfold mkeys in U. rewrite U. split; [|auto]. intros [Hy|Hy]; [exact Hy|]. eapply Hm; eassumption.
  - repeat (split; [reflexivity|]). reflexivity.
Qed.

(** A whole call that fails to decode: the sources older than the repair are pruned
    as for every repair, the sources it covers become missing, and one of the
    pending repairs is lost. *)
Theorem C49_failed_call :
  forall m clk f o tr d p r n d' out k,
  receiver m clk f o tr d -> repair_packet m p r n ->
  (forall i rep x, In (i, rep) (pending d) -> In x (dr_ids rep) -> In x (missing d)) ->
  dec_packet m clk d p = (d', Ok (out, k)) ->
  d_failed (dc_core d') <> d_failed (dc_core d) ->
  let first := hd 0 (dr_ids r) in
  let candidate i := i = dr_id r \/ exists rep, In (i, rep) (pending d) /\ first <= hd 0 (dr_ids rep) in
  d_failed (dc_core d') = d_failed (dc_core d) + 1
  /\ d_decoded (dc_core d') = d_decoded (dc_core d)
  /\ (forall x, In x (held d') <-> In x (held d) /\ first <= x)
  /\ (forall x, In x (missing d') <-> (In x (missing d) /\ first <= x) \/ (In x (dr_ids r) /\ ~ In x (held d)))
  /\ (exists lost, candidate lost /\ forall i, In i (map fst (pending d')) <-> candidate i /\ i <> lost)
  /\ (o = false -> out = [])
  /\ (forall x, In x (to_user out) -> exists id, In (id, x) (d_sources (dc_core d))).
Proof.
  intros m clk f o tr d p r n d' out k T P Hp H Hf first candidate.
  pose proof (dtrace_history _ _ _ _ _ _ T) as [G F I A S NS NR NA L B].
  destruct (repair_processed _ _ _ _ _ _ _ _ _ G A P H) as (c & new & -> & Hs & Ec & R). clear H.
  destruct R as (Rl & Rc & _ & _ & _ & Ru & Rm). rewrite Rc in Hf.
  assert (Hp' : forall i rep x, mfind i (d_repairs (dc_core d)) = Some rep -> In x (dr_ids rep) ->
     In x (mkeys (d_missing (dc_core d)))).
  { intros i rep x Hi Hx. eapply Hp; [apply mfind_in; exact Hi | exact Hx]. }
  destruct (recv_repair_failed _ _ _ _ G Hs Hp' Ec Hf) as (F1 & F2 & F3 & F4 & F5 & (lost & F6 & F7) & d1 & F8 & F9).
  fold first in F4, F5, F6, F7, F8.
  assert (Cd : forall i, (i = dr_id r \/ exists rep, mfind i (d_repairs (dc_core d)) = Some rep /\ first <= hd 0 (dr_ids rep)) <-> candidate i).
  { intros i. unfold candidate, pending. split; (intros [X|(rep & X & Y)]; [left; exact X|right]); exists rep;
      (split; [|exact Y]); [apply mfind_in, X | apply in_mfind; [apply G | exact X]]. }
  unfold held, missing, pending. rewrite Rc.
  split; [exact F1|]. split; [exact F3|]. split; [exact F4|]. split; [exact F5|].
  split; [exists lost; split; [apply Cd, F6|]; intros i; rewrite <- Cd; apply F7|].
  pose proof (drop_outdated_log _ _ _ _ F8) as (new1 & N1 & F10).
  rewrite F9, N1 in Rl. apply app_inv_head in Rl. subst new1. split.
  - intros ->. apply drop_outdated_good in F8; [|exact G]. destruct F8 as (_ & _ & _ & _ & _ & _ & _ & Dl).
    rewrite (Dl I) in N1. assert (new = []) as ->.
    { apply (f_equal (@length event)) in N1. rewrite app_length in N1. destruct new; [reflexivity | cbn in N1; lia]. }
    destruct out as [|[x|q] out]; [reflexivity | discriminate |].
    destruct (my_each _ _ _ _ Rm 0%nat q eq_refl) as (x & [] & _).
  - rewrite Ru. intros x Hx. apply in_map_iff in Hx. destruct Hx as (v & <- & Hv).
    rewrite Forall_forall in F10. exists (v_id v). apply mfind_in, F10, Hv.
Qed.
Print Assumptions C49_failed_decoding.
Print Assumptions C49_failed_call.

(** Repairs 0 and 255 have the same coefficients in GF(2^8). *)
Example C49_case :
  let d := after false [spkt 0; spkt 3; rpkt 0 [0; 1; 2; 3]] in
  let p := rpkt 255 [0; 1; 2; 3] in
  let d' := fst (dec_packet Debug still d p) in
  (exists tr, receiver Debug still W8 false tr d)
  /\ repair_packet Debug p (parsed_repair p) (parsed_length p)
  /\ map (fun x => dr_ids (snd x)) (pending d) = [[1; 2]] /\ missing d = [1; 2]
  /\ d_failed (dc_core d') = 1 /\ map fst (pending d') = [0] /\ missing d' = [1; 2].
Proof.
  cbv zeta. split; [apply after_receiver; vm_compute; reflexivity|].
  split; [split; vm_compute; reflexivity|]. repeat (split; [vm_compute; reflexivity|]). vm_compute. reflexivity.
Qed.

(** The state in which that decoding runs. *)
Example C49_dependent_case :
  let r i := parsed_repair (rpkt i [1; 2]) in
  let reps := [(0, r 0); (255, r 255)] in
  dependent W8 reps [1; 2].
Proof.
  cbv zeta. exists (fun i => if i =? 0 then 1 else if i =? 255 then 1 else 0). split; [|split].
  - intros i. destruct (i =? 0); [reflexivity|]. destruct (i =? 255); reflexivity.
  - exists 0. eexists. split; [left; reflexivity | discriminate].
  - intros x [<-|[<-|[]]]; vm_compute; reflexivity.
Qed.

(** ** C32: malformed repairs *)

(** A repair with an empty list of identifiers: accepted by the parser, fatal to
    the decoder in every state. *)
Theorem C32_empty_list :
  exists p, (forall m, exists r n, repair_packet m p r n /\ dr_ids r = [])
  /\ forall clk d, dec_packet Debug clk d p = (count_packet d 1 0, Fault AssertFailure)
                 /\ dec_packet Release clk d p = (count_packet d 1 0, Fault EmptyFront).
Proof.
  exists [1; 0; 0; 0; 0; 0; 1; 7; 0; 0; 0; 1]. split.
  - intros m. destruct m; (eexists; eexists; split; [split; vm_compute; reflexivity | reflexivity]).
  - intros clk d. split; reflexivity.
Qed.

(** A source that is longer than the symbol of a repair that covers it: the repair's
    buffer is overrun in a build without assertions. *)
Theorem C32_inconsistent_sizes :
  exists s r, has_type 2 s = true /\ has_type 1 r = true
  /\ (forall m, succeeds (read_source m s) = true /\ succeeds (read_repair m r) = true)
  /\ drun Debug still (new_dec still W8 false) [DPacket s; DPacket r] = Fault AssertFailure
  /\ drun Release still (new_dec still W8 false) [DPacket s; DPacket r] = Fault OutOfBounds
  /\ drun Release still (new_dec still W8 true) [DPacket s; DPacket r] = Fault OutOfBounds.
Proof.
  exists (concat (write_source {| es_id := 0; es_data := repeat 9 40 |})), (rpkt 0 [0; 1]).
  split; [reflexivity|]. split; [reflexivity|].
  split; [intros m; destruct m; split; vm_compute; reflexivity|].
  split; [vm_compute; reflexivity|]. split; vm_compute; reflexivity.
Qed.
Print Assumptions C32_empty_list.
Print Assumptions C32_inconsistent_sizes.
