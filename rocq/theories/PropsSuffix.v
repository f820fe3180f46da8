(** * Bytes behind the end of a packet: C63 *)
From Coq Require Import ZArith NArith List Bool Lia Arith.
From Verif Require Import Outcome GF Containers Packetizer PacketizerFacts PropsPacketizer
  Encoder EncoderRun Decoder Dispatch DetailDecoder DecoderSuffix.
Import ListNotations.
Open Scope N_scope.
Open Scope outcome_scope.

(** The same receiver, except for the bytes behind the symbols of stored repairs. *)
Definition rlike (d d' : dec) : Prop := exists c, d' = with_core d c /\ like (dc_core d) c.

Lemma rlike_refl d : rlike d d.
Proof. exists (dc_core d). split; [destruct d; reflexivity|apply like_refl]. Qed.

(** What the user sees of a receiver. *)
Definition counters (d : dec) : list N :=
  [dc_nb_repairs d; dc_nb_sources d; dc_nb_acks d; nb_missing_sources d;
   d_useless (dc_core d); d_failed (dc_core d); d_decoded (dc_core d)].

Lemma rlike_counters d d' : rlike d d' -> counters d' = counters d.
Proof.
  intros (c & -> & L). fields L. unfold counters, nb_missing_sources. cbn [with_core dc_nb_repairs dc_nb_sources dc_nb_acks dc_core].
  rewrite Em, Eu, Efa, Ed. reflexivity.
Qed.

Lemma generate_ack_rlike known d d' : rlike d d' ->
  rlike (fst (generate_ack_of known d)) (fst (generate_ack_of known d')) /\ snd (generate_ack_of known d') = snd (generate_ack_of known d).
Proof. intros (c & -> & L). split; [exists c; split; [reflexivity|exact L]|reflexivity]. Qed.

Lemma read_clock_rlike clk b d d' : rlike d d' -> rlike (read_clock clk b d) (read_clock clk b d').
Proof. intros (c & -> & L). exists c. split; [reflexivity|exact L]. Qed.

Lemma maybe_ack_rlike clk known d d' : rlike d d' ->
  rlike (fst (maybe_ack_of clk known d)) (fst (maybe_ack_of clk known d')) /\ snd (maybe_ack_of clk known d') = snd (maybe_ack_of clk known d).
Proof.
  intros R. pose proof R as (c & E & L). unfold maybe_ack_of.
  assert (E1 : dc_ack_nb d' = dc_ack_nb d) by (rewrite E; reflexivity). assert (E2 : dc_ack d' = dc_ack d) by (rewrite E; reflexivity).
  assert (E3 : dc_period d' = dc_period d) by (rewrite E; reflexivity). assert (E4 : dc_reads d' = dc_reads d) by (rewrite E; reflexivity).
  assert (E5 : dc_last_date d' = dc_last_date d) by (rewrite E; reflexivity). rewrite E1, E2, E3, E4, E5.
  pose proof (generate_ack_rlike known d d' R) as [A B].
  destruct (generate_ack_of known d) as [d1 o1], (generate_ack_of known d') as [d1' o1']. cbn [fst snd] in A, B.
  destruct (_ <=? _); [cbn [fst snd]; split; [apply read_clock_rlike; exact A|exact B]|].
  destruct (_ =? _)%Z; [split; [exact R|reflexivity]|].
  destruct (_ <=? _)%Z; cbn [fst snd]; [split; [apply read_clock_rlike; exact A|exact B]|].
  split; [apply read_clock_rlike; exact R|reflexivity].
Qed.

Lemma handle_sources_rlike clk l : forall d d', rlike d d' ->
  rlike (fst (handle_sources clk d l)) (fst (handle_sources clk d' l)) /\ snd (handle_sources clk d' l) = snd (handle_sources clk d l).
Proof.
  induction l as [|v l IH]; intros d d' R; cbn [handle_sources]; [split; [exact R|reflexivity]|].
  unfold handle_source. pose proof (maybe_ack_rlike clk (v_known v) d d' R) as [A B].
  destruct (maybe_ack_of clk (v_known v) d) as [d1 o1], (maybe_ack_of clk (v_known v) d') as [d1' o1']. cbn [fst snd] in A, B.
  specialize (IH d1 d1' A) as [C D]. destruct (handle_sources clk d1 l) as [d2 o2], (handle_sources clk d1' l) as [d2' o2'].
  cbn [fst snd] in *. subst. split; [exact C|reflexivity].
Qed.

Lemma count_rlike d d' a b : rlike d d' -> rlike (count_packet d a b) (count_packet d' a b).
Proof. intros (c & -> & L). exists c. split; [reflexivity|exact L]. Qed.

Lemma call_core_rlike clk d d' run run' : rlike d d' -> (forall c c', like c c' -> impo like (run c) (run' c')) ->
  impo (fun a b => rlike (fst a) (fst b) /\ snd b = snd a) (call_core clk d run) (call_core clk d' run').
Proof.
  intros R H. pose proof R as (c & -> & L). unfold call_core. eapply impo_bind; [apply H; exact L|].
  intros a b Lab. fields Lab. apply impo_ok. cbn [dc_core with_core]. fields L. rewrite Elo, Elo0.
  apply handle_sources_rlike. exists b. split; [reflexivity|exact Lab].
Qed.

Lemma get_type_app p t x : get_packet_type p = Ok x -> get_packet_type (p ++ t) = Ok x.
Proof. destruct p as [|b p]; [discriminate|]. exact (fun H => H). Qed.

Lemma announced_type_ok m p t x : (_ <- assert_ m (Nat.ltb 0 (length p)) ;; get_packet_type p) = Ok x ->
  get_packet_type p = Ok x /\ (_ <- assert_ m (Nat.ltb 0 (length (p ++ t))) ;; get_packet_type (p ++ t)) = Ok x.
Proof.
  intros H. assert (E : get_packet_type p = Ok x).
  { destruct (assert_ m _); [exact H|discriminate|discriminate]. }
  split; [exact E|]. destruct p as [|b p]; [discriminate|]. destruct m; exact E.
Qed.

(** What is read from the longer packet. *)
Lemma read_repair_buf m p r n : read_repair m p = Ok (r, n) -> dr_buf r = skipn 7 p.
Proof.
  unfold read_repair. intros H.
  destruct (bind_ok _ _ _ H) as (x1 & _ & H1). cbn zeta in H1.
  destruct (bind_ok _ _ _ H1) as ([x2 c2] & _ & H2). destruct (bind_ok _ _ _ H2) as ([x3 c3] & _ & H3).
  destruct (bind_ok _ _ _ H3) as ([x4 c4] & _ & H4). destruct (bind_ok _ _ _ H4) as (c5 & _ & H5).
  destruct (bind_ok _ _ _ H5) as ([x6 c6] & _ & H6). destruct (bind_ok _ _ _ H6) as ([x7 c7] & _ & H7).
  injection H7 as <- _. reflexivity.
Qed.

Lemma read_repair_ext m p t r n : get_packet_type p = Ok TRepair -> read_repair m p = Ok (r, n) ->
  exists r', read_repair m (p ++ t) = Ok (r', n) /\ ext r r'.
Proof.
  intros T H. destruct (C07_suffix_independent m p t) as (_ & A & _). destruct (A r n (fun _ => T) H) as (r' & E & E1 & E2 & E3 & E4 & _).
  exists r'. split; [exact E|]. repeat split; try assumption. exists t. rewrite (read_repair_buf _ _ _ _ H), (read_repair_buf _ _ _ _ E).
  destruct (proj1 (proj2 (C05_memory_safe m p)) (fun _ => T)) as [X|(x & k & X & K1 & K2)]; [congruence|].
  rewrite H in X. injection X as <- <-. rewrite skipn_app. replace (7 - length p)%nat with O by lia. reflexivity.
Qed.

Lemma dec_packet_pad m clk d d' p t d1 out n : rlike d d' -> dec_packet m clk d p = (d1, Ok (out, n)) ->
  exists d1', dec_packet m clk d' (p ++ t) = (d1', Ok (out, n)) /\ rlike d1 d1'.
Proof.
  intros R. unfold dec_packet.
  destruct (_ <- assert_ m (Nat.ltb 0 (length p)) ;; get_packet_type p) as [x| |] eqn:T; try discriminate.
  destruct (announced_type_ok m p t x T) as [T1 ->]. destruct x; [discriminate| |]; cbn zeta; unfold finish.
  - destruct (read_repair m p) as [[r k]| |] eqn:E; try discriminate. destruct (read_repair_ext m p t r k T1 E) as (r' & -> & X). cbn [bind].
    pose proof (call_core_rlike clk _ _ (fun c => recv_repair m c r) (fun c => recv_repair m c r') (count_rlike d d' 1 0 R) (fun c c' L => recv_repair_like m c c' r r' L X)) as C.
    destruct (call_core clk (count_packet d 1 0) _) as [[d2 o2]| |]; try discriminate. cbn [bind]. intros Q. injection Q as -> -> ->.
    destruct C as ([d2' o2'] & -> & C1 & C2). cbn [fst snd] in C1, C2. subst o2'. cbn [bind]. exists d2'. split; [reflexivity|exact C1].
  - destruct (read_source m p) as [[s k]| |] eqn:E; try discriminate.
    destruct (C07_suffix_independent m p t) as (_ & _ & A). destruct (A s k (fun _ => T1) E) as (s' & -> & E1 & _ & E3). cbn [bind]. rewrite E1, E3.
    pose proof (call_core_rlike clk _ _ (fun c => recv_source m c (ds_id s) (ds_data s)) (fun c => recv_source m c (ds_id s) (ds_data s)) (count_rlike d d' 0 1 R) (fun c c' L => recv_source_like m c c' _ _ L)) as C.
    destruct (call_core clk (count_packet d 0 1) _) as [[d2 o2]| |]; try discriminate. cbn [bind]. intros Q. injection Q as -> -> ->.
    destruct C as ([d2' o2'] & -> & C1 & C2). cbn [fst snd] in C1, C2. subst o2'. cbn [bind]. exists d2'. split; [reflexivity|exact C1].
Qed.

(** The same packet, given to both. *)
Lemma ext_same r : ext r r.
Proof. exact (ext_refl r). Qed.

Lemma finish_rlike {A} (d d' : dec) (x y : outcome (dec * A)) : rlike d d' ->
  impo (fun a b => rlike (fst a) (fst b) /\ snd b = snd a) x y ->
  ~ is_fault (snd (finish d x)) -> rlike (fst (finish d x)) (fst (finish d' y)) /\ snd (finish d' y) = snd (finish d x).
Proof.
  intros R H N. destruct x as [[d1 a]|e|e]; cbn in *.
  - destruct H as ([d1' b] & -> & H1 & H2). cbn [fst snd] in *. subst b. split; [exact H1|reflexivity].
  - rewrite H. split; [exact R|reflexivity].
  - exfalso. apply N. exists e. reflexivity.
Qed.

Lemma dec_packet_same m clk d d' p : rlike d d' -> ~ is_fault (snd (dec_packet m clk d p)) ->
  rlike (fst (dec_packet m clk d p)) (fst (dec_packet m clk d' p)) /\ snd (dec_packet m clk d' p) = snd (dec_packet m clk d p).
Proof.
  intros R. unfold dec_packet. destruct (_ <- assert_ m (Nat.ltb 0 (length p)) ;; get_packet_type p) as [[| |]|x|x]; cbn zeta;
    try (intros _; split; [exact R|reflexivity]); apply finish_rlike; try (apply count_rlike; exact R).
  - apply impo_eq. intros [r n]. eapply impo_bind; [apply call_core_rlike; [apply count_rlike; exact R|]|].
    + intros c c' L. apply recv_repair_like; [exact L|apply ext_refl].
    + intros [d1 o] [d1' o'] [A B]. cbn [fst snd] in A, B. subst o'. apply impo_ok. split; [exact A|reflexivity].
  - apply impo_eq. intros [s n]. eapply impo_bind; [apply call_core_rlike; [apply count_rlike; exact R|]|].
    + intros c c' L. apply recv_source_like. exact L.
    + intros [d1 o] [d1' o'] [A B]. cbn [fst snd] in A, B. subst o'. apply impo_ok. split; [exact A|reflexivity].
Qed.

Lemma dstep_same m clk d d' op : rlike d d' -> ~ is_fault (snd (dstep m clk d op)) ->
  rlike (fst (dstep m clk d op)) (fst (dstep m clk d' op)) /\ snd (dstep m clk d' op) = snd (dstep m clk d op).
Proof.
  intros R. destruct op; cbn [dstep].
  - intros N. assert (N' : ~ is_fault (snd (dec_packet m clk d p))).
    { intros (f & E). apply N. destruct (dec_packet m clk d p) as [d1 r]. cbn in E. subst r. exists f. reflexivity. }
    pose proof (dec_packet_same m clk d d' p R N') as [A B].
    destruct (dec_packet m clk d p) as [d1 r], (dec_packet m clk d' p) as [d1' r']. cbn [fst snd] in *. subst r'. split; [exact A|reflexivity].
  - intros _. unfold generate_ack. pose proof R as (c & E & L). fields L. assert (K : d_sources (dc_core d') = d_sources (dc_core d)) by (rewrite E; exact Es). rewrite K.
    pose proof (generate_ack_rlike (mkeys (d_sources (dc_core d))) d d' R) as [A B].
    destruct (generate_ack_of _ d) as [d1 o1], (generate_ack_of _ d') as [d1' o1']. cbn [fst snd] in *. subst. split; [exact A|reflexivity].
  - intros _. unfold maybe_ack. pose proof R as (c & E & L). fields L. assert (K : d_sources (dc_core d') = d_sources (dc_core d)) by (rewrite E; exact Es). rewrite K.
    pose proof (maybe_ack_rlike clk (mkeys (d_sources (dc_core d))) d d' R) as [A B].
    destruct (maybe_ack_of clk _ d) as [d1 o1], (maybe_ack_of clk _ d') as [d1' o1']. cbn [fst snd] in *. subst. split; [exact A|reflexivity].
  - intros _. pose proof R as (c & -> & L). split; [|reflexivity]. exists c. split; [reflexivity|exact L].
  - apply finish_rlike; [exact R|]. unfold set_ack_nb_packets. destruct (assert_ m _); cbn; [|reflexivity|exact I].
    eexists. split; [reflexivity|]. split; [|reflexivity]. pose proof R as (c & -> & L). exists c. split; [reflexivity|exact L].
Qed.

(** ** The statement *)

(** Two sequences of calls on a receiver [d]: the same calls, but each packet that the first
    receiver accepts may have further bytes behind it in the second. *)
Inductive with_tails (m : mode) (clk : clock) : dec -> list dop -> list dop -> Prop :=
| Tails_nil d : with_tails m clk d [] []
| Tails_same d op ops ops' : with_tails m clk (fst (dstep m clk d op)) ops ops' ->
    with_tails m clk d (op :: ops) (op :: ops')
| Tails_pad d p t ops ops' : is_ok (snd (dec_packet m clk d p)) ->
    with_tails m clk (fst (dec_packet m clk d p)) ops ops' ->
    with_tails m clk d (DPacket p :: ops) (DPacket (p ++ t) :: ops').

Lemma runs_alike m clk d ops ops' : with_tails m clk d ops ops' -> forall d' d1 out, rlike d d' ->
  drun m clk d ops = Ok (d1, out) -> exists d1', drun m clk d' ops' = Ok (d1', out) /\ rlike d1 d1'.
Proof.
  induction 1 as [d|d op ops ops' H IH|d p t ops ops' Hok H IH]; intros d' d1 out R E.
  - cbn in *. injection E as <- <-. exists d'. split; [reflexivity|exact R].
  - cbn [drun] in *. pose proof (dstep_same m clk d d' op R) as S. destruct (dstep m clk d op) as [d2 [o|e|f]], (dstep m clk d' op) as [d2' r']; cbn [fst snd] in *; [| |discriminate].
    + destruct S as [S1 ->]; [intros (f & X); discriminate|]. destruct (bind_ok _ _ _ E) as ([d3 o3] & E3 & Q). injection Q as <- <-.
      destruct (IH d2' d3 o3 S1 E3) as (d3' & -> & R3). exists d3'. split; [reflexivity|exact R3].
    + destruct S as [S1 ->]; [intros (f & X); discriminate|]. apply (IH d2' d1 out S1 E).
  - cbn [drun dstep] in *. destruct Hok as ([o n] & Eo). destruct (dec_packet m clk d p) as [d2 r] eqn:Ep. cbn [fst snd] in *. subst r.
    destruct (dec_packet_pad m clk d d' p t d2 o n R Ep) as (d2' & -> & R2). cbn [bind] in *.
    destruct (bind_ok _ _ _ E) as ([d3 o3] & E3 & Q). injection Q as <- <-.
    destruct (IH d2' d3 o3 R2 E3) as (d3' & -> & R3). exists d3'. split; [reflexivity|exact R3].
Qed.

(** The receiver: the same data and acks in the same order, the same numbers. *)
Theorem C63_receiver :
  forall m clk f o ops ops' d out,
  with_tails m clk (new_dec clk f o) ops ops' ->
  drun m clk (new_dec clk f o) ops = Ok (d, out) ->
  exists d', drun m clk (new_dec clk f o) ops' = Ok (d', out) /\ counters d' = counters d.
Proof.
  intros m clk f o ops ops' d out H E. destruct (runs_alike _ _ _ _ _ H _ _ _ (rlike_refl _) E) as (d' & E' & R).
  exists d'. split; [exact E'|]. apply rlike_counters. exact R.
Qed.
Print Assumptions C63_receiver.

(** One call: also the number of bytes read is the same. *)
Theorem C63_bytes_read :
  forall m clk d p t d1 out n,
  dec_packet m clk d p = (d1, Ok (out, n)) ->
  exists d1', dec_packet m clk d (p ++ t) = (d1', Ok (out, n)) /\ counters d1' = counters d1.
Proof.
  intros m clk d p t d1 out n E. destruct (dec_packet_pad m clk d d p t d1 out n (rlike_refl d) E) as (d1' & E' & R).
  exists d1'. split; [exact E'|apply rlike_counters; exact R].
Qed.
Print Assumptions C63_bytes_read.

(** The sender: an ack with bytes behind it leads to the very same state. *)
Theorem C63_sender :
  forall m e p t e' n, notify m e p = (e', Ok n) -> notify m e (p ++ t) = (e', Ok n).
Proof.
  intros m e p t e' n. unfold notify.
  destruct (_ <- assert_ m (Nat.ltb 0 (length p)) ;; get_packet_type p) as [x| |] eqn:T; try discriminate.
  destruct (announced_type_ok m p t x T) as [T1 ->]. destruct x; [|discriminate|discriminate]. cbn zeta.
  destruct (read_ack m p) as [[a k]| |] eqn:E; try discriminate.
  destruct (C07_suffix_independent m p t) as (A & _). rewrite (A a k (fun _ => T1) E). exact (fun H => H).
Qed.
Print Assumptions C63_sender.

(** Dispatching: the same component gets the packet, with the same results. *)
Theorem C63_dispatch :
  forall m clk e d p t e' d1 out n,
  dispatch m clk e d p = (e', d1, Ok (out, n)) ->
  exists d1', dispatch m clk e d (p ++ t) = (e', d1', Ok (out, n)) /\ counters d1' = counters d1.
Proof.
  intros m clk e d p t e' d1 out n. unfold dispatch. destruct (get_packet_type p) as [x| |] eqn:T; try discriminate.
  rewrite (get_type_app p t x T). destruct x.
  - destruct (notify m e p) as [e1 r] eqn:E. destruct r as [k| |]; try discriminate. rewrite (C63_sender m e p t e1 k E).
    cbn [bind]. intros Q. injection Q as <- <- <- <-. exists d. split; reflexivity.
  - destruct (dec_packet m clk d p) as [d2 r] eqn:E. intros Q. injection Q as <- <- ->.
    destruct (C63_bytes_read m clk d p t d2 out n E) as (d1' & -> & C). exists d1'. split; [reflexivity|exact C].
  - destruct (dec_packet m clk d p) as [d2 r] eqn:E. intros Q. injection Q as <- <- ->.
    destruct (C63_bytes_read m clk d p t d2 out n E) as (d1' & -> & C). exists d1'. split; [reflexivity|exact C].
Qed.
Print Assumptions C63_dispatch.

Lemma source_wire id data : on_wire (write_source {| es_id := id; es_data := data |})
  = ([2] ++ be 4 id ++ be 2 (N.of_nat (length data))) ++ data.
Proof. unfold on_wire, write_source. cbn [es_id es_data concat]. rewrite app_nil_r, <- !app_assoc. reflexivity. Qed.

(** The other direction is false: a packet cut short is refused when it is given alone
    ([C06]), but not when it is given in a buffer that still has other bytes behind it. The
    user then gets these bytes. examples/accelerator/transcoder.hh 143-171 gives its whole
    buffer of 65504 bytes to [dispatch], whatever the length of the datagram. *)
Theorem C63_stale_bytes_refuted :
  forall m clk f o data k stale,
  N.of_nat (length data) < 65536 -> (k < length data)%nat -> (length data - k <= length stale)%nat ->
  let cut := firstn (7 + k) (on_wire (write_source {| es_id := 0; es_data := data |})) in
  snd (dec_packet m clk (new_dec clk f o) cut) = Throw OverflowError
  /\ exists d out n, dec_packet m clk (new_dec clk f o) (cut ++ stale) = (d, Ok (out, n))
     /\ to_user out = [firstn k data ++ firstn (length data - k) stale].
Proof.
  intros m clk f o data k stale Hl Hk Hs cut.
  set (p := on_wire (write_source {| es_id := 0; es_data := data |})) in *.
  destruct (C01_source_roundtrip m 0 data eq_refl Hl) as (s & E & Ei & Ed). fold p in E.
  assert (Lp : length p = (7 + length data)%nat) by (unfold p, on_wire, write_source; cbn [concat es_data es_id]; rewrite !app_length, !be_length; cbn [length]; lia).
  assert (T : get_packet_type p = Ok TSource) by reflexivity.
  assert (Tc : get_packet_type cut = Ok TSource) by reflexivity.
  assert (NE : forall q, get_packet_type q = Ok TSource -> (_ <- assert_ m (Nat.ltb 0 (length q)) ;; get_packet_type q) = Ok TSource).
  { intros [|b q] H; [discriminate|]. destruct m; exact H. }
  split.
  - unfold dec_packet. rewrite (NE _ Tc). unfold finish.
    destruct (C06_truncated_rejected m p (7 + k)) as (_ & _ & C); [right; lia|].
    unfold cut. rewrite (C s (length p) (fun _ => T) E); [reflexivity|rewrite Lp; apply Nat.add_lt_mono_l; exact Hk].
  - set (data' := firstn k data ++ firstn (length data - k) stale).
    assert (L' : length data' = length data) by (unfold data'; rewrite app_length, !firstn_length; lia).
    set (p' := on_wire (write_source {| es_id := 0; es_data := data' |})).
    assert (Ep : cut ++ stale = p' ++ skipn (length data - k) stale).
    { unfold cut, p', p. rewrite !source_wire, L'.
      set (h := [2] ++ be 4 0 ++ be 2 (N.of_nat (length data))).
      assert (Lh : length h = 7%nat) by reflexivity.
      rewrite firstn_app, Lh. replace (7 + k - 7)%nat with k by lia. rewrite firstn_all2 by lia.
      unfold data'. rewrite <- !app_assoc. do 2 f_equal. symmetry. apply firstn_skipn. }
    assert (H : exists d out, dec_packet m clk (new_dec clk f o) p' = (d, Ok (out, length p')) /\ to_user out = [data']).
    { destruct (C01_source_roundtrip m 0 data' eq_refl) as (s' & E' & Ei' & Ed'); [rewrite L'; exact Hl|]. fold p' in E'.
      unfold dec_packet. rewrite (NE p') by reflexivity. rewrite E'. cbn [bind]. rewrite Ei', Ed'.
      destruct m, o; cbn -[Z.leb Z.mul Z.sub]; unfold handle_source, maybe_ack_of; cbn -[Z.leb Z.mul Z.sub]; match goal with |- context [(?x <=? ?y)%Z] => destruct (x <=? y)%Z end; cbn -[Z.leb Z.mul Z.sub]; eexists _, _; split; reflexivity. }
    destruct H as (d & out & H & U). rewrite Ep. destruct (C63_bytes_read m clk _ p' (skipn (length data - k) stale) d out _ H) as (d' & H' & _).
    exists d', out, (length p'). split; [exact H'|exact U].
Qed.
Print Assumptions C63_stale_bytes_refuted.

(** A repair kept with a tail, used later: three data, two lost, two repairs with tails. *)
Definition C63_repairs : option (packet * packet * packet) :=
  match erun Debug (new_encoder W8) [EData [1; 2]; EData [3; 4]; EData [5; 6]; ERepair; ERepair] with
  | Ok (_, [_; _; c; r1; r2]) => Some (c, r1, r2)
  | _ => None
  end.

Definition C63_clock : clock := fun _ => 0%Z.

Example C63_case : exists c r1 r2, C63_repairs = Some (c, r1, r2)
  /\ with_tails Debug C63_clock (new_dec C63_clock W8 true) [DPacket c; DPacket r1; DPacket r2; DAck]
       [DPacket (c ++ [9; 9]); DPacket (r1 ++ [7; 7; 7]); DPacket (r2 ++ [1]); DAck]
  /\ exists d out, drun Debug C63_clock (new_dec C63_clock W8 true) [DPacket c; DPacket r1; DPacket r2; DAck] = Ok (d, out)
     /\ to_user out = [[1; 2]; [3; 4]; [5; 6]].
Proof.
  destruct C63_repairs as [[[c r1] r2]|] eqn:E; [|vm_compute in E; discriminate].
  vm_compute in E. injection E as <- <- <-. do 3 eexists. split; [reflexivity|]. split.
  - apply Tails_pad; [vm_compute; eexists; reflexivity|]. apply Tails_pad; [vm_compute; eexists; reflexivity|].
    apply Tails_pad; [vm_compute; eexists; reflexivity|]. apply Tails_same. apply Tails_nil.
  - vm_compute. do 2 eexists. split; reflexivity.
Qed.

Example C63_stale_case : exists d out n,
  dec_packet Release C63_clock (new_dec C63_clock W8 true)
    (firstn 9 (on_wire (write_source {| es_id := 0; es_data := [1; 2; 3; 4] |})) ++ [66; 77; 88]) = (d, Ok (out, n))
  /\ to_user out = [[1; 2; 66; 77]].
Proof. vm_compute. do 3 eexists. split; reflexivity. Qed.
