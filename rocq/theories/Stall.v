(** * Nothing is recovered while two sources cannot be told apart *)
From Coq Require Import ZArith NArith List Bool Lia Sorted.
From Verif Require Import Outcome GF Containers ContainersFacts Packetizer Matrix
  Encoder EncoderRun EncoderHistory System SystemInv SystemRun BlindSpot
  DetailDecoder Decoder DecoderAlgebra DecoderInv DecoderStep DecoderFacts DecoderOuter DecoderHeld.
Import ListNotations.
Open Scope N_scope.

Lemma serase_keeps x y l : In y l -> y <> x -> In y (serase x l).
Proof.
  induction l as [|z l IH]; intros H Hn; [destruct H|]. cbn [serase]. destruct (N.eqb_spec x z) as [->|].
  - destruct H as [->|H]; [congruence | exact H].
  - destruct H as [->|H]; [left; reflexivity | right; apply IH; assumption].
Qed.

Section Keep.
Context {V : Type}.

Lemma merase_incl k (l : list (N * V)) p : In p (merase k l) -> In p l.
Proof.
  induction l as [|[k' v] l IH]; cbn [merase]; [auto|]. destruct (k =? k'); intros H; [right; exact H|].
  destruct H as [H|H]; [left; exact H | right; apply IH, H].
Qed.

Lemma mset_incl k v (l : list (N * V)) p : In p (mset k v l) -> p = (k, v) \/ In p l.
Proof.
  induction l as [|[k' v'] l IH]; cbn [mset].
  - intros [<-|[]]. left. reflexivity.
  - destruct (k <? k'); [|destruct (k =? k')].
    + intros [<-|H]; [left; reflexivity | right; exact H].
    + intros [<-|H]; [left; reflexivity | right; right; exact H].
    + intros [<-|H]; [right; left; reflexivity|]. destruct (IH H) as [->|X]; [left; reflexivity | right; right; exact X].
Qed.

Lemma merase_keeps k x (l : list (N * V)) : In x (mkeys l) -> x <> k -> In x (mkeys (merase k l)).
Proof.
  induction l as [|[k' v] l IH]; intros H Hn; [destruct H|]. cbn [merase]. destruct (N.eqb_spec k k') as [->|].
  - destruct H as [H|H]; [cbn in H; congruence | exact H].
  - destruct H as [H|H]; [left; exact H | right; apply IH; assumption].
Qed.
End Keep.

Lemma two_in (l : list N) i j : i <> j -> In i l -> In j l -> length l <> 1%nat.
Proof.
  destruct l as [|a [|b l]]; cbn [length]; try discriminate. intros Hn [->|[]] [->|[]]. congruence.
Qed.

Section Quiet.
Variables i j : N.
Variable m : mode.
Hypothesis Hij : i <> j.

(** Only what is in [A] was received; each repair combines both sources. *)
Record quiet (A : N -> Prop) (d : ddec) : Prop := {
  qt_repairs : forall r rep, In (r, rep) (d_repairs d) -> In i (dr_ids rep) /\ In j (dr_ids rep);
  qt_missing : d_repairs d <> [] -> In i (mkeys (d_missing d));
  qt_decoded : d_decoded d = 0;
  qt_known : forall x, In x (keys d) -> A x;
  qt_log : forall x, In x (handed d) -> A x
}.

Lemma quiet_more (A A' : N -> Prop) d : (forall x, A x -> A' x) -> quiet A d -> quiet A' d.
Proof. intros H [Q1 Q2 Q3 Q4 Q5]. constructor; auto. Qed.

Variable A : N -> Prop.

Lemma quiet_same d d' : d_repairs d' = d_repairs d -> d_missing d' = d_missing d -> d_decoded d' = d_decoded d ->
  d_sources d' = d_sources d -> d_log d' = d_log d -> quiet A d -> quiet A d'.
Proof.
  intros E1 E2 E3 E4 E5 [Q1 Q2 Q3 Q4 Q5]. constructor.
  - rewrite E1. exact Q1.
  - rewrite E1, E2. exact Q2.
  - rewrite E3. exact Q3.
  - unfold keys. rewrite E4. exact Q4.
  - unfold handed. rewrite E5. exact Q5.
Qed.

Lemma callback_quiet d id data : A id -> quiet A d -> quiet A (callback d id data).
Proof.
  intros Ha [Q1 Q2 Q3 Q4 Q5]. constructor; try assumption.
  intros x Hx. unfold handed, callback in Hx. cbn [d_log] in Hx. rewrite map_app in Hx. apply in_app_iff in Hx.
  destruct Hx as [Hx|[<-|[]]]; [apply Q5, Hx | exact Ha].
Qed.

Lemma callback_ordered_quiet d id d' : quiet A d -> callback_ordered d id = Ok d' -> quiet A d'.
Proof.
  intros Q H. unfold callback_ordered in H. destruct (mfind id (d_sources d)) as [data|] eqn:E; [|discriminate].
  same H. apply callback_quiet; [|exact Q]. apply (qt_known _ _ Q), mfind_keys. eauto.
Qed.

Lemma flush_loop_quiet l : forall d d', quiet A d -> flush_loop m l d = Ok d' -> quiet A d'.
Proof.
  induction l as [|id l IH]; intros d d' Q H; cbn [flush_loop] in H.
  - same H. exact Q.
  - apply bind_ok in H. destruct H as (u & _ & H). apply bind_ok in H. destruct H as (d1 & E1 & H).
    apply callback_ordered_quiet in E1; [|exact Q]. cbv zeta in H.
    assert (Q1 : quiet A (with_first (with_ordered d1 (serase id (d_ordered d1))) (u32 (d_first d1 + 1))))
      by (eapply quiet_same; [..|exact E1]; reflexivity).
    destruct l as [|id' l'].
    + cbn [with_ordered d_first] in H. same H. exact Q1.
    + match type of H with (if ?b then _ else _) = _ => destruct b end; [same H; exact Q1 | eapply IH; [exact Q1 | exact H]].
Qed.

Lemma flush_quiet d d' : quiet A d -> flush m d = Ok d' -> quiet A d'.
Proof. intros Q. unfold flush. destruct (smem _ _); intros H; [eapply flush_loop_quiet; eassumption | same H; exact Q]. Qed.

Lemma announce_quiet d id data d' : A id -> quiet A d -> announce m d id data = Ok d' -> quiet A d'.
Proof.
  intros Ha Q. unfold announce. destruct (d_in_order d); cbn [negb]; [destruct (id =? d_first d)|]; intros H.
  - apply flush_quiet in H; [exact H|]. eapply quiet_same; [..|apply (callback_quiet d id data Ha Q)]; reflexivity.
  - same H. exact Q.
  - same H. apply callback_quiet; assumption.
Qed.

Lemma remove_source_ids f id data r r' : remove_source m f id data r = Ok r' -> dr_ids r' = serase id (dr_ids r).
Proof.
  unfold remove_source. intros H. apply bind_ok in H. destruct H as (r1 & E & H). apply bind_ok in H. destruct H as (u & _ & H).
  unfold remove_data in E. apply bind_ok in E. destruct E as (u1 & _ & E). apply bind_ok in E. destruct E as (u2 & _ & E).
  cbv zeta in E. apply bind_ok in E. destruct E as (buf & _ & E). same E. cbn [dr_ids] in H.
  destruct (smem id (dr_ids r)); [|discriminate]. same H. reflexivity.
Qed.

Lemma remove_from_repairs_both f id data rs : id <> i -> id <> j -> forall reps reps',
  (forall r rep, In (r, rep) reps -> In i (dr_ids rep) /\ In j (dr_ids rep)) ->
  remove_from_repairs m f id data rs reps = Ok reps' ->
  (forall r rep, In (r, rep) reps' -> In i (dr_ids rep) /\ In j (dr_ids rep)) /\ (reps = [] -> reps' = []).
Proof.
  intros Ni Nj. induction rs as [|r rs IH]; intros reps reps' H E; cbn [remove_from_repairs] in E.
  - same E. auto.
  - destruct (mfind r reps) as [rep|] eqn:Er; [|discriminate]. apply bind_ok in E. destruct E as (rep' & E1 & E).
    apply remove_source_ids in E1. destruct (H r rep (mfind_in _ _ _ Er)) as [Hi Hj].
    apply IH in E; [destruct E as [B1 B2]|].
    2:{ intros r0 rep0 Hin. apply mset_incl in Hin. destruct Hin as [Heq|Hin]; [|eapply H, Hin].
      assert (rep0 = rep') by congruence. subst rep0. rewrite E1. split; apply serase_keeps; auto. }
    split; [exact B1|]. intros ->. discriminate Er.
Qed.

Lemma no_longer_missing_quiet d id data d' : id <> i -> id <> j -> quiet A d ->
  no_longer_missing m d id data = Ok d' -> quiet A d'.
Proof.
  intros Ni Nj [Q1 Q2 Q3 Q4 Q5]. unfold no_longer_missing. destruct (mfind id (d_missing d)) as [rs|]; intros H.
  - apply bind_ok in H. destruct H as (reps & E & H). same H.
    apply remove_from_repairs_both in E; try assumption. destruct E as [E1 E2]. constructor; try assumption.
    cbn [with_missing with_repairs d_repairs d_missing]. intros Hr. apply merase_keeps; [|congruence]. apply Q2.
    intros X. apply Hr, E2, X.
  - same H. constructor; assumption.
Qed.

Lemma scan_quiet rec ks d d' : quiet A d -> scan rec m ks d = Ok d' -> d' = d.
Proof.
  intros Q. revert d'. induction ks as [|k ks IH]; intros d' H; cbn [scan] in H; [congruence|].
  destruct (mfind k (d_missing d)) as [[|r [|r' l]]|]; try (apply IH, H).
  destruct (mfind r (d_repairs d)) as [rep|] eqn:Er; [|discriminate].
  destruct (qt_repairs _ _ Q r rep (mfind_in _ _ _ Er)) as [Hi Hj].
  destruct (Nat.eqb_spec (length (dr_ids rep)) 1) as [E|E]; [|apply IH, H].
  exfalso. exact (two_in _ _ _ Hij Hi Hj E).
Qed.

Lemma store_quiet d id data d' : A id -> quiet A d -> store m d id data = Ok d' -> quiet A d'.
Proof.
  intros Ha [Q1 Q2 Q3 Q4 Q5] H. unfold store in H. apply bind_ok in H. destruct H as (u & _ & H). cbv zeta in H. same H.
  assert (Q : quiet A (with_sources d (mput id data (d_sources d)))).
  { constructor; try assumption. intros x Hx. unfold keys in Hx. cbn [with_sources d_sources] in Hx.
    apply mput_keys in Hx. destruct Hx as [->|Hx]; [exact Ha | apply Q4, Hx]. }
  destruct (_ && _); [|exact Q]. eapply quiet_same; [..|exact Q]; reflexivity.
Qed.

Lemma add_source_quiet fuel d id data d' : A id -> id <> i -> id <> j -> quiet A d ->
  add_source fuel m d id data = Ok d' -> quiet A d'.
Proof.
  intros Ha Ni Nj Q H. destruct fuel as [|fuel]; cbn [add_source] in H; [discriminate|].
  apply bind_ok in H. destruct H as (d1 & E1 & H). apply announce_quiet in E1; try assumption.
  apply bind_ok in H. destruct H as (d2 & E2 & H). apply no_longer_missing_quiet in E2; try assumption.
  apply bind_ok in H. destruct H as (d3 & E3 & H). pose proof (scan_quiet _ _ _ _ E2 E3) as ->.
  eapply store_quiet; eassumption.
Qed.

(** ** Full decoding *)

Lemma flush_loop_keys l d d' : flush_loop m l d = Ok d' -> keys d' = keys d.
Proof. intros H. apply flush_loop_same in H. unfold keys. destruct H as [-> _]. reflexivity. Qed.

Lemma add_decoded_keys d id data d' : add_decoded m d id data = Ok d' ->
  forall x, In x (keys d') <-> x = id \/ In x (keys d).
Proof.
  intros H x. unfold add_decoded in H. apply bind_ok in H. destruct H as (u & _ & H). cbv zeta in H.
  assert (E : exists v, keys d' = mkeys (mput id v (d_sources d))).
  { eexists. destruct (negb _); [same H; reflexivity|].
    destruct (id =? _).
    - unfold keys. apply flush_same in H. destruct H as [-> _]. reflexivity.
    - same H. reflexivity. }
  destruct E as [v ->]. apply mput_keys.
Qed.

Lemma decode_all_keys n inv reps : forall ms col d d', decode_all m n inv reps col ms d = Ok d' ->
  forall x, In x (keys d') <-> In x ms \/ In x (keys d).
Proof.
  induction ms as [|id ms IH]; intros col d d' H x; cbn [decode_all] in H.
  - same H. cbn. tauto.
  - cbv zeta in H. apply bind_ok in H. destruct H as (data & _ & H). apply bind_ok in H. destruct H as (d1 & E1 & H).
    rewrite (IH _ _ _ H x), (add_decoded_keys _ _ _ _ E1 x). cbn [In]. intuition congruence.
Qed.

Lemma unlink_or_create_keeps r x ids : forall missing, In x (mkeys missing) -> In x (mkeys (unlink_or_create r ids missing)).
Proof.
  induction ids as [|id ids IH]; intros missing H; cbn [unlink_or_create]; [exact H|].
  cbv zeta. apply IH, mset_keys. right. exact H.
Qed.

Lemma attempt_quiet d d' : quiet A d -> attempt_full_decoding m d = Ok d' -> quiet A d' \/ In i (keys d').
Proof.
  intros Q H. pose proof Q as [Q1 Q2 Q3 Q4 Q5]. unfold attempt_full_decoding in H. cbv zeta in H.
  destruct (Nat.eqb_spec (length (d_repairs d)) 0) as [E|E]; cbn [orb] in H; [same H; left; exact Q|].
  destruct (Nat.eqb (length (d_missing d)) 0); [same H; left; exact Q|].
  destruct (Nat.ltb _ _); [same H; left; exact Q|].
  apply bind_ok in H. destruct H as (u1 & _ & H). apply bind_ok in H. destruct H as (u2 & _ & H).
  destruct (negb _); [discriminate|]. apply bind_ok in H. destruct H as (r & _ & H).
  assert (Hr : d_repairs d <> []) by (destruct (d_repairs d); [exfalso; apply E; reflexivity | discriminate]).
  destruct r as [k|[mat inv]].
  - left. unfold failed_decoding in H. cbv zeta in H. cbn [with_failed d_repairs d_missing] in H.
    destruct (nth_error (d_repairs d) k) as [[r rep]|]; [|discriminate].
    same H. constructor; try assumption.
    + intros r0 rep0 Hin. apply merase_incl in Hin. eapply Q1, Hin.
    + intros _. apply unlink_or_create_keeps, Q2, Hr.
  - right. apply bind_ok in H. destruct H as (d1 & E1 & H). same H.
    change (In i (keys d1)). apply (decode_all_keys _ _ _ _ _ _ _ E1 i). left. apply Q2, Hr.
Qed.

(** ** Packets *)

Lemma recv_source_quiet d x data d' : A x -> x <> i -> x <> j -> quiet A d ->
  recv_source m d x data = Ok d' -> quiet A d' \/ In i (keys d').
Proof.
  intros Ha Ni Nj Q H. unfold recv_source in H.
  destruct (outdated d x); [same H; left; exact Q|]. destruct (mmem x (d_sources d)); [same H; left; exact Q|].
  apply bind_ok in H. destruct H as (d1 & E1 & H). apply add_source_quiet in E1; try assumption.
  eapply attempt_quiet; eassumption.
Qed.

Lemma unlink_keys r ids : forall missing missing', unlink r ids missing = Ok missing' ->
  forall x, In x (mkeys missing) -> In x (mkeys missing').
Proof.
  induction ids as [|id ids IH]; intros missing missing' H x Hx; cbn [unlink] in H; [same H; exact Hx|].
  destruct (mfind id missing); [|discriminate]. eapply IH; [exact H|]. apply mset_keys. right. exact Hx.
Qed.

Lemma drop_repairs_quiet id reps : forall d d', quiet A d -> drop_repairs m id reps d = Ok d' -> quiet A d'.
Proof.
  induction reps as [|[r rep] reps IH]; intros d d' Q H; cbn [drop_repairs] in H; [same H; exact Q|].
  apply bind_ok in H. destruct H as (u & _ & H). destruct (dr_ids rep) as [|first ids] eqn:Ei; [discriminate|].
  destruct (first <? id); [|eapply IH; eassumption].
  apply bind_ok in H. destruct H as (ms & E & H). eapply IH; [|exact H].
  destruct Q as [Q1 Q2 Q3 Q4 Q5]. constructor; try assumption.
  - intros r0 rep0 Hin. apply merase_incl in Hin. eapply Q1, Hin.
  - cbn [with_missing with_repairs d_repairs d_missing]. intros Hr. eapply unlink_keys; [exact E|]. apply Q2.
    intros X. apply Hr. rewrite X. reflexivity.
Qed.

Lemma deliver_outdated_quiet l : forall d d', quiet A d -> deliver_outdated l d = Ok d' -> quiet A d'.
Proof.
  induction l as [|id l IH]; intros d d' Q H; cbn [deliver_outdated] in H; [same H; exact Q|].
  apply bind_ok in H. destruct H as (d1 & E & H). apply callback_ordered_quiet in E; [|exact Q].
  eapply IH; [|exact H]. eapply quiet_same; [..|exact E]; reflexivity.
Qed.

Lemma drop_outdated_quiet d id d' : id <= i -> quiet A d -> drop_outdated m d id = Ok d' -> quiet A d'.
Proof.
  intros Hid Q H. unfold drop_outdated in H. cbv zeta in H. apply bind_ok in H. destruct H as (d1 & E1 & H).
  apply drop_repairs_quiet in E1; [|eapply quiet_same; [..|exact Q]; reflexivity].
  apply bind_ok in H. destruct H as (d2 & E2 & H). same H.
  assert (Q2 : quiet A d2).
  { destruct (d_in_order d1); [|same E2; exact E1]. apply bind_ok in E2. destruct E2 as (d3 & E3 & E2).
    apply deliver_outdated_quiet in E3; [|exact E1]. apply flush_quiet in E2; [exact E2|].
    destruct (d_first d3 <? id); [eapply quiet_same; [..|exact E3]; reflexivity | exact E3]. }
  destruct Q2 as [P1 P2 P3 P4 P5]. constructor; try assumption.
  - cbn [with_missing with_sources d_repairs d_missing]. intros Hr. apply mfrom_keys. split; [apply P2, Hr | exact Hid].
  - intros x Hx. unfold keys in Hx. cbn [with_missing with_sources d_sources] in Hx. apply mfrom_keys in Hx. apply P4, Hx.
Qed.

Lemma remove_data_ids f id data r r' : remove_data m f id data r = Ok r' -> dr_ids r' = dr_ids r.
Proof.
  unfold remove_data. intros E. apply bind_ok in E. destruct E as (u1 & _ & E). apply bind_ok in E. destruct E as (u2 & _ & E).
  cbv zeta in E. apply bind_ok in E. destruct E as (buf & _ & E). same E. reflexivity.
Qed.

Lemma link_repair_both ids : forall d r d' r', link_repair m ids d r = Ok (d', r') ->
  ~ In i (keys d) -> ~ In j (keys d) -> In i (dr_ids r) -> In j (dr_ids r) ->
  In i (dr_ids r') /\ In j (dr_ids r')
  /\ (In i ids \/ In i (mkeys (d_missing d)) -> In i (mkeys (d_missing d')))
  /\ exists M, d' = with_missing d M.
Proof.
  induction ids as [|id ids IH]; intros d r d' r' H Ni Nj Hi Hj; cbn [link_repair] in H.
  - assert (d' = d /\ r' = r) as [-> ->] by (split; congruence). split; [exact Hi|]. split; [exact Hj|].
    split; [intros [[]|X]; exact X|]. exists (d_missing d). destruct d; reflexivity.
  - destruct (mfind id (d_sources d)) as [data|] eqn:E.
    + apply bind_ok in H. destruct H as (r1 & E1 & H). apply remove_data_ids in E1.
      assert (Hid : In id (keys d)) by (apply mfind_keys; eauto).
      destruct (IH _ _ _ _ H Ni Nj) as (B1 & B2 & B3 & B4).
      * cbn [with_ids dr_ids]. rewrite E1. apply serase_keeps; [exact Hi | congruence].
      * cbn [with_ids dr_ids]. rewrite E1. apply serase_keeps; [exact Hj | congruence].
      * split; [exact B1|]. split; [exact B2|]. split; [|exact B4].
        intros [[->|X]|X]; [contradiction | apply B3; left; exact X | apply B3; right; exact X].
    + cbv zeta in H. destruct (IH _ _ _ _ H) as (B1 & B2 & B3 & B4); try assumption.
      split; [exact B1|]. split; [exact B2|]. split.
      * intros X. apply B3. cbn [with_missing d_missing]. rewrite mset_keys. destruct X as [[->|X]|X]; auto.
      * destruct B4 as [M ->]. exists M. reflexivity.
Qed.

Lemma recv_repair_quiet d r d' : ssorted (dr_ids r) -> In i (dr_ids r) -> In j (dr_ids r) ->
  ~ A i -> ~ A j -> quiet A d -> recv_repair m d r = Ok d' -> quiet A d' \/ In i (keys d').
Proof.
  intros Hs Hi Hj Ni Nj Q H. unfold recv_repair in H. apply bind_ok in H. destruct H as (u & _ & H).
  destruct (dr_ids r) as [|first ids] eqn:Ei; [discriminate|]. rewrite <- Ei in *.
  assert (Hf : first <= i).
  { pose proof (sorted_hd _ i Hs Hi) as X. rewrite Ei in X. exact X. }
  destruct (outdated d _); [same H; left; exact Q|]. destruct (mmem _ (d_repairs d)); [same H; left; exact Q|].
  apply bind_ok in H. destruct H as (d1 & E1 & H). apply drop_outdated_quiet in E1; [|exact Hf | exact Q].
  destruct (forallb _ _); [same H; left; eapply quiet_same; [..|exact E1]; reflexivity|].
  apply bind_ok in H. destruct H as (u2 & _ & H). apply bind_ok in H. destruct H as ([d2 r2] & E2 & H).
  assert (Ki : ~ In i (keys d1)) by (intros X; apply Ni, (qt_known _ _ E1), X).
  assert (Kj : ~ In j (keys d1)) by (intros X; apply Nj, (qt_known _ _ E1), X).
  destruct (link_repair_both _ _ _ _ _ E2 Ki Kj Hi Hj) as (B1 & B2 & B3 & M & ->).
  specialize (B3 (or_introl (proj1 (in_rev _ _) Hi))).
  cbv zeta in H. apply bind_ok in H. destruct H as (u3 & _ & H).
  destruct (Nat.eqb_spec (length (dr_ids r2)) 1) as [X|X]; [exfalso; exact (two_in _ _ _ Hij B1 B2 X)|].
  eapply attempt_quiet; [|exact H]. destruct E1 as [Q1 Q2 Q3 Q4 Q5]. constructor; try assumption.
  - cbn [with_repairs d_repairs with_missing]. intros r0 rep0 Hin. apply mset_incl in Hin.
    destruct Hin as [Heq|Hin]; [|eapply Q1, Hin]. assert (rep0 = r2) by congruence. subst. auto.
  - intros _. exact B3.
Qed.
End Quiet.

(** ** Runs *)

(** A source packet of [x] has arrived. *)
Definition received (m : mode) (w : world) (x : N) : Prop :=
  exists k p s n, In k (w_arrived w) /\ nth_error (w_out w) k = Some p
  /\ get_packet_type p = Ok TSource /\ read_source m p = Ok (s, n) /\ ds_id s = x.

Lemma received_more m w w' x : extends w w' -> received m w x -> received m w' x.
Proof.
  intros X (k & p & s & n & H1 & H2 & H3 & H4 & H5). exists k, p, s, n.
  destruct (x_arrived _ _ X) as [l ->]. destruct (x_out _ _ X) as [l' ->].
  split; [apply in_app_iff; left; exact H1|]. split; [apply nth_error_keep, H2 | auto].
Qed.

Section Runs.
Variables i j : N.
Variable m : mode.
Variable clk : clock.
Variable f : field.
Variable o : bool.
Variable T : N -> list N.
Hypothesis Hij : i <> j.
Hypothesis HT : forall x, good_data f (T x).

(** The packet is not one of the two sources; a repair combines both. *)
Definition combines (p : packet) : Prop :=
  (forall s k, get_packet_type p = Ok TSource -> read_source m p = Ok (s, k) -> ds_id s <> i /\ ds_id s <> j)
  /\ (forall r k, get_packet_type p = Ok TRepair -> read_repair m p = Ok (r, k) -> In i (dr_ids r) /\ In j (dr_ids r)).

Lemma receiver_quiet w op arr w' : good 0 (dc_core (w_dec w)) -> a_ids (dc_ack (w_dec w)) = [] ->
  quiet i j (received m w) (core_of w) -> receiver m clk w op arr = Ok w' ->
  ~ received m w i -> ~ received m w j ->
  match op with
  | DPacket p => combines p /\ exists k, arr = [k] /\ nth_error (w_out w) k = Some p
  | _ => arr = []
  end ->
  quiet i j (received m w') (core_of w') \/ In i (keys (core_of w')).
Proof.
  intros D1 D2 Q H Ni Nj Hop. pose proof (receiver_extends _ _ _ _ _ _ H) as X. destruct X as (X & _ & Xo & Xa & _).
  assert (Q0 : quiet i j (received m w') (core_of w)).
  { eapply quiet_more; [|exact Q]. intros x. apply received_more, X. }
  unfold receiver in H. destruct (dstep m clk (w_dec w) op) as [d r] eqn:E.
  apply bind_ok in H. destruct H as (out & Hout & H).
  assert (Ec : core_of w' = dc_core d).
  { assert (Ew : w' = {| w_enc := w_enc w; w_dec := d; w_sent := w_sent w; w_out := w_out w;
        w_arrived := w_arrived w ++ arr; w_got := w_got w ++ to_user out;
        w_acks := w_acks w ++ to_network out;
        w_lists := w_lists w ++ acked (w_dec w) d out |}) by congruence. rewrite Ew. reflexivity. }
  clear H. rewrite Ec. apply survive_ok in Hout. destruct Hout as [Hnf Hr].
  destruct Hr as [->|(-> & x & ->)].
  - destruct op as [p| | |t|nb]; cbn [dstep] in E.
    + destruct Hop as ((F1 & F2) & k & -> & Hk).
      destruct (dec_packet m clk (w_dec w) p) as [d1 r] eqn:Ed.
      assert (Y : d1 = d /\ exists q, r = Ok (out, q)).
      { destruct r as [[o1 q]| |]; cbn in E; [|congruence|congruence]. split; [congruence|]. exists q. congruence. }
      destruct Y as [-> [q ->]]. apply dec_packet_ok in Ed; [|exact D1 | exact D2].
      destruct Ed as [s c new Et Er Es R|r c new Et Er Hr Es R]; destruct R as (_ & -> & _).
      * destruct (F1 s _ Et Er) as [G1 G2]. eapply recv_source_quiet; [exact Hij | | exact G1 | exact G2 | exact Q0 | exact Es].
        exists k, p, s, q. rewrite Xo, Xa. split; [apply in_app_iff; right; left; reflexivity | auto].
      * destruct (F2 r _ Et Er) as [G1 G2].
        assert (Hnew : forall x, ~ received m w x -> ~ received m w' x).
        { intros x Nx (k' & p' & s & n & H1 & H2 & H3 & H4 & H5). rewrite Xa in H1. rewrite Xo in H2.
          apply in_app_iff in H1. destruct H1 as [H1|[<-|[]]]; [|congruence].
          apply Nx. exists k', p', s, n. auto. }
        eapply recv_repair_quiet; [exact Hij | exact Hr | exact G1 | exact G2 | apply Hnew, Ni | apply Hnew, Nj
          | exact Q0 | exact Es].
    + destruct (generate_ack (w_dec w)) as [d1 o1] eqn:Eg. assert (d1 = d /\ o1 = out) as [-> ->] by (split; congruence).
      unfold generate_ack in Eg. apply generate_ack_of_spec in Eg; [|exact D2 | apply D1].
      destruct Eg as ([K1 _ _ _ _] & _). rewrite K1. left. exact Q0.
    + destruct (maybe_ack clk (w_dec w)) as [d1 o1] eqn:Eg. assert (d1 = d /\ o1 = out) as [-> ->] by (split; congruence).
      unfold maybe_ack in Eg. apply maybe_ack_of_spec in Eg; [|exact D2 | apply D1].
      destruct Eg as ([K1 _ _ _ _] & _). rewrite K1. left. exact Q0.
    + assert (d = set_ack_period (w_dec w) t /\ out = []) as [-> ->] by (split; congruence). left. exact Q0.
    + apply finish_ok in E. apply bind_ok in E. destruct E as (d1 & Ed & E).
      unfold set_ack_nb_packets in Ed. apply bind_ok in Ed. destruct Ed as (u & _ & Ed).
      assert (d = with_ack_params (w_dec w) (dc_period (w_dec w)) (N.min nb 128) /\ out = []) as [-> ->] by (split; congruence).
      left. exact Q0.
  - apply dstep_throw in E. destruct E as (p & -> & E). apply dec_packet_throw in E.
    assert (Y : dc_core d = core_of w).
    { destruct E as [(_ & _ & ->)|[(_ & ->)|(_ & ->)]]; reflexivity. }
    rewrite Y. left. exact Q0.
Qed.

Theorem run_quiet w w' : reach m clk f o w -> extends w w' -> within_limits f w' -> repairs_in_order w ->
  T i <> SystemInv.S (w_sent w') i ->
  (forall k p, In k (w_arrived w) -> nth_error (w_out w) k = Some p -> fits (w_sent w') m f T p /\ combines p) ->
  quiet i j (received m w) (core_of w).
Proof.
  intros R X L Ho Hd. revert w R X Ho.
  apply (reach_ind m clk f o (fun w => extends w w' -> repairs_in_order w ->
    (forall k p, In k (w_arrived w) -> nth_error (w_out w) k = Some p -> fits (w_sent w') m f T p /\ combines p) ->
    quiet i j (received m w) (core_of w))).
  - intros _ _ _. constructor; try reflexivity; cbn.
    + intros r rep [].
    + intros H. exfalso. apply H. reflexivity.
    + intros x [].
    + intros x [].
  - intros w a w1 R IH E X Ho F. pose proof (wstep_extends _ _ _ _ _ E) as X1.
    assert (X0 : extends w w') by (eapply extends_trans; eassumption).
    assert (Ho0 : repairs_in_order w) by exact (repairs_in_order_before m clk f o w w1 R X1 Ho).
    assert (F0 : forall k p, In k (w_arrived w) -> nth_error (w_out w) k = Some p -> fits (w_sent w') m f T p /\ combines p).
    { intros k p Hk Hp. apply (F k p).
      - destruct (x_arrived _ _ X1) as [l ->]. apply in_app_iff. left. exact Hk.
      - destruct (x_out _ _ X1) as [l ->]. apply nth_error_keep, Hp. }
    specialize (IH X0 Ho0 F0).
    destruct (run_wok m clk f o w w' R X0 L Ho0) as [gs [_ _ _ _ [D1 D2 _ _ _ _] _ _]].
    assert (Never : ~ In i (keys (core_of w1))).
    { assert (R1 : reach m clk f o w1) by (eapply reach_step; eassumption).
      destruct (run_wok m clk f o w1 w' R1 X L Ho) as [gs1 [_ _ _ _ [_ _ _ [[_ [_ S1] _ _ _ _ _ _ _ _] _ _ _] _ _] _ _]].
      pose proof (run_other m clk f o T HT w1 w' R1 X L Ho (fun k p A B => proj1 (F k p A B))) as [[_ [_ S2] _ _ _ _ _ _ _ _] _ _ _].
      intros Hk. apply mfind_keys in Hk. destruct Hk as [data Hk]. apply Hd. rewrite <- (S2 _ _ Hk). apply (S1 _ _ Hk). }
    assert (NR : ~ received m w i /\ ~ received m w j).
    { split; intros (k & p & s & n & H1 & H2 & H3 & H4 & H5); destruct (F0 k p H1 H2) as [_ [G _]];
        destruct (G s n H3 H4); congruence. }
    destruct NR as [NR1 NR2].
    assert (Snd : forall op data, sender m w op data = Ok w1 -> quiet i j (received m w1) (core_of w1)).
    { intros op data H. apply sender_extends in H. destruct H as (_ & _ & _ & _ & _ & Ed).
      unfold core_of. rewrite Ed. eapply quiet_more; [|exact IH]. intros x. apply received_more, X1. }
    assert (Rcv : forall op arr, receiver m clk w op arr = Ok w1 ->
      match op with DPacket p => combines p /\ exists k, arr = [k] /\ nth_error (w_out w) k = Some p | _ => arr = [] end ->
      quiet i j (received m w1) (core_of w1)).
    { intros op arr H Hop. destruct (receiver_quiet w op arr w1 D1 D2 IH H NR1 NR2 Hop); [assumption | contradiction]. }
    destruct a; cbn [wstep] in E; try (eapply Snd; exact E); try (eapply Rcv; [exact E | reflexivity]).
    + destruct (nth_error (w_out w) k) as [p|] eqn:Ek; [|assert (w1 = w) by congruence; subst; exact IH].
      eapply Rcv; [exact E|]. split; [|exists k; auto]. apply receiver_extends in E. destruct E as (_ & _ & Eo & Ea & _).
      apply (F k p); [rewrite Ea; apply in_app_iff; right; left; reflexivity | rewrite Eo; exact Ek].
    + destruct (nth_error (w_acks w) j0) as [p|] eqn:Ej; [eapply Snd; exact E|].
      assert (w1 = w) by congruence. subst. exact IH.
Qed.
End Runs.
