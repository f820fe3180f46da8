(** * How much a receiver hands out and keeps, for arbitrary packets *)
From Coq Require Import NArith Arith List Bool Lia.
From Verif Require Import Outcome GF Containers ContainersFacts Packetizer Matrix DetailDecoder DecoderInv.
Import ListNotations.
Open Scope N_scope.
Open Scope outcome_scope.

Lemma mset_length {V} k (v : V) l : msorted l -> In k (mkeys l) -> length (mset k v l) = length l.
Proof.
  induction l as [|[k' v'] l IH]; intros Hs Hin; [destruct Hin|]. cbn [mset].
  apply msorted_cons_inv in Hs. destruct Hs as [Hs Hlow].
  destruct Hin as [E|Hin].
  - cbn [fst] in E. subst k'. rewrite N.ltb_irrefl, N.eqb_refl. reflexivity.
  - assert (Hlt : k' < k).
    { unfold mkeys in Hin. apply in_map_iff in Hin. destruct Hin as ([k1 v1] & E & Hin). cbn [fst] in E. subst k1. apply (Hlow k v1 Hin). }
    replace (k <? k') with false by (symmetry; apply N.ltb_ge; lia).
    replace (k =? k') with false by (symmetry; apply N.eqb_neq; lia). cbn [length]. rewrite IH; auto.
Qed.

Lemma mset_length_le {V} k (v : V) l : (length (mset k v l) <= S (length l))%nat.
Proof.
  induction l as [|[k' v'] l IH]; cbn [mset length]; [lia|].
  destruct (k <? k'); [cbn [length]; lia|]. destruct (k =? k'); cbn [length]; lia.
Qed.

Lemma merase_length_le {V} k (l : list (N * V)) : (length (merase k l) <= length l)%nat.
Proof. induction l as [|[k' v'] l IH]; cbn [merase length]; [lia|]. destruct (k =? k'); cbn [length]; lia. Qed.

Lemma mput_length_le {V} k (v : V) l : (length (mput k v l) <= S (length l))%nat.
Proof. unfold mput. destruct (mfind k l); [lia | apply mset_length_le]. Qed.

Lemma sinsert_length_le x l : (length (sinsert x l) <= S (length l))%nat.
Proof.
  induction l as [|y l IH]; cbn [sinsert length]; [lia|].
  destruct (x <? y); [cbn [length]; lia|]. destruct (x =? y); cbn [length]; lia.
Qed.

Lemma filter_length_le {A} (b : A -> bool) l : (length (filter b l) <= length l)%nat.
Proof. induction l as [|a l IH]; cbn [filter length]; [lia|]. destruct (b a); cbn [length]; lia. Qed.

Section Bound.
Variable m : mode.

(** [K] is the price of a packet in data handed out, [P] holds for the identifiers in use. *)
Variable K : nat.
Variable P : N -> Prop.
Hypothesis HK : (1 <= K)%nat.
Hypothesis HP : K = 1%nat -> forall x, P x -> x < LIM.

Record fine (d : ddec) : Prop := {
  fi_ordered : ssorted (d_ordered d);
  fi_repairs : msorted (d_repairs d);
  fi_ordered_P : Forall P (d_ordered d);
  fi_ids_P : forall r rep, In (r, rep) (d_repairs d) -> Forall P (dr_ids rep);
  fi_missing_P : Forall P (mkeys (d_missing d))
}.

(** Handed out, or waiting for its turn. *)
Definition out (d : ddec) : nat := (length (d_log d) + length (d_ordered d))%nat.

(** A step that takes [n] packets. *)
Record pays (n : nat) (d d' : ddec) : Prop := {
  py_fine : fine d';
  py_out : (out d' + K * length (d_repairs d') <= out d + K * length (d_repairs d) + K * n)%nat;
  py_kept : (length (d_sources d') + length (d_repairs d') <= length (d_sources d) + length (d_repairs d) + n)%nat;
  py_order : d_in_order d' = d_in_order d;
  py_first : K = 1%nat -> d_first d <= d_first d'
}.

Lemma pays_refl d : fine d -> pays 0 d d.
Proof. intros F. constructor; try lia; try reflexivity; try assumption. Qed.

Lemma pays_trans a b d1 d2 d3 : pays a d1 d2 -> pays b d2 d3 -> pays (a + b) d1 d3.
Proof.
  intros [A1 A2 A3 A4 A5] [B1 B2 B3 B4 B5]. constructor; [exact B1 | nia | lia | congruence|].
  intros E. specialize (A5 E). specialize (B5 E). lia.
Qed.

Lemma pays_more a b d1 d2 : (a <= b)%nat -> pays a d1 d2 -> pays b d1 d2.
Proof. intros H [A1 A2 A3 A4 A5]. constructor; try assumption; [nia | lia]. Qed.

(** ** Flushing *)

(** Only the log, the ordered sources and the first missing one change. *)
Record calm (d d' : ddec) : Prop := {
  ca_fine : fine d';
  ca_out : out d' = out d;
  ca_repairs : d_repairs d' = d_repairs d;
  ca_missing : d_missing d' = d_missing d;
  ca_sources : d_sources d' = d_sources d;
  ca_order : d_in_order d' = d_in_order d;
  ca_first : K = 1%nat -> d_first d <= d_first d'
}.

Lemma calm_pays d d' : calm d d' -> pays 0 d d'.
Proof.
  intros [A1 A2 A3 A4 A5 A6 A7]. constructor; try assumption; rewrite ?A2, ?A3, ?A5; lia.
Qed.

Lemma calm_refl d : fine d -> calm d d.
Proof. intros F. constructor; try reflexivity; assumption. Qed.

Lemma calm_trans d1 d2 d3 : calm d1 d2 -> calm d2 d3 -> calm d1 d3.
Proof.
  intros [A1 A2 A3 A4 A5 A6 A7] [B1 B2 B3 B4 B5 B6 B7]. constructor; try congruence; try assumption.
  intros E. specialize (A7 E). specialize (B7 E). lia.
Qed.

(** One of the ordered sources is handed out. *)
Lemma calm_deliver d id d1 : fine d -> In id (d_ordered d) -> callback_ordered d id = Ok d1 ->
  calm d (with_ordered d1 (serase id (d_ordered d1))) /\ d_first d1 = d_first d /\ d_ordered d1 = d_ordered d.
Proof.
  intros [F1 F2 F3 F4 F5] Hin H. unfold callback_ordered in H. destruct (mfind id (d_sources d)) as [data|]; [|discriminate].
  assert (E : d1 = callback d id data) by congruence. subst d1. split; [|split; reflexivity].
  constructor; try reflexivity.
  - constructor; try assumption.
    + apply serase_sorted, F1.
    + apply Forall_forall. intros x Hx. apply serase_incl in Hx. rewrite Forall_forall in F3. apply F3, Hx.
  - unfold out. cbn [with_ordered callback d_log d_ordered]. rewrite app_length. cbn [length].
    pose proof (serase_length id (d_ordered d) Hin). lia.
Qed.

Lemma calm_first d x : fine d -> (K = 1%nat -> d_first d <= x) -> calm d (with_first d x).
Proof. intros [F1 F2 F3 F4 F5] H. constructor; try reflexivity; [constructor; assumption | exact H]. Qed.

Lemma flush_loop_calm l : forall d d', fine d -> NoDup l -> incl l (d_ordered d) -> ssorted l ->
  match l with [] => True | id :: _ => id = d_first d end ->
  flush_loop m l d = Ok d' -> calm d d'.
Proof.
  induction l as [|id l IH]; intros d d' F Hn Hi Hs Hhd H; cbn [flush_loop] in H.
  - assert (d' = d) by congruence. subst. apply calm_refl, F.
  - apply bind_ok in H. destruct H as (u & _ & H). apply bind_ok in H. destruct H as (d1 & E1 & H).
    destruct (calm_deliver d id d1 F (Hi id (or_introl eq_refl)) E1) as (C & Ef & Eo).
    cbv zeta in H. set (d2 := with_ordered d1 (serase id (d_ordered d1))) in *.
    change (d_first d2) with (d_first d1) in H. rewrite Ef in H.
    assert (Hid : P id).
    { destruct F as [_ _ F3 _ _]. rewrite Forall_forall in F3. apply F3, Hi. left. reflexivity. }
    assert (Hu : K = 1%nat -> u32 (d_first d + 1) = d_first d + 1).
    { intros Ek. pose proof (HP Ek id Hid) as Hl. unfold LIM in Hl. unfold u32. apply N.mod_small. rewrite <- Hhd. lia. }
    assert (C3 : calm d (with_first d2 (u32 (d_first d + 1)))).
    { apply calm_trans with (1 := C). apply calm_first; [apply C|]. intros Ek. rewrite (Hu Ek).
      change (d_first d2) with (d_first d1). rewrite Ef. lia. }
    apply NoDup_cons_iff in Hn. destruct Hn as [Hn1 Hn2]. apply ssorted_cons_inv in Hs. destruct Hs as [Hs1 Hs2].
    destruct l as [|id' l']; [assert (Ed : d' = with_first d2 (u32 (d_first d + 1))) by congruence; rewrite Ed; exact C3|].
    cbn [with_first d_first] in H.
    destruct (u32 (d_first d + 1) <? id') eqn:El.
    { assert (Ed : d' = with_first d2 (u32 (d_first d + 1))) by congruence. rewrite Ed. exact C3. }
    apply N.ltb_ge in El. pose proof (Hs2 id' (or_introl eq_refl)) as Hlt.
    assert (Hb : u32 (d_first d + 1) <= d_first d + 1).
    { unfold u32. apply N.mod_le. discriminate. }
    apply calm_trans with (1 := C3). apply IH with (6 := H).
    + apply C3.
    + exact Hn2.
    + intros x Hx. change (In x (serase id (d_ordered d1))). rewrite Eo. apply serase_in; [apply F|]. split; [apply Hi; right; exact Hx|].
      intros ->. contradiction.
    + exact Hs1.
    + change (id' = u32 (d_first d + 1)). lia.
Qed.

Lemma from_head id l : ssorted l -> In id l -> match from id l with [] => True | x :: _ => x = id end.
Proof.
  intros Hs Hin. unfold from. induction l as [|y l IH]; [exact I|]. cbn [filter].
  apply ssorted_cons_inv in Hs. destruct Hs as [Hs Hlow]. destruct Hin as [->|Hin].
  - rewrite (proj2 (N.leb_le id id)) by lia. reflexivity.
  - specialize (Hlow id Hin). replace (id <=? y) with false by (symmetry; apply N.leb_gt; lia). apply IH; assumption.
Qed.

Lemma flush_calm d d' : fine d -> flush m d = Ok d' -> calm d d'.
Proof.
  intros F H. unfold flush in H. destruct (smem (d_first d) (d_ordered d)) eqn:Es.
  - apply smem_spec in Es. pose proof (fi_ordered _ F) as So. apply flush_loop_calm with (6 := H).
    + exact F.
    + apply ssorted_NoDup, ssorted_filter, So.
    + intros x Hx. apply filter_In in Hx. apply Hx.
    + apply ssorted_filter, So.
    + apply from_head; assumption.
  - assert (d' = d) by congruence. subst. apply calm_refl, F.
Qed.

Lemma deliver_outdated_calm l : forall d d', fine d -> NoDup l -> incl l (d_ordered d) -> deliver_outdated l d = Ok d' -> calm d d'.
Proof.
  induction l as [|id l IH]; intros d d' F Hn Hi H; cbn [deliver_outdated] in H.
  - assert (d' = d) by congruence. subst. apply calm_refl, F.
  - apply bind_ok in H. destruct H as (d1 & E1 & H).
    destruct (calm_deliver d id d1 F (Hi id (or_introl eq_refl)) E1) as (C & Ef & Eo).
    apply NoDup_cons_iff in Hn. destruct Hn as [Hn1 Hn2].
    apply calm_trans with (1 := C). apply IH with (4 := H).
    + apply C.
    + exact Hn2.
    + intros x Hx. change (In x (serase id (d_ordered d1))). rewrite Eo. apply serase_in; [apply F|].
      split; [apply Hi; right; exact Hx|]. intros ->. contradiction.
Qed.

(** ** Adding a source *)

Lemma remove_from_repairs_ids f id data rs : forall reps reps', msorted reps ->
  (forall r rep, In (r, rep) reps -> Forall P (dr_ids rep)) ->
  remove_from_repairs m f id data rs reps = Ok reps' ->
  msorted reps' /\ length reps' = length reps /\ (forall r rep, In (r, rep) reps' -> Forall P (dr_ids rep)).
Proof.
  induction rs as [|r rs IH]; intros reps reps' Hs Hp H; cbn [remove_from_repairs] in H.
  - assert (reps' = reps) by congruence. subst. auto.
  - destruct (mfind r reps) as [rep|] eqn:Er; [|discriminate].
    apply bind_ok in H. destruct H as (rep1 & E1 & H).
    assert (Hr : Forall P (dr_ids rep1)).
    { unfold remove_source in E1. apply bind_ok in E1. destruct E1 as (rep0 & E0 & E1).
      assert (Ei : dr_ids rep0 = dr_ids rep).
      { unfold remove_data in E0. apply bind_ok in E0. destruct E0 as (u1 & _ & E0). apply bind_ok in E0. destruct E0 as (u2 & _ & E0).
        apply bind_ok in E0. destruct E0 as (buf & _ & E0).
        match type of E0 with Ok ?x = _ => assert (Eq : rep0 = x) by congruence end. rewrite Eq. reflexivity. }
      apply bind_ok in E1. destruct E1 as (u & _ & E1). destruct (smem id (dr_ids rep0)); [|discriminate].
      assert (Eq : rep1 = with_ids rep0 (serase id (dr_ids rep0))) by congruence. rewrite Eq. cbn [with_ids dr_ids].
      apply Forall_forall. intros x Hx. apply serase_incl in Hx. rewrite Ei in Hx.
      apply mfind_in in Er. specialize (Hp _ _ Er). rewrite Forall_forall in Hp. apply Hp, Hx. }
    apply IH in H.
    + destruct H as (A & B & C). split; [exact A|]. split; [|exact C]. rewrite B. apply mset_length; [exact Hs|].
      apply mfind_keys. eauto.
    + apply mset_sorted, Hs.
    + intros r' rep' Hin. apply in_mfind in Hin; [|apply mset_sorted, Hs]. rewrite mfind_mset in Hin.
      destruct (r' =? r); [congruence|]. apply mfind_in in Hin. eapply Hp, Hin.
Qed.

Lemma create_source_P f rep id data : Forall P (dr_ids rep) -> create_source m f rep = Ok (id, data) -> P id.
Proof.
  intros Hp H. unfold create_source in H. apply bind_ok in H. destruct H as (u & _ & H).
  destruct (dr_ids rep) as [|x l]; [discriminate|]. apply bind_ok in H. destruct H as (dt & _ & H).
  assert (x = id) by congruence. subst x. apply Forall_inv in Hp. exact Hp.
Qed.

(** The state without one of its repairs and one missing source, more decoded. *)
Lemma fine_shrink d n reps miss : fine d -> msorted reps -> (forall r rep, In (r, rep) reps -> In (r, rep) (d_repairs d)) ->
  (forall x, In x (mkeys miss) -> In x (mkeys (d_missing d))) ->
  fine (with_missing (with_repairs (count_decoded d n) reps) miss).
Proof.
  intros [F1 F2 F3 F4 F5] Hs Hr Hm. constructor; try assumption.
  - intros r rep Hin. eapply F4, Hr, Hin.
  - apply Forall_forall. intros x Hx. rewrite Forall_forall in F5. apply F5, Hm, Hx.
Qed.

Lemma merase_sub {V} k (l : list (N * V)) x : In x (merase k l) -> In x l.
Proof.
  induction l as [|[k' v'] l IH]; [intros []|]. cbn [merase]. destruct (k =? k'); intros H; [right; exact H|].
  destruct H as [H|H]; [left; exact H | right; apply IH, H].
Qed.

Lemma scan_pays rec keys : (forall d id data d', fine d -> P id -> rec d id data = Ok d' -> pays 1 d d') ->
  forall d d', fine d -> scan rec m keys d = Ok d' -> pays 0 d d'.
Proof.
  intros Hrec. induction keys as [|k keys IH]; intros d d' F H; cbn [scan] in H.
  - assert (d' = d) by congruence. subst. apply pays_refl, F.
  - destruct (mfind k (d_missing d)) as [[|r [|r2 rs]]|]; try (apply IH; assumption).
    destruct (mfind r (d_repairs d)) as [rep|] eqn:Er; [|discriminate].
    destruct (Nat.eqb (length (dr_ids rep)) 1); [|apply IH; assumption].
    apply bind_ok in H. destruct H as (u & _ & H). apply bind_ok in H. destruct H as (u2 & _ & H).
    apply bind_ok in H. destruct H as ([id data] & Ec & H). cbv zeta in H.
    apply bind_ok in H. destruct H as (d2 & E2 & H).
    assert (Hid : P id).
    { eapply create_source_P; [|exact Ec]. eapply (fi_ids_P _ F). apply mfind_in, Er. }
    set (d1 := with_missing (with_repairs (count_decoded d 1) _) _) in E2.
    assert (F1 : fine d1).
    { apply fine_shrink; [exact F | apply merase_sorted, F | |].
      - intros r' rep' Hin. apply merase_sub in Hin. exact Hin.
      - intros x Hx. apply merase_keys_incl in Hx. exact Hx. }
    pose proof (Hrec d1 id data d2 F1 Hid E2) as P2.
    assert (Hl : length (d_repairs d) = S (length (d_repairs d1))).
    { apply (merase_length r). apply mfind_keys. eauto. }
    assert (P1 : pays 0 d d2).
    { destruct P2 as [A1 A2 A3 A4 A5]. constructor.
      - exact A1.
      - change (out d1) with (out d) in A2. nia.
      - change (d_sources d1) with (d_sources d) in A3. lia.
      - exact A4.
      - exact A5. }
    destruct (find _ keys) as [k'|]; [|assert (d' = d2) by congruence; subst; exact P1].
    destruct (mmem k' (d_missing d2)); [|discriminate].
    change 0%nat with (0 + 0)%nat. apply pays_trans with (1 := P1). apply IH; [apply P1 | exact H].
Qed.

Lemma add_source_pays fuel : forall d id data d', fine d -> P id -> add_source fuel m d id data = Ok d' -> pays 1 d d'.
Proof.
  induction fuel as [|fuel IH]; intros d id data d' F Hid H; cbn [add_source] in H; [discriminate|].
  apply bind_ok in H. destruct H as (d1 & E1 & H). apply bind_ok in H. destruct H as (d2 & E2 & H).
  apply bind_ok in H. destruct H as (d3 & E3 & H).
  assert (A1 : fine d1 /\ (out d1 <= S (out d))%nat /\ d_repairs d1 = d_repairs d /\ d_missing d1 = d_missing d
    /\ d_sources d1 = d_sources d /\ d_in_order d1 = d_in_order d /\ (K = 1%nat -> d_first d <= d_first d1)
    /\ (out d1 = out d \/ d_in_order d = false \/ (K = 1%nat -> id < d_first d1))).
  { assert (Fc : fine (callback d id data)) by (destruct F; constructor; assumption).
    assert (Oc : out (callback d id data) = S (out d)).
    { unfold out. cbn [callback d_log d_ordered]. rewrite app_length. cbn [length]. lia. }
    unfold announce in E1. destruct (d_in_order d) eqn:Hi; cbn [negb] in E1.
    - destruct (id =? d_first d) eqn:Ef.
      + apply N.eqb_eq in Ef.
        assert (Hu : K = 1%nat -> u32 (d_first d + 1) = d_first d + 1).
        { intros Ek. pose proof (HP Ek id Hid) as Hl. unfold LIM in Hl. unfold u32. apply N.mod_small. lia. }
        change (d_first (callback d id data)) with (d_first d) in E1.
        assert (C0 : calm (callback d id data) (with_first (callback d id data) (u32 (d_first d + 1)))).
        { apply calm_first; [exact Fc|]. intros Ek. rewrite (Hu Ek). change (d_first (callback d id data)) with (d_first d). lia. }
        pose proof (flush_calm _ _ (ca_fine _ _ C0) E1) as C1.
        pose proof (ca_first _ _ C1) as G1. cbn [with_first d_first] in G1.
        pose proof (calm_trans _ _ _ C0 C1) as [B1 B2 B3 B4 B5 B6 B7].
        split; [exact B1|]. split; [rewrite B2, Oc; lia|]. split; [exact B3|]. split; [exact B4|]. split; [exact B5|].
        split; [rewrite B6; exact Hi|]. split; [exact B7|]. right. right. intros Ek. specialize (G1 Ek). rewrite (Hu Ek) in G1. lia.
      + assert (d1 = d) by congruence. subst d1. split; [exact F|]. repeat (split; [first [lia | reflexivity | assumption | intros _; lia]|]). left. reflexivity.
    - assert (Eq : d1 = callback d id data) by congruence. subst d1. split; [exact Fc|]. split; [lia|].
      repeat (split; [first [reflexivity | exact Hi | intros _; reflexivity | intros _; cbn; lia]|]). right. left. reflexivity. }
  destruct A1 as (F1 & O1 & R1 & M1 & S1 & I1 & Fi1 & X1).
  assert (A2 : fine d2 /\ out d2 = out d1 /\ length (d_repairs d2) = length (d_repairs d1)
    /\ d_sources d2 = d_sources d1 /\ d_in_order d2 = d_in_order d1 /\ d_first d2 = d_first d1).
  { unfold no_longer_missing in E2. destruct (mfind id (d_missing d1)) as [rs|].
    - apply bind_ok in E2. destruct E2 as (reps & Er & E2).
      apply remove_from_repairs_ids in Er; [|apply F1 | apply F1]. destruct Er as (B1 & B2 & B3).
      assert (Eq : d2 = with_missing (with_repairs d1 reps) (merase id (d_missing d1))) by congruence. subst d2.
      split; [|repeat (split; [first [reflexivity | exact B2]|]); reflexivity]. destruct F1 as [G1 G2 G3 G4 G5]. constructor; try assumption.
      apply Forall_forall. intros x Hx. apply merase_keys_incl in Hx. rewrite Forall_forall in G5. apply G5, Hx.
    - assert (d2 = d1) by congruence. subst d2. split; [exact F1|]. repeat split. }
  destruct A2 as (F2 & O2 & R2 & S2 & I2 & Fi2).
  pose proof (scan_pays (add_source fuel m) _ IH d2 d3 F2 E3) as [F3 O3 K3 I3 Fi3].
  unfold store in H. apply bind_ok in H. destruct H as (u & _ & H). cbv zeta in H.
  cbn [with_sources d_in_order d_first d_ordered] in H.
  set (d4 := with_sources d3 (mput id data (d_sources d3))) in *.
  assert (F4 : fine d4) by (destruct F3; constructor; assumption).
  assert (L4 : (length (d_sources d4) <= S (length (d_sources d3)))%nat) by apply mput_length_le.
  rewrite S2, S1, R2, R1 in K3. rewrite O2, R2, R1 in O3.
  assert (I4 : d_in_order d4 = d_in_order d) by (change (d_in_order d4) with (d_in_order d3); congruence).
  assert (Fi4 : K = 1%nat -> d_first d1 <= d_first d4).
  { intros Ek. specialize (Fi3 Ek). change (d_first d4) with (d_first d3). rewrite <- Fi2. exact Fi3. }
  change (out d3) with (out d4) in O3. change (d_repairs d3) with (d_repairs d4) in O3, K3.
  change (d_in_order d3) with (d_in_order d4) in H. change (d_first d3) with (d_first d4) in H.
  destruct (d_in_order d4 && (d_first d4 <? id)) eqn:Eb.
  - apply andb_true_iff in Eb. destruct Eb as [Eb1 Eb2]. apply N.ltb_lt in Eb2.
    assert (Eq : d' = with_ordered d4 (sinsert id (d_ordered d3))) by congruence.
    assert (O' : (out d' <= S (out d4))%nat).
    { rewrite Eq. unfold out. cbn [with_ordered d_log d_ordered d4 with_sources]. pose proof (sinsert_length_le id (d_ordered d3)). lia. }
    rewrite Eq in O' |- *. constructor.
    + destruct F4 as [G1 G2 G3 G4 G5]. constructor; try assumption.
      * apply sinsert_sorted, G1.
      * apply Forall_forall. intros x Hx. apply sinsert_in in Hx. destruct Hx as [->|Hx]; [exact Hid|].
        rewrite Forall_forall in G3. apply G3, Hx.
    + change (d_repairs (with_ordered d4 (sinsert id (d_ordered d3)))) with (d_repairs d4).
      destruct X1 as [X1|[X1|X1]].
      * nia.
      * congruence.
      * destruct (Nat.eq_dec K 1) as [Ek|Ek]; [specialize (X1 Ek); specialize (Fi4 Ek); lia | nia].
    + change (d_repairs (with_ordered d4 (sinsert id (d_ordered d3)))) with (d_repairs d4).
      change (d_sources (with_ordered d4 (sinsert id (d_ordered d3)))) with (d_sources d4). lia.
    + exact I4.
    + intros Ek. specialize (Fi4 Ek). specialize (Fi1 Ek). change (d_first d <= d_first d4). lia.
  - assert (Eq : d' = d4) by congruence. rewrite Eq. constructor.
    + exact F4.
    + nia.
    + lia.
    + exact I4.
    + intros Ek. specialize (Fi4 Ek). specialize (Fi1 Ek). lia.
Qed.

(** ** Dropping *)

Lemma unlink_keys r ids : forall miss miss', unlink r ids miss = Ok miss' ->
  forall x, In x (mkeys miss') -> In x (mkeys miss).
Proof.
  induction ids as [|id ids IH]; intros miss miss' H x Hx; cbn [unlink] in H.
  - assert (miss' = miss) by congruence. subst. exact Hx.
  - destruct (mfind id miss) as [links|] eqn:E; [|discriminate]. apply (IH _ _ H) in Hx. apply mset_keys in Hx.
    destruct Hx as [->|Hx]; [|exact Hx]. apply mfind_keys. eauto.
Qed.

(** Repairs and missing sources may go, the rest stays. *)
Record sheds (d d' : ddec) : Prop := {
  sh_fine : fine d';
  sh_out : out d' = out d;
  sh_repairs : (length (d_repairs d') <= length (d_repairs d))%nat;
  sh_sources : d_sources d' = d_sources d;
  sh_ordered : d_ordered d' = d_ordered d;
  sh_order : d_in_order d' = d_in_order d;
  sh_first : d_first d' = d_first d
}.

Lemma sheds_pays d d' : sheds d d' -> pays 0 d d'.
Proof.
  intros [A1 A2 A3 A4 A4' A5 A6]. constructor; try assumption; rewrite ?A2, ?A4, ?A6; nia.
Qed.

Lemma drop_repairs_sheds id reps : forall d d', fine d -> drop_repairs m id reps d = Ok d' -> sheds d d'.
Proof.
  induction reps as [|[r rep] reps IH]; intros d d' F H; cbn [drop_repairs] in H.
  - assert (d' = d) by congruence. subst. constructor; try reflexivity; try assumption; lia.
  - apply bind_ok in H. destruct H as (u & _ & H). destruct (dr_ids rep) as [|first ids] eqn:Ei; [discriminate|].
    destruct (first <? id); [|apply IH; assumption].
    apply bind_ok in H. destruct H as (miss & Em & H).
    assert (F1 : fine (with_missing (with_repairs d (merase r (d_repairs d))) miss)).
    { destruct F as [F1 F2 F3 F4 F5]. constructor; try assumption.
      - apply merase_sorted, F2.
      - intros r' rep' Hin. apply merase_sub in Hin. eapply F4, Hin.
      - apply Forall_forall. intros x Hx. apply (unlink_keys _ _ _ _ Em) in Hx. rewrite Forall_forall in F5. apply F5, Hx. }
    apply IH in H; [|exact F1]. destruct H as [A1 A2 A3 A4 A4' A5 A6]. constructor; try assumption.
    cbn [with_missing with_repairs d_repairs] in A3. pose proof (merase_length_le r (d_repairs d)). lia.
Qed.

Lemma drop_outdated_pays d id d' : fine d -> drop_outdated m d id = Ok d' -> pays 0 d d'.
Proof.
  intros F H. unfold drop_outdated in H. cbv zeta in H. apply bind_ok in H. destruct H as (d1 & E1 & H).
  apply bind_ok in H. destruct H as (d2 & E2 & H).
  assert (F0 : fine (with_last d (Some id))) by (destruct F; constructor; assumption).
  apply drop_repairs_sheds in E1; [|exact F0]. apply sheds_pays in E1.
  assert (P1 : pays 0 d d1) by (destruct E1 as [A1 A2 A3 A4 A5]; constructor; assumption).
  assert (P2 : pays 0 d1 d2).
  { destruct (d_in_order d1) eqn:Ho.
    - apply bind_ok in E2. destruct E2 as (d1' & E2 & E3). pose proof (py_fine _ _ _ P1) as F1.
      apply deliver_outdated_calm in E2.
      + assert (C1 : calm d1' (if d_first d1' <? id then with_first d1' id else d1')).
        { destruct (d_first d1' <? id) eqn:El; [|apply calm_refl, E2]. apply N.ltb_lt in El. apply calm_first; [apply E2|]. intros _. lia. }
        apply flush_calm in E3; [|apply C1]. apply calm_pays. eapply calm_trans; [exact E2|]. eapply calm_trans; [exact C1 | exact E3].
      + exact F1.
      + apply ssorted_NoDup, ssorted_filter, F1.
      + intros x Hx. apply filter_In in Hx. apply Hx.
    - assert (d2 = d1) by congruence. subst. apply pays_refl, P1. }
  assert (Eq : d' = with_missing (with_sources d2 (mfrom id (d_sources d2))) (mfrom id (d_missing d2))) by (cbn [with_sources d_missing] in H; congruence).
  assert (P3 : pays 0 d2 d').
  { rewrite Eq. destruct (py_fine _ _ _ P2) as [A1 A2 A3 A4 A5]. constructor.
    - constructor; try assumption. apply Forall_forall. intros x Hx. rewrite Forall_forall in A5. apply A5.
      cbn [with_missing d_missing] in Hx. unfold mkeys, mfrom in *. apply in_map_iff in Hx. destruct Hx as ([k v] & E & Hx).
      apply filter_In in Hx. apply in_map_iff. exists (k, v). split; [exact E | apply Hx].
    - change (out (with_missing (with_sources d2 (mfrom id (d_sources d2))) (mfrom id (d_missing d2)))) with (out d2).
      cbn [with_missing with_sources d_repairs]. lia.
    - cbn [with_missing with_sources d_sources d_repairs]. unfold mfrom.
      pose proof (filter_length_le (fun '(k, _) => id <=? k) (d_sources d2)). lia.
    - reflexivity.
    - intros _. apply N.le_refl. }
  change 0%nat with (0 + (0 + 0))%nat. eapply pays_trans; [exact P1|]. eapply pays_trans; [exact P2 | exact P3].
Qed.

(** ** Full decoding *)

Lemma add_decoded_out d id data d' : fine d -> P id -> add_decoded m d id data = Ok d' ->
  fine d' /\ (out d' <= S (out d))%nat /\ d_repairs d' = d_repairs d /\ (length (d_sources d') <= S (length (d_sources d)))%nat
  /\ d_in_order d' = d_in_order d /\ (K = 1%nat -> d_first d <= d_first d').
Proof.
  intros F Hid H. unfold add_decoded in H. apply bind_ok in H. destruct H as (u & _ & H). cbv zeta in H.
  set (data' := match mfind id (d_sources d) with None => data | Some old => old end) in H.
  set (d1 := with_sources d (mput id data' (d_sources d))) in H.
  assert (F1 : fine d1) by (destruct F; constructor; assumption).
  assert (L1 : (length (d_sources d1) <= S (length (d_sources d)))%nat) by apply mput_length_le.
  assert (Fc : fine (callback d1 id data')) by (destruct F1; constructor; assumption).
  assert (Oc : out (callback d1 id data') = S (out d)).
  { unfold out. cbn [callback d_log d_ordered d1 with_sources]. rewrite app_length. cbn [length]. lia. }
  destruct (d_in_order d1); cbn [negb] in H.
  - destruct (id =? d_first d1) eqn:Ef.
    + apply N.eqb_eq in Ef. change (d_first (callback d1 id data')) with (d_first d1) in H.
      assert (C0 : calm (callback d1 id data') (with_first (callback d1 id data') (u32 (d_first d1 + 1)))).
      { apply calm_first; [exact Fc|]. intros Ek. pose proof (HP Ek id Hid) as Hl. unfold LIM in Hl.
        change (d_first (callback d1 id data')) with (d_first d1). unfold u32. rewrite N.mod_small; lia. }
      pose proof (flush_calm _ _ (ca_fine _ _ C0) H) as C1.
      pose proof (calm_trans _ _ _ C0 C1) as [B1 B2 B3 B4 B5 B6 B7].
      split; [exact B1|]. split; [rewrite B2, Oc; lia|]. split; [exact B3|]. split; [rewrite B5; exact L1|]. split; [exact B6 | exact B7].
    + assert (Eq : d' = with_ordered d1 (sinsert id (d_ordered d1))) by congruence. rewrite Eq. split.
      * destruct F1 as [A1 A2 A3 A4 A5]. constructor; try assumption; cbn [with_ordered d_ordered].
        -- apply sinsert_sorted, A1.
        -- apply Forall_forall. intros x Hx. apply sinsert_in in Hx. destruct Hx as [->|Hx]; [exact Hid|]. rewrite Forall_forall in A3. apply A3, Hx.
      * split; [|split; [reflexivity|]; split; [exact L1|]; split; [reflexivity|]; intros _; apply N.le_refl].
        unfold out. cbn [with_ordered d_log d_ordered d1 with_sources]. pose proof (sinsert_length_le id (d_ordered d)). lia.
  - assert (Eq : d' = callback d1 id data') by congruence. rewrite Eq. split; [exact Fc|]. split; [lia|].
    split; [reflexivity|]. split; [exact L1|]. split; [reflexivity|]. intros _. apply N.le_refl.
Qed.

Lemma decode_all_out n inv reps missing : forall col d d', fine d -> Forall P missing ->
  decode_all m n inv reps col missing d = Ok d' ->
  fine d' /\ (out d' <= out d + length missing)%nat /\ d_repairs d' = d_repairs d
  /\ (length (d_sources d') <= length (d_sources d) + length missing)%nat
  /\ d_in_order d' = d_in_order d /\ (K = 1%nat -> d_first d <= d_first d').
Proof.
  induction missing as [|id missing IH]; intros col d d' F Hp H; cbn [decode_all] in H.
  - assert (d' = d) by congruence. subst. split; [exact F|]. cbn [length]. repeat (split; [first [lia | reflexivity]|]). intros _. lia.
  - cbv zeta in H. apply bind_ok in H. destruct H as (data & _ & H). apply bind_ok in H. destruct H as (d1 & E1 & H).
    apply Forall_cons_iff in Hp. destruct Hp as [Hp1 Hp2].
    apply add_decoded_out in E1; [|exact F | exact Hp1]. destruct E1 as (A1 & A2 & A3 & A4 & A5 & A6).
    apply IH in H; [|exact A1 | exact Hp2]. destruct H as (B1 & B2 & B3 & B4 & B5 & B6).
    cbn [length]. split; [exact B1|]. split; [lia|]. split; [congruence|]. split; [lia|]. split; [congruence|].
    intros Ek. specialize (A6 Ek). specialize (B6 Ek). lia.
Qed.

Lemma unlink_or_create_keys r ids : forall miss x, In x (mkeys (unlink_or_create r ids miss)) -> In x ids \/ In x (mkeys miss).
Proof.
  induction ids as [|id ids IH]; intros miss x Hx; cbn [unlink_or_create] in Hx; [right; exact Hx|].
  apply IH in Hx. destruct Hx as [Hx|Hx]; [left; right; exact Hx|]. apply mset_keys in Hx.
  destruct Hx as [->|Hx]; [left; left; reflexivity | right; exact Hx].
Qed.

Lemma attempt_pays d d' : fine d -> attempt_full_decoding m d = Ok d' -> pays 0 d d'.
Proof.
  intros F H. unfold attempt_full_decoding in H.
  destruct (Nat.eqb (length (d_repairs d)) 0 || Nat.eqb (length (d_missing d)) 0).
  { assert (d' = d) by congruence. subst. apply pays_refl, F. }
  destruct (Nat.ltb (length (d_repairs d)) (length (d_missing d))).
  { assert (d' = d) by congruence. subst. apply pays_refl, F. }
  apply bind_ok in H. destruct H as (u & _ & H). apply bind_ok in H. destruct H as (u2 & _ & H).
  destruct (Nat.eqb (length (d_missing d)) (length (d_repairs d))) eqn:En; cbn [negb] in H; [|discriminate].
  apply Nat.eqb_eq in En. cbv zeta in H. apply bind_ok in H. destruct H as ([k|[mt inv]] & _ & H).
  - unfold failed_decoding in H. cbv zeta in H. cbn [with_failed d_repairs d_missing] in H.
    destruct (nth_error (d_repairs d) k) as [[r rep]|] eqn:Ek; [|discriminate]. apply nth_error_In in Ek.
    match type of H with Ok ?x = _ => assert (Eq : d' = x) by congruence end. rewrite Eq. clear H Eq.
    apply sheds_pays. destruct F as [F1 F2 F3 F4 F5]. constructor; try reflexivity.
    + constructor; try assumption.
      * apply merase_sorted, F2.
      * intros r' rep' Hin. apply merase_sub in Hin. eapply F4, Hin.
      * apply Forall_forall. intros x Hx. apply unlink_or_create_keys in Hx. destruct Hx as [Hx|Hx].
        -- pose proof (F4 _ _ Ek) as Hp. rewrite Forall_forall in Hp. apply Hp, Hx.
        -- rewrite Forall_forall in F5. apply F5, Hx.
    + apply merase_length_le.
  - apply bind_ok in H. destruct H as (d1 & E1 & H). apply decode_all_out in E1; [|exact F | apply F].
    destruct E1 as (A1 & A2 & A3 & A4 & A5 & A6).
    assert (El : length (mkeys (d_missing d)) = length (d_repairs d)) by (unfold mkeys; rewrite map_length; exact En).
    rewrite El in A2, A4.
    match type of H with Ok ?x = _ => assert (Eq : d' = x) by congruence end. rewrite Eq. clear H Eq. constructor.
    + destruct A1 as [B1 B2 B3 B4 B5]. constructor; try assumption; cbn [with_missing with_repairs d_repairs d_missing].
      * apply msorted_nil.
      * intros r rep [].
      * constructor.
    + change (out (with_missing (with_repairs (count_decoded d1 (N.of_nat (length (d_missing d)))) []) [])) with (out d1).
      cbn [with_missing with_repairs d_repairs length]. nia.
    + cbn [with_missing with_repairs count_decoded with_decoded d_sources d_repairs length]. lia.
    + exact A5.
    + exact A6.
Qed.

(** ** The two entry points *)

Theorem recv_source_pays d id data d' : fine d -> P id -> recv_source m d id data = Ok d' -> pays 1 d d'.
Proof.
  intros F Hid H. unfold recv_source in H.
  destruct (outdated d id); [assert (d' = d) by congruence; subst; apply pays_more with 0%nat; [lia | apply pays_refl, F]|].
  destruct (mmem id (d_sources d)); [assert (d' = d) by congruence; subst; apply pays_more with 0%nat; [lia | apply pays_refl, F]|].
  apply bind_ok in H. destruct H as (d1 & E1 & H). apply add_source_pays in E1; [|exact F | exact Hid].
  change 1%nat with (1 + 0)%nat. eapply pays_trans; [exact E1|]. apply attempt_pays; [apply E1 | exact H].
Qed.

Lemma remove_data_same f id data r r' : remove_data m f id data r = Ok r' -> dr_ids r' = dr_ids r /\ dr_id r' = dr_id r.
Proof.
  intros H. unfold remove_data in H. apply bind_ok in H. destruct H as (u1 & _ & H). apply bind_ok in H. destruct H as (u2 & _ & H).
  apply bind_ok in H. destruct H as (buf & _ & H).
  match type of H with Ok ?x = _ => assert (Eq : r' = x) by congruence end. rewrite Eq. split; reflexivity.
Qed.

Lemma link_repair_same ids : forall d r d' r', fine d -> Forall P ids -> Forall P (dr_ids r) ->
  link_repair m ids d r = Ok (d', r') ->
  fine d' /\ Forall P (dr_ids r') /\ dr_id r' = dr_id r /\ exists miss, d' = with_missing d miss.
Proof.
  induction ids as [|id ids IH]; intros d r d' r' F Hp Hr H; cbn [link_repair] in H.
  - assert (d' = d /\ r' = r) as [-> ->] by (split; congruence). split; [exact F|]. split; [exact Hr|]. split; [reflexivity|].
    exists (d_missing d). destruct d; reflexivity.
  - apply Forall_cons_iff in Hp. destruct Hp as [Hp1 Hp2]. destruct (mfind id (d_sources d)) as [data|].
    + apply bind_ok in H. destruct H as (r1 & E1 & H). apply remove_data_same in E1. destruct E1 as [E1 E2].
      apply IH in H; [|exact F | exact Hp2|].
      * destruct H as (A1 & A2 & A3 & A4). split; [exact A1|]. split; [exact A2|]. split; [cbn [with_ids dr_id] in A3; congruence | exact A4].
      * cbn [with_ids dr_ids]. apply Forall_forall. intros x Hx. apply serase_incl in Hx. rewrite E1 in Hx. rewrite Forall_forall in Hr. apply Hr, Hx.
    + cbv zeta in H. set (links := match mfind id (d_missing d) with None => [] | Some l => l end) in H.
      apply IH in H; [| |exact Hp2 | exact Hr].
      * destruct H as (A1 & A2 & A3 & miss & A4). split; [exact A1|]. split; [exact A2|]. split; [exact A3|]. exists miss. exact A4.
      * destruct F as [F1 F2 F3 F4 F5]. constructor; try assumption. cbn [with_missing d_missing].
        apply Forall_forall. intros x Hx. apply mset_keys in Hx. destruct Hx as [->|Hx]; [exact Hp1|]. rewrite Forall_forall in F5. apply F5, Hx.
Qed.

Theorem recv_repair_pays d r d' : fine d -> Forall P (dr_ids r) -> recv_repair m d r = Ok d' -> pays 1 d d'.
Proof.
  intros F Hr H. unfold recv_repair in H. apply bind_ok in H. destruct H as (u & _ & H).
  destruct (dr_ids r) as [|first ids] eqn:Ei; [discriminate|]. rewrite <- Ei in *.
  destruct (outdated d (last (dr_ids r) 0)); [assert (d' = d) by congruence; subst; apply pays_more with 0%nat; [lia | apply pays_refl, F]|].
  destruct (mmem (dr_id r) (d_repairs d)); [assert (d' = d) by congruence; subst; apply pays_more with 0%nat; [lia | apply pays_refl, F]|].
  apply bind_ok in H. destruct H as (d1 & E1 & H). apply drop_outdated_pays in E1; [|exact F].
  destruct (forallb (fun id => mmem id (d_sources d1)) (dr_ids r)).
  { assert (Eq : d' = with_useless d1 (d_useless d1 + 1)) by congruence. rewrite Eq. apply pays_more with 0%nat; [lia|].
    destruct E1 as [[A1 A2 A3 A4 A5] B2 B3 B4 B5]. constructor; try assumption. constructor; assumption. }
  apply bind_ok in H. destruct H as (u2 & _ & H). apply bind_ok in H. destruct H as ([d2 r2] & E2 & H).
  apply link_repair_same in E2; [|apply E1 | apply Forall_rev, Hr | exact Hr]. destruct E2 as (F2 & Hr2 & Ed & miss & E2).
  cbv zeta in H. apply bind_ok in H. destruct H as (u3 & _ & H).
  set (d3 := with_repairs d2 (mset (dr_id r2) r2 (d_repairs d2))) in H.
  assert (P3 : pays 1 d1 d3 /\ fine d3).
  { assert (F3 : fine d3).
    { destruct F2 as [A1 A2 A3 A4 A5]. constructor; try assumption; cbn [d3 with_repairs d_repairs].
      - apply mset_sorted, A2.
      - intros x rep Hin. apply in_mfind in Hin; [|apply mset_sorted, A2]. rewrite mfind_mset in Hin.
        destruct (x =? dr_id r2); [assert (r2 = rep) by congruence; subst; exact Hr2|]. apply mfind_in in Hin. eapply A4, Hin. }
    split; [|exact F3]. pose proof (mset_length_le (dr_id r2) r2 (d_repairs d2)) as L.
    assert (L' : (length (d_repairs d3) <= S (length (d_repairs d1)))%nat).
    { cbn [d3 with_repairs d_repairs]. rewrite E2 in *. cbn [with_missing d_repairs] in *. exact L. }
    constructor; [exact F3 | | | |].
    - replace (out d3) with (out d1) by (unfold out; cbn [d3 with_repairs d_log d_ordered]; rewrite E2; reflexivity). nia.
    - replace (d_sources d3) with (d_sources d1) by (cbn [d3 with_repairs d_sources]; rewrite E2; reflexivity). lia.
    - cbn [d3 with_repairs d_in_order]. rewrite E2. reflexivity.
    - intros _. cbn [d3 with_repairs d_first]. rewrite E2. apply N.le_refl. }
  destruct P3 as [P3 F3]. destruct (Nat.eqb (length (dr_ids r2)) 1).
  - apply bind_ok in H. destruct H as ([id data] & Ec & H). apply create_source_P in Ec; [|exact Hr2].
    cbv zeta in H. set (d4 := with_repairs (with_missing (count_decoded d3 1) _) _) in H.
    assert (L4 : length (d_repairs d3) = S (length (d_repairs d4))).
    { cbn [d4 with_repairs with_missing count_decoded with_decoded d_repairs]. apply merase_length. apply mfind_keys.
      exists r2. cbn [d3 with_repairs d_repairs]. rewrite mfind_mset, N.eqb_refl. reflexivity. }
    assert (F4 : fine d4).
    { destruct F3 as [A1 A2 A3 A4 A5]. constructor; try assumption.
      - apply merase_sorted, A2.
      - intros x rep Hin. apply merase_sub in Hin. eapply A4, Hin.
      - apply Forall_forall. intros x Hx. apply merase_keys_incl in Hx. rewrite Forall_forall in A5. apply A5, Hx. }
    apply add_source_pays in H; [|exact F4 | exact Ec].
    destruct E1 as [A1 A2 A3 A4 A5]. destruct P3 as [B1 B2 B3 B4 B5]. destruct H as [C1 C2 C3 C4 C5].
    change (out d4) with (out d3) in C2. change (d_sources d4) with (d_sources d3) in C3.
    change (d_in_order d4) with (d_in_order d3) in C4. change (d_first d4) with (d_first d3) in C5.
    constructor; [exact C1 | nia | lia | congruence|]. intros Ek. specialize (A5 Ek). specialize (B5 Ek). specialize (C5 Ek). lia.
  - apply attempt_pays in H; [|exact F3]. change 1%nat with (0 + (1 + 0))%nat.
    eapply pays_trans; [exact E1|]. eapply pays_trans; [exact P3 | exact H].
Qed.
End Bound.
