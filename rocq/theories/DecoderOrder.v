(** * The decoding algorithm with and without ordering

    A receiver with ordering and one without make the same decisions: the two
    runs are compared step by step. Proofs only. *)
From Coq Require Import NArith PeanoNat List Bool Lia.
From Verif Require Import Outcome GF Containers ContainersFacts Packetizer Matrix DetailDecoder.
Import ListNotations.
Open Scope N_scope.

(** ** Related outcomes *)

Definition relo {A B} (R : A -> B -> Prop) (x : outcome A) (y : outcome B) : Prop :=
  match x, y with
  | Ok a, Ok b => R a b
  | Throw e, Throw e' => e = e'
  | Fault e, Fault e' => e = e'
  | _, _ => False
  end.

Lemma relo_bind {A B C D} (R : A -> B -> Prop) (Q : C -> D -> Prop) x y k k' :
  relo R x y -> (forall a b, R a b -> relo Q (k a) (k' b)) -> relo Q (bind x k) (bind y k').
Proof. destruct x, y; cbn; try contradiction; auto. Qed.

Lemma relo_eq {A C D} (Q : C -> D -> Prop) (x : outcome A) k k' :
  (forall a, x = Ok a -> relo Q (k a) (k' a)) -> relo Q (bind x k) (bind x k').
Proof. destruct x; cbn; auto. Qed.

Lemma relo_assert {C D} (Q : C -> D -> Prop) m b k k' :
  (b = true \/ m = Release -> relo Q (k tt) (k' tt)) -> relo Q (bind (assert_ m b) k) (bind (assert_ m b) k').
Proof. destruct m, b; cbn; auto. Qed.

(** ** The same state without ordering *)

Definition unord (d : ddec) (lg : list event) : ddec :=
  {| d_field := d_field d; d_in_order := false; d_first := 0; d_ordered := [];
     d_repairs := d_repairs d; d_sources := d_sources d; d_last := d_last d; d_missing := d_missing d;
     d_useless := d_useless d; d_failed := d_failed d; d_decoded := d_decoded d; d_log := lg |}.

Definition pairs (l : list event) : list (N * list N) := map (fun v => (v_id v, v_data v)) l.

Definition small (x : N) : Prop := x < 2 ^ 32.

Record inv (d : ddec) (lg : list event) : Prop := {
  iv_in_order : d_in_order d = true;
  iv_sorted : ssorted (d_ordered d);
  iv_small : forall x, In x (d_ordered d) -> small x;
  iv_reps : forall i r x, In (i, r) (d_repairs d) -> In x (dr_ids r) -> small x;
  iv_miss : forall x, In x (mkeys (d_missing d)) -> small x;
  iv_known : forall x, In x (d_ordered d) -> In x (mkeys (d_sources d));
  iv_log : incl (pairs (d_log d)) (pairs lg);
  iv_srcs : forall x data, mfind x (d_sources d) = Some data -> In (x, data) (pairs lg)
}.

Definition twin (lg : list event) (a b : ddec) : Prop :=
  exists lg', b = unord a lg' /\ incl (pairs lg) (pairs lg') /\ inv a lg'.

Lemma twin_intro lg lg' a : incl (pairs lg) (pairs lg') -> inv a lg' -> twin lg a (unord a lg').
Proof. intros H I. exists lg'. auto. Qed.

Lemma twin_refl lg a : inv a lg -> twin lg a (unord a lg).
Proof. apply twin_intro, incl_refl. Qed.

Lemma relo_weaken lg1 lg2 (x y : outcome ddec) : incl (pairs lg1) (pairs lg2) -> relo (twin lg2) x y -> relo (twin lg1) x y.
Proof.
  intros H. destruct x, y; cbn; auto. intros (lg' & E & I & J). exists lg'. split; [exact E|]. split; [|exact J].
  eapply incl_tran; eassumption.
Qed.

Lemma pairs_snoc l v : pairs (l ++ [v]) = pairs l ++ [(v_id v, v_data v)].
Proof. unfold pairs. rewrite map_app. reflexivity. Qed.

Lemma incl_snoc {A} (l : list A) x : incl l (l ++ [x]).
Proof. intros y Hy. apply in_app_iff. left. exact Hy. Qed.

Lemma in_mkeys {V} k (v : V) l : In (k, v) l -> In k (mkeys l).
Proof. intros H. unfold mkeys. change k with (fst (k, v)). apply in_map, H. Qed.

(** ** Delivery in order *)

Lemma callback_ordered_inv d lg x : inv d lg -> In x (d_ordered d) ->
  exists data, callback_ordered d x = Ok (callback d x data) /\ mfind x (d_sources d) = Some data
  /\ inv (callback d x data) lg.
Proof.
  intros I Hx. unfold callback_ordered. pose proof (iv_known _ _ I _ Hx) as Hk. apply mfind_keys in Hk. destruct Hk as [data E].
  rewrite E. exists data. split; [reflexivity|]. split; [reflexivity|]. destruct I. constructor; cbn; try assumption.
  rewrite pairs_snoc. intros y Hy. apply in_app_iff in Hy. destruct Hy as [Hy|[<-|[]]]; [apply iv_log0, Hy|]. apply iv_srcs0, E.
Qed.

Lemma erase_ordered_inv d lg x : inv d lg -> inv (with_ordered d (serase x (d_ordered d))) lg.
Proof.
  intros []. constructor; cbn; try assumption.
  - apply serase_sorted. assumption.
  - intros y Hy. apply serase_incl in Hy. auto.
  - intros y Hy. apply serase_incl in Hy. auto.
Qed.

Lemma with_first_inv d lg x : inv d lg -> inv (with_first d x) lg.
Proof. intros []. constructor; cbn; assumption. Qed.

Definition quietly (d d' : ddec) : Prop := forall lg, unord d' lg = unord d lg.

Lemma flush_loop_inv m lg l : forall d, inv d lg -> ssorted l -> hd (d_first d) l = d_first d ->
  (forall x, In x l -> In x (d_ordered d)) ->
  exists d', flush_loop m l d = Ok d' /\ inv d' lg /\ quietly d d'.
Proof.
  induction l as [|x l IH]; intros d I S H Hl; cbn [flush_loop].
  - exists d. split; [reflexivity|]. split; [exact I | intros ?; reflexivity].
  - cbn [hd] in H. subst x. rewrite N.eqb_refl. replace (assert_ m true) with (Ok tt) by (destruct m; reflexivity). cbn [bind].
    destruct (callback_ordered_inv d lg (d_first d) I) as (data & E & _ & I1); [apply Hl; left; reflexivity|].
    rewrite E. cbn [bind]. set (d1 := with_first _ _).
    assert (I2 : inv d1 lg) by (apply with_first_inv, erase_ordered_inv, I1).
    assert (Q : quietly d d1) by (intros ?; reflexivity).
    destruct l as [|y l].
    + exists d1. auto.
    + change (d_first (with_ordered (callback d (d_first d) data) (serase (d_first d) (d_ordered (callback d (d_first d) data))))) with (d_first d).
      destruct (d_first d1 <? y) eqn:Ey; [exists d1; auto|].
      apply ssorted_cons_inv in S. destruct S as [S Hs]. assert (Hy : d_first d < y) by (apply Hs; left; reflexivity).
      assert (Sy : small y) by (apply (iv_small _ _ I), Hl; right; left; reflexivity).
      assert (F1 : d_first d1 = d_first d + 1).
      { unfold d1. cbn [with_first with_ordered callback d_first]. unfold u32. apply N.mod_small. unfold small in Sy.
        change (2 ^ 32) with 4294967296 in Sy. lia. }
      apply N.ltb_ge in Ey. assert (y = d_first d1) by lia. subst y.
      destruct (IH d1 I2 S eq_refl) as (d' & E' & I' & Q').
      * intros z Hz. unfold d1. cbn [with_first with_ordered callback d_ordered]. apply serase_in; [apply I|]. split; [apply Hl; right; exact Hz|].
        assert (d_first d < z) by (apply Hs, Hz). lia.
      * exists d'. split; [exact E'|]. split; [exact I'|]. intros lg'. rewrite Q', Q. reflexivity.
Qed.

Lemma from_in x l y : In y (from x l) <-> In y l /\ x <= y.
Proof. unfold from. rewrite filter_In, N.leb_le. reflexivity. Qed.

Lemma from_head x l : ssorted l -> In x l -> hd x (from x l) = x.
Proof.
  intros S Hx. assert (In x (from x l)) as H by (apply from_in; split; [exact Hx | lia]).
  assert (S' : ssorted (from x l)) by (apply ssorted_filter, S). destruct (from x l) as [|y l'] eqn:E; [reflexivity|].
  assert (x <= y) by (apply (from_in x l y); rewrite E; left; reflexivity). cbn [hd].
  destruct H as [->|H]; [reflexivity|]. apply ssorted_cons_inv in S'. assert (y < x) by (apply S', H). lia.
Qed.

Lemma flush_inv m lg d : inv d lg -> exists d', flush m d = Ok d' /\ inv d' lg /\ quietly d d'.
Proof.
  intros I. unfold flush. destruct (smem (d_first d) (d_ordered d)) eqn:E.
  - apply smem_spec in E. apply flush_loop_inv; [exact I | apply ssorted_filter, I | apply from_head; [apply I | exact E]|].
    intros x Hx. apply from_in in Hx. apply Hx.
  - exists d. split; [reflexivity|]. split; [exact I | intros ?; reflexivity].
Qed.

Lemma deliver_outdated_inv lg l : forall d, inv d lg -> ssorted l -> (forall x, In x l -> In x (d_ordered d)) ->
  exists d', deliver_outdated l d = Ok d' /\ inv d' lg /\ quietly d d'
  /\ (forall x, In x (d_ordered d') -> In x (d_ordered d) /\ ~ In x l).
Proof.
  induction l as [|x l IH]; intros d I S Hl; cbn [deliver_outdated].
  - exists d. split; [reflexivity|]. split; [exact I|]. split; [intros ?; reflexivity|]. intros x Hx. split; [exact Hx | intros []].
  - destruct (callback_ordered_inv d lg x I) as (data & E & _ & I1); [apply Hl; left; reflexivity|]. rewrite E. cbn [bind].
    apply ssorted_cons_inv in S. destruct S as [S Hs].
    destruct (IH _ (erase_ordered_inv _ _ x I1) S) as (d' & E' & I' & Q' & O').
    + intros z Hz. cbn [with_ordered callback d_ordered]. apply serase_in; [apply I|]. split; [apply Hl; right; exact Hz|].
      assert (x < z) by (apply Hs, Hz). lia.
    + exists d'. split; [exact E'|]. split; [exact I'|]. split; [intros lg'; rewrite Q'; reflexivity|].
      intros z Hz. destruct (O' z Hz) as [H1 H2]. cbn [with_ordered callback d_ordered] in H1.
      apply serase_in in H1; [|apply I]. destruct H1 as [H1 H3]. split; [exact H1|]. intros [->|H]; [apply H3; reflexivity | contradiction].
Qed.

(** ** A source becomes known *)

Lemma inv_weaken d lg lg' : inv d lg -> incl (pairs lg) (pairs lg') -> inv d lg'.
Proof.
  intros [] H. constructor; auto.
  - eapply incl_tran; eassumption.
Qed.

(** What the receiver without ordering does with a new source. *)
Definition told (d : ddec) (lg : list event) (id : N) (data : list N) : list event :=
  lg ++ [{| v_id := id; v_data := data; v_known := mkeys (d_sources d) |}].

Lemma callback_inv d lg id data : inv d lg -> inv (callback d id data) (told d lg id data).
Proof.
  intros [H1 H2 H3 H4 H5 H6 H7 H8]. constructor; cbn; try assumption.
  - unfold told. rewrite !pairs_snoc. apply incl_app_app; [exact H7 | apply incl_refl].
  - intros x dt E. unfold told. rewrite pairs_snoc. apply in_app_iff. left. apply H8, E.
Qed.

Lemma announce_twin m d lg id data : inv d lg ->
  relo (fun a b => twin lg a b /\ In (id, data) (pairs (d_log b)) /\ d_missing a = d_missing d)
    (announce m d id data) (announce m (unord d lg) id data).
Proof.
  intros I. unfold announce. change (negb (d_in_order (unord d lg))) with true. cbv iota.
  rewrite (iv_in_order _ _ I). cbn [negb]. cbv iota.
  change (callback (unord d lg) id data) with (unord d (told d lg id data)).
  assert (Inc : incl (pairs lg) (pairs (told d lg id data))) by (unfold told; rewrite pairs_snoc; apply incl_snoc).
  assert (Hin : In (id, data) (pairs (told d lg id data))).
  { unfold told. rewrite pairs_snoc. apply in_app_iff. right. left. reflexivity. }
  destruct (id =? d_first d).
  - cbv zeta. destruct (flush_inv m (told d lg id data) (with_first (callback d id data) (u32 (d_first (callback d id data) + 1)))) as (d' & E & I' & Q).
    { apply with_first_inv, callback_inv, I. }
    rewrite E. cbn [relo]. change (unord d (told d lg id data)) with (unord (with_first (callback d id data) (u32 (d_first (callback d id data) + 1))) (told d lg id data)).
    rewrite <- Q. split; [apply twin_intro; assumption|]. split; [exact Hin|].
    pose proof (f_equal d_missing (Q [])) as X. exact X.
  - cbn [relo]. split; [|split; [exact Hin | reflexivity]]. apply twin_intro; [exact Inc|]. eapply inv_weaken; eassumption.
Qed.

Lemma remove_data_ids m f id data r r' : remove_data m f id data r = Ok r' -> dr_ids r' = dr_ids r.
Proof.
  unfold remove_data. intros H. apply bind_ok in H. destruct H as (_ & _ & H). apply bind_ok in H. destruct H as (_ & _ & H).
  apply bind_ok in H. destruct H as (b & _ & H). injection H as <-. reflexivity.
Qed.

Lemma remove_source_ids m f id data r r' x : remove_source m f id data r = Ok r' -> In x (dr_ids r') -> In x (dr_ids r).
Proof.
  unfold remove_source. intros H. apply bind_ok in H. destruct H as (r1 & E & H). apply remove_data_ids in E.
  apply bind_ok in H. destruct H as (_ & _ & H). destruct (smem id (dr_ids r1)); [|discriminate]. injection H as <-.
  cbn [with_ids dr_ids]. rewrite <- E. apply serase_incl.
Qed.

Lemma mset_in {V} k (v : V) l i w : In (i, w) (mset k v l) -> (i = k /\ w = v) \/ In (i, w) l.
Proof.
  induction l as [|[k' v'] l IH]; cbn [mset].
  - intros [H|[]]. injection H as <- <-. left. auto.
  - destruct (k <? k'); [|destruct (k =? k')].
    + intros [H|H]; [injection H as <- <-; left; auto | right; exact H].
    + intros [H|H]; [injection H as <- <-; left; auto | right; right; exact H].
    + intros [H|H]; [right; left; exact H|]. destruct (IH H) as [H'|H']; [left; exact H' | right; right; exact H'].
Qed.

Lemma merase_in {V} k (l : list (N * V)) x : In x (merase k l) -> In x l.
Proof.
  induction l as [|[k' v'] l IH]; cbn [merase]; [auto|]. destruct (k =? k'); [intros H; right; exact H|].
  intros [H|H]; [left; exact H | right; apply IH, H].
Qed.

Definition small_reps (reps : list (N * drepair)) : Prop :=
  forall i r x, In (i, r) reps -> In x (dr_ids r) -> small x.

Lemma remove_from_repairs_small m f id data rs : forall reps reps', small_reps reps ->
  remove_from_repairs m f id data rs reps = Ok reps' -> small_reps reps'.
Proof.
  induction rs as [|r rs IH]; intros reps reps' S H; cbn [remove_from_repairs] in H; [injection H as <-; exact S|].
  destruct (mfind r reps) as [rep|] eqn:E; [|discriminate]. apply bind_ok in H. destruct H as (rep' & E' & H).
  eapply IH; [|exact H]. intros i r0 x Hi Hx. apply mset_in in Hi. destruct Hi as [[-> ->]|Hi]; [|eapply S; eassumption].
  eapply remove_source_ids in Hx; [|exact E']. eapply S; [apply mfind_in, E | exact Hx].
Qed.

Lemma no_longer_missing_twin m d lg id data : inv d lg ->
  relo (fun a b => b = unord a lg /\ inv a lg) (no_longer_missing m d id data) (no_longer_missing m (unord d lg) id data).
Proof.
  intros I. unfold no_longer_missing. cbn [unord d_missing d_field d_repairs].
  destruct (mfind id (d_missing d)) as [rs|]; [|cbn [relo]; auto].
  apply relo_eq. intros reps E. cbn [relo]. split; [reflexivity|]. apply remove_from_repairs_small in E; [|exact (iv_reps _ _ I)].
  destruct I. constructor; cbn; try assumption. intros x Hx. apply merase_keys_incl in Hx. auto.
Qed.

Definition rec_twin (rec : ddec -> N -> list N -> outcome ddec) : Prop :=
  forall d lg id data, inv d lg -> small id -> relo (twin lg) (rec d id data) (rec (unord d lg) id data).

Lemma create_source_small m f r x : create_source m f r = Ok x -> (forall y, In y (dr_ids r) -> small y) -> small (fst x).
Proof.
  unfold create_source. intros H S. apply bind_ok in H. destruct H as (_ & _ & H). destruct (dr_ids r) as [|y l]; [discriminate|].
  cbv zeta in H. apply bind_ok in H. destruct H as (data & _ & H). injection H as <-. apply S. left. reflexivity.
Qed.

Lemma scan_twin rec m : rec_twin rec -> forall keys d lg, inv d lg ->
  relo (twin lg) (scan rec m keys d) (scan rec m keys (unord d lg)).
Proof.
  intros R. induction keys as [|k keys IH]; intros d lg I; cbn [scan].
  - cbn [relo]. apply twin_refl, I.
  - cbn [unord d_missing d_repairs d_field d_sources].
    destruct (mfind k (d_missing d)) as [[|r [|r' rs]]|]; try (apply IH, I).
    destruct (mfind r (d_repairs d)) as [rep|] eqn:Er; [|reflexivity].
    destruct (Nat.eqb (length (dr_ids rep)) 1); [|apply IH, I].
    change (not_outdated (unord d lg) (hd 0 (dr_ids rep))) with (not_outdated d (hd 0 (dr_ids rep))).
    apply relo_assert. intros _. apply relo_assert. intros _. apply relo_eq. intros [id data] E. cbv zeta.
    set (d1 := with_missing _ (merase k (d_missing _))).
    match goal with |- relo _ (bind _ _) (bind (rec ?b _ _) _) => change b with (unord d1 lg) end.
    assert (I1 : inv d1 lg).
    { destruct I. constructor; cbn; try assumption.
      - intros i r0 x Hi Hx. apply merase_in in Hi. eapply iv_reps0; eassumption.
      - intros x Hx. apply merase_keys_incl in Hx. auto. }
    assert (Hs : small id).
    { change id with (fst (id, data)). eapply create_source_small; [exact E|]. intros y Hy. exact (iv_reps _ _ I _ _ _ (mfind_in _ _ _ Er) Hy). }
    eapply relo_bind; [apply R; assumption|]. intros a b (lg' & -> & Inc & Ia).
    change (d_missing (with_repairs (count_decoded (unord d lg) 1) (merase r (d_repairs (count_decoded (unord d lg) 1))))) with (d_missing d).
    change (d_missing (with_repairs (count_decoded d 1) (merase r (d_repairs (count_decoded d 1))))) with (d_missing d).
    destruct (find _ keys) as [k'|].
    + change (d_missing (unord a lg')) with (d_missing a). destruct (mmem k' (d_missing a)); [|reflexivity].
      eapply relo_weaken; [exact Inc|]. apply IH, Ia.
    + cbn [relo]. apply twin_intro; assumption.
Qed.

Lemma store_twin m d lg id data : inv d lg -> small id -> In (id, data) (pairs lg) ->
  relo (twin lg) (store m d id data) (store m (unord d lg) id data).
Proof.
  intros I Hs Hin. unfold store. cbn [unord d_sources]. apply relo_assert. intros _. cbv zeta.
  change (d_in_order (with_sources (unord d lg) (mput id data (d_sources d)))) with false. cbn [andb].
  change (with_sources (unord d lg) (mput id data (d_sources d))) with (unord (with_sources d (mput id data (d_sources d))) lg).
  assert (I1 : inv (with_sources d (mput id data (d_sources d))) lg).
  { destruct I. constructor; cbn; try assumption.
    - intros x Hx. apply mput_keys. right. auto.
    - intros x dt E. rewrite mput_find in E. destruct (mfind x (d_sources d)) eqn:Ex; [apply iv_srcs0; congruence|].
      destruct (x =? id) eqn:Exi; [|discriminate]. apply N.eqb_eq in Exi. subst. congruence. }
  cbn [relo]. destruct (d_in_order _ && _); [|apply twin_refl, I1].
  exists lg. split; [reflexivity|]. split; [apply incl_refl|]. destruct I1. constructor; cbn in *; try assumption.
  - apply sinsert_sorted. assumption.
  - intros x Hx. apply sinsert_in in Hx. destruct Hx as [->|Hx]; auto.
  - intros x Hx. apply sinsert_in in Hx. destruct Hx as [->|Hx]; auto. apply mput_keys. left. reflexivity.
Qed.

Lemma add_source_twin fuel m : rec_twin (add_source fuel m).
Proof.
  induction fuel as [|fuel IH]; intros d lg id data I Hs; cbn [add_source]; [reflexivity|].
  eapply relo_bind; [apply announce_twin, I|]. intros a b ((lg1 & -> & Inc1 & I1) & Hin & _). cbn [unord d_log] in Hin.
  eapply relo_bind; [apply no_longer_missing_twin, I1|]. intros a2 b2 (-> & I2).
  change (mkeys (d_missing (unord a2 lg1))) with (mkeys (d_missing a2)).
  eapply relo_bind; [apply scan_twin; [exact IH | exact I2]|]. intros a3 b3 (lg3 & -> & Inc3 & I3).
  eapply relo_weaken; [eapply incl_tran; eassumption|]. apply store_twin; [exact I3 | exact Hs | apply Inc3, Hin].
Qed.

(** ** Full decoding *)

Lemma add_decoded_twin m d lg id data : inv d lg -> small id ->
  relo (twin lg) (add_decoded m d id data) (add_decoded m (unord d lg) id data).
Proof.
  intros I Hs. unfold add_decoded. cbn [unord d_sources]. apply relo_assert. intros _. cbv zeta.
  set (dt := match mfind id (d_sources d) with None => data | Some old => old end).
  change (negb (d_in_order (with_sources (unord d lg) (mput id dt (d_sources d))))) with true. cbv iota.
  set (d1 := with_sources d (mput id dt (d_sources d))).
  change (callback (with_sources (unord d lg) (mput id dt (d_sources d))) id dt) with (unord d1 (told d1 lg id dt)).
  assert (Inc : incl (pairs lg) (pairs (told d1 lg id dt))) by (unfold told; rewrite pairs_snoc; apply incl_snoc).
  assert (Hin : In (id, dt) (pairs (told d1 lg id dt))).
  { unfold told. rewrite pairs_snoc. apply in_app_iff. right. left. reflexivity. }
  assert (I1 : inv d1 (told d1 lg id dt)).
  { destruct I. constructor; cbn [d1 with_sources d_in_order d_ordered d_repairs d_missing d_sources d_log]; try assumption.
    - intros x Hx. apply mput_keys. right. auto.
    - eapply incl_tran; eassumption.
    - intros x dx E. rewrite mput_find in E. destruct (mfind x (d_sources d)) eqn:Ex; [apply Inc, iv_srcs0; congruence|].
      destruct (x =? id) eqn:Exi; [|discriminate]. apply N.eqb_eq in Exi. subst x. congruence. }
  rewrite (iv_in_order _ _ I1). cbn [negb]. cbv iota. destruct (id =? d_first d1).
  - destruct (flush_inv m (told d1 lg id dt) (with_first (callback d1 id dt) (u32 (d_first (callback d1 id dt) + 1)))) as (d' & E & I' & Q).
    { apply with_first_inv. destruct I1. constructor; cbn [callback d_in_order d_ordered d_repairs d_missing d_sources d_log] in *; try assumption.
      rewrite pairs_snoc. intros y Hy. apply in_app_iff in Hy. destruct Hy as [Hy|[<-|[]]]; [auto | exact Hin]. }
    rewrite E. cbn [relo]. change (unord d1 (told d1 lg id dt)) with (unord (with_first (callback d1 id dt) (u32 (d_first (callback d1 id dt) + 1))) (told d1 lg id dt)).
    rewrite <- Q. apply twin_intro; assumption.
  - cbn [relo]. eexists. split; [reflexivity|]. split; [exact Inc|]. destruct I1. constructor; cbn in *; try assumption.
    + apply sinsert_sorted. assumption.
    + intros x Hx. apply sinsert_in in Hx. destruct Hx as [->|Hx]; auto.
    + intros x Hx. apply sinsert_in in Hx. destruct Hx as [->|Hx]; auto. apply mput_keys. left. reflexivity.
Qed.

Lemma decode_all_twin m n iv reps missing : forall col d lg, inv d lg -> (forall x, In x missing -> small x) ->
  relo (twin lg) (decode_all m n iv reps col missing d) (decode_all m n iv reps col missing (unord d lg)).
Proof.
  induction missing as [|id missing IH]; intros col d lg I S; cbn [decode_all].
  - cbn [relo]. apply twin_refl, I.
  - cbn [unord d_field]. apply relo_eq. intros data _.
    eapply relo_bind; [apply add_decoded_twin; [exact I | apply S; left; reflexivity]|].
    intros a b (lg1 & -> & Inc & I1). eapply relo_weaken; [exact Inc|]. apply IH; [exact I1|].
    intros x Hx. apply S. right. exact Hx.
Qed.

Lemma unlink_or_create_keys r ids : forall missing x, In x (mkeys (unlink_or_create r ids missing)) ->
  In x ids \/ In x (mkeys missing).
Proof.
  induction ids as [|id ids IH]; intros missing x H; cbn [unlink_or_create] in H; [right; exact H|].
  apply IH in H. destruct H as [H|H]; [left; right; exact H|]. apply mset_keys in H. destruct H as [->|H]; [left; left; reflexivity | right; exact H].
Qed.

Lemma attempt_twin m d lg : inv d lg -> relo (twin lg) (attempt_full_decoding m d) (attempt_full_decoding m (unord d lg)).
Proof.
  intros I. unfold attempt_full_decoding. cbn [unord d_repairs d_missing d_field]. cbv zeta.
  destruct (Nat.eqb _ 0 || Nat.eqb _ 0); [cbn [relo]; apply twin_refl, I|].
  destruct (Nat.ltb _ _); [cbn [relo]; apply twin_refl, I|].
  apply relo_assert. intros _. apply relo_assert. intros _. destruct (negb _); [reflexivity|].
  apply relo_eq. intros r _. destruct r as [k|[x iv]].
  - unfold failed_decoding. cbn [with_failed unord d_repairs d_missing]. destruct (nth_error (d_repairs d) k) as [[r rep]|] eqn:E; [|reflexivity].
    cbn [relo]. eexists. split; [reflexivity|]. split; [apply incl_refl|]. apply nth_error_In in E.
    destruct I. constructor; cbn; try assumption.
    + intros i r0 y Hi Hy. apply merase_in in Hi. eapply iv_reps0; eassumption.
    + intros y Hy. apply unlink_or_create_keys in Hy. destruct Hy as [Hy|Hy]; [|auto]. eapply iv_reps0; eassumption.
  - eapply relo_bind; [apply decode_all_twin; [exact I | apply I]|]. intros a b (lg1 & -> & Inc & I1).
    cbn [relo]. eexists. split; [reflexivity|]. split; [exact Inc|]. destruct I1. constructor; cbn; try assumption; intros ? ? ? [] || intros ? [].
Qed.

(** ** Packets *)

Lemma outdated_unord d lg x : outdated (unord d lg) x = outdated d x.
Proof. reflexivity. Qed.

Theorem recv_source_twin m d lg id data : inv d lg -> small id ->
  relo (twin lg) (recv_source m d id data) (recv_source m (unord d lg) id data).
Proof.
  intros I S. unfold recv_source. rewrite outdated_unord. cbn [unord d_sources].
  destruct (outdated d id); [cbn [relo]; apply twin_refl, I|]. destruct (mmem id (d_sources d)); [cbn [relo]; apply twin_refl, I|].
  change (enough (unord d lg)) with (enough d).
  eapply relo_bind; [apply add_source_twin; assumption|]. intros a b (lg1 & -> & Inc & I1). eapply relo_weaken; [exact Inc|].
  apply attempt_twin, I1.
Qed.

Lemma unlink_keys r ids : forall missing missing' x, unlink r ids missing = Ok missing' -> In x (mkeys missing') -> In x (mkeys missing).
Proof.
  induction ids as [|id ids IH]; intros missing missing' x H Hx; cbn [unlink] in H; [congruence|].
  destruct (mfind id missing) as [l|] eqn:E; [|discriminate]. eapply IH in H; [|exact Hx]. apply mset_keys in H.
  destruct H as [->|H]; [|exact H]. apply mfind_keys. eauto.
Qed.

Lemma drop_repairs_twin m id reps : forall d lg, inv d lg ->
  relo (fun a b => b = unord a lg /\ inv a lg) (drop_repairs m id reps d) (drop_repairs m id reps (unord d lg)).
Proof.
  induction reps as [|[r rep] reps IH]; intros d lg I; cbn [drop_repairs].
  - cbn [relo]. auto.
  - apply relo_assert. intros _. destruct (dr_ids rep) as [|x l] eqn:El; [reflexivity|].
    destruct (x <? id); [|apply IH, I]. cbn [unord d_missing d_repairs]. apply relo_eq. intros missing E.
    match goal with |- relo _ _ (drop_repairs _ _ _ ?b) => change b with (unord (with_missing (with_repairs d (merase r (d_repairs d))) missing) lg) end.
    apply IH. destruct I. constructor; cbn; try assumption.
    + intros i r0 y Hi Hy. apply merase_in in Hi. eapply iv_reps0; eassumption.
    + intros y Hy. eapply unlink_keys in E; [|exact Hy]. auto.
Qed.

Lemma mfrom_find {V} id (l : list (N * V)) x : mfind x (mfrom id l) = if id <=? x then mfind x l else None.
Proof.
  unfold mfrom. induction l as [|[y v] l IH]; cbn [filter mfind]; [destruct (id <=? x); reflexivity|].
  destruct (id <=? y) eqn:E1; cbn [mfind]; destruct (x =? y) eqn:E2.
  - apply N.eqb_eq in E2. subst. rewrite E1. reflexivity.
  - exact IH.
  - apply N.eqb_eq in E2. subst. rewrite E1 in *. exact IH.
  - exact IH.
Qed.

Lemma mfrom_keys {V} id (l : list (N * V)) x : In x (mkeys (mfrom id l)) <-> In x (mkeys l) /\ id <= x.
Proof.
  rewrite !mfind_keys. rewrite mfrom_find. destruct (id <=? x) eqn:E.
  - apply N.leb_le in E. split; [intros H; split; [exact H | exact E] | intros [H _]; exact H].
  - apply N.leb_gt in E. split; [intros [v H]; discriminate | intros [_ H]; lia].
Qed.

Lemma flush_ordered m d d' x : flush m d = Ok d' -> In x (d_ordered d') -> In x (d_ordered d).
Proof.
  intros E. unfold flush in E. destruct (smem _ _); [|injection E as <-; auto].
  revert E. generalize (from (d_first d) (d_ordered d)) as l. intros l. revert d.
  induction l as [|y l IH]; intros d E Hx; cbn [flush_loop] in E; [injection E as <-; exact Hx|].
  apply bind_ok in E. destruct E as (_ & _ & E). apply bind_ok in E. destruct E as (d1 & E1 & E).
  assert (O1 : d_ordered d1 = d_ordered d).
  { unfold callback_ordered in E1. destruct (mfind y (d_sources d)); [|discriminate]. injection E1 as <-. reflexivity. }
  cbv zeta in E.
  assert (G : In x (serase y (d_ordered d1))).
  { destruct l as [|z l]; [injection E as <-; exact Hx|]. destruct (_ <? z); [injection E as <-; exact Hx|]. exact (IH _ E Hx). }
  apply serase_incl in G. rewrite <- O1. exact G.
Qed.

Lemma drop_outdated_twin m d lg id : inv d lg -> small id ->
  relo (fun a b => b = unord a lg /\ inv a lg) (drop_outdated m d id) (drop_outdated m (unord d lg) id).
Proof.
  intros I S. unfold drop_outdated. cbv zeta.
  change (with_last (unord d lg) (Some id)) with (unord (with_last d (Some id)) lg).
  assert (I0 : inv (with_last d (Some id)) lg) by (destruct I; constructor; assumption).
  change (d_repairs (unord (with_last d (Some id)) lg)) with (d_repairs (with_last d (Some id))).
  eapply relo_bind; [apply drop_repairs_twin, I0|]. intros a b (-> & I1).
  change (d_in_order (unord a lg)) with false. cbv iota. rewrite (iv_in_order _ _ I1). cbv iota.
  destruct (deliver_outdated_inv lg (before id (d_ordered a)) a I1) as (a2 & E2 & I2 & Q2 & O2).
  { apply ssorted_filter, I1. }
  { intros x Hx. apply filter_In in Hx. apply Hx. }
  rewrite E2. cbn [bind].
  set (a3 := if d_first a2 <? id then with_first a2 id else a2).
  assert (I3 : inv a3 lg) by (unfold a3; destruct (d_first a2 <? id); [apply with_first_inv|]; exact I2).
  assert (Q3 : quietly a a3) by (intros lg'; unfold a3; destruct (d_first a2 <? id); rewrite <- Q2; reflexivity).
  assert (O3 : forall x, In x (d_ordered a3) -> id <= x).
  { intros x Hx. assert (H : In x (d_ordered a2)) by (unfold a3 in Hx; destruct (d_first a2 <? id); exact Hx).
    destruct (O2 x H) as [H1 H2]. apply N.nlt_ge. intros Hlt. apply H2. apply filter_In. split; [exact H1 | apply N.ltb_lt, Hlt]. }
  destruct (flush_inv m lg a3 I3) as (a4 & E4 & I4 & Q4). rewrite E4. cbn [bind relo].
  assert (Sub : forall x, In x (d_ordered a4) -> In x (d_ordered a3)).
  { intros x. eapply flush_ordered, E4. }
  split.
  - pose proof (Q4 lg) as X4. rewrite Q3 in X4.
    assert (Y1 : d_sources a4 = d_sources a) by exact (f_equal d_sources X4).
    assert (Y2 : d_missing a4 = d_missing a) by exact (f_equal d_missing X4).
    change (d_sources (unord a lg)) with (d_sources a). rewrite <- Y1.
    change (d_missing (with_sources (unord a lg) (mfrom id (d_sources a4)))) with (d_missing a).
    change (d_missing (with_sources a4 (mfrom id (d_sources a4)))) with (d_missing a4). rewrite Y2.
    rewrite <- X4. reflexivity.
  - destruct I4. constructor; cbn; try assumption.
    + intros x Hx. apply mfrom_keys in Hx. apply iv_miss0, Hx.
    + intros x Hx. apply mfrom_keys. split; [auto | apply O3, Sub, Hx].
    + intros x data E. rewrite mfrom_find in E. destruct (id <=? x); [auto | discriminate].
Qed.

Lemma link_repair_twin m ids : forall d lg r, inv d lg -> (forall x, In x ids -> small x) -> (forall x, In x (dr_ids r) -> small x) ->
  relo (fun a b => b = (unord (fst a) lg, snd a) /\ inv (fst a) lg /\ (forall x, In x (dr_ids (snd a)) -> small x))
    (link_repair m ids d r) (link_repair m ids (unord d lg) r).
Proof.
  induction ids as [|id ids IH]; intros d lg r I S1 S2; cbn [link_repair].
  - cbn [relo fst snd]. auto.
  - cbn [unord d_sources d_field d_missing]. destruct (mfind id (d_sources d)) as [data|].
    + apply relo_eq. intros r' E. apply remove_data_ids in E. apply IH; [exact I | intros x Hx; apply S1; right; exact Hx|].
      cbn [with_ids dr_ids]. intros x Hx. apply serase_incl in Hx. rewrite E in Hx. auto.
    + match goal with |- relo _ _ (link_repair _ _ ?b _) => change b with (unord (with_missing d (mset id (sinsert (dr_id r) (match mfind id (d_missing d) with None => [] | Some l => l end)) (d_missing d))) lg) end.
      apply IH; [|intros x Hx; apply S1; right; exact Hx | exact S2]. destruct I. constructor; cbn; try assumption.
      intros x Hx. apply mset_keys in Hx. destruct Hx as [->|Hx]; [apply S1; left; reflexivity | auto].
Qed.

Theorem recv_repair_twin m d lg r : inv d lg -> (forall x, In x (dr_ids r) -> small x) ->
  relo (twin lg) (recv_repair m d r) (recv_repair m (unord d lg) r).
Proof.
  intros I S. unfold recv_repair. apply relo_assert. intros _. destruct (dr_ids r) as [|first ids] eqn:El; [reflexivity|].
  rewrite outdated_unord. destruct (outdated d _); [cbn [relo]; apply twin_refl, I|].
  change (d_repairs (unord d lg)) with (d_repairs d). destruct (mmem (dr_id r) (d_repairs d)); [cbn [relo]; apply twin_refl, I|].
  eapply relo_bind; [apply drop_outdated_twin; [exact I | apply S; left; reflexivity]|]. intros a b (-> & I1).
  change (d_sources (unord a lg)) with (d_sources a). destruct (forallb _ _).
  { cbn [relo]. eexists. split; [reflexivity|]. split; [apply incl_refl|]. destruct I1. constructor; assumption. }
  change (d_repairs (unord a lg)) with (d_repairs a). apply relo_assert. intros _.
  eapply relo_bind; [apply link_repair_twin; [exact I1 | |]|].
  { intros x Hx. apply S. apply in_rev. exact Hx. }
  { rewrite El. exact S. }
  intros [a2 r2] b2 (-> & I2 & S2). cbn [fst snd] in *. cbv zeta. apply relo_assert. intros _.
  change (d_repairs (unord a2 lg)) with (d_repairs a2).
  change (with_repairs (unord a2 lg) (mset (dr_id r2) r2 (d_repairs a2))) with (unord (with_repairs a2 (mset (dr_id r2) r2 (d_repairs a2))) lg).
  set (a3 := with_repairs a2 (mset (dr_id r2) r2 (d_repairs a2))).
  assert (I3 : inv a3 lg).
  { destruct I2. constructor; cbn; try assumption. intros i r0 x Hi Hx. apply mset_in in Hi.
    destruct Hi as [[-> ->]|Hi]; [auto | eapply iv_reps0; eassumption]. }
  destruct (Nat.eqb (length (dr_ids r2)) 1); [|apply attempt_twin, I3].
  change (d_field (unord a3 lg)) with (d_field a3). apply relo_eq. intros [id data] E.
  set (a4 := with_repairs (with_missing (count_decoded a3 1) (merase id (d_missing (count_decoded a3 1)))) _).
  match goal with |- relo _ _ (add_source _ _ ?b _ _) => change b with (unord a4 lg) end.
  change (enough (unord a4 lg)) with (enough a4). apply add_source_twin.
  - destruct I3. constructor; cbn; try assumption.
    + intros i r0 x Hi Hx. apply merase_in in Hi. eapply iv_reps0; eassumption.
    + intros x Hx. apply merase_keys_incl in Hx. auto.
  - change id with (fst (id, data)). eapply create_source_small; eassumption.
Qed.

Lemma new_inv f : inv (new_ddec f true) [].
Proof. constructor; cbn; try reflexivity; try constructor; try contradiction; try discriminate. intros x []. Qed.

Lemma new_twin f : twin [] (new_ddec f true) (new_ddec f false).
Proof. exists []. split; [reflexivity|]. split; [apply incl_refl | apply new_inv]. Qed.
