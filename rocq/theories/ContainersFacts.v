(** * Facts about the sorted containers *)
From Coq Require Import NArith List Bool Lia Sorted.
From Verif Require Import Containers.
Import ListNotations.
Open Scope N_scope.

Definition ssorted (l : list N) : Prop := StronglySorted N.lt l.

Lemma ssorted_nil : ssorted [].
Proof. constructor. Qed.

Lemma ssorted_cons_inv x l : ssorted (x :: l) -> ssorted l /\ forall y, In y l -> x < y.
Proof.
  intros H. apply StronglySorted_inv in H as [H1 H2]. split; [assumption|].
  now apply Forall_forall.
Qed.

Lemma ssorted_cons x l : ssorted l -> (forall y, In y l -> x < y) -> ssorted (x :: l).
Proof. intros H1 H2. constructor; [assumption|]. now apply Forall_forall. Qed.

Lemma ssorted_NoDup l : ssorted l -> NoDup l.
Proof.
  induction l as [|x l IH]; intros H; [constructor|].
  apply ssorted_cons_inv in H as [H1 H2]. constructor; auto.
  intros Hin. specialize (H2 x Hin). lia.
Qed.

Lemma ssorted_ext a b : ssorted a -> ssorted b -> (forall x, In x a <-> In x b) -> a = b.
Proof.
  revert b. induction a as [|x a IH]; intros [|y b] Ha Hb H.
  - reflexivity.
  - exfalso. apply (H y). now left.
  - exfalso. apply (H x). now left.
  - apply ssorted_cons_inv in Ha as [Ha1 Ha2]. apply ssorted_cons_inv in Hb as [Hb1 Hb2].
    assert (x = y).
    { destruct (proj1 (H x) (or_introl eq_refl)) as [|Hx]; [congruence|].
      destruct (proj2 (H y) (or_introl eq_refl)) as [|Hy]; [congruence|].
      specialize (Ha2 y Hy). specialize (Hb2 x Hx). lia. }
    subst y. f_equal. apply IH; try assumption. intros z. split; intros Hz.
    + destruct (proj1 (H z) (or_intror Hz)) as [<-|]; [|assumption].
      specialize (Ha2 x Hz). lia.
    + destruct (proj2 (H z) (or_intror Hz)) as [<-|]; [|assumption].
      specialize (Hb2 x Hz). lia.
Qed.

Lemma sinsert_in x l y : In y (sinsert x l) <-> y = x \/ In y l.
Proof.
  induction l as [|z l IH]; simpl; [intuition congruence|].
  destruct (N.ltb_spec x z); [simpl; intuition congruence|].
  destruct (N.eqb_spec x z); [subst; simpl; intuition congruence|].
  simpl. rewrite IH. tauto.
Qed.

Lemma sinsert_sorted x l : ssorted l -> ssorted (sinsert x l).
Proof.
  induction l as [|z l IH]; intros H; simpl.
  - apply ssorted_cons; [constructor|]. intros y [].
  - destruct (N.ltb_spec x z).
    + apply ssorted_cons; [assumption|]. intros y [->|Hy]; [assumption|].
      apply ssorted_cons_inv in H as [_ H]. specialize (H y Hy). lia.
    + destruct (N.eqb_spec x z); [assumption|].
      apply ssorted_cons_inv in H as [H1 H2]. apply ssorted_cons; [now apply IH|].
      intros y Hy. apply sinsert_in in Hy as [->|Hy]; [lia|auto].
Qed.

Lemma sinsert_last x l : (forall y, In y l -> y < x) -> sinsert x l = l ++ [x].
Proof.
  induction l as [|z l IH]; intros H; [reflexivity|]. simpl.
  assert (z < x) by (apply H; now left).
  destruct (N.ltb_spec x z); [lia|]. destruct (N.eqb_spec x z); [lia|].
  f_equal. apply IH. intros y Hy. apply H. now right.
Qed.

Lemma sinsert_mem_id x l : ssorted l -> In x l -> sinsert x l = l.
Proof.
  intros Hs Hx. apply ssorted_ext; auto using sinsert_sorted.
  intros y. rewrite sinsert_in. intuition congruence.
Qed.

Lemma serase_incl x l y : In y (serase x l) -> In y l.
Proof.
  induction l as [|z l IH]; simpl; [auto|]. destruct (N.eqb_spec x z); [now right|].
  simpl. tauto.
Qed.

Lemma serase_sorted x l : ssorted l -> ssorted (serase x l).
Proof.
  induction l as [|z l IH]; intros H; simpl; [constructor|].
  apply ssorted_cons_inv in H as [H1 H2]. destruct (N.eqb_spec x z); [assumption|].
  apply ssorted_cons; [now apply IH|]. intros y Hy. apply H2. now apply serase_incl with x.
Qed.

Lemma serase_in x l y : ssorted l -> (In y (serase x l) <-> In y l /\ y <> x).
Proof.
  induction l as [|z l IH]; intros H; simpl; [tauto|].
  apply ssorted_cons_inv in H as [H1 H2]. destruct (N.eqb_spec x z) as [->|Hn].
  - split.
    + intros Hy. split; [now right|]. intros ->. specialize (H2 z Hy). lia.
    + intros [[->|Hy] Hne]; [congruence|assumption].
  - simpl. rewrite IH by assumption. intuition congruence.
Qed.

Lemma serase_notin x l : ~ In x l -> serase x l = l.
Proof.
  induction l as [|z l IH]; intros H; [reflexivity|]. simpl.
  destruct (N.eqb_spec x z) as [->|]; [exfalso; apply H; now left|].
  f_equal. apply IH. intros Hx. apply H. now right.
Qed.

Lemma serase_length x l : In x l -> length l = S (length (serase x l)).
Proof.
  induction l as [|z l IH]; intros H; [destruct H|]. simpl.
  destruct (N.eqb_spec x z) as [->|Hn]; [reflexivity|]. simpl. f_equal. apply IH.
  destruct H; [congruence|assumption].
Qed.

Lemma smem_spec x l : smem x l = true <-> In x l.
Proof.
  induction l as [|z l IH]; simpl; [split; [discriminate|tauto]|].
  rewrite orb_true_iff, IH, N.eqb_eq. intuition congruence.
Qed.

Lemma smem_false x l : smem x l = false <-> ~ In x l.
Proof. rewrite <- smem_spec. destruct (smem x l); intuition congruence. Qed.

Lemma ssorted_app a b : ssorted a -> ssorted b ->
  (forall x y, In x a -> In y b -> x < y) -> ssorted (a ++ b).
Proof.
  intros Ha Hb H. induction a as [|x a IH]; simpl; [assumption|].
  apply ssorted_cons_inv in Ha as [Ha1 Ha2]. apply ssorted_cons.
  - apply IH; [assumption|]. intros u v Hu Hv. apply H; [now right|assumption].
  - intros y Hy. apply in_app_or in Hy as [Hy|Hy]; [auto|]. apply H; [now left|assumption].
Qed.

Lemma ssorted_app_inv a b : ssorted (a ++ b) ->
  ssorted a /\ ssorted b /\ forall x y, In x a -> In y b -> x < y.
Proof.
  induction a as [|x a IH]; simpl; intros H.
  - repeat split; [constructor|assumption|]. intros u v [].
  - apply ssorted_cons_inv in H as [H1 H2]. destruct (IH H1) as (Ha & Hb & Hab).
    repeat split; [|assumption|].
    + apply ssorted_cons; [assumption|]. intros y Hy. apply H2, in_or_app. now left.
    + intros u v [<-|Hu] Hv; [|auto]. apply H2, in_or_app. now right.
Qed.

Lemma ssorted_filter (b : N -> bool) l : ssorted l -> ssorted (filter b l).
Proof.
  induction l as [|x l IH]; intros H; simpl; [constructor|].
  apply ssorted_cons_inv in H as [H1 H2]. destruct (b x); [|auto].
  apply ssorted_cons; [auto|]. intros y Hy. apply filter_In in Hy as [Hy _]. auto.
Qed.

(** ** Maps *)

Section Maps.
Context {V : Type}.
Implicit Types (m : list (N * V)) (k : N) (v : V).

Definition msorted m : Prop := ssorted (mkeys m).

Lemma msorted_nil : msorted [].
Proof. constructor. Qed.

Lemma msorted_cons_inv k v m :
  msorted ((k, v) :: m) -> msorted m /\ forall k' v', In (k', v') m -> k < k'.
Proof.
  intros H. apply ssorted_cons_inv in H as [H1 H2]. split; [exact H1|].
  intros k' v' Hin. apply H2. apply (in_map fst) in Hin. exact Hin.
Qed.

Lemma mfind_in k v m : mfind k m = Some v -> In (k, v) m.
Proof.
  induction m as [|[k' v'] m IH]; simpl; [discriminate|].
  destruct (N.eqb_spec k k'); [|auto]. intros H. injection H as <-. left. congruence.
Qed.

Lemma mfind_keys k m : In k (mkeys m) <-> exists v, mfind k m = Some v.
Proof.
  induction m as [|[k' v'] m IH]; simpl.
  - split; [tauto|]. intros [v H]. discriminate.
  - destruct (N.eqb_spec k k') as [->|Hn].
    + split; [eauto|]. auto.
    + rewrite <- IH. intuition congruence.
Qed.

Lemma mfind_none k m : mfind k m = None <-> ~ In k (mkeys m).
Proof.
  rewrite mfind_keys. destruct (mfind k m).
  - split; [discriminate|]. intros H. exfalso. apply H. eauto.
  - split; [|reflexivity]. intros _ [v H]. discriminate.
Qed.

Lemma in_mfind k v m : msorted m -> In (k, v) m -> mfind k m = Some v.
Proof.
  induction m as [|[k' v'] m IH]; intros Hs Hin; [destruct Hin|].
  apply msorted_cons_inv in Hs as [H1 H2]. simpl. destruct Hin as [E|Hin].
  - injection E as -> ->. now rewrite N.eqb_refl.
  - specialize (H2 _ _ Hin). destruct (N.eqb_spec k k'); [lia|auto].
Qed.

Lemma mfind_iff k v m : msorted m -> (In (k, v) m <-> mfind k m = Some v).
Proof. intros H. split; auto using in_mfind, mfind_in. Qed.

Lemma mmem_spec k m : mmem k m = true <-> In k (mkeys m).
Proof.
  unfold mmem. rewrite mfind_keys. destruct (mfind k m); split; try discriminate; eauto.
  intros [v H]. discriminate.
Qed.

Lemma mmem_false k m : mmem k m = false <-> ~ In k (mkeys m).
Proof. rewrite <- mmem_spec. destruct (mmem k m); intuition congruence. Qed.

Lemma mset_keys k v m x : In x (mkeys (mset k v m)) <-> x = k \/ In x (mkeys m).
Proof.
  induction m as [|[k' v'] m IH]; simpl; [intuition congruence|].
  destruct (N.ltb_spec k k'); [simpl; intuition congruence|].
  destruct (N.eqb_spec k k'); [subst; simpl; intuition congruence|].
  simpl. rewrite IH. tauto.
Qed.

Lemma mset_sorted k v m : msorted m -> msorted (mset k v m).
Proof.
  unfold msorted. induction m as [|[k' v'] m IH]; intros H; simpl.
  - apply ssorted_cons; [constructor|]. intros y [].
  - destruct (N.ltb_spec k k').
    + simpl. apply ssorted_cons; [assumption|]. intros y [<-|Hy]; [assumption|].
      simpl in H. apply ssorted_cons_inv in H as [_ H]. specialize (H y Hy). lia.
    + destruct (N.eqb_spec k k') as [->|]; [exact H|].
      simpl in *. apply ssorted_cons_inv in H as [H1 H2]. apply ssorted_cons; [now apply IH|].
      intros y Hy. apply mset_keys in Hy as [->|Hy]; [lia|auto].
Qed.

Lemma mfind_mset k v m k' : mfind k' (mset k v m) = if k' =? k then Some v else mfind k' m.
Proof.
  induction m as [|[q w] m IH]; simpl.
  - reflexivity.
  - destruct (N.ltb_spec k q).
    + simpl. destruct (N.eqb_spec k' k); [reflexivity|]. reflexivity.
    + destruct (N.eqb_spec k q) as [->|]; simpl.
      * destruct (N.eqb_spec k' q); reflexivity.
      * rewrite IH. destruct (N.eqb_spec k' q), (N.eqb_spec k' k); try reflexivity. congruence.
Qed.

Lemma merase_keys_incl k m x : In x (mkeys (merase k m)) -> In x (mkeys m).
Proof.
  induction m as [|[q w] m IH]; simpl; [auto|]. destruct (N.eqb_spec k q); [now right|].
  simpl. tauto.
Qed.

Lemma merase_sorted k m : msorted m -> msorted (merase k m).
Proof.
  unfold msorted. induction m as [|[q w] m IH]; intros H; simpl; [constructor|].
  simpl in H. apply ssorted_cons_inv in H as [H1 H2]. destruct (N.eqb_spec k q); [assumption|].
  simpl. apply ssorted_cons; [now apply IH|]. intros y Hy. apply H2.
  now apply merase_keys_incl with k.
Qed.

Lemma mfind_merase k m k' : msorted m ->
  mfind k' (merase k m) = if k' =? k then None else mfind k' m.
Proof.
  induction m as [|[q w] m IH]; intros Hs; simpl.
  - now destruct (k' =? k).
  - pose proof Hs as Hs'. apply msorted_cons_inv in Hs as [H1 H2].
    destruct (N.eqb_spec k q) as [->|Hn].
    + destruct (N.eqb_spec k' q) as [E|E]; [|reflexivity].
      rewrite E. apply mfind_none. intros Hin. unfold msorted in Hs'. simpl in Hs'.
      apply ssorted_cons_inv in Hs' as [_ Hs']. specialize (Hs' q Hin). lia.
    + simpl. rewrite IH by assumption.
      destruct (N.eqb_spec k' q), (N.eqb_spec k' k); try reflexivity. congruence.
Qed.

Lemma merase_keys k m x : msorted m -> (In x (mkeys (merase k m)) <-> In x (mkeys m) /\ x <> k).
Proof.
  intros Hs. rewrite !mfind_keys, mfind_merase by assumption.
  destruct (N.eqb_spec x k).
  - split; [intros [v H]; discriminate|]. intros [_ H]. congruence.
  - intuition.
Qed.

Lemma merase_notin k m : ~ In k (mkeys m) -> merase k m = m.
Proof.
  induction m as [|[q w] m IH]; simpl; intros H; [reflexivity|].
  destruct (N.eqb_spec k q) as [->|]; [exfalso; auto|]. f_equal. auto.
Qed.

Lemma merase_length k m : In k (mkeys m) -> length m = S (length (merase k m)).
Proof.
  induction m as [|[q w] m IH]; simpl; intros H; [destruct H|].
  destruct (N.eqb_spec k q) as [->|Hn]; [reflexivity|]. simpl. f_equal. apply IH.
  destruct H; [congruence|assumption].
Qed.

Lemma mput_find k v m k' :
  mfind k' (mput k v m) = match mfind k' m with
                          | Some w => Some w
                          | None => if k' =? k then Some v else None
                          end.
Proof.
  unfold mput. destruct (mfind k m) eqn:E.
  - destruct (N.eqb_spec k' k) as [->|]; [now rewrite E|]. now destruct (mfind k' m).
  - rewrite mfind_mset. destruct (N.eqb_spec k' k) as [->|]; [now rewrite E|].
    now destruct (mfind k' m).
Qed.

Lemma mput_sorted k v m : msorted m -> msorted (mput k v m).
Proof. unfold mput. destruct (mfind k m); auto using mset_sorted. Qed.

Lemma mput_keys k v m x : In x (mkeys (mput k v m)) <-> x = k \/ In x (mkeys m).
Proof.
  unfold mput. destruct (mfind k m) eqn:E.
  - split; [now right|]. intros [->|]; [|assumption]. apply mfind_keys. eauto.
  - apply mset_keys.
Qed.

Lemma msorted_ext m1 m2 : msorted m1 -> msorted m2 ->
  (forall k, mfind k m1 = mfind k m2) -> m1 = m2.
Proof.
  revert m2. induction m1 as [|[k v] m1 IH]; intros [|[q w] m2] H1 H2 H.
  - reflexivity.
  - specialize (H q). simpl in H. rewrite N.eqb_refl in H. discriminate.
  - specialize (H k). simpl in H. rewrite N.eqb_refl in H. discriminate.
  - pose proof H1 as S1. pose proof H2 as S2.
    apply msorted_cons_inv in H1 as [H1 H1']. apply msorted_cons_inv in H2 as [H2 H2'].
    assert (k = q).
    { pose proof (H k) as Hk. pose proof (H q) as Hq. simpl in Hk, Hq.
      rewrite N.eqb_refl in Hk, Hq.
      destruct (N.eqb_spec k q); [assumption|]. destruct (N.eqb_spec q k); [congruence|].
      symmetry in Hk. apply mfind_in in Hk. apply mfind_in in Hq.
      specialize (H1' _ _ Hq). specialize (H2' _ _ Hk). lia. }
    subst q. pose proof (H k) as Hk. simpl in Hk. rewrite N.eqb_refl in Hk.
    injection Hk as <-. f_equal. apply IH; try assumption. intros x.
    specialize (H x). simpl in H. destruct (N.eqb_spec x k) as [E|E]; [|assumption].
    rewrite E. transitivity (@None V); [|symmetry]; apply mfind_none; intros Hin.
    + unfold msorted in S1. simpl in S1. apply ssorted_cons_inv in S1 as [_ S1]. specialize (S1 k Hin). lia.
    + unfold msorted in S2. simpl in S2. apply ssorted_cons_inv in S2 as [_ S2]. specialize (S2 k Hin). lia.
Qed.

Lemma mkeys_length m : length (mkeys m) = length m.
Proof. apply map_length. Qed.

Lemma msorted_filter (b : N * V -> bool) m : msorted m -> msorted (filter b m).
Proof.
  unfold msorted. induction m as [|[k v] m IH]; intros H; simpl; [constructor|].
  simpl in H. apply ssorted_cons_inv in H as [H1 H2]. destruct (b (k, v)); [|auto].
  simpl. apply ssorted_cons; [auto|]. intros y Hy. apply H2.
  unfold mkeys in Hy. apply in_map_iff in Hy as [[q w] [<- Hq]]. apply filter_In in Hq as [Hq _].
  apply (in_map fst) in Hq. exact Hq.
Qed.

End Maps.
