(** * When the pending repairs determine the missing sources, these are recovered *)
From Coq Require Import Arith NArith List Bool Lia.
From Verif Require Import Outcome GF GFField Linear Containers ContainersFacts Packetizer Matrix MatrixFacts
  DetailDecoder DecoderAlgebra DecoderInv DecoderStep.
Import ListNotations.
Open Scope N_scope.

(** Repairs, given by their numbers and by the sources they cover, leave no choice for the
    unknown sources: if two assignments of values to the sources agree outside
    [unknown] and on the repairs, then they are the same. Both sides are linear, so
    this is said of the difference [v]. *)
Definition determines (f : field) (repairs : list (N * list N)) (unknown : list N) : Prop :=
  forall v : N -> N, (forall x, v x < 2 ^ wbits f) -> (forall x, ~ In x unknown -> v x = 0) ->
  (forall i ids, In (i, ids) repairs ->
     fold_right N.lxor 0 (map (fun x => gf_multiply f (coefficient f i x) (v x)) ids) = 0) ->
  forall x, v x = 0.

Definition equations (reps : list (N * drepair)) : list (N * list N) :=
  map (fun '(i, rep) => (i, dr_ids rep)) reps.

Lemma fold_xsum {A} (g : A -> N) l : fold_right N.lxor 0 (map g l) = xsum g l.
Proof. induction l as [|a l IH]; [reflexivity|]. cbn [map fold_right xsum]. rewrite IH. reflexivity. Qed.

Lemma sorted_last_max l x : ssorted l -> In x l -> x <= last l 0.
Proof.
  induction l as [|a l IH]; intros H Hx; [destruct Hx|]. apply ssorted_cons_inv in H. destruct H as [H1 H2].
  destruct l as [|b l]; [destruct Hx as [->|[]]; cbn [last]; lia|].
  change (last (a :: b :: l) 0) with (last (b :: l) 0).
  destruct Hx as [->|Hx]; [|apply IH; assumption].
  specialize (H2 b (or_introl eq_refl)). specialize (IH H1). 
  assert (b <= last (b :: l) 0).
  { clear -H1. revert b H1. induction l as [|c l IHl]; intros b H1; [cbn [last]; lia|].
    change (last (b :: c :: l) 0) with (last (c :: l) 0). apply ssorted_cons_inv in H1. destruct H1 as [H1 H2].
    specialize (IHl c H1). specialize (H2 c (or_introl eq_refl)). lia. }
  lia.
Qed.

(** A vector that every row of the coefficients maps to zero, as values of the sources. *)
Lemma kernel_values f reps ms (x : nat -> N) n c : n = length ms -> n = length reps ->
  ssorted ms -> (forall r rep, In (r, rep) reps -> ssorted (dr_ids rep)) ->
  (forall r rep y, In (r, rep) reps -> In y (dr_ids rep) -> In y ms) ->
  (c < n)%nat -> (forall k, elt f (x k)) -> x c = 1 ->
  (forall a, (a < n)%nat -> mv f n (at_ n (coefficients f reps ms)) x a = 0) ->
  ~ determines f (equations reps) ms.
Proof.
  intros Hn Hr Sm Sr Hin Hc Hx Hxc Hk D.
  set (v := fun y => xsum (fun b => if nth b ms 0 =? y then x b else 0) (seq 0 n)).
  assert (Hv : forall b, (b < n)%nat -> v (nth b ms 0) = x b).
  { intros b Hb. unfold v. rewrite (xsum_single _ b).
    - rewrite N.eqb_refl. reflexivity.
    - apply seq_NoDup.
    - apply in_seq. lia.
    - intros k Hkk Hne. apply in_seq in Hkk. destruct (N.eqb_spec (nth k ms 0) (nth b ms 0)) as [E|]; [|reflexivity].
      exfalso. apply Hne. apply (proj1 (NoDup_nth ms 0) (ssorted_NoDup _ Sm)); [lia | lia | exact E]. }
  assert (Z : v (nth c ms 0) = 0).
  { apply D.
    - intros y. unfold v. apply xsum_below. intros b _. destruct (_ =? _); [apply Hx | apply elt_0].
    - intros y Hy. unfold v. rewrite (xsum_ext _ (fun _ => 0)); [apply xsum_0|]. intros b Hb. apply in_seq in Hb.
      destruct (N.eqb_spec (nth b ms 0) y) as [E|]; [|reflexivity]. exfalso. apply Hy. rewrite <- E. apply nth_In. lia.
    - intros i ids Hi. unfold equations in Hi. apply in_map_iff in Hi. destruct Hi as ([r rep] & E & Hi).
      assert (r = i /\ dr_ids rep = ids) as [-> <-] by (split; congruence). clear E.
      destruct (In_nth_error _ _ Hi) as [a Ha].
      assert (Han : (a < n)%nat) by (rewrite Hr; apply nth_error_Some; congruence).
      rewrite fold_xsum.
      rewrite <- (Hk a Han). unfold mv, sum.
      replace (dr_ids rep) with (filter (fun y => smem y (dr_ids rep)) ms).
      2:{ apply ssorted_ext; [apply ssorted_filter, Sm | eapply Sr, Hi|]. intros y. rewrite filter_In, smem_spec.
          split; [tauto|]. intros Hy. split; [eapply Hin; eassumption | exact Hy]. }
      rewrite (xsum_ext _ (fun y => gmul f (if smem y (dr_ids rep) then coefficient f i y else 0) (v y))).
      2:{ intros y Hy. apply filter_In in Hy. destruct Hy as [_ Hy]. rewrite Hy. apply gf_multiply_gmul. }
      rewrite xsum_filter by (intros y _ Hy; rewrite Hy; apply gmul_0_l).
      rewrite <- (xsum_seq_nth _ ms 0), <- Hn. apply xsum_ext. intros b Hb. apply in_seq in Hb.
      rewrite Hv by lia. f_equal. symmetry. rewrite Hn. apply coefficients_at; [exact Ha|]. apply nth_error_nth'. lia. }
  rewrite Hv, Hxc in Z by exact Hc. discriminate.
Qed.

(** Fewer repairs than unknown sources never determine these. *)
Lemma underdetermined f reps ms : (length reps < length ms)%nat ->
  ssorted ms -> (forall r rep, In (r, rep) reps -> ssorted (dr_ids rep)) ->
  (forall r rep y, In (r, rep) reps -> In y (dr_ids rep) -> In y ms) ->
  ~ determines f (equations reps) ms.
Proof.
  intros Hl Sm Sr Hin D.
  set (pad := (0, {| dr_id := 0; dr_ids := []; dr_enc := 0; dr_buf := []; dr_size := 0 |})).
  set (reps' := reps ++ repeat pad (length ms - length reps)).
  assert (Hn : length reps' = length ms) by (unfold reps'; rewrite app_length, repeat_length; lia).
  assert (Hin' : forall r rep, In (r, rep) reps' -> In (r, rep) reps \/ (r, rep) = pad).
  { intros r rep H. apply in_app_iff in H. destruct H as [H|H]; [left; exact H | right; eapply repeat_spec, H]. }
  set (n := length ms) in *.
  assert (Hn0 : n <> 0%nat) by lia.
  destruct (invert_spec f n (coefficients f reps' ms) (repeat 0 (n * n)))
    as [(m' & v' & _ & _ & _ & W1 & _ & W2)|(_ & c & x & Hc & Hx & Hxc & Hk)].
  - exact Hn0.
  - rewrite <- Hn. apply coefficients_wfm. symmetry. exact Hn.
  - apply repeat_length.
  - rewrite <- Hn. apply coefficients_eltm. symmetry. exact Hn.
  - (* the last row is zero *)
    specialize (W2 (n - 1)%nat (n - 1)%nat ltac:(lia) ltac:(lia)). unfold mm, one in W2. rewrite Nat.eqb_refl in W2.
    rewrite sum_0 in W2; [discriminate|]. intros k Hk.
    unfold n in Hk |- *.
    rewrite (coefficients_at f reps' ms (length ms - 1) k 0 (snd pad) (nth k ms 0)).
    + cbn [snd pad dr_ids smem]. apply gmul_0_l.
    + unfold reps'. rewrite nth_error_app2 by lia. apply nth_error_repeat. lia.
    + apply nth_error_nth'. exact Hk.
  - apply (kernel_values f reps' ms x n c); try assumption; try reflexivity.
    + symmetry. exact Hn.
    + intros r rep H. apply Hin' in H. destruct H as [H|H]; [eapply Sr, H|].
      assert (E : rep = snd pad) by (rewrite <- H; reflexivity). rewrite E. apply ssorted_nil.
    + intros r rep y H Hy. apply Hin' in H. destruct H as [H|H]; [eapply Hin; eassumption|].
      assert (E : rep = snd pad) by (rewrite <- H; reflexivity). rewrite E in Hy. destruct Hy.
    + intros v V1 V2 V3. apply D; [exact V1 | exact V2|]. intros i ids Hi. apply V3.
      unfold equations, reps'. rewrite map_app. apply in_app_iff. left. exact Hi.
Qed.

Lemma xsum_same (g : N -> N) l : forall l', NoDup l -> NoDup l' -> (forall y, In y l <-> In y l') ->
  xsum g l = xsum g l'.
Proof.
  induction l as [|a l IH]; intros l' N1 N2 H.
  - destruct l' as [|b l']; [reflexivity|]. destruct (proj2 (H b) (or_introl eq_refl)).
  - assert (Ha : In a l') by (apply H; left; reflexivity). apply in_split in Ha. destruct Ha as (p & q & ->).
    rewrite xsum_app. cbn [xsum]. inversion N1 as [|? ? N3 N4]; subst.
    rewrite (IH (p ++ q)).
    + rewrite xsum_app, <- !N.lxor_assoc, (N.lxor_comm (g a)). reflexivity.
    + exact N4.
    + apply NoDup_remove_1 in N2. exact N2.
    + intros y. apply NoDup_remove_2 in N2. specialize (H y). rewrite in_app_iff in *. cbn [In] in H.
      split.
      * intros Hy. destruct (proj1 H (or_intror Hy)) as [A|[A|A]]; [left; exact A | subst; contradiction | right; exact A].
      * intros Hy. assert (Hy' : a = y \/ In y l) by (apply H; tauto). destruct Hy' as [->|Hy']; [|exact Hy'].
        exfalso. apply N2. exact Hy.
Qed.

(** As many repairs as unknown sources, and an invertible matrix. *)
Definition stub (e : N * list N) : N * drepair :=
  (fst e, {| dr_id := fst e; dr_ids := snd e; dr_enc := 0; dr_buf := []; dr_size := 0 |}).

Lemma invertible_determines f eqs ms : ms <> [] -> length eqs = length ms -> ssorted ms ->
  (forall i ids, In (i, ids) eqs -> ssorted ids) ->
  (exists r, invert f (length ms) (coefficients f (map stub eqs) ms) (repeat 0 (length ms * length ms)) = Ok (inr r)) ->
  determines f eqs ms.
Proof.
  intros Hne Hl Sm Se [r Ei] v V1 V2 V3.
  assert (Hl' : length ms = length (map stub eqs)) by (rewrite map_length; symmetry; exact Hl).
  set (n := length ms) in *.
  destruct (invert_spec f n (coefficients f (map stub eqs) ms) (repeat 0 (n * n)))
    as [(m' & v' & I & _ & _ & W1 & W2 & _)|(I & _)].
  - destruct ms; [congruence | discriminate].
  - rewrite Hl'. apply coefficients_wfm. exact Hl'.
  - apply repeat_length.
  - rewrite Hl'. apply coefficients_eltm. exact Hl'.
  - assert (Z : forall b, (b < n)%nat -> v (nth b ms 0) = 0).
    { intros b Hb. set (u := fun b => v (nth b ms 0)).
      change (u b = 0). rewrite <- (mv_one f n u b Hb) by (intros k; apply V1).
      rewrite <- (mv_ext f n _ _ u u b Hb W2) by reflexivity.
      rewrite mv_assoc by assumption. unfold mv at 1. apply sum_0. intros a Ha.
      replace (mv f n (at_ n (coefficients f (map stub eqs) ms)) u a) with 0; [apply gmul_0_r|].
      destruct (nth_error eqs a) as [[i ids]|] eqn:Ea; [|apply nth_error_None in Ea; lia].
      pose proof (nth_error_In _ _ Ea) as Hin. rewrite <- (V3 i ids Hin), fold_xsum. symmetry.
      unfold mv, sum.
      rewrite (xsum_ext _ (fun b => gmul f (if smem (nth b ms 0) ids then coefficient f i (nth b ms 0) else 0) (v (nth b ms 0)))).
      2:{ intros c Hc. apply in_seq in Hc. unfold u. f_equal. unfold n.
          apply (coefficients_at f (map stub eqs) ms a c i (snd (stub (i, ids)))).
          - change (i, snd (stub (i, ids))) with (stub (i, ids)). apply map_nth_error, Ea.
          - apply nth_error_nth'. lia. }
      unfold n. rewrite (xsum_seq_nth (fun y => gmul f (if smem y ids then coefficient f i y else 0) (v y)) ms 0).
      rewrite <- (xsum_filter _ (fun y => smem y ids) ms) by (intros y _ Hy; rewrite Hy; apply gmul_0_l).
      rewrite <- (xsum_filter _ (fun y => smem y ms) ids).
      2:{ intros y _ Hy. apply smem_false in Hy. rewrite (V2 y Hy), gf_multiply_gmul. apply gmul_0_r. }
      rewrite (xsum_same _ (filter (fun y => smem y ms) ids) (filter (fun y => smem y ids) ms)).
      - apply xsum_ext. intros y Hy. apply filter_In in Hy. destruct Hy as [_ Hy]. rewrite Hy. symmetry. apply gf_multiply_gmul.
      - apply ssorted_NoDup, ssorted_filter. eapply Se, Hin.
      - apply ssorted_NoDup, ssorted_filter, Sm.
      - intros y. rewrite !filter_In, !smem_spec. tauto. }
    intros x. destruct (in_dec N.eq_dec x ms) as [Hx|Hx]; [|apply V2, Hx].
    destruct (In_nth _ _ 0 Hx) as (b & Hb & <-). apply Z, Hb.
  - congruence.
Qed.

Lemma invertible_shown {E A} (x : outcome (E + A)) :
  match x with Ok (inr _) => true | _ => false end = true -> exists r, x = Ok (inr r).
Proof. destruct x as [[e|r]| |]; try discriminate. intros _. exists r. reflexivity. Qed.

(** Removing known sources keeps the unknown ones determined. *)
Lemma determines_shrink f eqs eqs' U U' : (forall x, In x U' -> In x U) ->
  (forall i ids, In (i, ids) eqs -> NoDup ids) -> 
  (forall i ids, In (i, ids) eqs ->
     (exists ids', In (i, ids') eqs' /\ NoDup ids' /\ forall y, In y ids' <-> In y ids /\ In y U')
     \/ (forall y, In y ids -> ~ In y U')) ->
  determines f eqs U -> determines f eqs' U'.
Proof.
  intros HU Hnd He D v V1 V2 V3. apply D; [exact V1 | |].
  - intros x Hx. apply V2. intros A. apply Hx, HU, A.
  - intros i ids Hi. rewrite fold_xsum.
    destruct (He i ids Hi) as [(ids' & Hi' & Hnd' & Hids)|Hno].
    + rewrite <- (V3 i ids' Hi'), fold_xsum.
      rewrite <- (xsum_filter _ (fun y => if in_dec N.eq_dec y U' then true else false) ids).
      * specialize (Hnd i ids Hi). clear -Hids Hnd Hnd'.
        apply xsum_same; [apply NoDup_filter, Hnd | exact Hnd' |].
        intros y. rewrite filter_In, Hids. destruct (in_dec N.eq_dec y U'); intuition congruence.
      * intros y _ Hy. destruct (in_dec N.eq_dec y U') as [|Hn]; [discriminate|]. rewrite (V2 y Hn).
        rewrite gf_multiply_gmul. apply gmul_0_r.
    + rewrite (xsum_ext _ (fun _ => 0)); [apply xsum_0|]. intros y Hy. rewrite (V2 y (Hno y Hy)).
      rewrite gf_multiply_gmul. apply gmul_0_r.
Qed.

Section Recover.
Variable f : field.
Variable S : N -> list N.
Variable m : mode.
Variable lim : N.
Hypothesis Hlim0 : lim <= LIM.
Hypothesis HS : forall x, good_data f (S x).

Notation core := (core f S).
Notation ge := (ge lim).
Notation logs := (logs S lim).
Notation inv := (inv f S lim).

Lemma core_equations P d : core P d ->
  ssorted (mkeys (d_missing d))
  /\ (forall r rep, In (r, rep) (d_repairs d) -> ssorted (dr_ids rep))
  /\ (forall r rep y, In (r, rep) (d_repairs d) -> In y (dr_ids rep) -> In y (mkeys (d_missing d))).
Proof.
  intros C. split; [apply C|]. split.
  - intros r rep H. apply in_mfind in H; [|apply C]. apply (c_repairs _ _ _ _ C r rep H).
  - intros r rep y H Hy. apply in_mfind in H; [|apply C]. eapply (c_live _ _ _ _ C); eassumption.
Qed.

Lemma attempt_determined d d' : core [] d -> ge [] d -> logs N.lt [] d ->
  determines f (equations (d_repairs d)) (mkeys (d_missing d)) ->
  attempt_full_decoding m d = Ok d' ->
  d_missing d' = [] /\ forall x, miss d x -> In x (mkeys (d_sources d')).
Proof.
  intros C G L D H. destruct (core_equations _ _ C) as (Sm & Sr & Hin).
  unfold attempt_full_decoding in H. cbv zeta in H.
  destruct (Nat.eqb (length (d_repairs d)) 0 || Nat.eqb (length (d_missing d)) 0) eqn:E0.
  { assert (d' = d) by congruence. subst d'. clear H.
    destruct (d_missing d) as [|[y l] ms] eqn:Em.
    - split; [reflexivity|]. unfold miss. rewrite Em. intros x [].
    - exfalso. destruct (d_repairs d) as [|]; [|discriminate].
      refine (underdetermined f [] (y :: mkeys ms) _ Sm _ _ D); [cbn [length]; lia | intros r rep [] | intros r rep z []]. }
  apply orb_false_iff in E0. destruct E0 as [E0 _]. apply Nat.eqb_neq in E0.
  destruct (Nat.ltb (length (d_repairs d)) (length (d_missing d))) eqn:E1.
  { exfalso. apply Nat.ltb_lt in E1. refine (underdetermined f _ _ _ Sm Sr Hin D). rewrite mkeys_length. exact E1. }
  apply bind_ok in H. destruct H as (u1 & _ & H).
  apply bind_ok in H. destruct H as (u2 & _ & H).
  destruct (Nat.eqb (length (d_missing d)) (length (d_repairs d))) eqn:E2; cbn [negb] in H; [|discriminate].
  apply Nat.eqb_eq in E2. rewrite (c_field _ _ _ _ C) in H.
  set (n := length (d_repairs d)) in *.
  set (co := coefficients f (d_repairs d) (mkeys (d_missing d))) in *.
  assert (Hk : length (mkeys (d_missing d)) = length (d_repairs d)) by (rewrite mkeys_length; exact E2).
  destruct (invert_spec f n co (repeat 0 (n * n))) as [(m' & v' & I & W1 & W2 & W3 & W4 & W5)|(_ & c & x & Hc & Hx & Hxc & Hkk)].
  { exact E0. }
  { apply coefficients_wfm, Hk. }
  { unfold wfm. apply repeat_length. }
  { apply coefficients_eltm, Hk. }
  - rewrite I in H. cbn [bind] in H.
    pose proof (decode_all_solvable f S HS d v' C E2 W2 W3 W4) as Hs.
    destruct (decode_all_spec f S m lim Hlim0 n v' (d_repairs d) (mkeys (d_missing d)) Hs (mkeys (d_missing d)) 0 d)
      as (d1 & Ed & Q).
    + reflexivity.
    + cbn [plus]. exact Hk.
    + apply ssorted_NoDup, C.
    + apply C.
    + apply C.
    + intros y Hy. apply G. left. exact Hy.
    + exact L.
    + intros y Hy. split; [apply (c_disj _ _ _ _ C y Hy) | apply G; right; exact Hy].
    + rewrite Ed in H. cbn [bind] in H.
      assert (E : d' = with_missing (with_repairs (count_decoded d1 (N.of_nat (length (d_missing d)))) []) []) by congruence.
      rewrite E. split; [reflexivity|]. intros y Hy.
      assert (KK : K [] d1 y) by (apply (q_known _ _ _ _ _ Q); right; exact Hy). destruct KK as [KK|[]]. exact KK.
  - exfalso. apply (kernel_values f (d_repairs d) (mkeys (d_missing d)) x n c); try assumption; try reflexivity.
    symmetry. exact Hk.
Qed.

(** ** A source arrives *)

Lemma recv_source_determined d y d' : inv d -> y < lim -> outdated d y = false -> ~ In y (mkeys (d_sources d)) ->
  recv_source m d y (S y) = Ok d' ->
  forall U, (forall x, In x U <-> miss d x /\ x <> y) ->
  determines f (equations (d_repairs d)) U ->
  forall x, In x U -> In x (mkeys (d_sources d')).
Proof.
  intros [C G L T] Hy Eo Hk H U HU D x Hx. unfold recv_source in H. rewrite Eo in H.
  destruct (mmem y (d_sources d)) eqn:Em; [apply mmem_spec in Em; contradiction|].
  apply bind_ok in H. destruct H as (d1 & E1 & H).
  assert (Fr : fresh lim [] d y).
  { split; [intros [A|[]]; contradiction|]. split; [apply outdated_false, Eo | exact Hy]. }
  apply (add_source_spec f S m lim Hlim0) with (P := []) in E1; try assumption; [|right; exact C].
  destruct E1 as ([C1 G1 L1 V1 La1 U1 F1 Sh] & Hin & _).
  assert (Hm1 : forall z, miss d1 z -> In z U).
  { intros z Hz. apply HU. destruct (e_missing _ _ _ _ V1 z Hz) as [A|[]]. split; [exact A|]. intros ->.
    apply (c_disj _ _ _ _ C1 y Hz). left. exact Hin. }
  assert (D1 : determines f (equations (d_repairs d1)) (mkeys (d_missing d1))).
  { destruct (core_equations _ _ C) as (_ & Sr & _). destruct (core_equations _ _ C1) as (_ & Sr1 & _).
    apply determines_shrink with (4 := D).
    - exact Hm1.
    - intros i ids Hi. apply in_map_iff in Hi. destruct Hi as ([r rep] & E & Hi).
      assert (dr_ids rep = ids) as <- by congruence. apply ssorted_NoDup. eapply Sr, Hi.
    - intros i ids Hi. apply in_map_iff in Hi. destruct Hi as ([r rep] & E & Hi).
      assert (r = i /\ dr_ids rep = ids) as [-> <-] by (split; congruence).
      apply in_mfind in Hi; [|apply C]. destruct (Sh i rep Hi) as [(rep' & E' & Hids)|Hno].
      + left. exists (dr_ids rep'). apply mfind_in in E'. split; [|split; [apply ssorted_NoDup; eapply Sr1, E' | exact Hids]].
        apply in_map_iff. exists (i, rep'). auto.
      + right. exact Hno. }
  destruct (attempt_determined d1 d' C1 G1 L1 D1 H) as [Em' Hrec].
  destruct (attempt_stepped f S m lim Hlim0 HS d1 d' C1 G1 L1 H) as [I2 V2 La2 _ _].
  assert (Hx' : settled [] d' x).
  { apply HU in Hx. destruct Hx as [Hx _]. destruct (e_keep _ _ _ _ V1 x Hx) as [A|A].
    - left. left. apply Hrec, A.
    - apply (e_settled _ _ _ _ V2), A. }
  destruct Hx' as [[A|[]]|A]; [exact A|]. exfalso.
  apply HU in Hx. destruct Hx as [Hx _]. destruct (G x (or_intror Hx)) as [B _].
  unfold outdated in A. rewrite (not_outdated_same d d') in A by congruence. rewrite B in A. discriminate.
Qed.

(** ** A repair arrives *)

Lemma recv_repair_determined d r d' : inv d -> acceptable f S lim d r ->
  outdated d (last (dr_ids r) 0) = false -> ~ In (dr_id r) (mkeys (d_repairs d)) ->
  recv_repair m d r = Ok d' ->
  forall U, (forall x, In x U <-> (miss d x /\ hd 0 (dr_ids r) <= x) \/ (In x (dr_ids r) /\ ~ In x (mkeys (d_sources d)))) ->
  determines f ((dr_id r, dr_ids r)
     :: equations (filter (fun '(i, rep) => hd 0 (dr_ids r) <=? hd 0 (dr_ids rep)) (d_repairs d))) U ->
  forall x, In x U -> In x (mkeys (d_sources d')).
Proof.
  intros I B Eo Hp H U HU D x Hx. pose proof I as [C G L T].
  destruct (recv_repair_spec f S m lim Hlim0 HS d r d' I B H) as (I' & _ & _ & X).
  destruct (X Eo Hp) as (_ & _ & d0 & P & _ & R). clear X.
  pose proof (g_sorted _ _ _ (b_genuine _ _ _ _ _ B)) as Sr.
  assert (K0 : forall z, K [] d0 z <-> In z (mkeys (d_sources d)) /\ hd 0 (dr_ids r) <= z).
  { intros z. unfold K. rewrite (p_sources _ _ _ _ _ _ P), mfrom_keys. cbn [In]. tauto. }
  assert (HU0 : forall z, In z U <-> miss d0 z \/ (In z (dr_ids r) /\ ~ K [] d0 z)).
  { intros z. rewrite HU, (p_missing _ _ _ _ _ _ P), K0.
    split; [intros [A|[A1 A2]]; [left; exact A | right; split; [exact A1 | intros [A3 _]; contradiction]]|].
    intros [A|[A1 A2]]; [left; exact A | right; split; [exact A1|]]. intros A3. apply A2. split; [exact A3 | apply sorted_hd; assumption]. }
  assert (HUr : forall z, In z U -> In z (dr_ids r)).
  { intros z Hz. apply HU in Hz. destruct Hz as [[A1 A2]|[A _]]; [|exact A]. apply (b_covers _ _ _ _ _ B); assumption. }
  assert (HUK : forall z, In z U -> ~ K [] d0 z).
  { intros z Hz. apply HU0 in Hz. destruct Hz as [A|[_ A]]; [apply (c_disj _ _ _ _ (p_core _ _ _ _ _ _ P)), A | exact A]. }
  destruct R as [Hall E | x0 Hothers Hin0 Hn0 Hk0 Hc | d1 r1 Lk Hlen Ha].
  - exfalso. apply (HUK x Hx), Hall, HUr, Hx.
  - destruct (Hothers x (HUr x Hx)) as [->|A]; [exact Hk0 | exfalso; apply (HUK x Hx A)].
  - destruct Lk as [C1 G1 (R1 & M1 & E1) _ Kr Kid Kg Kids Km].
    assert (Hm1 : forall z, miss d1 z <-> In z U).
    { intros z. rewrite Km, HU0, Kids. tauto. }
    assert (L1 : logs N.lt [] d1).
    { apply logs_same with (2 := p_logs _ _ _ _ _ _ P). rewrite E1. repeat split. }
    assert (D1 : determines f (equations (d_repairs d1)) (mkeys (d_missing d1))).
    { destruct (core_equations _ _ C) as (_ & Sd & _). destruct (core_equations _ _ C1) as (_ & Sr1 & _).
      apply determines_shrink with (4 := D).
      - intros z Hz. apply Hm1, Hz.
      - intros i ids [Hi|Hi].
        + assert (dr_ids r = ids) as <- by congruence. apply ssorted_NoDup, Sr.
        + apply in_map_iff in Hi. destruct Hi as ([i' rep] & E & Hi). apply filter_In in Hi. destruct Hi as [Hi _].
          assert (dr_ids rep = ids) as <- by congruence. apply ssorted_NoDup. eapply Sd, Hi.
      - intros i ids [Hi|Hi]; left.
        + assert (dr_id r = i /\ dr_ids r = ids) as [<- <-] by (split; congruence).
          exists (dr_ids r1). split; [|split; [apply ssorted_NoDup, Kg|]].
          * apply in_map_iff. exists (dr_id r, r1). split; [reflexivity|]. apply mfind_in. rewrite Kr. rewrite mfind_mset, N.eqb_refl. reflexivity.
          * intros z. rewrite Kids. change (In z (mkeys (d_missing d1))) with (miss d1 z). rewrite Hm1.
            split; [intros [A1 A2]; split; [exact A1 | apply HU0; auto] | intros [A1 A2]; split; [exact A1 | apply HUK, A2]].
        + apply in_map_iff in Hi. destruct Hi as ([i' rep] & E & Hi). apply filter_In in Hi. destruct Hi as [Hi Hge].
          assert (i' = i /\ dr_ids rep = ids) as [-> <-] by (split; congruence). apply N.leb_le in Hge.
          apply in_mfind in Hi; [|apply C].
          assert (Hne : i <> dr_id r) by (intros ->; apply Hp, mfind_keys; eauto).
          assert (Hi0 : mfind i (d_repairs d0) = Some rep) by (apply (p_repairs _ _ _ _ _ _ P); auto).
          assert (Hi1 : mfind i (d_repairs d1) = Some rep).
          { rewrite Kr, mfind_mset. replace (i =? dr_id r) with false by (symmetry; apply N.eqb_neq; exact Hne). exact Hi0. }
          exists (dr_ids rep). split; [|split; [apply ssorted_NoDup; eapply Sd, mfind_in, Hi|]].
          * apply in_map_iff. exists (i, rep). split; [reflexivity | apply mfind_in, Hi1].
          * intros z. split; [|tauto]. intros Hz. split; [exact Hz|]. eapply (c_live _ _ _ _ C1); eassumption. }
    destruct (attempt_determined d1 d' C1 G1 L1 D1 Ha) as [_ Hrec]. apply Hrec, Hm1, Hx.
Qed.

(** One unknown source among those of a repair. *)
Lemma recv_repair_single d r d' x : inv d -> acceptable f S lim d r -> ~ In (dr_id r) (mkeys (d_repairs d)) ->
  recv_repair m d r = Ok d' -> In x (dr_ids r) -> outdated d x = false -> ~ In x (mkeys (d_sources d)) ->
  (forall y, In y (dr_ids r) -> y <> x -> In y (mkeys (d_sources d))) ->
  In x (mkeys (d_sources d')).
Proof.
  intros I B Hp H Hx Eo Hn Hothers.
  pose proof (g_sorted _ _ _ (b_genuine _ _ _ _ _ B)) as Sr.
  destruct (recv_repair_spec f S m lim Hlim0 HS d r d' I B H) as (I' & _ & _ & X).
  assert (El : outdated d (last (dr_ids r) 0) = false).
  { assert (Hle : x <= last (dr_ids r) 0) by (apply sorted_last_max; assumption).
    unfold outdated in *. apply negb_false_iff in Eo. apply negb_false_iff. unfold not_outdated in *.
    destruct (d_last d) as [i|]; [|reflexivity]. apply N.leb_le in Eo. apply N.leb_le. lia. }
  destruct (X El Hp) as (_ & _ & d0 & P & _ & R). clear X.
  assert (K0 : forall z, K [] d0 z <-> In z (mkeys (d_sources d)) /\ hd 0 (dr_ids r) <= z).
  { intros z. unfold K. rewrite (p_sources _ _ _ _ _ _ P), mfrom_keys. cbn [In]. tauto. }
  destruct R as [Hall E | x0 Ho Hin0 Hn0 Hk0 Hc | d1 r1 Lk Hlen Ha].
  - exfalso. apply Hn. apply K0, Hall, Hx.
  - destruct (Ho x Hx) as [->|A]; [exact Hk0|]. exfalso. apply Hn, K0, A.
  - exfalso. destruct Lk as [_ _ _ _ _ _ Kg Kids _].
    assert (E : dr_ids r1 = [x]).
    { apply ssorted_ext; [apply Kg | apply ssorted_cons; [apply ssorted_nil | intros ? []]|]. intros z. rewrite Kids, K0. split.
      - intros [A1 A2]. left. destruct (N.eq_dec z x) as [->|Hne]; [reflexivity|]. exfalso. apply A2.
        split; [apply Hothers; assumption | apply sorted_hd; assumption].
      - intros [<-|[]]. split; [exact Hx | tauto]. }
    rewrite E in Hlen. cbn [length] in Hlen. destruct Hlen as [Hlen|Hlen]; [lia | discriminate].
Qed.
End Recover.
