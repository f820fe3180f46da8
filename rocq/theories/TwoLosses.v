(** * A receiver that lacks two data (C93) *)
From Coq Require Import Arith NArith List Bool Lia Permutation.
From Verif Require Import Outcome GF GFField Linear Containers ContainersFacts Packetizer Matrix
  DetailDecoder DecoderAlgebra DecoderInv DecoderStep DecoderProgress DecoderRecover.
Import ListNotations.
Open Scope N_scope.

(** ** The arithmetic *)

(** The determinant of the coefficients of two sources in two repairs. *)
Definition det (f : field) (r r' a b : N) : N :=
  N.lxor (gf_multiply f (coefficient f r a) (coefficient f r' b)) (gf_multiply f (coefficient f r b) (coefficient f r' a)).

Lemma det_zero f r r' a b : det f r r' a b = 0 <->
  gmul f (coefficient f r a) (coefficient f r' b) = gmul f (coefficient f r b) (coefficient f r' a).
Proof. unfold det. rewrite !gf_multiply_gmul. split; [apply N.lxor_eq | intros ->; apply N.lxor_nilpotent]. Qed.

Lemma gmul_cancel f c x y : c < 2 ^ wbits f -> x < 2 ^ wbits f -> y < 2 ^ wbits f -> c <> 0 -> gmul f c x = gmul f c y -> x = y.
Proof.
  intros Hc Hx Hy Nc E. apply N.lxor_eq. assert (Z : gmul f c (N.lxor x y) = 0).
  { rewrite gmul_lxor_r, E. apply N.lxor_nilpotent. }
  apply gmul_zero_divisor in Z; [|exact Hc | apply GFProofs.lxor_below; assumption]. destruct Z; [contradiction | assumption].
Qed.

Lemma coef_elt f r s : elt f (coefficient f r s).
Proof. apply coefficient_elt. Qed.

Lemma coef_nonzero f r s : coefficient f r s <> 0.
Proof. apply coefficient_elt. Qed.

(** Rows that are multiples of the same row are multiples of each other. *)
Lemma det_trans f q r r' a b : det f q r a b = 0 -> det f q r' a b = 0 -> det f r r' a b = 0.
Proof.
  rewrite !det_zero. intros H1 H2.
  pose proof (coef_elt f q a). pose proof (coef_elt f q b). pose proof (coef_elt f r a).
  pose proof (coef_elt f r b). pose proof (coef_elt f r' a). pose proof (coef_elt f r' b).
  apply (gmul_cancel f (coefficient f q a)); try assumption; try apply gmul_elt; try assumption.
  { apply coef_nonzero. }
  set (qa := coefficient f q a) in *. set (qb := coefficient f q b) in *. set (ra := coefficient f r a) in *.
  set (rb := coefficient f r b) in *. set (sa := coefficient f r' a) in *. set (sb := coefficient f r' b) in *.
  rewrite (gmul_comm ra sb), gmul_assoc, H2 by assumption.
  rewrite gmul_assoc, H1 by assumption.
  rewrite <- !gmul_assoc by assumption. f_equal. apply gmul_comm; assumption.
Qed.

Lemma det_determines f r r' a b covered group : a <> b -> NoDup covered -> In a covered -> In b covered ->
  In (r, [a; b]) group -> In (r', covered) group -> det f r r' a b <> 0 -> forall U,
  (forall x, In x U -> x = a \/ x = b) -> determines f group U.
Proof.
  intros Hab Nd Ha Hb H1 H2 D U HU v V1 V2 V3.
  assert (Z : forall y, y <> a -> y <> b -> v y = 0).
  { intros y Hya Hyb. apply V2. intros A. apply HU in A. tauto. }
  pose proof (V3 _ _ H1) as E1. pose proof (V3 _ _ H2) as E2. cbn [map fold_right] in E1. rewrite N.lxor_0_r in E1.
  apply N.lxor_eq in E1. rewrite fold_xsum in E2. rewrite !gf_multiply_gmul in E1.
  rewrite (xsum_ext _ (fun y => N.lxor (if y =? a then gmul f (coefficient f r' a) (v a) else 0)
                                 (if y =? b then gmul f (coefficient f r' b) (v b) else 0))) in E2.
  2:{ intros y _. rewrite gf_multiply_gmul. destruct (N.eqb_spec y a) as [Ya|Ya]; destruct (N.eqb_spec y b) as [Yb|Yb];
      rewrite ?N.lxor_0_l, ?N.lxor_0_r; try congruence. rewrite Z by assumption. apply gmul_0_r. }
  rewrite xsum_lxor in E2. rewrite (xsum_single _ a _ Nd Ha), (xsum_single _ b _ Nd Hb), !N.eqb_refl in E2.
  2,3: intros y _ Hy; apply N.eqb_neq in Hy; rewrite Hy; reflexivity.
  apply N.lxor_eq in E2.
  pose proof (coef_elt f r a). pose proof (coef_elt f r b).
  pose proof (coef_elt f r' a). pose proof (coef_elt f r' b). pose proof (V1 a). pose proof (V1 b).
  set (ra := coefficient f r a) in *. set (rb := coefficient f r b) in *.
  set (sa := coefficient f r' a) in *. set (sb := coefficient f r' b) in *.
  assert (Va : v a = 0).
  { assert (W : gmul f (det f r r' a b) (v a) = 0).
    { unfold det. rewrite !gf_multiply_gmul. fold ra rb sa sb. rewrite gmul_lxor_l.
      rewrite (gmul_comm ra sb), <- !gmul_assoc, E1, E2 by assumption.
      rewrite !gmul_assoc by assumption. rewrite (gmul_comm rb sb) by assumption. apply N.lxor_nilpotent. }
    apply gmul_zero_divisor in W; [destruct W; [contradiction | assumption]| |assumption].
    unfold det. rewrite !gf_multiply_gmul. apply GFProofs.lxor_below; apply gmul_elt; assumption. }
  assert (Vb : v b = 0).
  { rewrite Va, gmul_0_r in E1. symmetry in E1. apply gmul_zero_divisor in E1; [|assumption|assumption].
    destruct E1 as [E1|E1]; [|exact E1]. destruct (coef_nonzero f r b). exact E1. }
  intros x. destruct (N.eq_dec x a) as [->|Xa]; [exact Va|]. destruct (N.eq_dec x b) as [->|Xb]; [exact Vb|]. apply Z; assumption.
Qed.

(** ** The receiver *)

Section Two.
Variable f : field.
Variable S : N -> list N.
Variable m : mode.
Variable lim : N.
Hypothesis Hlim0 : lim <= LIM.
Hypothesis HS : forall x, good_data f (S x).
Notation core := (core f S).
Notation inv := (inv f S lim).
Notation acceptable := (acceptable f S lim).

(** Only [a] and [b] are lacking, and nothing is stored but repairs about both. *)
Definition lacks (d : ddec) (a b : N) : Prop :=
  (forall x, miss d x -> x = a \/ x = b) /\ ~ In a (mkeys (d_sources d)) /\ ~ In b (mkeys (d_sources d))
  /\ not_outdated d a = true
  /\ forall q rep, mfind q (d_repairs d) = Some rep -> dr_ids rep = [a; b].

Lemma one_repair d a b : inv d -> calm d -> a < b -> lacks d a b -> forall q rep, mfind q (d_repairs d) = Some rep ->
  d_repairs d = [(q, rep)].
Proof.
  intros I Q Hab (Hm & _ & _ & _ & Hr) q rep E. pose proof (i_core _ _ _ _ I) as C.
  destruct (calm_fewer f S lim Hlim0 [] d C Q) as [Z|Z]; [rewrite Z in E; discriminate|].
  assert (L2 : (length (d_missing d) <= 2)%nat).
  { rewrite <- mkeys_length. change 2%nat with (length [a; b]). apply NoDup_incl_length.
    - apply ssorted_NoDup, C.
    - intros x Hx. destruct (Hm x Hx) as [->| ->]; cbn [In]; auto. }
  destruct (d_repairs d) as [|[k v] [|p l]]; [discriminate | | cbn [length] in Z; lia].
  cbn [mfind] in E. destruct (q =? k) eqn:Eq; [|discriminate]. apply N.eqb_eq in Eq. congruence.
Qed.

Lemma two_step d r d' a b : inv d -> calm d -> acceptable d r -> dr_ids r <> [] -> recv_repair m d r = Ok d' -> a < b -> lacks d a b ->
  In a (dr_ids r) -> In b (dr_ids r) -> (forall y, In y (dr_ids r) -> y = a \/ y = b \/ In y (mkeys (d_sources d))) ->
  (In a (mkeys (d_sources d')) /\ In b (mkeys (d_sources d')))
  \/ (lacks d' a b /\ exists q rep, d_repairs d' = [(q, rep)]
      /\ (d_repairs d = [] -> q = dr_id r) /\ (q = dr_id r \/ In q (mkeys (d_repairs d)))).
Proof.
  intros I Q A Ne H Hab La Ha Hb Hy. pose proof I as [C G L T]. pose proof La as (Hm & Na & Nb & No & Hr).
  destruct (repair_progress f S m lim Hlim0 HS d r I Q A Ne) as (d2 & H2 & Q'). assert (d2 = d') by congruence. subst d2. clear H2.
  destruct (recv_repair_spec f S m lim Hlim0 HS d r d' I A H) as (I' & Ev & X1 & X2).
  pose proof (g_sorted _ _ _ (b_genuine _ _ _ _ _ A)) as Sr.
  assert (Eo : outdated d (last (dr_ids r) 0) = false).
  { apply outdated_false. pose proof (sorted_last_max _ a Sr Ha). unfold not_outdated in *. destruct (d_last d); [|reflexivity].
    apply N.leb_le in No. apply N.leb_le. lia. }
  destruct (in_dec N.eq_dec (dr_id r) (mkeys (d_repairs d))) as [Hin|Hin].
  { right. rewrite (X1 (or_intror Hin)). split; [exact La|]. pose proof Hin as Hin'. apply mfind_keys in Hin'. destruct Hin' as [rep Er].
    exists (dr_id r), rep. split; [apply (one_repair d a b I Q Hab La _ _ Er)|]. auto. }
  destruct (X2 Eo Hin) as (Set_ & El & d0 & P & _ & R). clear X1 X2.
  pose proof P as [C0 G0 L0 V0 La0 Hm0 Hs0 Hr0 _ _ _].
  assert (K0 : forall z, K [] d0 z <-> In z (mkeys (d_sources d)) /\ hd 0 (dr_ids r) <= z).
  { intros z. unfold K. rewrite Hs0, mfrom_keys. cbn [In]. tauto. }
  assert (Ka : ~ K [] d0 a) by (rewrite K0; tauto). assert (Kb : ~ K [] d0 b) by (rewrite K0; tauto).
  destruct R as [U _|x U1 _ _ _ _|d1 r1 Lk _ At].
  { destruct (Ka (U a Ha)). }
  { exfalso. destruct (U1 a Ha) as [E1|E1]; [|contradiction]. destruct (U1 b Hb) as [E2|E2]; [|contradiction]. lia. }
  destruct Lk as [C1 G1 (R1 & M1 & E1) Hr1 Hreps Hid1 Gn1 Hids Hm1].
  assert (Ids : dr_ids r1 = [a; b]).
  { apply ssorted_ext; [apply Gn1 | apply ssorted_cons; [apply ssorted_cons; [apply ssorted_nil | intros y []] | intros y [<-|[]]; exact Hab]|].
    intros y. rewrite Hids, K0. cbn [In]. split.
    - intros [A1 A2]. destruct (Hy y A1) as [->|[->|A3]]; auto. destruct A2. split; [exact A3 | apply (sorted_hd _ y Sr A1)].
    - intros [<-|[<-|[]]]; split; try assumption; intros [A2 _]; contradiction. }
  assert (Miss1 : forall x, miss d1 x <-> x = a \/ x = b).
  { intros x. rewrite Hm1, Ids, Hm0. cbn [In]. split; [intros [[A1 _]|[A1|[A1|[]]]]; auto | intros [->| ->]; auto]. }
  assert (Old : forall k rep, mfind k (d_repairs d1) = Some rep ->
     dr_ids rep = [a; b] /\ (k = dr_id r \/ mfind k (d_repairs d) = Some rep)).
  { intros k rep Hk. rewrite Hreps, mfind_mset in Hk. destruct (N.eqb_spec k (dr_id r)) as [->|Hne].
    - assert (rep = r1) by congruence. subst rep. auto.
    - apply Hr0 in Hk. destruct Hk as [Hk _]. split; [apply (Hr k rep Hk) | right; exact Hk]. }
  assert (Lac : forall x, miss d' x -> x = a \/ x = b).
  { intros x Hx. destruct (e_missing _ _ _ _ Ev x Hx) as [A1|A1]; [apply Hm, A1|]. destruct (Hy x A1) as [A2|[A2|A2]]; auto.
    exfalso. apply (c_disj _ _ _ _ (i_core _ _ _ _ I') x Hx). left.
    destruct (e_settled _ _ _ _ Ev x (or_introl (or_introl A2))) as [[A3|[]]|A3]; [exact A3|].
    exfalso. pose proof (i_ge _ _ _ _ I' x (or_intror Hx)) as [A4 _]. apply outdated_true in A3. congruence. }
  assert (Logs1 : DecoderInv.logs S lim N.lt [] d1) by (apply logs_same with (2 := L0); rewrite E1; repeat split).
  assert (Fin : d_sources d' = d_sources d1 -> forall q rep, d_repairs d' = [(q, rep)] -> mfind q (d_repairs d1) = Some rep ->
     lacks d' a b /\ exists q rep, d_repairs d' = [(q, rep)]
      /\ (d_repairs d = [] -> q = dr_id r) /\ (q = dr_id r \/ In q (mkeys (d_repairs d)))).
  { intros Es q rep Er Ef. destruct (Old q rep Ef) as [Hi Hq]. split.
    - assert (Ns : forall x, x = a \/ x = b -> ~ In x (mkeys (d_sources d'))).
      { intros x Hx. rewrite Es, E1. cbn [with_repairs with_missing d_sources]. intros A1.
        destruct Hx as [->| ->]; [apply Ka | apply Kb]; left; exact A1. }
      split; [exact Lac|]. split; [apply Ns; auto|]. split; [apply Ns; auto|]. split.
      + unfold not_outdated. rewrite El. apply N.leb_le, (sorted_hd _ a Sr Ha).
      + intros q' rep' Hq'. rewrite Er in Hq'. cbn [mfind] in Hq'. destruct (q' =? q); [|discriminate]. congruence.
    - exists q, rep. split; [exact Er|]. split; [intros Z; rewrite Z in Hq; destruct Hq as [->|Hq]; [reflexivity | discriminate]|].
      destruct Hq as [->|Hq]; [left; reflexivity | right; apply mfind_keys; eauto]. }
  assert (Two : length (d_missing d1) = 2%nat).
  { assert (E : mkeys (d_missing d1) = [a; b]).
    { apply ssorted_ext; [apply C1 | apply ssorted_cons; [apply ssorted_cons; [apply ssorted_nil | intros y []] | intros y [<-|[]]; exact Hab]|].
      intros y. rewrite (Miss1 y). cbn [In]. intuition congruence. }
    rewrite <- mkeys_length, E. reflexivity. }
  destruct (attempt_spec f S m lim Hlim0 HS d1 d' C1 G1 Logs1 At) as [-> | r' rep' Er' Len -> | d1' Len Dc ->].
  - right. destruct (calm_fewer f S lim Hlim0 [] d1 C1 Q') as [Z|Z]; [rewrite Z in Hr1; discriminate|].
    apply (Fin eq_refl (dr_id r) r1); [|exact Hr1].
    destruct (d_repairs d1) as [|[k v] [|p l]]; [discriminate | | cbn [length] in Z; lia].
    cbn [mfind] in Hr1. destruct (dr_id r =? k) eqn:Eq; [|discriminate]. apply N.eqb_eq in Eq. congruence.
  - right. rewrite Two in Len. cbn [with_failed with_repairs with_missing d_repairs d_sources] in *.
    assert (Sm : msorted (d_repairs d1)) by apply C1.
    destruct (d_repairs d1) as [|[k v] [|[k' v'] [|p l]]] eqn:Ed; try discriminate.
    assert (Hk : k <> k').
    { intros ->. apply ssorted_NoDup in Sm. cbn [mkeys map fst] in Sm. inversion Sm as [|? ? A1 A2]. apply A1. left. reflexivity. }
    cbn [mfind] in Er'. destruct (N.eqb_spec r' k) as [->|Nk].
    + apply (Fin eq_refl k' v').
      * cbn [merase]. rewrite N.eqb_refl. reflexivity.
      * cbn [mfind]. rewrite N.eqb_refl. destruct (N.eqb_spec k' k); [congruence | reflexivity].
    + destruct (N.eqb_spec r' k') as [->|]; [|discriminate]. apply (Fin eq_refl k v).
      * cbn [merase]. destruct (N.eqb_spec k' k); [congruence|]. rewrite N.eqb_refl. reflexivity.
      * cbn [mfind]. rewrite N.eqb_refl. reflexivity.
  - left. cbn [with_missing with_repairs count_decoded with_decoded d_sources].
    split; [destruct (proj2 (q_known _ _ _ _ _ Dc a)) as [A1|[]] | destruct (proj2 (q_known _ _ _ _ _ Dc b)) as [A1|[]]];
      try exact A1; right; apply Miss1; auto.
Qed.
End Two.
