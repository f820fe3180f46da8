(** * Facts about whole region operations, used by the properties of the field *)
From Coq Require Import NArith List Bool Lia Arith.
From Verif Require Import Outcome GF GFProofs GFField GFRegion Linear.
Import ListNotations.
Open Scope N_scope.

Lemma nth_all_eq (a b : list N) : length a = length b ->
  (forall i, nth i a 0 = nth i b 0) -> a = b.
Proof. intros Hl H. apply list_eq_nth; auto. Qed.

Lemma rmul_1 f l : bytes l -> rmul f 1 l = l.
Proof.
  intros H. apply list_eq_nth; [apply rmul_length|]. rewrite rmul_length. intros i Hi.
  rewrite rmul_nth by assumption. now apply rmul_at_1, bytes_fn_nth.
Qed.

Lemma rmul_rmul f a b l : elt f a -> elt f b -> aligned f (length l) = true ->
  rmul f a (rmul f b l) = rmul f (gmul f a b) l.
Proof.
  intros Ha Hb Hl. apply list_eq_nth; [now rewrite !rmul_length|]. rewrite !rmul_length.
  intros i Hi. rewrite !rmul_nth by (rewrite ?rmul_length; assumption).
  rewrite <- rmul_at_rmul_at by assumption. apply rmul_at_ext_all. intros j.
  now apply rmul_nth_all.
Qed.

Lemma rmul_xorl f c a b : length a = length b -> aligned f (length a) = true ->
  rmul f c (xorl a b) = xorl (rmul f c a) (rmul f c b).
Proof.
  intros Hl Ha.
  assert (Hab : length (xorl a b) = length a) by (rewrite xorl_length; lia).
  apply nth_all_eq; [rewrite xorl_length, !rmul_length; lia|]. intros i.
  rewrite xorl_nth, !rmul_nth_all by congruence.
  rewrite <- rmul_at_lxor_r. apply rmul_at_ext_all. intros j. apply xorl_nth.
Qed.

Lemma rmul_xorl_coeff f c d a : aligned f (length a) = true ->
  rmul f (N.lxor c d) a = xorl (rmul f c a) (rmul f d a).
Proof.
  intros Ha. apply nth_all_eq; [rewrite xorl_length, !rmul_length; lia|]. intros i.
  rewrite xorl_nth, !rmul_nth_all by assumption. apply rmul_at_lxor_l.
Qed.

Lemma xorl_cancel a b : (length a <= length b)%nat -> xorl a (xorl a b) = b.
Proof.
  intros H. apply nth_all_eq; [rewrite !xorl_length; lia|]. intros i.
  rewrite !xorl_nth. rewrite <- N.lxor_assoc, N.lxor_nilpotent. apply N.lxor_0_l.
Qed.

Lemma rmul_firstn f c l n : (n <= length l)%nat -> aligned f n = true ->
  rmul f c (firstn n l) = firstn n (rmul f c l).
Proof.
  intros Hn Ha.
  assert (E : length (firstn n l) = n) by now apply firstn_length_le.
  apply list_eq_nth.
  - rewrite rmul_length, E, firstn_length_le; rewrite ?rmul_length; lia.
  - rewrite rmul_length, E. intros i Hi. rewrite rmul_nth by lia.
    rewrite nth_firstn. assert (Hl : (i <? n)%nat = true) by now apply Nat.ltb_lt.
    rewrite Hl, rmul_nth by lia.
    rewrite (rmul_at_ext_all c _ (fun j => if (j <? n)%nat then nth j l 0 else 0))
      by (intros j; apply nth_firstn).
    rewrite rmul_at_truncate, Hl; [reflexivity|]. now apply Nat.eqb_eq.
Qed.

Lemma nth_pad (l : list N) k i : nth i (l ++ repeat 0 k) 0 = nth i l 0.
Proof.
  destruct (Nat.lt_ge_cases i (length l)) as [H|H].
  - now apply app_nth1.
  - rewrite app_nth2, (nth_overflow l) by assumption. apply nth_repeat.
Qed.

Lemma rmul_pad f c l k : aligned f (length l) = true -> aligned f k = true ->
  rmul f c (l ++ repeat 0 k) = rmul f c l ++ repeat 0 k.
Proof.
  intros Ha Hk.
  assert (Hal : aligned f (length (l ++ repeat 0 k)) = true).
  { unfold aligned in *. apply Nat.eqb_eq in Ha, Hk. apply Nat.eqb_eq.
    rewrite app_length, repeat_length.
    rewrite Nat.add_mod, Ha, Hk by (destruct f; discriminate).
    destruct f; reflexivity. }
  apply nth_all_eq.
  - now rewrite rmul_length, !app_length, rmul_length.
  - intros i. rewrite nth_pad, !rmul_nth_all by assumption.
    apply rmul_at_ext_all. intros j. apply nth_pad.
Qed.
