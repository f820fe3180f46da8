(** * Laws of the region operations of [GF.v] *)
From Coq Require Import NArith List Bool Lia Arith.
From Verif Require Import Outcome GF GFProofs GFField.
Import ListNotations.
Open Scope N_scope.

Definition bytes_fn (v : nat -> N) : Prop := forall i, v i < 256.
Definition bytes (l : list N) : Prop := Forall (fun b => b < 256) l.

Lemma bytes_fn_nth l : bytes l -> bytes_fn (fun i => nth i l 0).
Proof.
  intros H i. destruct (Nat.lt_ge_cases i (length l)).
  - unfold bytes in H. rewrite Forall_forall in H. now apply H, nth_In.
  - rewrite nth_overflow by assumption. reflexivity.
Qed.

(** ** Bit-level helpers *)

Lemma land_lxor_l a b c : N.land (N.lxor a b) c = N.lxor (N.land a c) (N.land b c).
Proof.
  apply N.bits_inj. intros i. rewrite N.lxor_spec, !N.land_spec, N.lxor_spec.
  destruct (N.testbit a i), (N.testbit b i), (N.testbit c i); reflexivity.
Qed.

Lemma land_ones_low a n : a < 2 ^ n -> N.land a (N.ones n) = a.
Proof.
  intros H. rewrite N.land_ones. now apply N.mod_small.
Qed.

Lemma shiftr_below a n m : a < 2 ^ (n + m) -> N.shiftr a m < 2 ^ n.
Proof.
  intros H. apply below_of_bits. intros i Hi. rewrite N.shiftr_spec by lia.
  apply testbit_above with (n + m); [assumption|lia].
Qed.

Lemma shiftl_below a n m : a < 2 ^ n -> N.shiftl a m < 2 ^ (n + m).
Proof.
  intros H. rewrite N.shiftl_mul_pow2, N.pow_add_r.
  apply N.mul_lt_mono_pos_r; [|assumption].
  apply N.neq_0_lt_0, N.pow_nonzero. lia.
Qed.

Lemma shiftr_small a n : a < 2 ^ n -> N.shiftr a n = 0.
Proof. intros H. rewrite N.shiftr_div_pow2. now apply N.div_small. Qed.

Lemma below_mono a n m : n <= m -> a < 2 ^ n -> a < 2 ^ m.
Proof.
  intros Hn H. eapply N.lt_le_trans; [exact H|]. apply N.pow_le_mono_r; lia.
Qed.

Lemma low_of_sum g h n : g < 2 ^ n -> N.land (N.lxor g (N.shiftl h n)) (N.ones n) = g.
Proof.
  intros Hg. rewrite land_lxor_l, land_ones_low by assumption.
  rewrite N.land_ones, N.shiftl_mul_pow2, N.mod_mul by (apply N.pow_nonzero; lia).
  apply N.lxor_0_r.
Qed.

Lemma high_of_sum g h n : g < 2 ^ n -> N.shiftr (N.lxor g (N.shiftl h n)) n = h.
Proof.
  intros Hg. rewrite N.shiftr_lxor, shiftr_small by assumption.
  rewrite N.shiftr_shiftl_l, N.sub_diag, N.shiftl_0_r by lia. apply N.lxor_0_l.
Qed.

Lemma split_word x n : N.lxor (N.land x (N.ones n)) (N.shiftl (N.shiftr x n) n) = x.
Proof.
  apply N.bits_inj. intros i. rewrite N.lxor_spec, N.land_spec.
  destruct (N.lt_ge_cases i n) as [Hlt|Hge].
  - rewrite N.ones_spec_low, N.shiftl_spec_low by assumption.
    now rewrite andb_true_r, xorb_false_r.
  - rewrite N.ones_spec_high, N.shiftl_spec_high' by assumption.
    rewrite N.shiftr_spec by lia. rewrite andb_false_r, xorb_false_l.
    f_equal. lia.
Qed.

(** ** Words and bytes *)

Lemma le_dec_lxor n u v k :
  le_dec n (fun i => N.lxor (u i) (v i)) k = N.lxor (le_dec n u k) (le_dec n v k).
Proof.
  revert k. induction n as [|n IH]; intros k; [reflexivity|].
  simpl. rewrite IH, N.shiftl_lxor. apply lxor_swap.
Qed.

Lemma le_dec_below n v k : bytes_fn v -> le_dec n v k < 2 ^ (8 * N.of_nat n).
Proof.
  intros Hv. revert k. induction n as [|n IH]; intros k; [reflexivity|].
  simpl le_dec. apply lxor_below.
  - apply below_mono with 8; [lia|apply Hv].
  - replace (8 * N.of_nat (S n)) with (8 * N.of_nat n + 8) by lia.
    apply shiftl_below, IH.
Qed.

Lemma le_dec_ext n u v k :
  (forall t, (t < n)%nat -> u (k + t)%nat = v (k + t)%nat) -> le_dec n u k = le_dec n v k.
Proof.
  revert k. induction n as [|n IH]; intros k H; [reflexivity|]. simpl. f_equal.
  - specialize (H 0%nat). rewrite Nat.add_0_r in H. apply H. lia.
  - f_equal. apply IH. intros t Ht.
    replace (S k + t)%nat with (k + S t)%nat by lia. apply H. lia.
Qed.

Lemma le_dec_0 n k : le_dec n (fun _ => 0) k = 0.
Proof.
  revert k. induction n as [|n IH]; intros k; [reflexivity|].
  simpl. now rewrite IH.
Qed.

Lemma le_byte_lxor x y t : le_byte (N.lxor x y) t = N.lxor (le_byte x t) (le_byte y t).
Proof. unfold le_byte. now rewrite N.shiftr_lxor, land_lxor_l. Qed.

Lemma le_byte_below x t : le_byte x t < 256.
Proof.
  unfold le_byte. change 255 with (N.ones 8). rewrite N.land_ones.
  now apply N.mod_lt.
Qed.

Lemma le_byte_0 t : le_byte 0 t = 0.
Proof. unfold le_byte. now rewrite N.shiftr_0_l. Qed.

Lemma le_byte_S g h t : g < 256 -> le_byte (N.lxor g (N.shiftl h 8)) (S t) = le_byte h t.
Proof.
  intros Hg. unfold le_byte.
  replace (8 * N.of_nat (S t)) with (8 + 8 * N.of_nat t) by lia.
  rewrite <- N.shiftr_shiftr, high_of_sum; [reflexivity|assumption].
Qed.

Lemma le_byte_dec n v k t :
  bytes_fn v -> (t < n)%nat -> le_byte (le_dec n v k) t = v (k + t)%nat.
Proof.
  intros Hv. revert k t. induction n as [|n IH]; intros k t Ht; [lia|].
  simpl le_dec. destruct t as [|t].
  - unfold le_byte. change (8 * N.of_nat 0) with 0.
    rewrite N.shiftr_0_r, Nat.add_0_r.
    change 255 with (N.ones 8). apply low_of_sum, Hv.
  - rewrite le_byte_S by apply Hv. rewrite IH by lia. f_equal. lia.
Qed.

Lemma le_dec_byte n x k :
  x < 2 ^ (8 * N.of_nat n) -> le_dec n (fun i => le_byte x (i - k)) k = x.
Proof.
  revert x k. induction n as [|n IH]; intros x k Hx.
  - change (2 ^ (8 * N.of_nat 0)) with 1 in Hx. simpl. lia.
  - simpl le_dec. rewrite Nat.sub_diag.
    rewrite (le_dec_ext n _ (fun i => le_byte (N.shiftr x 8) (i - S k))).
    + rewrite IH.
      * unfold le_byte. change (8 * N.of_nat 0) with 0. rewrite N.shiftr_0_r.
        change 255 with (N.ones 8). apply split_word.
      * apply shiftr_below. replace (8 * N.of_nat n + 8) with (8 * N.of_nat (S n)) by lia.
        assumption.
    + intros t Ht. unfold le_byte. rewrite N.shiftr_shiftr. f_equal. f_equal. lia.
Qed.

(** ** Words times coefficients *)

Section Words.
Context {f : field}.

Definition word (x : N) : Prop := x < 2 ^ (8 * N.of_nat (wbytes f)).

Lemma word_lxor x y : word x -> word y -> word (N.lxor x y).
Proof. apply lxor_below. Qed.

Lemma mulword_lxor_r c x y : mulword f c (N.lxor x y) = N.lxor (mulword f c x) (mulword f c y).
Proof.
  unfold mulword. destruct f; try apply gmul_lxor_r.
  rewrite land_lxor_l, N.shiftr_lxor, !gmul_lxor_r, N.shiftl_lxor. apply lxor_swap.
Qed.

Lemma mulword_lxor_l c d x : mulword f (N.lxor c d) x = N.lxor (mulword f c x) (mulword f d x).
Proof.
  unfold mulword. destruct f; try apply gmul_lxor_l.
  rewrite !gmul_lxor_l, N.shiftl_lxor. apply lxor_swap.
Qed.

Lemma mulword_0_l x : mulword f 0 x = 0.
Proof. unfold mulword. destruct f; rewrite !gmul_0_l; reflexivity. Qed.

Lemma mulword_0_r c : mulword f c 0 = 0.
Proof. unfold mulword. destruct f; reflexivity. Qed.

Lemma mulword_1 x : word x -> mulword f 1 x = x.
Proof.
  unfold word, mulword. intros H. destruct f; try (now apply gmul_1_l).
  change (8 * N.of_nat (wbytes W4)) with (4 + 4) in H.
  rewrite !gmul_1_l.
  - change 15 with (N.ones 4). apply split_word.
  - apply shiftr_below in H. exact H.
  - change 15 with (N.ones 4). rewrite N.land_ones. apply N.mod_lt. discriminate.
Qed.

Lemma mulword_word c x : elt f c -> word (mulword f c x).
Proof.
  unfold word, mulword. intros Hc.
  destruct f; [|exact (gmul_elt c x Hc)|exact (gmul_elt c x Hc)|exact (gmul_elt c x Hc)].
  change (8 * N.of_nat (wbytes W4)) with (4 + 4). apply lxor_below.
  - apply below_mono with 4; [lia|]. now apply (@gmul_elt W4).
  - apply shiftl_below. now apply (@gmul_elt W4).
Qed.

Lemma mulword_mulword a b x : elt f a -> elt f b ->
  mulword f a (mulword f b x) = mulword f (gmul f a b) x.
Proof.
  intros Ha Hb. unfold mulword. destruct f; try (now apply gmul_assoc).
  change 15 with (N.ones 4).
  rewrite low_of_sum by now apply (@gmul_elt W4).
  rewrite high_of_sum by now apply (@gmul_elt W4).
  now rewrite !gmul_assoc by assumption.
Qed.

(** ** Regions as functions *)

Lemma wbytes_pos : (1 <= wbytes f)%nat.
Proof. destruct f; simpl; lia. Qed.

Lemma rmul_at_below c v i : rmul_at f c v i < 256.
Proof. apply le_byte_below. Qed.

Lemma rmul_at_lxor_r c u v i :
  rmul_at f c (fun j => N.lxor (u j) (v j)) i = N.lxor (rmul_at f c u i) (rmul_at f c v i).
Proof. unfold rmul_at. now rewrite le_dec_lxor, mulword_lxor_r, le_byte_lxor. Qed.

Lemma rmul_at_lxor_l c d v i :
  rmul_at f (N.lxor c d) v i = N.lxor (rmul_at f c v i) (rmul_at f d v i).
Proof. unfold rmul_at. now rewrite mulword_lxor_l, le_byte_lxor. Qed.

Lemma rmul_at_0_l v i : rmul_at f 0 v i = 0.
Proof. unfold rmul_at. now rewrite mulword_0_l, le_byte_0. Qed.

Lemma rmul_at_0_r c i : rmul_at f c (fun _ => 0) i = 0.
Proof. unfold rmul_at. now rewrite le_dec_0, mulword_0_r, le_byte_0. Qed.

Lemma div_mod_word i : (i = wbytes f * (i / wbytes f) + i mod wbytes f)%nat.
Proof. apply Nat.div_mod. pose proof wbytes_pos. lia. Qed.

Lemma mod_word_lt i : (i mod wbytes f < wbytes f)%nat.
Proof. apply Nat.mod_upper_bound. pose proof wbytes_pos. lia. Qed.

Lemma word_index q t : (t < wbytes f)%nat ->
  ((wbytes f * q + t) / wbytes f = q /\ (wbytes f * q + t) mod wbytes f = t)%nat.
Proof.
  intros Ht. split.
  - symmetry. apply Nat.div_unique with t; lia.
  - symmetry. apply Nat.mod_unique with q; lia.
Qed.

Lemma rmul_at_ext c u v i :
  (forall t, (t < wbytes f)%nat ->
     u (wbytes f * (i / wbytes f) + t)%nat = v (wbytes f * (i / wbytes f) + t)%nat) ->
  rmul_at f c u i = rmul_at f c v i.
Proof. intros H. unfold rmul_at. now rewrite (le_dec_ext _ u v). Qed.

Lemma rmul_at_ext_all c u v i : (forall j, u j = v j) -> rmul_at f c u i = rmul_at f c v i.
Proof. intros H. apply rmul_at_ext. auto. Qed.

Lemma rmul_at_1 v i : bytes_fn v -> rmul_at f 1 v i = v i.
Proof.
  intros Hv. unfold rmul_at. rewrite mulword_1 by (apply le_dec_below, Hv).
  rewrite le_byte_dec; [|assumption|apply mod_word_lt].
  now rewrite <- div_mod_word.
Qed.

Lemma le_dec_rmul b v q : elt f b ->
  le_dec (wbytes f) (rmul_at f b v) (wbytes f * q)
  = mulword f b (le_dec (wbytes f) v (wbytes f * q)).
Proof.
  intros Hb.
  rewrite (le_dec_ext _ _
    (fun i => le_byte (mulword f b (le_dec (wbytes f) v (wbytes f * q))) (i - wbytes f * q))).
  - apply le_dec_byte. now apply mulword_word.
  - intros t Ht. unfold rmul_at.
    destruct (word_index q t Ht) as [-> ->]. f_equal. lia.
Qed.

Lemma rmul_at_rmul_at a b v i : elt f a -> elt f b ->
  rmul_at f a (rmul_at f b v) i = rmul_at f (gmul f a b) v i.
Proof.
  intros Ha Hb. unfold rmul_at at 1 3.
  now rewrite le_dec_rmul, mulword_mulword.
Qed.

(** Truncation at a word boundary. *)
Lemma rmul_at_truncate c v n i : (n mod wbytes f = 0)%nat ->
  rmul_at f c (fun j => if (j <? n)%nat then v j else 0) i
  = if (i <? n)%nat then rmul_at f c v i else 0.
Proof.
  intros Hn. pose proof wbytes_pos as Hp.
  assert (Hn' : (n = wbytes f * (n / wbytes f))%nat).
  { apply Nat.div_exact; [lia|assumption]. }
  pose proof (div_mod_word i) as Hi. pose proof (mod_word_lt i) as Hm.
  destruct (Nat.ltb_spec i n) as [Hlt|Hge].
  - apply rmul_at_ext. intros t Ht.
    assert (i / wbytes f < n / wbytes f)%nat by nia.
    destruct (Nat.ltb_spec (wbytes f * (i / wbytes f) + t) n); [reflexivity|nia].
  - transitivity (rmul_at f c (fun _ => 0) i); [|apply rmul_at_0_r]. apply rmul_at_ext. intros t Ht.
    assert (n / wbytes f <= i / wbytes f)%nat by nia.
    destruct (Nat.ltb_spec (wbytes f * (i / wbytes f) + t) n); [nia|reflexivity].
Qed.

End Words.

(** ** Regions as lists *)

Lemma rmul_length f c l : length (rmul f c l) = length l.
Proof. unfold rmul. now rewrite map_length, seq_length. Qed.

Lemma rmul_nth f c l i : (i < length l)%nat ->
  nth i (rmul f c l) 0 = rmul_at f c (fun j => nth j l 0) i.
Proof.
  intros H. unfold rmul.
  rewrite nth_indep with (d' := rmul_at f c (fun j => nth j l 0) 0%nat)
    by (rewrite map_length, seq_length; assumption).
  rewrite map_nth, seq_nth by assumption. reflexivity.
Qed.

Lemma nth_firstn (l : list N) n i :
  nth i (firstn n l) 0 = if (i <? n)%nat then nth i l 0 else 0.
Proof.
  revert n i. induction l as [|x l IH]; intros n i.
  - rewrite firstn_nil. destruct i; destruct (_ <? _)%nat; reflexivity.
  - destruct n; [destruct i; reflexivity|]. destruct i; [reflexivity|].
    simpl. rewrite IH. reflexivity.
Qed.

(** For aligned regions the byte at any position (zero beyond the end) is the
    one of the product of the zero-extended region. *)
Lemma rmul_nth_all f c l i : aligned f (length l) = true ->
  nth i (rmul f c l) 0 = rmul_at f c (fun j => nth j l 0) i.
Proof.
  intros Ha. destruct (Nat.lt_ge_cases i (length l)) as [H|H]; [now apply rmul_nth|].
  rewrite nth_overflow by now rewrite rmul_length.
  apply Nat.eqb_eq in Ha.
  pose proof (@rmul_at_truncate f c (fun j => nth j l 0) (length l) i Ha) as Ht.
  destruct (Nat.ltb_spec i (length l)); [lia|]. symmetry. etransitivity; [|exact Ht].
  apply rmul_at_ext_all. intros j.
  destruct (Nat.ltb_spec j (length l)); [reflexivity|now apply nth_overflow].
Qed.

Lemma rmul_bytes f c l : bytes (rmul f c l).
Proof.
  unfold bytes, rmul. rewrite Forall_forall. intros x Hx.
  apply in_map_iff in Hx as [i [<- _]]. apply rmul_at_below.
Qed.

Lemma xorl_nil_r a : xorl a [] = a.
Proof. destruct a; reflexivity. Qed.

Lemma xorl_nth a b i : nth i (xorl a b) 0 = N.lxor (nth i a 0) (nth i b 0).
Proof.
  revert b i. induction a as [|x a IH]; intros b i.
  - simpl. destruct i; now rewrite N.lxor_0_l.
  - destruct b as [|y b].
    + simpl xorl. destruct i; simpl; now rewrite N.lxor_0_r.
    + destruct i; [reflexivity|]. simpl. apply IH.
Qed.

Lemma xorl_length a b : length (xorl a b) = Nat.max (length a) (length b).
Proof.
  revert b. induction a as [|x a IH]; intros b; [reflexivity|].
  destruct b as [|y b]; [reflexivity|]. simpl. now rewrite IH.
Qed.

Lemma xorl_bytes a b : bytes a -> bytes b -> bytes (xorl a b).
Proof.
  unfold bytes. intros Ha. revert b. induction Ha as [|x a Hx Ha IH]; intros b Hb; [assumption|].
  destruct Hb as [|y b Hy Hb]; [now constructor|].
  simpl. constructor; [now apply (lxor_below x y 8)|now apply IH].
Qed.

Lemma list_eq_nth (a b : list N) :
  length a = length b -> (forall i, (i < length a)%nat -> nth i a 0 = nth i b 0) -> a = b.
Proof. intros Hl H. apply nth_ext with 0 0; assumption. Qed.

Lemma bytes_firstn n l : bytes l -> bytes (firstn n l).
Proof.
  intros H. unfold bytes in *. rewrite Forall_forall in *. intros x Hx.
  apply H. rewrite <- (firstn_skipn n l). apply in_or_app. now left.
Qed.

Lemma bytes_app a b : bytes a -> bytes b -> bytes (a ++ b).
Proof. intros. apply Forall_app. now split. Qed.

Lemma bytes_repeat0 n : bytes (repeat 0 n).
Proof. apply Forall_forall. intros x Hx. apply repeat_spec in Hx. subst. reflexivity. Qed.
