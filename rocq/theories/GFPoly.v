(** * Products of polynomials over GF(2): a specification of the field multiplication that does not use the model, and the
      proof that the model's shift-and-xor multiplication meets it *)
From Coq Require Import Arith NArith List Bool Lia.
From Verif Require Import GF GFField GFProofs GFRegion.
Import ListNotations.
Open Scope N_scope.

(** A number stands for the polynomial over GF(2) whose coefficient of [x^i] is bit [i]. The coefficient of [x^n] in the
    product of two polynomials is the sum of the products of their coefficients of [x^(n-i)] and [x^i]. *)
Definition coefficient_sum (a b : N) (n : nat) : bool :=
  fold_right xorb false (map (fun i => N.testbit a (N.of_nat (n - i)) && N.testbit b (N.of_nat i)) (seq 0 (S n))).

(** [p] is the product of the polynomials [a] and [b]. *)
Definition poly_product (p a b : N) : Prop := forall n, N.testbit p (N.of_nat n) = coefficient_sum a b n.

(** [r] is the remainder of the polynomial [a] in the division by [m], a polynomial of degree [w]. *)
Definition poly_remainder (r a m w : N) : Prop :=
  r < 2 ^ w /\ exists q qm, poly_product qm q m /\ a = N.lxor qm r.

(** The polynomial with the given exponents. *)
Definition with_exponents (p : N) (l : list N) : Prop := forall n, N.testbit p n = existsb (N.eqb n) l.

(** ** The product, computed *)

Fixpoint clmul_pos (a : N) (b : positive) : N :=
  match b with
  | xH => a
  | xO b' => N.double (clmul_pos a b')
  | xI b' => N.lxor a (N.double (clmul_pos a b'))
  end.
Definition clmul (a b : N) : N := match b with N0 => 0 | Npos b => clmul_pos a b end.

Lemma testbit_double a n : N.testbit (N.double a) (N.of_nat n) = match n with O => false | S n => N.testbit a (N.of_nat n) end.
Proof.
  destruct n as [|n]; [destruct a; reflexivity|]. rewrite Nat2N.inj_succ, N.double_spec. apply N.testbit_even_succ. apply N.le_0_l.
Qed.

Lemma testbit_succ_double a n : N.testbit (N.succ_double a) (N.of_nat n) = match n with O => true | S n => N.testbit a (N.of_nat n) end.
Proof.
  destruct n as [|n]; [destruct a; reflexivity|]. rewrite Nat2N.inj_succ, N.succ_double_spec. apply N.testbit_odd_succ. apply N.le_0_l.
Qed.

Lemma coefficient_sum_step a b b' c n :
  (forall i, N.testbit b (N.of_nat i) = match i with O => c | S i => N.testbit b' (N.of_nat i) end) ->
  coefficient_sum a b n = xorb (N.testbit a (N.of_nat n) && c) (match n with O => false | S n => coefficient_sum a b' n end).
Proof.
  intros Hb. unfold coefficient_sum at 1. cbn [seq map fold_right]. rewrite Nat.sub_0_r, (Hb 0%nat). f_equal.
  destruct n as [|n]; [reflexivity|]. unfold coefficient_sum. rewrite <- seq_shift, map_map. f_equal. apply map_ext. intros i.
  rewrite (Hb (S i)). reflexivity.
Qed.

Lemma coefficient_sum_0 a n : coefficient_sum a 0 n = false.
Proof.
  unfold coefficient_sum. induction (seq 0 (S n)) as [|i l IH]; [reflexivity|]. cbn [map fold_right]. rewrite IH, N.bits_0, andb_false_r. reflexivity.
Qed.

Lemma clmul_product a b : poly_product (clmul a b) a b.
Proof.
  destruct b as [|b]; [intros n; rewrite coefficient_sum_0; apply N.bits_0|].
  cbn [clmul]. induction b as [b IH|b IH|]; intros n; cbn [clmul_pos].
  - rewrite N.lxor_spec, testbit_double. rewrite (coefficient_sum_step a (Npos (xI b)) (Npos b) true n).
    + rewrite andb_true_r. destruct n; [reflexivity|]. now rewrite IH.
    + intros i. apply (testbit_succ_double (Npos b)).
  - rewrite testbit_double. rewrite (coefficient_sum_step a (Npos (xO b)) (Npos b) false n).
    + rewrite andb_false_r, xorb_false_l. destruct n; [reflexivity|]. now rewrite IH.
    + intros i. apply (testbit_double (Npos b)).
  - rewrite (coefficient_sum_step a 1 0 true n).
    + rewrite andb_true_r. destruct n; [now rewrite xorb_false_r|]. now rewrite coefficient_sum_0, xorb_false_r.
    + intros i. rewrite <- (testbit_succ_double 0). reflexivity.
Qed.

(** Products and remainders are unique. *)
Lemma poly_product_inj p p' a b : poly_product p a b -> poly_product p' a b -> p = p'.
Proof. intros H H'. apply N.bits_inj. intros n. rewrite <- (N2Nat.id n), H, H'. reflexivity. Qed.

Lemma clmul_lxor_l a b c : clmul (N.lxor a b) c = N.lxor (clmul a c) (clmul b c).
Proof.
  destruct c as [|c]; [reflexivity|]. cbn [clmul]. induction c as [c IH|c IH|]; cbn [clmul_pos]; [| |reflexivity].
  - rewrite IH, double_lxor. apply lxor_swap.
  - now rewrite IH, double_lxor.
Qed.

Lemma clmul_double_l a c : clmul (N.double a) c = N.double (clmul a c).
Proof.
  destruct c as [|c]; [reflexivity|]. cbn [clmul]. induction c as [c IH|c IH|]; cbn [clmul_pos]; [| |reflexivity].
  - now rewrite IH, (double_lxor a).
  - now rewrite IH.
Qed.

Lemma clmul_1_l c : clmul 1 c = c.
Proof.
  destruct c as [|c]; [reflexivity|]. cbn [clmul]. induction c as [c IH|c IH|]; cbn [clmul_pos]; [| |reflexivity]; rewrite IH; reflexivity.
Qed.

Lemma clmul_0_l c : clmul 0 c = 0.
Proof. rewrite <- (N.lxor_nilpotent 1) at 1. rewrite clmul_lxor_l. apply N.lxor_nilpotent. Qed.

Lemma xtime_quotient w p x a q : x = N.lxor a (clmul q p) -> exists q', xtime w p x = N.lxor (N.double a) (clmul q' p).
Proof.
  intros ->. unfold xtime. rewrite double_lxor, <- clmul_double_l. destruct (N.testbit _ _).
  - exists (N.lxor (N.double q) 1). rewrite clmul_lxor_l, clmul_1_l. now rewrite N.lxor_assoc.
  - exists (N.double q). reflexivity.
Qed.

Lemma gmul_quotient w p a b : exists q, gmul_gen w p a b = N.lxor (clmul a b) (clmul q p).
Proof.
  destruct b as [|b]; [exists 0; rewrite clmul_0_l; reflexivity|].
  cbn [gmul_gen clmul]. induction b as [b [q IH]|b [q IH]|]; cbn [gmul_pos clmul_pos].
  - destruct (xtime_quotient w p _ _ _ IH) as [q' H]. exists q'. rewrite H. now rewrite N.lxor_assoc.
  - apply (xtime_quotient w p _ _ _ IH).
  - exists 0. rewrite clmul_0_l. symmetry. apply N.lxor_0_r.
Qed.

Lemma gmul_remainder f a b : a < 2 ^ wbits f ->
  exists ab, poly_product ab a b /\ poly_remainder (gmul f a b) ab (gf_poly f) (wbits f).
Proof.
  intros Ha. exists (clmul a b). split; [apply clmul_product|]. split; [now apply gmul_elt|].
  destruct (gmul_quotient (wbits f) (gf_poly f) a b) as [q H]. exists q, (clmul q (gf_poly f)). split; [apply clmul_product|].
  unfold gmul. rewrite H, (N.lxor_comm (clmul a b)), <- N.lxor_assoc, N.lxor_nilpotent. symmetry. apply N.lxor_0_l.
Qed.

(** The remainder is unique: no multiple of [m] except 0 has a degree less than that of [m]. *)
Lemma multiple_high q m w : m < 2 ^ (w + 1) -> N.testbit m w = true -> q <> 0 -> exists k, w <= k /\ N.testbit (clmul q m) k = true.
Proof.
  intros Hm Ht. induction q as [|q IH|q IH] using N.binary_ind; intros Hq.
  - congruence.
  - rewrite clmul_double_l. destruct IH as (k & Hk & Hb); [intros ->; apply Hq; reflexivity|]. exists (N.succ k). split; [lia|].
    rewrite N.double_spec, N.testbit_even_succ by apply N.le_0_l. exact Hb.
  - rewrite lxor_1_double, clmul_lxor_l, clmul_1_l, clmul_double_l.
    destruct (N.eq_dec q 0) as [->|Hz].
    + exists w. split; [lia|]. rewrite N.lxor_spec, Ht. rewrite clmul_0_l. reflexivity.
    + destruct (IH Hz) as (k & Hk & Hb). exists (N.succ k). split; [lia|].
      rewrite N.lxor_spec, (testbit_above m (w + 1)) by (assumption || lia).
      rewrite N.double_spec, N.testbit_even_succ by apply N.le_0_l. rewrite Hb. reflexivity.
Qed.

Lemma remainder_unique m w a r r' : m < 2 ^ (w + 1) -> N.testbit m w = true ->
  poly_remainder r a m w -> poly_remainder r' a m w -> r = r'.
Proof.
  intros Hm Ht (Hr & q & qm & Hq & ->) (Hr' & q' & qm' & Hq' & E).
  apply (poly_product_inj _ _ _ _ (clmul_product q m)) in Hq. apply (poly_product_inj _ _ _ _ (clmul_product q' m)) in Hq'. subst qm qm'.
  assert (X : N.lxor r r' = clmul (N.lxor q q') m).
  { rewrite clmul_lxor_l. apply (f_equal (fun x => N.lxor x (N.lxor (clmul q' m) r))) in E.
    apply (f_equal (fun x => N.lxor x (N.lxor r r'))) in E. revert E. generalize (clmul q m), (clmul q' m). intros u v E.
    apply N.bits_inj. intros i. apply (f_equal (fun x => N.testbit x i)) in E. rewrite !N.lxor_spec in *.
    destruct (N.testbit u i), (N.testbit v i), (N.testbit r i), (N.testbit r' i); cbn in *; congruence. }
  destruct (N.eq_dec (N.lxor q q') 0) as [Z|Z].
  - rewrite Z, clmul_0_l in X. apply N.lxor_eq. exact X.
  - destruct (multiple_high _ m w Hm Ht Z) as (k & Hk & Hb). rewrite <- X in Hb.
    rewrite (testbit_above (N.lxor r r') w k) in Hb; [discriminate | now apply lxor_below | exact Hk].
Qed.
(** ** Symbols of a region *)

(** Symbol number [k] of a region, as gf-complete reads it on a little endian host: half a byte, low half first, one byte, or a
    little endian word of two or four bytes. *)
Definition symbol (f : field) (l : list N) (k : nat) : N :=
  let byte i := nth i l 0 in
  match f with
  | W4 => if Nat.even k then byte (Nat.div k 2) mod 16 else byte (Nat.div k 2) / 16
  | W8 => byte k
  | W16 => byte (2 * k)%nat + 256 * byte (2 * k + 1)%nat
  | W32 => byte (4 * k)%nat + 256 * byte (4 * k + 1)%nat + 65536 * byte (4 * k + 2)%nat + 16777216 * byte (4 * k + 3)%nat
  end.

Lemma le_dec_sum n v k : bytes_fn v -> le_dec (S n) v k = v k + 256 * le_dec n v (S k).
Proof.
  intros Hv. cbn [le_dec]. rewrite N.shiftl_mul_pow2, <- N.add_nocarry_lxor; [change (2 ^ 8) with 256; lia|].
  apply N.bits_inj. intros i. rewrite N.bits_0, N.land_spec. destruct (N.lt_ge_cases i 8) as [H|H].
  - rewrite N.mul_pow2_bits_low by assumption. apply andb_false_r.
  - rewrite (testbit_above (v k) 8 i); [reflexivity | apply Hv | assumption].
Qed.

Lemma symbol_word f l k : f <> W4 -> bytes l -> symbol f l k = le_dec (wbytes f) (fun i => nth i l 0) (wbytes f * k).
Proof.
  intros Hf Hb. assert (Hv := bytes_fn_nth _ Hb).
  destruct f; [congruence| | |]; cbn [symbol wbytes]; rewrite !le_dec_sum by assumption; cbn [le_dec].
  - rewrite Nat.mul_1_l. lia.
  - replace (S (2 * k)) with (2 * k + 1)%nat by lia. lia.
  - replace (S (S (S (4 * k)))) with (4 * k + 3)%nat by lia. replace (S (S (4 * k))) with (4 * k + 2)%nat by lia.
    replace (S (4 * k)) with (4 * k + 1)%nat by lia. lia.
Qed.

Lemma nibbles c x : elt W4 c -> mulword W4 c x mod 16 = gmul W4 c (N.land x 15) /\ mulword W4 c x / 16 = gmul W4 c (N.shiftr x 4).
Proof.
  intros Hc. unfold mulword. assert (H : gmul W4 c (N.land x 15) < 2 ^ 4) by exact (gmul_elt c _ Hc).
  split.
  - pose proof (low_of_sum _ (gmul W4 c (N.shiftr x 4)) 4 H) as E. rewrite N.land_ones in E. exact E.
  - pose proof (high_of_sum _ (gmul W4 c (N.shiftr x 4)) 4 H) as E. rewrite N.shiftr_div_pow2 in E. exact E.
Qed.

Lemma rmul_bytes f c l : bytes (rmul f c l).
Proof. apply Forall_forall. intros x Hx. apply in_map_iff in Hx. destruct Hx as (i & <- & _). apply rmul_at_below. Qed.

Lemma symbol_rmul f c l k : elt f c -> bytes l -> aligned f (length l) = true -> symbol f (rmul f c l) k = gmul f c (symbol f l k).
Proof.
  intros Hc Hb Ha. destruct f.
  - cbn [symbol]. rewrite rmul_nth_all by assumption. unfold rmul_at. cbn [wbytes le_dec].
    rewrite Nat.div_1_r, Nat.mod_1_r, Nat.mul_1_l, N.shiftl_0_l, N.lxor_0_r. unfold le_byte. rewrite N.mul_0_r, N.shiftr_0_r.
    set (x := nth (k / 2) l 0). assert (Hx : x < 2 ^ (4 + 4)) by apply (bytes_fn_nth _ Hb).
    change 255 with (N.ones 8). rewrite (land_ones_low (mulword W4 c x) 8) by exact (mulword_word c x Hc).
    destruct (nibbles c x Hc) as [E E']. rewrite E, E'. change 15 with (N.ones 4). rewrite N.land_ones, N.shiftr_div_pow2.
    destruct (Nat.even k); reflexivity.
  - rewrite !symbol_word by (discriminate || assumption || apply rmul_bytes). rewrite (le_dec_ext _ _ (rmul_at W8 c (fun i => nth i l 0))).
    + exact (le_dec_rmul c _ k Hc).
    + intros t _. now apply rmul_nth_all.
  - rewrite !symbol_word by (discriminate || assumption || apply rmul_bytes). rewrite (le_dec_ext _ _ (rmul_at W16 c (fun i => nth i l 0))).
    + exact (le_dec_rmul c _ k Hc).
    + intros t _. now apply rmul_nth_all.
  - rewrite !symbol_word by (discriminate || assumption || apply rmul_bytes). rewrite (le_dec_ext _ _ (rmul_at W32 c (fun i => nth i l 0))).
    + exact (le_dec_rmul c _ k Hc).
    + intros t _. now apply rmul_nth_all.
Qed.

Lemma nth_xorl a b i : nth i (xorl a b) 0 = N.lxor (nth i a 0) (nth i b 0).
Proof.
  revert b i. induction a as [|x a IH]; intros [|y b] [|i]; cbn [xorl nth]; try reflexivity; rewrite ?N.lxor_0_r; try reflexivity. apply IH.
Qed.

Lemma xorl_bytes a b : bytes a -> bytes b -> bytes (xorl a b).
Proof.
  intros Ha. revert b. induction Ha as [|x a Hx Ha IH]; intros [|y b] Hb; cbn [xorl]; try assumption; [now apply Forall_cons|].
  inversion Hb; subst. apply Forall_cons; [exact (lxor_below x y 8 Hx H1)|]. now apply IH.
Qed.

Lemma symbol_xorl f a b k : bytes a -> bytes b -> symbol f (xorl a b) k = N.lxor (symbol f a k) (symbol f b k).
Proof.
  intros Ha Hb. destruct f.
  - cbn [symbol]. rewrite nth_xorl. change 16 with (2 ^ 4). destruct (Nat.even k).
    + rewrite <- !N.land_ones. apply land_lxor_l.
    + rewrite <- !N.shiftr_div_pow2. apply N.shiftr_lxor.
  - cbn [symbol]. apply nth_xorl.
  - rewrite !symbol_word by (discriminate || assumption || now apply xorl_bytes). rewrite <- le_dec_lxor. apply le_dec_ext. intros t _. apply nth_xorl.
  - rewrite !symbol_word by (discriminate || assumption || now apply xorl_bytes). rewrite <- le_dec_lxor. apply le_dec_ext. intros t _. apply nth_xorl.
Qed.
