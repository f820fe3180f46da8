(** * Field laws of GF(2^w) for the model of [GF.v] *)
From Coq Require Import NArith List Bool Lia.
From Verif Require Import Outcome GF.
Import ListNotations.
Open Scope N_scope.

(** ** Bits and bounds *)

Lemma testbit_above a n i : a < 2 ^ n -> n <= i -> N.testbit a i = false.
Proof.
  intros Ha Hi. destruct (N.eq_dec a 0) as [->|Hz]; [apply N.bits_0|].
  apply N.bits_above_log2.
  apply N.log2_lt_pow2 in Ha; lia.
Qed.

Lemma below_of_bits a n : (forall i, n <= i -> N.testbit a i = false) -> a < 2 ^ n.
Proof.
  intros H. destruct (N.eq_dec a 0) as [->|Hz].
  { apply N.neq_0_lt_0, N.pow_nonzero; lia. }
  apply N.log2_lt_pow2; [lia|].
  destruct (N.lt_ge_cases (N.log2 a) n) as [|Hge]; [assumption|].
  specialize (H _ Hge). rewrite N.bit_log2 in H; congruence.
Qed.

Lemma lxor_below a b n : a < 2 ^ n -> b < 2 ^ n -> N.lxor a b < 2 ^ n.
Proof.
  intros Ha Hb. apply below_of_bits. intros i Hi.
  rewrite N.lxor_spec, (testbit_above a n), (testbit_above b n) by assumption.
  reflexivity.
Qed.

Lemma double_lxor a b : N.double (N.lxor a b) = N.lxor (N.double a) (N.double b).
Proof. destruct a, b; reflexivity. Qed.

Lemma lxor_swap a b c d :
  N.lxor (N.lxor a b) (N.lxor c d) = N.lxor (N.lxor a c) (N.lxor b d).
Proof.
  rewrite !N.lxor_assoc. f_equal. rewrite <- !N.lxor_assoc. f_equal.
  apply N.lxor_comm.
Qed.

(** ** Generic polynomial arithmetic *)

Section Generic.
Variables (w p : N).
Hypothesis w_pos : 1 <= w.
Hypothesis p_low : p < 2 ^ (w + 1).
Hypothesis p_top : N.testbit p w = true.

Notation xt := (xtime w p).
Notation mul := (gmul_gen w p).

Lemma xtime_spec a :
  xt a = N.lxor (N.double a) (if N.testbit a (w - 1) then p else 0).
Proof.
  unfold xtime.
  replace (N.testbit (N.double a) w) with (N.testbit a (w - 1)).
  - destruct (N.testbit a (w - 1)); [reflexivity|now rewrite N.lxor_0_r].
  - replace w with (N.succ (w - 1)) at 2 by lia.
    rewrite N.double_spec, N.testbit_even_succ by lia. reflexivity.
Qed.

Lemma xtime_0 : xt 0 = 0.
Proof. rewrite xtime_spec, N.bits_0. reflexivity. Qed.

Lemma xtime_lxor a b : xt (N.lxor a b) = N.lxor (xt a) (xt b).
Proof.
  rewrite !xtime_spec, double_lxor, N.lxor_spec.
  rewrite lxor_swap. f_equal.
  destruct (N.testbit a (w - 1)), (N.testbit b (w - 1)); simpl;
    now rewrite ?N.lxor_nilpotent, ?N.lxor_0_r, ?N.lxor_0_l.
Qed.

Lemma double_below a : a < 2 ^ (w - 1) -> N.double a < 2 ^ w.
Proof.
  intros H. replace w with (N.succ (w - 1)) by lia.
  rewrite N.pow_succ_r', N.double_spec. lia.
Qed.

Lemma xtime_below a : a < 2 ^ w -> xt a < 2 ^ w.
Proof.
  intros Ha. apply below_of_bits. intros i Hi.
  rewrite xtime_spec, N.lxor_spec.
  destruct (N.eq_dec i w) as [->|Hne].
  - replace (N.testbit (N.double a) w) with (N.testbit a (w - 1)).
    + destruct (N.testbit a (w - 1)); [now rewrite p_top|now rewrite N.bits_0].
    + replace w with (N.succ (w - 1)) at 2 by lia.
      rewrite N.double_spec, N.testbit_even_succ by lia. reflexivity.
  - assert (N.testbit (N.double a) i = false) as ->.
    { replace i with (N.succ (i - 1)) by lia.
      rewrite N.double_spec, N.testbit_even_succ by lia.
      apply testbit_above with w; [assumption|lia]. }
    destruct (N.testbit a (w - 1)); [|now rewrite N.bits_0].
    rewrite (testbit_above p (w + 1)); [reflexivity|assumption|lia].
Qed.

Lemma xtime_double a : a < 2 ^ (w - 1) -> xt a = N.double a.
Proof.
  intros Ha. rewrite xtime_spec, (testbit_above a (w - 1)) by (assumption || lia).
  apply N.lxor_0_r.
Qed.

Lemma mul_0_r a : mul a 0 = 0.
Proof. reflexivity. Qed.

Lemma mul_1_r a : mul a 1 = a.
Proof. reflexivity. Qed.

Lemma mul_double a b : mul a (N.double b) = xt (mul a b).
Proof. destruct b; simpl; [now rewrite xtime_0|reflexivity]. Qed.

Lemma mul_succ_double a b : mul a (N.succ_double b) = N.lxor a (xt (mul a b)).
Proof. destruct b; simpl; [now rewrite xtime_0, N.lxor_0_r|reflexivity]. Qed.

Lemma mul_0_l b : mul 0 b = 0.
Proof.
  induction b as [|b IH|b IH] using N.binary_ind; [reflexivity| |].
  - now rewrite mul_double, IH, xtime_0.
  - now rewrite mul_succ_double, IH, xtime_0.
Qed.

Lemma mul_lxor_l a b c : mul (N.lxor a b) c = N.lxor (mul a c) (mul b c).
Proof.
  induction c as [|c IH|c IH] using N.binary_ind; [reflexivity| |].
  - now rewrite !mul_double, IH, xtime_lxor.
  - rewrite !mul_succ_double, IH, xtime_lxor. apply lxor_swap.
Qed.

Lemma mul_xtime_l a c : mul (xt a) c = xt (mul a c).
Proof.
  induction c as [|c IH|c IH] using N.binary_ind; [simpl; now rewrite xtime_0| |].
  - now rewrite !mul_double, IH.
  - now rewrite !mul_succ_double, IH, xtime_lxor.
Qed.

Lemma lxor_bin1 b c : N.lxor (N.double b) (N.succ_double c) = N.succ_double (N.lxor b c).
Proof. destruct b, c; try reflexivity; simpl; destruct (Pos.lxor _ _); reflexivity. Qed.
Lemma lxor_bin2 b c : N.lxor (N.succ_double b) (N.double c) = N.succ_double (N.lxor b c).
Proof. destruct b, c; try reflexivity; simpl; destruct (Pos.lxor _ _); reflexivity. Qed.
Lemma lxor_bin3 b c : N.lxor (N.succ_double b) (N.succ_double c) = N.double (N.lxor b c).
Proof. destruct b, c; try reflexivity; simpl; destruct (Pos.lxor _ _); reflexivity. Qed.

Lemma mul_lxor_r a b c : mul a (N.lxor b c) = N.lxor (mul a b) (mul a c).
Proof.
  revert c. induction b as [|b IH|b IH] using N.binary_ind; intros c.
  - now rewrite N.lxor_0_l.
  - destruct c as [|c _|c _] using N.binary_ind.
    + now rewrite N.lxor_0_r, mul_0_r, N.lxor_0_r.
    + now rewrite <- double_lxor, !mul_double, IH, xtime_lxor.
    + rewrite lxor_bin1, mul_double, !mul_succ_double, IH, xtime_lxor.
      rewrite <- !N.lxor_assoc. f_equal. apply N.lxor_comm.
  - destruct c as [|c _|c _] using N.binary_ind.
    + now rewrite N.lxor_0_r, mul_0_r, N.lxor_0_r.
    + now rewrite lxor_bin2, mul_double, !mul_succ_double, IH, xtime_lxor, N.lxor_assoc.
    + rewrite lxor_bin3, mul_double, !mul_succ_double, IH, xtime_lxor.
      rewrite lxor_swap, N.lxor_nilpotent, N.lxor_0_l. reflexivity.
Qed.

Lemma mul_below a b : a < 2 ^ w -> mul a b < 2 ^ w.
Proof.
  intros Ha. induction b as [|b IH|b IH] using N.binary_ind.
  - simpl. apply N.neq_0_lt_0, N.pow_nonzero; lia.
  - rewrite mul_double. now apply xtime_below.
  - rewrite mul_succ_double. apply lxor_below; [assumption|now apply xtime_below].
Qed.

(** Multiplying by the polynomial itself gives zero. *)
Hypothesis mul_1_p : mul 1 p = 0.

Lemma binary_split (a : N) : a < 2 ^ w -> forall (P : N -> Prop),
  P 0 -> (forall b, b < 2 ^ (w - 1) -> P b -> P (N.double b)) ->
  (forall b, b < 2 ^ (w - 1) -> P b -> P (N.succ_double b)) -> P a.
Proof.
  intros Ha P H0 He Ho. revert Ha.
  assert (Hw : 2 ^ w = 2 * 2 ^ (w - 1)).
  { replace w with (N.succ (w - 1)) at 1 by lia. apply N.pow_succ_r'. }
  induction a as [|a IH|a IH] using N.binary_ind; intros Ha; [assumption| |].
  - rewrite N.double_spec in Ha. apply He; [lia|apply IH; lia].
  - rewrite N.succ_double_spec in Ha. apply Ho; [lia|apply IH; lia].
Qed.

Lemma lxor_1_double b : N.succ_double b = N.lxor 1 (N.double b).
Proof. destruct b; reflexivity. Qed.

Lemma mul_p a : a < 2 ^ w -> mul a p = 0.
Proof.
  intros Ha. apply (binary_split a Ha (fun a => mul a p = 0)).
  - apply mul_0_l.
  - intros b Hb IH. rewrite <- xtime_double by assumption.
    now rewrite mul_xtime_l, IH, xtime_0.
  - intros b Hb IH. rewrite lxor_1_double, mul_lxor_l, <- xtime_double by assumption.
    rewrite mul_xtime_l, IH, xtime_0, mul_1_p. reflexivity.
Qed.

Lemma mul_xtime_r a b : a < 2 ^ w -> mul a (xt b) = xt (mul a b).
Proof.
  intros Ha. rewrite (xtime_spec b), mul_lxor_r, mul_double.
  destruct (N.testbit b (w - 1)); [rewrite mul_p by assumption|rewrite mul_0_r];
    apply N.lxor_0_r.
Qed.

Lemma mul_1_l a : a < 2 ^ w -> mul 1 a = a.
Proof.
  intros Ha. apply (binary_split a Ha (fun a => mul 1 a = a)).
  - reflexivity.
  - intros b Hb IH. now rewrite mul_double, IH, xtime_double.
  - intros b Hb IH. now rewrite mul_succ_double, IH, xtime_double, lxor_1_double.
Qed.

Lemma mul_comm a b : a < 2 ^ w -> b < 2 ^ w -> mul a b = mul b a.
Proof.
  intros Ha Hb. apply (binary_split b Hb (fun b => mul a b = mul b a)).
  - now rewrite mul_0_l.
  - intros c Hc IH. rewrite mul_double, IH, <- mul_xtime_l, xtime_double by assumption.
    reflexivity.
  - intros c Hc IH.
    rewrite mul_succ_double, IH, lxor_1_double, mul_lxor_l, mul_1_l by assumption.
    rewrite <- mul_xtime_l, xtime_double by assumption. reflexivity.
Qed.

Lemma mul_assoc a b c : a < 2 ^ w -> mul a (mul b c) = mul (mul a b) c.
Proof.
  intros Ha. induction c as [|c IH|c IH] using N.binary_ind; [reflexivity| |].
  - now rewrite !mul_double, mul_xtime_r, IH.
  - now rewrite !mul_succ_double, mul_lxor_r, mul_xtime_r, IH.
Qed.

(** ** Linear extension *)

Definition additive (g : N -> N) : Prop :=
  forall a b, a < 2 ^ w -> b < 2 ^ w -> g (N.lxor a b) = N.lxor (g a) (g b).

Lemma additive_0 g : additive g -> g 0 = 0.
Proof.
  intros Hg. assert (0 < 2 ^ w) by (apply N.neq_0_lt_0, N.pow_nonzero; lia).
  specialize (Hg 0 0 H H). rewrite N.lxor_0_l in Hg.
  etransitivity; [exact Hg|apply N.lxor_nilpotent].
Qed.

Lemma linear_ext g h :
  additive g -> additive h ->
  (forall i, i < w -> g (2 ^ i) = h (2 ^ i)) ->
  forall a, a < 2 ^ w -> g a = h a.
Proof.
  intros Hg Hh Hb.
  assert (H : forall n, n <= w -> forall a, a < 2 ^ n -> g a = h a).
  { intros n. induction n as [|n IH] using N.peano_ind; intros Hn a Ha.
    - assert (a = 0) as -> by (simpl in Ha; lia).
      now rewrite (additive_0 g), (additive_0 h).
    - assert (Hpn : 2 ^ N.succ n = 2 * 2 ^ n) by apply N.pow_succ_r'.
      assert (Hpw : 2 ^ N.succ n <= 2 ^ w) by (apply N.pow_le_mono_r; lia).
      destruct (N.lt_ge_cases a (2 ^ n)) as [Hlt|Hge]; [apply IH; [lia|assumption]|].
      assert (Hsplit : a = N.lxor (2 ^ n) (a - 2 ^ n)).
      { rewrite <- N.add_nocarry_lxor; [lia|].
        apply N.bits_inj_0. intros i. rewrite N.land_spec.
        destruct (N.eq_dec i n) as [->|Hne].
        - rewrite (testbit_above (a - 2 ^ n) n); [apply andb_false_r|lia|lia].
        - rewrite N.pow2_bits_false by congruence. reflexivity. }
      rewrite Hsplit, Hg, Hh by lia.
      f_equal; [apply Hb; lia|apply IH; lia]. }
  intros a Ha. apply (H w); [lia|assumption].
Qed.

(** ** Frobenius and inverses *)

Definition frob (a : N) : N := mul a a.

Fixpoint frobn (k : nat) (a : N) : N :=
  match k with O => a | S k' => frob (frobn k' a) end.

Lemma frob_lxor a b : a < 2 ^ w -> b < 2 ^ w ->
  frob (N.lxor a b) = N.lxor (frob a) (frob b).
Proof.
  intros Ha Hb. unfold frob.
  rewrite mul_lxor_l, !mul_lxor_r, (mul_comm b a) by assumption.
  rewrite N.lxor_assoc, <- (N.lxor_assoc (mul a b) (mul a b)).
  now rewrite N.lxor_nilpotent, N.lxor_0_l.
Qed.

Lemma frob_below a : a < 2 ^ w -> frob a < 2 ^ w.
Proof. apply mul_below. Qed.

Lemma frobn_below k a : a < 2 ^ w -> frobn k a < 2 ^ w.
Proof. intros Ha. induction k; simpl; [assumption|now apply frob_below]. Qed.

Lemma frobn_additive k : additive (frobn k).
Proof.
  intros a b Ha Hb. induction k as [|k IH]; [reflexivity|].
  simpl. rewrite IH. apply frob_lxor; now apply frobn_below.
Qed.

Lemma mul_swap a b c d : a < 2 ^ w -> b < 2 ^ w -> c < 2 ^ w ->
  mul (mul a b) (mul c d) = mul (mul a c) (mul b d).
Proof.
  intros Ha Hb Hc.
  rewrite <- !mul_assoc by assumption. f_equal.
  rewrite !mul_assoc by assumption. f_equal. now apply mul_comm.
Qed.

Lemma frob_mul a b : a < 2 ^ w -> b < 2 ^ w ->
  frob (mul a b) = mul (frob a) (frob b).
Proof. intros Ha Hb. unfold frob. now apply mul_swap. Qed.

(** Products of conjugates. *)
Fixpoint norm (k : nat) (a : N) : N :=
  match k with O => 1 | S k' => mul (norm k' a) (frobn k' a) end.

Lemma one_below : 1 < 2 ^ w.
Proof. apply N.pow_gt_1; lia. Qed.

Lemma norm_below k a : norm k a < 2 ^ w.
Proof. induction k; simpl; [apply one_below|apply mul_below; assumption]. Qed.

Lemma norm_mul k a : a < 2 ^ w -> mul (norm k a) a = frobn k a.
Proof.
  intros Ha. induction k as [|k IH]; simpl; [now apply mul_1_l|].
  pose proof (norm_below k a). pose proof (frobn_below k a Ha).
  rewrite <- mul_assoc, (mul_comm (frobn k a) a), mul_assoc, IH by assumption.
  reflexivity.
Qed.

Lemma frobn_frob k a : frobn k (frob a) = frob (frobn k a).
Proof. induction k; simpl; congruence. Qed.

Lemma norm_shift k a : a < 2 ^ w -> norm (S k) a = mul a (norm k (frob a)).
Proof.
  intros Ha. induction k as [|k IH].
  - simpl. now apply mul_1_l.
  - change (norm (S (S k)) a) with (mul (norm (S k) a) (frobn (S k) a)).
    rewrite IH. simpl norm. rewrite frobn_frob, <- mul_assoc by assumption.
    reflexivity.
Qed.

Lemma inv_loop_norm k s acc : acc < 2 ^ w -> s < 2 ^ w ->
  inv_loop w p k s acc = mul acc (norm k (frob s)).
Proof.
  revert s acc. induction k as [|k IH]; intros s acc Hacc Hs; simpl.
  - reflexivity.
  - fold (frob s). rewrite IH; [|now apply mul_below|now apply frob_below].
    rewrite <- mul_assoc by assumption. f_equal.
    rewrite <- norm_shift by now apply frob_below. reflexivity.
Qed.

Lemma frob_norm k a : a < 2 ^ w -> frob (norm k a) = norm k (frob a).
Proof.
  intros Ha. induction k as [|k IH]; simpl.
  - apply mul_1_r.
  - rewrite frob_mul by (apply norm_below || now apply frobn_below).
    now rewrite IH, frobn_frob.
Qed.

(** The two facts that make the quotient ring a field; both are checked on the
    basis 1, x, ..., x^(w-1) by computation and extended by linearity. *)
Variable wn : nat.
Hypothesis wn_w : w = N.of_nat wn.
Hypothesis frob_period : forall i, i < w -> frobn wn (2 ^ i) = 2 ^ i.

Variable left_inv : N -> N.
Hypothesis left_inv_additive : additive left_inv.
Hypothesis left_inv_basis : forall i, i < w ->
  left_inv (N.lxor (frob (2 ^ i)) (2 ^ i)) = (if i =? 0 then 0 else 2 ^ i).

Lemma frob_period_all a : a < 2 ^ w -> frobn wn a = a.
Proof.
  apply (linear_ext (frobn wn) (fun a => a)).
  - apply frobn_additive.
  - intros ? ? _ _. reflexivity.
  - assumption.
Qed.

Definition clear0 (a : N) : N := N.double (N.div2 a).

Lemma clear0_additive : additive clear0.
Proof.
  intros a b _ _. unfold clear0. rewrite <- double_lxor. f_equal.
  rewrite !N.div2_spec. apply N.shiftr_lxor.
Qed.

Lemma idempotent a : a < 2 ^ w -> frob a = a -> a = 0 \/ a = 1.
Proof.
  intros Ha Hf.
  assert (H : left_inv (N.lxor (frob a) a) = clear0 a).
  { apply (linear_ext (fun a => left_inv (N.lxor (frob a) a)) clear0); [| | |assumption].
    - intros x y Hx Hy. rewrite frob_lxor by assumption.
      rewrite lxor_swap. apply left_inv_additive; apply lxor_below; try assumption;
        now apply frob_below.
    - apply clear0_additive.
    - intros i Hi. rewrite left_inv_basis by assumption.
      destruct (N.eqb_spec i 0) as [->|Hne]; [reflexivity|].
      unfold clear0. rewrite N.div2_spec.
      replace (2 ^ i) with (2 * 2 ^ (i - 1)).
      + rewrite N.shiftr_div_pow2. change (2 ^ 1) with 2.
        rewrite N.mul_comm, N.div_mul by lia. rewrite N.double_spec. lia.
      + rewrite <- N.pow_succ_r'. f_equal. lia. }
  rewrite Hf, N.lxor_nilpotent, (additive_0 left_inv) in H by assumption.
  unfold clear0 in H. rewrite N.double_spec in H.
  assert (N.div2 a = 0) by lia.
  destruct a as [|[q|q|]]; simpl in *; try discriminate; auto.
Qed.

Lemma norm_one a : a < 2 ^ w -> a <> 0 -> norm wn a = 1.
Proof.
  intros Ha Hz.
  assert (Hidem : frob (norm wn a) = norm wn a).
  { rewrite frob_norm by assumption.
    assert (E : exists k, wn = S k) by (exists (pred wn); lia).
    destruct E as [k E]. rewrite E.
    rewrite (norm_shift k a) by assumption.
    simpl norm. rewrite frobn_frob.
    change (frob (frobn k a)) with (frobn (S k) a).
    rewrite <- E. rewrite frob_period_all by assumption.
    apply mul_comm; [apply norm_below|assumption]. }
  destruct (idempotent _ (norm_below wn a) Hidem) as [H0|H1]; [|assumption].
  exfalso. apply Hz.
  rewrite <- (frob_period_all a Ha), <- norm_mul, H0 by assumption.
  apply mul_0_l.
Qed.

Lemma inv_loop_correct a : a < 2 ^ w -> a <> 0 ->
  mul a (inv_loop w p (wn - 1) a 1) = 1.
Proof.
  intros Ha Hz. rewrite inv_loop_norm; [|apply one_below|assumption].
  rewrite mul_1_l by apply norm_below.
  rewrite <- norm_shift by assumption.
  replace (S (wn - 1)) with wn by lia. now apply norm_one.
Qed.

Lemma inv_loop_below a : a < 2 ^ w -> inv_loop w p (wn - 1) a 1 < 2 ^ w.
Proof.
  intros Ha. rewrite inv_loop_norm; [|apply one_below|assumption].
  apply mul_below, one_below.
Qed.

End Generic.
