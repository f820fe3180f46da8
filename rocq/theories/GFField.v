(** * The four concrete fields of [GF.v] satisfy the field laws *)
From Coq Require Import NArith List Bool Lia.
From Verif Require Import Outcome GF GFProofs.
Import ListNotations.
Open Scope N_scope.

(** Linear map given by the images of the basis. *)
Fixpoint lin (tab : list N) (y : N) : N :=
  match tab with
  | [] => 0
  | t :: tab' => N.lxor (if N.odd y then t else 0) (lin tab' (N.div2 y))
  end.

Lemma lin_lxor tab a b : lin tab (N.lxor a b) = N.lxor (lin tab a) (lin tab b).
Proof.
  revert a b. induction tab as [|t tab IH]; intros a b; [reflexivity|]. simpl.
  rewrite !N.div2_spec, N.shiftr_lxor, <- !N.div2_spec, IH, lxor_swap. f_equal.
  rewrite <- !N.bit0_odd, N.lxor_spec.
  destruct (N.testbit a 0), (N.testbit b 0); simpl;
    now rewrite ?N.lxor_nilpotent, ?N.lxor_0_l, ?N.lxor_0_r.
Qed.

(** Certificates: left inverses of [a -> a^2 + a] on the span of x, ..., x^(w-1). *)
Definition cert (f : field) : list N :=
  match f with
  | W4 => [6; 10; 8; 0]
  | W8 => [214; 232; 234; 44; 238; 0; 36; 80]
  | W16 => [350; 42420; 42422; 7412; 42418; 10272; 7420; 1328; 42402; 38610; 10240;
            5068; 7356; 0; 1456; 21936]
  | W32 => [1754248962; 2518520022; 2518520020; 1839788980; 2518520016; 2141217900;
            1839788988; 375956348; 2518520000; 16925580; 2141217868; 4271058624;
            1839789052; 2232641164; 375956476; 2534365004; 2518520256; 135244;
            16925068; 4223476732; 2141216844; 2057775280; 4271056576; 385623292;
            1839784956; 4172243568; 2232632972; 1930741504; 375972860; 2898755980;
            2534397772; 0]
  end.

Definition wnat (f : field) : nat := N.to_nat (wbits f).

Definition period_ok (f : field) : bool :=
  forallb (fun i => frobn (wbits f) (gf_poly f) (wnat f) (2 ^ N.of_nat i) =? 2 ^ N.of_nat i)
          (seq 0 (wnat f)).

Definition cert_ok (f : field) : bool :=
  forallb (fun i =>
             lin (cert f) (N.lxor (frob (wbits f) (gf_poly f) (2 ^ N.of_nat i)) (2 ^ N.of_nat i))
             =? (if N.of_nat i =? 0 then 0 else 2 ^ N.of_nat i))
          (seq 0 (wnat f)).

Lemma period_check f : period_ok f = true.
Proof. destruct f; vm_compute; reflexivity. Qed.

Lemma cert_check f : cert_ok f = true.
Proof. destruct f; vm_compute; reflexivity. Qed.

Lemma forallb_below (P : N -> bool) f :
  forallb (fun i => P (N.of_nat i)) (seq 0 (wnat f)) = true ->
  forall i, i < wbits f -> P i = true.
Proof.
  intros H i Hi. rewrite forallb_forall in H.
  rewrite <- (N2Nat.id i). apply H. apply in_seq. unfold wnat. lia.
Qed.

Lemma w_pos f : 1 <= wbits f. Proof. destruct f; simpl; lia. Qed.
Lemma poly_low f : gf_poly f < 2 ^ (wbits f + 1). Proof. destruct f; reflexivity. Qed.
Lemma poly_top f : N.testbit (gf_poly f) (wbits f) = true. Proof. destruct f; reflexivity. Qed.
Lemma poly_zero f : gmul_gen (wbits f) (gf_poly f) 1 (gf_poly f) = 0.
Proof. destruct f; vm_compute; reflexivity. Qed.
Lemma wnat_w f : wbits f = N.of_nat (wnat f).
Proof. unfold wnat. now rewrite N2Nat.id. Qed.

(** Elements of the field. *)
Definition elt (f : field) (a : N) : Prop := a < 2 ^ wbits f.

Section Laws.
Context {f : field}.

Lemma gmul_elt a b : elt f a -> elt f (gmul f a b).
Proof. apply mul_below; auto using w_pos, poly_low, poly_top. Qed.

Lemma gmul_comm a b : elt f a -> elt f b -> gmul f a b = gmul f b a.
Proof. apply mul_comm; auto using w_pos, poly_low, poly_top, poly_zero. Qed.

Lemma gmul_assoc a b c : elt f a -> gmul f a (gmul f b c) = gmul f (gmul f a b) c.
Proof. apply mul_assoc; auto using w_pos, poly_low, poly_top, poly_zero. Qed.

Lemma gmul_lxor_l a b c : gmul f (N.lxor a b) c = N.lxor (gmul f a c) (gmul f b c).
Proof. apply mul_lxor_l; auto using w_pos, poly_low, poly_top, poly_zero. Qed.

Lemma gmul_lxor_r a b c : gmul f a (N.lxor b c) = N.lxor (gmul f a b) (gmul f a c).
Proof. apply mul_lxor_r; auto using w_pos, poly_low, poly_top, poly_zero. Qed.

Lemma gmul_0_l a : gmul f 0 a = 0.
Proof. apply mul_0_l; auto using w_pos, poly_low, poly_top, poly_zero. Qed.

Lemma gmul_0_r a : gmul f a 0 = 0.
Proof. reflexivity. Qed.

Lemma gmul_1_r a : gmul f a 1 = a.
Proof. reflexivity. Qed.

Lemma gmul_1_l a : elt f a -> gmul f 1 a = a.
Proof. apply mul_1_l; auto using w_pos, poly_low, poly_top, poly_zero. Qed.

Lemma elt_0 : elt f 0. Proof. unfold elt; destruct f; reflexivity. Qed.
Lemma elt_1 : elt f 1. Proof. unfold elt; destruct f; reflexivity. Qed.

Lemma elt_lxor a b : elt f a -> elt f b -> elt f (N.lxor a b).
Proof. apply lxor_below. Qed.

Lemma ginv_elt a : elt f a -> elt f (ginv f a).
Proof.
  intros Ha. unfold ginv. fold (wnat f).
  apply (inv_loop_below (wbits f) (gf_poly f) (w_pos f) (poly_low f) (poly_top f) (poly_zero f));
    auto using wnat_w.
Qed.

Lemma ginv_r a : elt f a -> a <> 0 -> gmul f a (ginv f a) = 1.
Proof.
  intros Ha Hz. unfold ginv, gmul. fold (wnat f).
  apply (inv_loop_correct (wbits f) (gf_poly f) (w_pos f) (poly_low f) (poly_top f)
           (poly_zero f) (wnat f) (wnat_w f)) with (left_inv := lin (cert f)); try assumption.
  - intros i Hi. apply N.eqb_eq.
    apply (forallb_below (fun i => frobn (wbits f) (gf_poly f) (wnat f) (2 ^ i) =? 2 ^ i) f);
      [apply period_check|assumption].
  - intros x y _ _. apply lin_lxor.
  - intros i Hi. apply N.eqb_eq.
    apply (forallb_below (fun i =>
             lin (cert f) (N.lxor (frob (wbits f) (gf_poly f) (2 ^ i)) (2 ^ i))
             =? (if i =? 0 then 0 else 2 ^ i)) f); [apply cert_check|assumption].
Qed.

Lemma ginv_l a : elt f a -> a <> 0 -> gmul f (ginv f a) a = 1.
Proof.
  intros Ha Hz. rewrite gmul_comm by auto using ginv_elt. now apply ginv_r.
Qed.

Lemma ginv_nonzero a : elt f a -> a <> 0 -> ginv f a <> 0.
Proof.
  intros Ha Hz E. pose proof (ginv_r a Ha Hz) as H. rewrite E in H. discriminate.
Qed.

Lemma gmul_zero_divisor a b : elt f a -> elt f b -> gmul f a b = 0 -> a = 0 \/ b = 0.
Proof.
  intros Ha Hb H. destruct (N.eq_dec a 0) as [|Hz]; [now left|right].
  rewrite <- (gmul_1_l b Hb), <- (ginv_l a Ha Hz), <- gmul_assoc, H by now apply ginv_elt.
  apply gmul_0_r.
Qed.

Lemma gf_multiply_gmul a b : gf_multiply f a b = gmul f a b.
Proof.
  unfold gf_multiply. destruct (N.eqb_spec a 0) as [->|]; [now rewrite gmul_0_l|].
  destruct (N.eqb_spec b 0) as [->|]; reflexivity.
Qed.

(** The coefficient of any source in any repair is a non-zero field element. *)
Lemma coefficient_elt r s : elt f (coefficient f r s) /\ coefficient f r s <> 0.
Proof.
  unfold elt, coefficient.
  set (b := u32 (u32 (u32 (r + 1) + u32 (s + 1)) * u32 (r + 1))).
  assert (Hb : b < 2 ^ 32) by (unfold b, u32; apply N.mod_lt; lia).
  destruct f.
  - change (wbits W4) with 4. change (2 ^ 4) with 16.
    cbv beta iota zeta. pose proof (N.mod_lt b (16 - 1) ltac:(lia)) as Hm. revert Hm. generalize (b mod (16 - 1)). intros x Hx. lia.
  - change (wbits W8) with 8. change (2 ^ 8) with 256.
    cbv beta iota zeta. pose proof (N.mod_lt b (256 - 1) ltac:(lia)) as Hm. revert Hm. generalize (b mod (256 - 1)). intros x Hx. lia.
  - change (wbits W16) with 16. change (2 ^ 16) with 65536.
    cbv beta iota zeta. pose proof (N.mod_lt b (65536 - 1) ltac:(lia)) as Hm. revert Hm. generalize (b mod (65536 - 1)). intros x Hx. lia.
  - change (wbits W32) with 32. destruct (N.eqb_spec b 0); [split; [reflexivity|lia]|lia].
Qed.

End Laws.
