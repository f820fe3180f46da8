(** * Linear combinations of sources: sizes and symbols as one vector

    The decoder recovers the size of a source and its symbol with the same
    linear algebra. Both are seen as one byte vector: the size as four bytes, a
    whole number of words of each field, followed by the symbol and extended by
    zeros. *)
From Coq Require Import NArith List Bool Lia Arith.
From Verif Require Import Outcome GF GFProofs GFField GFRegion.
Import ListNotations.
Open Scope N_scope.

(** ** Finite sums *)

Fixpoint xsum {A} (g : A -> N) (l : list A) : N :=
  match l with
  | [] => 0
  | x :: l' => N.lxor (g x) (xsum g l')
  end.

Lemma xsum_ext {A} (g h : A -> N) l : (forall x, In x l -> g x = h x) -> xsum g l = xsum h l.
Proof.
  induction l as [|x l IH]; intros H; [reflexivity|]. simpl.
  rewrite H by now left. f_equal. apply IH. intros y Hy. apply H. now right.
Qed.

Lemma xsum_0 {A} (l : list A) : xsum (fun _ => 0) l = 0.
Proof. induction l; simpl; [reflexivity|]. now rewrite IHl. Qed.

Lemma xsum_lxor {A} (g h : A -> N) l :
  xsum (fun x => N.lxor (g x) (h x)) l = N.lxor (xsum g l) (xsum h l).
Proof. induction l as [|x l IH]; [reflexivity|]. simpl. rewrite IH. apply lxor_swap. Qed.

Lemma xsum_app {A} (g : A -> N) l m : xsum g (l ++ m) = N.lxor (xsum g l) (xsum g m).
Proof.
  induction l as [|x l IH]; simpl; [reflexivity|]. now rewrite IH, N.lxor_assoc.
Qed.

Lemma xsum_map {A B} (h : B -> A) (g : A -> N) l : xsum g (map h l) = xsum (fun x => g (h x)) l.
Proof. induction l; simpl; congruence. Qed.

Lemma xsum_swap {A B} (g : A -> B -> N) l m :
  xsum (fun x => xsum (g x) m) l = xsum (fun y => xsum (fun x => g x y) l) m.
Proof.
  induction l as [|x l IH]; simpl; [now rewrite xsum_0|].
  now rewrite IH, <- xsum_lxor.
Qed.

Lemma xsum_single {A} (g : A -> N) x l :
  NoDup l -> In x l -> (forall y, In y l -> y <> x -> g y = 0) -> xsum g l = g x.
Proof.
  intros Hnd. induction Hnd as [|z l Hz Hnd IH]; intros Hin H; [contradiction|].
  simpl. destruct Hin as [->|Hin].
  - rewrite (xsum_ext g (fun _ => 0)).
    + now rewrite xsum_0, N.lxor_0_r.
    + intros y Hy. apply H; [now right|]. intros ->. contradiction.
  - rewrite (H z), N.lxor_0_l.
    + apply IH; [assumption|]. intros y Hy. apply H. now right.
    + now left.
    + intros ->. contradiction.
Qed.

Lemma xsum_below {A} (g : A -> N) l n : (forall x, In x l -> g x < 2 ^ n) -> xsum g l < 2 ^ n.
Proof.
  intros H. induction l as [|x l IH]; simpl.
  - apply N.neq_0_lt_0, N.pow_nonzero. lia.
  - apply lxor_below; [apply H; now left|]. apply IH. intros y Hy. apply H. now right.
Qed.

(** Sum over all of a list except the elements that vanish. *)
Lemma xsum_filter {A} (g : A -> N) (b : A -> bool) l :
  (forall x, In x l -> b x = false -> g x = 0) -> xsum g (filter b l) = xsum g l.
Proof.
  intros H. induction l as [|x l IH]; [reflexivity|]. simpl.
  rewrite <- IH by (intros y Hy; apply H; now right).
  destruct (b x) eqn:E; [reflexivity|].
  rewrite H by (auto; now left). now rewrite N.lxor_0_l.
Qed.

Lemma rmul_at_xsum f {A} c (u : A -> nat -> N) l i :
  rmul_at f c (fun j => xsum (fun x => u x j) l) i = xsum (fun x => rmul_at f c (u x) i) l.
Proof.
  induction l as [|x l IH]; simpl.
  - apply rmul_at_0_r.
  - now rewrite rmul_at_lxor_r, IH.
Qed.

Lemma rmul_at_xsum_l f {A} (c : A -> N) v l i :
  rmul_at f (xsum c l) v i = xsum (fun x => rmul_at f (c x) v i) l.
Proof.
  induction l as [|x l IH]; simpl.
  - apply rmul_at_0_l.
  - now rewrite rmul_at_lxor_l, IH.
Qed.

Lemma gmul_xsum_r f {A} a (g : A -> N) l : gmul f a (xsum g l) = xsum (fun x => gmul f a (g x)) l.
Proof. induction l as [|x l IH]; [reflexivity|]. simpl. now rewrite gmul_lxor_r, IH. Qed.

Lemma gmul_xsum_l f {A} a (g : A -> N) l : gmul f (xsum g l) a = xsum (fun x => gmul f (g x) a) l.
Proof.
  induction l as [|x l IH]; simpl; [apply gmul_0_l|]. now rewrite gmul_lxor_l, IH.
Qed.

(** ** Size and symbol as one vector *)

Definition vec (size : N) (sym : list N) (i : nat) : N :=
  match i with
  | S (S (S (S j))) => nth j sym 0
  | _ => le_byte size i
  end.

Lemma vec_bytes size sym : bytes sym -> bytes_fn (vec size sym).
Proof.
  intros H [|[|[|[|i]]]]; simpl; try apply le_byte_below. now apply bytes_fn_nth.
Qed.

Lemma le_dec2_byte x : x < 65536 -> le_dec 2 (le_byte x) 0 = x.
Proof.
  intros H. rewrite (le_dec_ext 2 _ (fun i => le_byte x (i - 0))).
  - apply le_dec_byte. exact H.
  - intros t Ht. f_equal. lia.
Qed.

Lemma le_dec4_byte x : x < 4294967296 -> le_dec 4 (le_byte x) 0 = x.
Proof.
  intros H. rewrite (le_dec_ext 4 _ (fun i => le_byte x (i - 0))).
  - apply le_dec_byte. exact H.
  - intros t Ht. f_equal. lia.
Qed.

Lemma le_byte_small x t : x < 65536 -> (2 <= t)%nat -> le_byte x t = 0.
Proof.
  intros Hx Ht. unfold le_byte. rewrite shiftr_small; [reflexivity|].
  apply (below_mono _ 16); [lia | exact Hx].
Qed.

Lemma le_byte_u16 x t : (t < 2)%nat -> le_byte (u16 x) t = le_byte x t.
Proof.
  intros Ht. unfold le_byte, u16. change 65536 with (2 ^ 16). change 255 with (N.ones 8).
  apply N.bits_inj. intros k. rewrite !N.land_spec, !N.shiftr_spec'.
  destruct (N.lt_ge_cases k 8) as [Hk|Hk].
  - rewrite N.mod_pow2_bits_low by lia. reflexivity.
  - rewrite N.ones_spec_high by exact Hk. rewrite !andb_false_r. reflexivity.
Qed.

Lemma size_eq_bytes a b : a < 65536 -> b < 65536 ->
  le_byte a 0 = le_byte b 0 -> le_byte a 1 = le_byte b 1 -> a = b.
Proof.
  intros Ha Hb H0 H1. rewrite <- (le_dec2_byte a), <- (le_dec2_byte b) by assumption.
  apply le_dec_ext. intros [|[|t]] Ht; try assumption. lia.
Qed.

Lemma multiply_size_below f size c : multiply_size f size c < 65536.
Proof.
  unfold multiply_size. destruct (_ || _); [reflexivity|].
  destruct f; try (unfold u16; apply N.mod_lt; discriminate).
  - apply (le_dec_below 2). apply bytes_fn_nth, rmul_bytes.
  - apply (le_dec_below 2). apply bytes_fn_nth, rmul_bytes.
Qed.

Lemma le_dec_shift4 n u v k : (forall i, u (4 + i)%nat = v i) -> le_dec n u (4 + k) = le_dec n v k.
Proof.
  intros H. revert k. induction n as [|n IH]; intros k; [reflexivity|]. cbn [le_dec].
  rewrite H. do 2 f_equal. apply (IH (S k)).
Qed.

Lemma rmul_at_tail f c size sym j :
  rmul_at f c (vec size sym) (4 + j) = rmul_at f c (fun i => nth i sym 0) j.
Proof.
  unfold rmul_at.
  assert (Hi : ((4 + j) mod wbytes f = j mod wbytes f)%nat /\
               (wbytes f * ((4 + j) / wbytes f) = 4 + wbytes f * (j / wbytes f))%nat).
  { pose proof (@div_mod_word f j) as Hj. pose proof (@mod_word_lt f j) as Hm.
    destruct f.
    - change (wbytes W4) with 1%nat in *. rewrite !Nat.div_1_r, !Nat.mod_1_r. lia.
    - change (wbytes W8) with 1%nat in *. rewrite !Nat.div_1_r, !Nat.mod_1_r. lia.
    - change (wbytes W16) with 2%nat in *.
      assert (H1 : ((4 + j) / 2 = 2 + j / 2)%nat).
      { symmetry. apply Nat.div_unique with (j mod 2)%nat; lia. }
      rewrite H1. split; [|lia].
      symmetry. apply Nat.mod_unique with (2 + j / 2)%nat; lia.
    - change (wbytes W32) with 4%nat in *.
      assert (H1 : ((4 + j) / 4 = 1 + j / 4)%nat).
      { symmetry. apply Nat.div_unique with (j mod 4)%nat; lia. }
      rewrite H1. split; [|lia].
      symmetry. apply Nat.mod_unique with (1 + j / 4)%nat; lia. }
  destruct Hi as [-> ->]. do 2 f_equal. apply le_dec_shift4. reflexivity.
Qed.

(** The 16 bits of a product of a size are the product itself: always, except
    in the field of 32-bit words (galois_field.hh 118). *)
Definition size_exact (f : field) (size c : N) : Prop := f = W32 -> gmul f size c < 65536.

Lemma exact_other f size c : f <> W32 -> size_exact f size c.
Proof. intros H E. congruence. Qed.

Lemma rmul_at_w32 c size sym t : size < 65536 -> elt W32 c -> (t < 4)%nat ->
  rmul_at W32 c (vec size sym) t = le_byte (gmul W32 size c) t.
Proof.
  intros Hs Hc Ht. unfold rmul_at. change (wbytes W32) with 4%nat.
  rewrite (Nat.div_small t 4), (Nat.mod_small t 4) by assumption.
  replace (le_dec 4 (vec size sym) (4 * 0)) with size.
  - unfold mulword. f_equal. apply gmul_comm; [exact Hc|]. unfold elt. change (2 ^ wbits W32) with 4294967296. lia.
  - symmetry. rewrite <- (le_dec4_byte size) at 2 by lia.
    apply le_dec_ext. intros [|[|[|[|u]]]] Hu; try lia; reflexivity.
Qed.

Lemma multiply_size_w32 size c : multiply_size W32 size c = u16 (gmul W32 size c).
Proof.
  unfold multiply_size. destruct (N.eqb_spec size 0) as [->|]; cbn [orb].
  - rewrite gmul_0_l. reflexivity.
  - destruct (N.eqb_spec c 0) as [->|]; [|reflexivity]. rewrite gmul_0_r. reflexivity.
Qed.

(** The two bytes of a size that is multiplied. *)
Lemma multiply_size_byte f size c sym t : size < 65536 -> elt f c -> (t < 2)%nat ->
  le_byte (multiply_size f size c) t = rmul_at f c (vec size sym) t.
Proof.
  intros Hs Hc Ht.
  assert (Hf : f = W32 \/ f <> W32) by (destruct f; auto; right; discriminate).
  destruct Hf as [->|Hf].
  { rewrite multiply_size_w32, le_byte_u16 by exact Ht. symmetry. apply rmul_at_w32; [exact Hs | exact Hc | lia]. }
  unfold multiply_size.
  destruct (N.eqb_spec size 0) as [->|Hs0]; simpl orb; cbv iota.
  { rewrite le_byte_0. symmetry.
    destruct f; try congruence; unfold rmul_at; simpl wbytes;
      rewrite ?Nat.div_1_r, ?Nat.mod_1_r.
    - destruct t as [|[|t]]; try lia; reflexivity.
    - destruct t as [|[|t]]; try lia; reflexivity.
    - destruct t as [|[|t]]; try lia; reflexivity. }
  destruct (N.eqb_spec c 0) as [->|Hc0].
  { now rewrite le_byte_0, rmul_at_0_l. }
  destruct f; try congruence.
  - rewrite le_byte_dec by (try apply bytes_fn_nth, rmul_bytes; assumption).
    rewrite Nat.add_0_l, rmul_nth by (simpl; lia).
    apply rmul_at_ext. change (wbytes W4) with 1%nat. intros [|u] Hu; [|lia].
    rewrite Nat.div_1_r.
    destruct t as [|[|t]]; try lia; reflexivity.
  - rewrite le_byte_dec by (try apply bytes_fn_nth, rmul_bytes; assumption).
    rewrite Nat.add_0_l, rmul_nth by (simpl; lia).
    apply rmul_at_ext. change (wbytes W8) with 1%nat. intros [|u] Hu; [|lia].
    rewrite Nat.div_1_r.
    destruct t as [|[|t]]; try lia; reflexivity.
  - unfold rmul_at. change (wbytes W16) with 2%nat.
    rewrite (Nat.div_small t 2), (Nat.mod_small t 2) by assumption.
    replace (le_dec 2 (vec size sym) (2 * 0)) with size.
    + unfold mulword, u16. rewrite N.mod_small.
      * f_equal. apply gmul_comm; assumption.
      * apply (@gmul_elt W16). assumption.
    + symmetry. rewrite <- (le_dec2_byte size) at 2 by assumption.
      apply le_dec_ext. intros [|[|u]] Hu; try lia; reflexivity.
Qed.

(** The size bytes and the symbol bytes of a product. *)
Lemma rmul_at_vec f c size sym i : size_exact f size c -> size < 65536 -> elt f c ->
  aligned f (length sym) = true ->
  rmul_at f c (vec size sym) i = vec (multiply_size f size c) (rmul f c sym) i.
Proof.
  intros Hx Hs Hc Ha.
  destruct (Nat.lt_ge_cases i 4) as [Hi|Hi].
  - transitivity (le_byte (multiply_size f size c) i);
      [|destruct i as [|[|[|[|i]]]]; try reflexivity; lia].
    destruct (Nat.lt_ge_cases i 2) as [Hi2|Hi2]; [symmetry; apply multiply_size_byte; assumption|].
    assert (Hf : f = W32 \/ f <> W32) by (destruct f; auto; right; discriminate).
    destruct Hf as [->|Hf].
    + rewrite rmul_at_w32 by assumption. rewrite multiply_size_w32. unfold u16.
      rewrite N.mod_small by (apply Hx; reflexivity). reflexivity.
    + rewrite (le_byte_small (multiply_size f size c)) by (try apply multiply_size_below; exact Hi2).
      rewrite (rmul_at_ext c (vec size sym) (fun _ => 0)); [apply rmul_at_0_r|].
      intros t Ht.
      assert (Hr : (2 <= wbytes f * (i / wbytes f) + t < 4)%nat).
      { destruct f; try congruence.
        - change (wbytes W4) with 1%nat in *. rewrite Nat.div_1_r. lia.
        - change (wbytes W8) with 1%nat in *. rewrite Nat.div_1_r. lia.
        - change (wbytes W16) with 2%nat in *.
          replace (i / 2)%nat with 1%nat; [lia|].
          apply Nat.div_unique with (i - 2)%nat; lia. }
      destruct (wbytes f * (i / wbytes f) + t)%nat as [|[|[|[|k]]]]; try lia;
        cbn [vec]; apply le_byte_small; (exact Hs || lia).
  - replace i with (4 + (i - 4))%nat by lia. rewrite rmul_at_tail.
    cbn [vec Nat.add]. symmetry. now apply rmul_nth_all.
Qed.

Lemma vec_lxor s t a b i :
  vec (N.lxor s t) (xorl a b) i = N.lxor (vec s a i) (vec t b i).
Proof. destruct i as [|[|[|[|i]]]]; cbn [vec]; [apply le_byte_lxor .. | apply xorl_nth]. Qed.

(** Equality of vectors gives back size and symbol. *)
Lemma vec_inj_size s t a b : s < 65536 -> t < 65536 ->
  (forall i, vec s a i = vec t b i) -> s = t.
Proof.
  intros Hs Ht H. apply size_eq_bytes; try assumption; [apply (H 0%nat)|apply (H 1%nat)].
Qed.

Lemma vec_inj_sym s t a b i : (forall i, vec s a i = vec t b i) -> nth i a 0 = nth i b 0.
Proof. intros H. apply (H (4 + i)%nat). Qed.

(** ** Sizes *)

Lemma multiply_size_elt_1 f s : s < 65536 -> multiply_size f s 1 = s.
Proof.
  intros Hs. apply size_eq_bytes; [apply multiply_size_below | exact Hs | |].
  - rewrite (multiply_size_byte f s 1 []) by (try apply elt_1; lia || exact Hs).
    rewrite rmul_at_1 by (apply vec_bytes; constructor). reflexivity.
  - rewrite (multiply_size_byte f s 1 []) by (try apply elt_1; lia || exact Hs).
    rewrite rmul_at_1 by (apply vec_bytes; constructor). reflexivity.
Qed.

Lemma size_vec f c s i : size_exact f s c -> s < 65536 -> elt f c ->
  rmul_at f c (vec s []) i = vec (multiply_size f s c) [] i.
Proof.
  intros Hx Hs Hc. apply (rmul_at_vec f c s []); try assumption. destruct f; reflexivity.
Qed.

(** A product without loss of bits, multiplied again. *)
Lemma exact_product f s c d : size_exact f s c -> s < 65536 -> elt f c -> elt f d ->
  multiply_size f (multiply_size f s c) d = multiply_size f s (gmul f d c).
Proof.
  intros Hx Hs Hc Hd.
  assert (B : forall t, (t < 2)%nat -> le_byte (multiply_size f (multiply_size f s c) d) t
              = le_byte (multiply_size f s (gmul f d c)) t).
  { intros t Ht. rewrite (multiply_size_byte f _ d []) by (try apply multiply_size_below; assumption).
    rewrite (multiply_size_byte f s _ []) by (try apply gmul_elt; assumption).
    rewrite <- rmul_at_rmul_at by assumption.
    apply rmul_at_ext_all. intros j. symmetry. apply size_vec; assumption. }
  apply size_eq_bytes; try apply multiply_size_below; apply B; lia.
Qed.

Lemma exact_cancel f s c : size_exact f s c -> s < 65536 -> elt f c -> c <> 0 ->
  multiply_size f (multiply_size f s c) (gf_invert f c) = s.
Proof.
  intros Hx Hs Hc Hz. unfold gf_invert.
  rewrite exact_product by auto using ginv_elt. rewrite ginv_l by assumption.
  apply multiply_size_elt_1, Hs.
Qed.

Section Sizes.
Context {f : field}.
Hypothesis Hf : f <> W32.

Lemma rmul_at_vec0 c s i : s < 65536 -> elt f c ->
  rmul_at f c (vec s []) i = vec (multiply_size f s c) [] i.
Proof. apply size_vec, exact_other, Hf. Qed.

Lemma vec_lxor0 s t i : vec (N.lxor s t) [] i = N.lxor (vec s [] i) (vec t [] i).
Proof. apply (vec_lxor s t [] []). Qed.

Lemma msize_lxor_l s t c : s < 65536 -> t < 65536 -> elt f c ->
  multiply_size f (N.lxor s t) c = N.lxor (multiply_size f s c) (multiply_size f t c).
Proof.
  intros Hs Ht Hc.
  assert (Hst : N.lxor s t < 65536) by now apply (lxor_below s t 16).
  apply (vec_inj_size _ _ [] []); [apply multiply_size_below| |].
  - apply (lxor_below _ _ 16); apply multiply_size_below.
  - intros i. rewrite vec_lxor0, <- !rmul_at_vec0 by assumption.
    rewrite <- rmul_at_lxor_r. apply rmul_at_ext_all. intros j. apply vec_lxor0.
Qed.

Lemma msize_lxor_r s c d : s < 65536 -> elt f c -> elt f d ->
  multiply_size f s (N.lxor c d) = N.lxor (multiply_size f s c) (multiply_size f s d).
Proof.
  intros Hs Hc Hd.
  apply (vec_inj_size _ _ [] []); [apply multiply_size_below| |].
  - apply (lxor_below _ _ 16); apply multiply_size_below.
  - intros i. rewrite vec_lxor0, <- !rmul_at_vec0 by auto using elt_lxor.
    apply rmul_at_lxor_l.
Qed.

Lemma msize_msize s c d : s < 65536 -> elt f c -> elt f d ->
  multiply_size f (multiply_size f s c) d = multiply_size f s (gmul f d c).
Proof.
  intros Hs Hc Hd.
  apply (vec_inj_size _ _ [] []); try apply multiply_size_below.
  intros i. rewrite <- !rmul_at_vec0 by auto using gmul_elt, multiply_size_below.
  rewrite <- rmul_at_rmul_at by assumption.
  apply rmul_at_ext_all. intros j. symmetry. now apply rmul_at_vec0.
Qed.

Lemma msize_1 s : s < 65536 -> multiply_size f s 1 = s.
Proof.
  intros Hs.
  apply (vec_inj_size _ _ [] []); [apply multiply_size_below|assumption|].
  intros i. rewrite <- rmul_at_vec0 by auto using elt_1.
  apply rmul_at_1, vec_bytes. constructor.
Qed.

Lemma msize_cancel s c : s < 65536 -> elt f c -> c <> 0 ->
  multiply_size f (multiply_size f s c) (gf_invert f c) = s.
Proof.
  intros Hs Hc Hz. unfold gf_invert.
  rewrite msize_msize, ginv_l by auto using ginv_elt. now apply msize_1.
Qed.

End Sizes.
