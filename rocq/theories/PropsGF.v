(** * Properties of the Galois field arithmetic: C11 - C14 *)
From Coq Require Import NArith List Bool Lia Arith.
From Verif Require Import Outcome GF GFProofs GFField GFRegion Linear RegionFacts GFPoly.
Import ListNotations.
Open Scope N_scope.

(** ** C11 *)

(** An element of the field of size [w] is a number of [w] bits. *)
Definition is_elt (f : field) (a : N) : Prop := a < 2 ^ wbits f.

Theorem C11_field_laws :
  forall f a b c, is_elt f a -> is_elt f b -> is_elt f c ->
  is_elt f (gf_multiply f a b)
  /\ gf_multiply f a (gf_multiply f b c) = gf_multiply f (gf_multiply f a b) c
  /\ gf_multiply f a b = gf_multiply f b a
  /\ gf_multiply f a (N.lxor b c) = N.lxor (gf_multiply f a b) (gf_multiply f a c)
  /\ gf_multiply f 1 a = a
  /\ (gf_multiply f a b = 0 -> a = 0 \/ b = 0).
Proof.
  intros f a b c Ha Hb Hc. rewrite !gf_multiply_gmul.
  repeat split.
  - now apply gmul_elt.
  - now apply gmul_assoc.
  - now apply gmul_comm.
  - apply gmul_lxor_r.
  - now apply gmul_1_l.
  - now apply gmul_zero_divisor.
Qed.
Print Assumptions C11_field_laws.

Theorem C11_inverse :
  forall f a, is_elt f a -> a <> 0 ->
  is_elt f (gf_invert f a) /\ gf_multiply f a (gf_invert f a) = 1
  /\ forall b, is_elt f b -> gf_multiply f a b = 1 -> b = gf_invert f a.
Proof.
  intros f a Ha Hz. rewrite gf_multiply_gmul. unfold gf_invert. split; [|split].
  - now apply ginv_elt.
  - now apply ginv_r.
  - intros b Hb H. rewrite gf_multiply_gmul in H.
    rewrite <- (gmul_1_l b Hb), <- (ginv_l a Ha Hz), <- gmul_assoc, H by now apply ginv_elt.
    apply gmul_1_r.
Qed.
Print Assumptions C11_inverse.

(** The polynomials of gf-complete, as lists of exponents: the remainders modulo them are the elements of the fields. *)
Definition modulus (f : field) : list N :=
  match f with W4 => [4; 1; 0] | W8 => [8; 4; 3; 2; 0] | W16 => [16; 12; 3; 1; 0] | W32 => [32; 22; 2; 1; 0] end.
Definition degree (f : field) : N := match f with W4 => 4 | W8 => 8 | W16 => 16 | W32 => 32 end.

Lemma gf_poly_exponents f : with_exponents (gf_poly f) (modulus f).
Proof.
  intros n. destruct (N.lt_ge_cases n 40) as [H|H].
  - assert (A : forallb (fun n => Bool.eqb (N.testbit (gf_poly f) n) (existsb (N.eqb n) (modulus f))) (map N.of_nat (seq 0 40)) = true)
      by (destruct f; vm_compute; reflexivity).
    rewrite forallb_forall in A. apply Bool.eqb_prop, A. apply in_map_iff. exists (N.to_nat n). split; [apply N2Nat.id|].
    apply in_seq. lia.
  - rewrite (testbit_above (gf_poly f) 40 n) by (assumption || destruct f; reflexivity).
    destruct f; cbn [modulus existsb]; repeat match goal with |- context [N.eqb n ?k] => destruct (N.eqb_spec n k); [lia|] end; reflexivity.
Qed.

(** The product of two elements is the remainder of the product of their polynomials, so it is fixed bit by bit. *)
Theorem C11_polynomials :
  forall f a b, is_elt f a -> is_elt f b ->
  exists ab m, poly_product ab a b /\ with_exponents m (modulus f)
  /\ poly_remainder (gf_multiply f a b) ab m (degree f)
  /\ forall r, poly_remainder r ab m (degree f) -> r = gf_multiply f a b.
Proof.
  intros f a b Ha Hb. rewrite gf_multiply_gmul. replace (degree f) with (wbits f) by (destruct f; reflexivity).
  destruct (gmul_remainder f a b Ha) as (ab & Hp & Hr). exists ab, (gf_poly f).
  split; [exact Hp|]. split; [apply gf_poly_exponents|]. split; [exact Hr|].
  intros r H. exact (remainder_unique _ _ _ _ _ (poly_low f) (poly_top f) H Hr).
Qed.
Print Assumptions C11_polynomials.

(** (x + 1) * (x^7 + 1) = x^8 + x^7 + x + 1, and x^8 = x^4 + x^3 + x^2 + 1. *)
Example C11_polynomials_case : is_elt W8 3 /\ is_elt W8 0x81 /\ gf_multiply W8 3 0x81 = 0x9e
  /\ poly_product 0x183 3 0x81 /\ N.lxor 0x183 0x11d = 0x9e.
Proof.
  split; [reflexivity|]. split; [reflexivity|]. split; [reflexivity|]. split; [|reflexivity].
  change 0x183 with (clmul 3 0x81). apply clmul_product.
Qed.

Example C11_hyps : is_elt W32 0xdeadbeef /\ 0xdeadbeef <> 0
  /\ gf_multiply W32 0xdeadbeef (gf_invert W32 0xdeadbeef) = 1
  /\ gf_multiply W8 0x53 0xca = 0x8f.
Proof. vm_compute. repeat split; discriminate. Qed.

(** ** C12 *)

Theorem C12_coefficient_nonzero :
  forall f repair_id source_id, is_elt f (coefficient f repair_id source_id)
  /\ coefficient f repair_id source_id <> 0.
Proof. exact @coefficient_elt. Qed.
Print Assumptions C12_coefficient_nonzero.

(** The coefficient for w = 32 hits the corrected zero: the product wraps. *)
Example C12_wrap : coefficient W32 0xffff 0xfffeffff = 1
  /\ coefficient W8 4294967295 7 = 1 /\ coefficient W8 3 7 = 49.
Proof. vm_compute. repeat split. Qed.

(** ** C13 *)

Theorem C13_sizes_recoverable :
  forall f size c, f <> W32 -> size < 65536 -> is_elt f c -> c <> 0 ->
  multiply_size f (multiply_size f size c) (gf_invert f c) = size.
Proof. intros f size c Hf. exact (msize_cancel Hf size c). Qed.
Print Assumptions C13_sizes_recoverable.

Theorem C13_sizes_linear :
  forall f s t c d, f <> W32 -> s < 65536 -> t < 65536 -> is_elt f c -> is_elt f d ->
  multiply_size f (N.lxor s t) c = N.lxor (multiply_size f s c) (multiply_size f t c)
  /\ multiply_size f s (N.lxor c d) = N.lxor (multiply_size f s c) (multiply_size f s d)
  /\ multiply_size f (multiply_size f s c) d = multiply_size f s (gf_multiply f d c)
  /\ multiply_size f s c < 65536.
Proof.
  intros f s t c d Hf Hs Ht Hc Hd. rewrite gf_multiply_gmul. repeat split.
  - now apply msize_lxor_l.
  - now apply msize_lxor_r.
  - now apply msize_msize.
  - apply multiply_size_below.
Qed.
Print Assumptions C13_sizes_linear.

(** For w = 32 a size multiplied by an actual coefficient of the code is not
    recovered. *)
Theorem C13_sizes_recoverable_w32_refuted :
  exists repair_id source_id size, size < 65536
  /\ let c := coefficient W32 repair_id source_id in
     multiply_size W32 (multiply_size W32 size c) (gf_invert W32 c) <> size.
Proof. exists 3, 7, 65535. vm_compute. split; [reflexivity|discriminate]. Qed.
Print Assumptions C13_sizes_recoverable_w32_refuted.

Example C13_hyps : W16 <> W32 /\ 1500 < 65536 /\ is_elt W16 (coefficient W16 3 7)
  /\ coefficient W16 3 7 <> 0
  /\ multiply_size W8 1500 (coefficient W8 3 7) = 62751.
Proof. vm_compute. repeat split; discriminate. Qed.

(** ** C14 *)

Definition is_bytes (l : list N) : Prop := Forall (fun b => b < 256) l.

(** [region_multiply] and [region_multiply_add] succeed exactly when both
    regions are long enough and the length is a multiple of the word. *)
Theorem C14_region_defined :
  forall f src dst len c,
  ((exists d, region_multiply f src len c = Ok d)
     <-> (len <= length src)%nat /\ Nat.modulo len (N.to_nat (N.max 1 (wbits f / 8))) = 0%nat)
  /\ ((exists d, region_multiply_add f src dst len c = Ok d)
     <-> (len <= length src)%nat /\ (len <= length dst)%nat
         /\ Nat.modulo len (N.to_nat (N.max 1 (wbits f / 8))) = 0%nat).
Proof.
  intros f src dst len c.
  assert (Hw : N.to_nat (N.max 1 (wbits f / 8)) = wbytes f) by (destruct f; reflexivity).
  rewrite Hw. unfold region_multiply, region_multiply_add, aligned.
  destruct (Nat.ltb_spec (length src) len), (Nat.ltb_spec (length dst) len),
    (Nat.eqb_spec (len mod wbytes f) 0); simpl;
    split; split; try (intros [d Hd]; discriminate); try (intros; exfalso; lia);
    try (intros; eexists; reflexivity); intros; repeat split; try lia.
Qed.
Print Assumptions C14_region_defined.

Theorem C14_multiply_invertible :
  forall f src len c d, is_bytes src -> is_elt f c -> c <> 0 ->
  region_multiply f src len c = Ok d ->
  region_multiply f d len (gf_invert f c) = Ok (firstn len src).
Proof.
  intros f src len c d Hb Hc Hz. unfold region_multiply.
  destruct (Nat.ltb_spec (length src) len) as [|Hl]; [discriminate|].
  destruct (aligned f len) eqn:Ha; [|discriminate]. simpl. intros H. injection H as <-.
  assert (E : length (firstn len src) = len) by now apply firstn_length_le.
  rewrite rmul_length, E, Nat.ltb_irrefl.
  rewrite firstn_all2 by (rewrite rmul_length, E; lia).
  unfold gf_invert. rewrite rmul_rmul; try assumption.
  - rewrite ginv_l by assumption. now rewrite rmul_1 by now apply bytes_firstn.
  - now apply ginv_elt.
  - now rewrite E.
Qed.
Print Assumptions C14_multiply_invertible.

Theorem C14_add_twice :
  forall f src dst len c d, region_multiply_add f src dst len c = Ok d ->
  length d = length dst /\ region_multiply_add f src d len c = Ok dst.
Proof.
  intros f src dst len c d. unfold region_multiply_add.
  destruct (Nat.ltb_spec (length src) len) as [|Hl]; [discriminate|].
  destruct (Nat.ltb_spec (length dst) len) as [|Hl']; [discriminate|]. simpl.
  destruct (aligned f len) eqn:Ha; [|discriminate]. simpl. intros H. injection H as <-.
  assert (E : length (firstn len src) = len) by now apply firstn_length_le.
  assert (E' : length (xorl (rmul f c (firstn len src)) dst) = length dst)
    by (rewrite xorl_length, rmul_length, E; lia).
  split; [assumption|].
  rewrite E'. destruct (Nat.ltb_spec (length dst) len); [lia|].
  f_equal. apply xorl_cancel. rewrite rmul_length, E. assumption.
Qed.
Print Assumptions C14_add_twice.

Theorem C14_multiply_linear :
  forall f a b len c pa pb, length a = length b -> len = length a ->
  region_multiply f a len c = Ok pa -> region_multiply f b len c = Ok pb ->
  exists p, region_multiply f (map (fun xy => N.lxor (fst xy) (snd xy)) (combine a b)) len c = Ok p
  /\ p = map (fun xy => N.lxor (fst xy) (snd xy)) (combine pa pb).
Proof.
  assert (X : forall a b, length a = length b ->
            map (fun xy => N.lxor (fst xy) (snd xy)) (combine a b) = xorl a b).
  { induction a as [|x a IH]; intros [|y b] H; try discriminate; [reflexivity|].
    simpl in *. f_equal. apply IH. congruence. }
  intros f a b len c pa pb Hab ->. unfold region_multiply.
  rewrite <- Hab, Nat.ltb_irrefl. destruct (aligned f (length a)) eqn:Ha; [|discriminate].
  simpl. rewrite firstn_all, Hab, firstn_all. intros H1 H2. injection H1 as <-.
  injection H2 as <-. rewrite !X by (rewrite ?rmul_length; assumption).
  assert (E : length (xorl a b) = length a) by (rewrite xorl_length; lia).
  rewrite <- Hab, E, Nat.ltb_irrefl. simpl.
  eexists. split; [reflexivity|].
  rewrite firstn_all2 by (rewrite xorl_length; lia). now apply rmul_xorl.
Qed.
Print Assumptions C14_multiply_linear.

Theorem C14_truncate_pad :
  forall f src len n k c d, (n <= len)%nat ->
  Nat.modulo n (wbytes f) = 0%nat -> Nat.modulo k (wbytes f) = 0%nat ->
  region_multiply f src len c = Ok d ->
  region_multiply f src n c = Ok (firstn n d)
  /\ (len = length src ->
      region_multiply f (src ++ repeat 0 k) (len + k) c = Ok (d ++ repeat 0 k)).
Proof.
  intros f src len n k c d Hn Hm Hk. unfold region_multiply.
  destruct (Nat.ltb_spec (length src) len) as [|Hl]; [discriminate|].
  destruct (aligned f len) eqn:Ha; [|discriminate]. simpl. intros H. injection H as <-.
  assert (Han : aligned f n = true) by now apply Nat.eqb_eq.
  assert (Hak : aligned f k = true) by now apply Nat.eqb_eq.
  assert (E : length (firstn len src) = len) by now apply firstn_length_le.
  split.
  - destruct (Nat.ltb_spec (length src) n); [lia|]. rewrite Han. simpl. f_equal.
    rewrite <- rmul_firstn; try assumption; [|lia]. f_equal.
    rewrite firstn_firstn. f_equal. lia.
  - intros ->. rewrite app_length, repeat_length, Nat.ltb_irrefl.
    assert (Hal : aligned f (length src + k) = true).
    { unfold aligned in *. apply Nat.eqb_eq in Ha. apply Nat.eqb_eq.
      rewrite Nat.add_mod, Ha, Hk by (destruct f; discriminate). destruct f; reflexivity. }
    rewrite Hal. simpl. f_equal.
    rewrite firstn_all2 by (rewrite app_length, repeat_length; lia).
    rewrite firstn_all. now apply rmul_pad.
Qed.
Print Assumptions C14_truncate_pad.

(** The region operations multiply symbol by symbol and leave everything behind the region alone. *)
Theorem C14_symbols :
  forall f src dst len c, is_bytes src -> is_bytes dst -> is_elt f c ->
  (forall d, region_multiply f src len c = Ok d ->
     length d = len /\ forall k, (N.of_nat k < 8 * N.of_nat len / degree f) -> symbol f d k = gf_multiply f c (symbol f src k))
  /\ forall d, region_multiply_add f src dst len c = Ok d ->
     length d = length dst /\ skipn len d = skipn len dst
     /\ forall k, (N.of_nat k < 8 * N.of_nat len / degree f) ->
          symbol f d k = N.lxor (symbol f dst k) (gf_multiply f c (symbol f src k)).
Proof.
  intros f src dst len c Hs Hd Hc.
  assert (In : forall n k, (N.of_nat k < 8 * N.of_nat n / degree f) -> aligned f n = true -> forall l l',
             (forall i, (i < n)%nat -> nth i l 0 = nth i l' 0) -> symbol f l k = symbol f l' k).
  { intros n k Hk Ha l l' E. apply Nat.eqb_eq in Ha. destruct f; cbn [symbol degree wbytes] in *.
    - assert (X : (k / 2 < n)%nat). { apply Nat.div_lt_upper_bound; [lia|]. replace (8 * N.of_nat n) with (2 * N.of_nat n * 4) in Hk by lia. rewrite N.div_mul in Hk by discriminate. lia. }
      rewrite (E _ X). reflexivity.
    - apply E. rewrite N.mul_comm, N.div_mul in Hk by discriminate. lia.
    - assert (X : (2 * k + 1 < n)%nat).
      { apply Nat.div_exact in Ha; [|discriminate]. set (h := (n / 2)%nat) in *. rewrite Ha in Hk |- *.
        replace (8 * N.of_nat (2 * h)) with (N.of_nat h * 16) in Hk by lia. rewrite N.div_mul in Hk by discriminate. lia. }
      rewrite !E by lia. reflexivity.
    - assert (X : (4 * k + 3 < n)%nat).
      { apply Nat.div_exact in Ha; [|discriminate]. set (h := (n / 4)%nat) in *. rewrite Ha in Hk |- *.
        replace (8 * N.of_nat (4 * h)) with (N.of_nat h * 32) in Hk by lia. rewrite N.div_mul in Hk by discriminate. lia. }
      rewrite !E by lia. reflexivity. }
  assert (M : forall k, (len <= length src)%nat -> aligned f len = true -> (N.of_nat k < 8 * N.of_nat len / degree f) ->
             symbol f (rmul f c (firstn len src)) k = gf_multiply f c (symbol f src k)).
  { intros k Hl Ha Hk. assert (E : length (firstn len src) = len) by now apply firstn_length_le.
    rewrite gf_multiply_gmul, symbol_rmul; [|exact Hc|now apply bytes_firstn|now rewrite E].
    f_equal. apply (In len k Hk Ha). intros i Hi. rewrite nth_firstn. destruct (Nat.ltb_spec i len); [reflexivity|lia]. }
  split.
  - intros d. unfold region_multiply. destruct (Nat.ltb_spec (length src) len) as [|Hl]; [discriminate|].
    destruct (aligned f len) eqn:Ha; [|discriminate]. cbn [negb]. intros H. injection H as <-.
    split; [rewrite rmul_length; now apply firstn_length_le|]. intros k Hk. now apply M.
  - intros d. unfold region_multiply_add. destruct (Nat.ltb_spec (length src) len) as [|Hl]; [discriminate|].
    destruct (Nat.ltb_spec (length dst) len) as [|Hl']; [discriminate|]. cbn [orb].
    destruct (aligned f len) eqn:Ha; [|discriminate]. cbn [negb]. intros H. injection H as <-.
    assert (E : length (firstn len src) = len) by now apply firstn_length_le.
    split; [rewrite xorl_length, rmul_length, E; lia|]. split.
    + set (r := rmul f c (firstn len src)). assert (Hr : length r = len) by (unfold r; now rewrite rmul_length). clearbody r. clear - Hr Hl'.
      revert dst len Hr Hl'. induction r as [|x r IH]; intros dst len Hr Hl'; cbn [length] in Hr; subst len; [reflexivity|].
      destruct dst as [|y dst]; cbn [length] in Hl'; [lia|]. cbn [xorl skipn]. apply IH; lia.
    + intros k Hk. rewrite <- (M k Hl eq_refl Hk). rewrite N.lxor_comm. apply symbol_xorl; [apply rmul_bytes | exact Hd].
Qed.
Print Assumptions C14_symbols.

Example C14_symbols_case : region_multiply W16 [1;2;3;4;5] 4 0x1234 = Ok [110;27;232;36]
  /\ symbol W16 [1;2;3;4;5] 1 = 0x403 /\ symbol W16 [110;27;232;36] 1 = gf_multiply W16 0x1234 0x403
  /\ gf_multiply W16 0x1234 0x403 = 9448
  /\ symbol W4 [0x1f; 0x23] 2 = 3 /\ symbol W4 [0x1f; 0x23] 3 = 2.
Proof. vm_compute. repeat split. Qed.

(** The encoded size is the product of the two little endian bytes of the size, taken as a region; with 32-bit words the low half of
    the product of the size itself (see C13). *)
Theorem C13_size_symbols :
  forall f size c, size < 65536 -> is_elt f c ->
  multiply_size f size c < 65536
  /\ (f = W32 -> multiply_size f size c = gf_multiply f size c mod 65536)
  /\ (f <> W32 -> forall k, (N.of_nat k < 16 / degree f) ->
        symbol f [multiply_size f size c mod 256; multiply_size f size c / 256] k
        = gf_multiply f c (symbol f [size mod 256; size / 256] k)).
Proof.
  intros f size c Hs Hc. split; [apply multiply_size_below|]. split.
  - intros ->. unfold multiply_size, gf_multiply. destruct ((size =? 0) || (c =? 0)); reflexivity.
  - intros Hf k Hk.
    assert (B : is_bytes [size mod 256; size / 256]).
    { apply Forall_cons; [now apply N.mod_lt|]. apply Forall_cons; [|apply Forall_nil]. apply N.div_lt_upper_bound; [discriminate|exact Hs]. }
    assert (Small : f = W4 \/ f = W8 -> multiply_size f size c mod 256 = nth 0 (rmul f c [size mod 256; size / 256]) 0
              /\ multiply_size f size c / 256 = nth 1 (rmul f c [size mod 256; size / 256]) 0).
    { intros F. assert (E : multiply_size f size c = le_dec 2 (fun i => nth i (rmul f c [size mod 256; size / 256]) 0) 0).
      { unfold multiply_size. destruct (N.eqb_spec size 0) as [->|Hz]; cbn [orb].
        - destruct F as [->| ->]; vm_compute; reflexivity.
        - destruct (N.eqb_spec c 0) as [->|Hcz]; cbn [orb].
          + destruct F as [->| ->]; cbn [rmul length seq map nth le_dec]; rewrite !rmul_at_0_l; reflexivity.
          + unfold le_byte. change (8 * N.of_nat 0) with 0. change (8 * N.of_nat 1) with 8. rewrite N.shiftr_0_r.
            change 255 with (N.ones 8). rewrite !N.land_ones, N.shiftr_div_pow2. change (2 ^ 8) with 256.
            rewrite (N.mod_small (size / 256)) by (apply N.div_lt_upper_bound; [discriminate|exact Hs]). destruct F as [->| ->]; reflexivity. }
      assert (V : bytes_fn (fun i => nth i (rmul f c [size mod 256; size / 256]) 0)) by apply bytes_fn_nth, rmul_bytes.
      rewrite E. rewrite !le_dec_sum by exact V. cbn [le_dec]. pose proof (V 0%nat) as V0. cbv beta in V0.
      set (x := nth 0 _ 0) in *. set (y := nth 1 _ 0). replace (x + 256 * (y + 256 * 0)) with (x + y * 256) by lia. split.
      - rewrite N.mod_add by discriminate. now apply N.mod_small.
      - rewrite N.div_add by discriminate. rewrite N.div_small by exact V0. lia. }
    destruct f; [| | |congruence].
    + destruct (Small (or_introl eq_refl)) as [-> ->]. rewrite gf_multiply_gmul, <- symbol_rmul by (exact Hc || exact B || reflexivity). reflexivity.
    + destruct (Small (or_intror eq_refl)) as [-> ->]. rewrite gf_multiply_gmul, <- symbol_rmul by (exact Hc || exact B || reflexivity). reflexivity.
    + cbn [degree] in Hk. change (16 / 16) with 1 in Hk. assert (k = 0%nat) by lia. subst k. cbn [symbol nth Nat.mul Nat.add].
      assert (D : forall x, x mod 256 + 256 * (x / 256) = x) by (intros x; rewrite N.add_comm; symmetry; now apply N.div_mod).
      rewrite !D. unfold multiply_size, gf_multiply. rewrite (orb_comm (c =? 0)).
      destruct ((size =? 0) || (c =? 0)); [reflexivity|]. rewrite (gmul_comm size c) by (exact Hs || exact Hc).
      apply N.mod_small. exact (gmul_elt c size Hc).
Qed.
Print Assumptions C13_size_symbols.

Example C14_hyps : region_multiply W16 [1;2;3;4;5] 4 0x1234 = Ok [110;27;232;36]
  /\ is_elt W16 0x1234
  /\ region_multiply_add W4 [0x1f; 0x23] [1;2;3] 2 7 = Ok [122; 235; 3]
  /\ region_multiply W16 [1;2;3] 3 5 = Fault GfMisaligned.
Proof. vm_compute. repeat split. Qed.
