(** * Galois field arithmetic: model of [netcode/detail/galois_field.hh]

    gf-complete is an external library; its multiplication in GF(2^w) is
    modelled by polynomial multiplication over GF(2) modulo its default
    polynomials, and its region operations by word-wise multiplication of
    little endian words (nibbles for w = 4). *)
From Coq Require Import NArith List Bool.
From Verif Require Import Outcome.
Import ListNotations.
Open Scope N_scope.

(** The sizes accepted by the constructor, galois_field.hh 35-44. *)
Inductive field : Set := W4 | W8 | W16 | W32.

Definition wbits (f : field) : N :=
  match f with W4 => 4 | W8 => 8 | W16 => 16 | W32 => 32 end.

(** The default polynomials selected by [gf_init_easy] (galois_field.hh 40),
    with their leading term. *)
Definition gf_poly (f : field) : N :=
  match f with
  | W4 => 0x13
  | W8 => 0x11d
  | W16 => 0x1100b
  | W32 => 0x100400007
  end.

(** Multiplication by [x] modulo the polynomial [p] of degree [w]. *)
Definition xtime (w p a : N) : N :=
  let d := N.double a in
  if N.testbit d w then N.lxor d p else d.

(** Shift-and-xor multiplication modulo [p]: gf-complete's [multiply.w32]. *)
Fixpoint gmul_pos (w p a : N) (b : positive) : N :=
  match b with
  | xH => a
  | xO b' => xtime w p (gmul_pos w p a b')
  | xI b' => N.lxor a (xtime w p (gmul_pos w p a b'))
  end.

Definition gmul_gen (w p a b : N) : N :=
  match b with
  | N0 => 0
  | Npos b' => gmul_pos w p a b'
  end.

Definition gmul (f : field) (a b : N) : N := gmul_gen (wbits f) (gf_poly f) a b.

(** [prod_frob a k] = a^(2+4+...+2^k), by repeated squaring. *)
Fixpoint inv_loop (w p : N) (k : nat) (s acc : N) : N :=
  match k with
  | O => acc
  | S k' =>
      let s' := gmul_gen w p s s in
      inv_loop w p k' s' (gmul_gen w p acc s')
  end.

(** Division 1/a (galois_field.hh 134-139, [divide.w32(1, a)]): the inverse is
    unique, it is computed here as a^(2^w - 2). *)
Definition ginv (f : field) (a : N) : N :=
  inv_loop (wbits f) (gf_poly f) (N.to_nat (wbits f) - 1) a 1.

(** galois_field.hh 124-130: product of two coefficients. *)
Definition gf_multiply (f : field) (x y : N) : N :=
  if (x =? 0) || (y =? 0) then 0 else gmul f x y.

(** galois_field.hh 134-139. *)
Definition gf_invert (f : field) (c : N) : N := ginv f c.

(** Truncation to the unsigned types of the code. *)
Definition u16 (x : N) : N := x mod 65536.
Definition u32 (x : N) : N := x mod 4294967296.

(** galois_field.hh 144-158: the coefficient of a source in a repair, with
    32-bit wrap-around. *)
Definition coefficient (f : field) (repair_id src_id : N) : N :=
  let base := u32 (u32 (u32 (repair_id + 1) + u32 (src_id + 1)) * u32 (repair_id + 1)) in
  match f with
  | W32 => if base =? 0 then 1 else base
  | _ => base mod (2 ^ wbits f - 1) + 1
  end.

(** ** Regions *)

(** Bytes in a word of a region. *)
Definition wbytes (f : field) : nat :=
  match f with W4 => 1 | W8 => 1 | W16 => 2 | W32 => 4 end.

(** A little endian word of [n] bytes read at position [k]. *)
Fixpoint le_dec (n : nat) (v : nat -> N) (k : nat) : N :=
  match n with
  | O => 0
  | S n' => N.lxor (v k) (N.shiftl (le_dec n' v (S k)) 8)
  end.

(** Byte number [t] of a word. *)
Definition le_byte (x : N) (t : nat) : N :=
  N.land (N.shiftr x (8 * N.of_nat t)) 255.

(** Product of a coefficient and one word of a region; for w = 4 a byte holds
    two independent symbols. *)
Definition mulword (f : field) (c x : N) : N :=
  match f with
  | W4 => N.lxor (gmul f c (N.land x 15)) (N.shiftl (gmul f c (N.shiftr x 4)) 4)
  | _ => gmul f c x
  end.

(** Byte [i] of the product of [c] with the region [v]. *)
Definition rmul_at (f : field) (c : N) (v : nat -> N) (i : nat) : N :=
  let wb := wbytes f in
  le_byte (mulword f c (le_dec wb v (wb * Nat.div i wb))) (Nat.modulo i wb).

(** The product of [c] with a whole region. *)
Definition rmul (f : field) (c : N) (l : list N) : list N :=
  map (rmul_at f c (fun i => nth i l 0)) (seq 0 (length l)).

(** Xor of two regions; the shorter one is padded with zeros. *)
Fixpoint xorl (a b : list N) : list N :=
  match a, b with
  | [], _ => b
  | _, [] => a
  | x :: a', y :: b' => N.lxor x y :: xorl a' b'
  end.

(** What gf-complete demands of a region: the length is a multiple of the word
    size. *)
Definition aligned (f : field) (len : nat) : bool :=
  Nat.eqb (Nat.modulo len (wbytes f)) 0.

(** galois_field.hh 66-75: [dst[0..len) = c * src[0..len)]. The result is the
    new contents of [dst[0..len)]; reading beyond [src] is a fault. *)
Definition region_multiply (f : field) (src : list N) (len : nat) (c : N)
  : outcome (list N) :=
  if Nat.ltb (length src) len then Fault OutOfBounds
  else if negb (aligned f len) then Fault GfMisaligned
  else Ok (rmul f c (firstn len src)).

(** galois_field.hh 83-92: [dst[0..len) ^= c * src[0..len)]. The result is the
    whole new [dst]; reading or writing beyond a buffer is a fault. *)
Definition region_multiply_add (f : field) (src dst : list N) (len : nat) (c : N)
  : outcome (list N) :=
  if Nat.ltb (length src) len || Nat.ltb (length dst) len then Fault OutOfBounds
  else if negb (aligned f len) then Fault GfMisaligned
  else Ok (xorl (rmul f c (firstn len src)) dst).

(** galois_field.hh 96-120: product of a 16-bit size and a coefficient. For
    w = 32 the product is truncated to 16 bits (line 118). *)
Definition multiply_size (f : field) (size c : N) : N :=
  if (size =? 0) || (c =? 0) then 0
  else match f with
       | W4 | W8 =>
           le_dec 2 (fun i => nth i (rmul f c [le_byte size 0; le_byte size 1]) 0) 0
       | W16 | W32 => u16 (gmul f size c)
       end.
