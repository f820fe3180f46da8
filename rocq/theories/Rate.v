(** * Adaptive code rate: model of [netcode/encoder.hh] 335-344

    The arithmetic is that of IEEE 754 binary64 with rounding to nearest even,
    as specified by [Coq.Floats.SpecFloat]. *)
From Coq Require Import ZArith NArith Bool Floats.SpecFloat.
From Verif Require Import Outcome.

Definition b64 : Type := spec_float.

(** Conversion of an int to a double (exact for the values that occur). *)
Definition of_int (z : Z) : b64 := binary_normalize 53 1024 z 0 false.

Definition fdiv (x y : b64) : b64 := SFdiv 53 1024 x y.

(** The literal [0.01] of line 341 is the double nearest to 1/100, which is the
    correctly rounded quotient of 1 and 100. *)
Definition one_percent : b64 := fdiv (of_int 1) (of_int 100).

Example one_percent_is : one_percent = S754_finite false 5764607523034235 (-59).
Proof. vm_compute. reflexivity. Qed.

(** [ceil] followed by the conversion to [std::size_t], line 343. The
    conversion of a value outside of the type is undefined behaviour. *)
Definition ceil_size (x : b64) : outcome N :=
  match x with
  | S754_zero _ => Ok 0%N
  | S754_finite s m e =>
      let v := if s then Z.neg m else Z.pos m in
      let c := if (0 <=? e)%Z then (v * 2 ^ e)%Z else (- (- v / 2 ^ (- e)))%Z in
      if (0 <=? c)%Z && (c <? 2 ^ 64)%Z then Ok (Z.to_N c) else Fault OutOfBounds
  | _ => Fault OutOfBounds
  end.

(** [rate_for_loss], 335-344. *)
Definition rate_for_loss (loss : b64) : outcome N :=
  if SFltb loss one_percent then Ok 50%N
  else ceil_size (fdiv (fdiv (of_int 1) loss) (of_int 2)).

(** encoder.hh 303-312: the rate from the numbers of sent and of received
    packets; the difference is an [int] and may be negative. *)
Definition adapted_rate (sent received : N) : outcome N :=
  if (0 <? sent)%N
  then rate_for_loss (fdiv (of_int (Z.of_N sent - Z.of_N received)) (of_int (Z.of_N sent)))
  else rate_for_loss (of_int 0).

Example adapted_rate_half : adapted_rate 100 50 = Ok 1%N.
Proof. vm_compute. reflexivity. Qed.
Example adapted_rate_tenth : adapted_rate 100 90 = Ok 5%N.
Proof. vm_compute. reflexivity. Qed.
