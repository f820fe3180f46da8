(** * Model of [netcode/packet.hh] and of [netcode/detail/serialize_packet.hh]

    A packet owns a buffer of bytes that starts with [shift] unused bytes. New
    bytes of the buffer are not initialised (detail/buffer.hh 17-50): the
    function [junk] gives their values. Capacity is not modelled. *)
From Coq Require Import NArith List Bool.
From Verif Require Import Outcome GF Packetizer Encoder.
Import ListNotations.
Open Scope N_scope.
Open Scope outcome_scope.

(** detail/symbol_alignment.hh 9 and 13, packet.hh 32 and 36. *)
Definition alignment : nat := 16.
Definition shift : nat := 9.

(** The member m_buffer, 341. *)
Record pkt := { k_buffer : list N }.

(** The content of uninitialised memory. *)
Definition memory := nat -> N.
Definition uninitialised (junk : memory) (n : nat) : list N := map junk (seq 0 n).

(** std::vector::resize: new bytes come from [new]. *)
Definition vec_resize (l : list N) (n : nat) (new : nat -> list N) : list N :=
  firstn n l ++ new (n - length l)%nat.

(** std::copy to a position of a vector; writing outside of it is a fault. *)
Definition vec_copy (src : list N) (at_ : nat) (dst : list N) : outcome (list N) :=
  if Nat.leb (at_ + length src) (length dst)
  then Ok (firstn at_ dst ++ src ++ skipn (at_ + length src) dst)
  else Fault OutOfBounds.

(** Constructors: 65-67, 70-72, 75-77, 81-85 (and 88-92). *)
Definition packet_empty (junk : memory) : pkt := {| k_buffer := uninitialised junk shift |}.
Definition packet_sized (junk : memory) (size : nat) : pkt :=
  {| k_buffer := uninitialised junk (size + shift) |}.
Definition packet_filled (count : nat) (value : N) : pkt :=
  {| k_buffer := repeat value (count + shift) |}.
Definition packet_of (junk : memory) (l : list N) : outcome pkt :=
  b <- vec_copy l shift (uninitialised junk (length l + shift)) ;; Ok {| k_buffer := b |}.

(** [size], 242-247: 64 bits. [empty], 231-236. *)
Definition packet_size (p : pkt) : N :=
  u64 (N.of_nat (length (k_buffer p)) + (2 ^ 64 - N.of_nat shift)).
Definition packet_is_empty (p : pkt) : bool := packet_size p =? 0.

(** [operator\[\]], 136-151. *)
Definition packet_get (p : pkt) (pos : nat) : outcome N :=
  match nth_error (k_buffer p) (pos + shift) with
  | Some b => Ok b
  | None => Fault OutOfBounds
  end.
Definition packet_put (p : pkt) (pos : nat) (value : N) : outcome pkt :=
  b <- vec_copy [value] (pos + shift) (k_buffer p) ;; Ok {| k_buffer := b |}.

(** [resize], 303-306 and 312-315; [clear], 283-286; [push_back], 293-296. *)
Definition packet_resize (junk : memory) (p : pkt) (count : nat) : pkt :=
  {| k_buffer := vec_resize (k_buffer p) (count + shift) (uninitialised junk) |}.
Definition packet_resize_with (p : pkt) (count : nat) (value : N) : pkt :=
  {| k_buffer := vec_resize (k_buffer p) (count + shift) (repeat value) |}.
Definition packet_clear (junk : memory) (p : pkt) : pkt :=
  {| k_buffer := vec_resize (k_buffer p) shift (uninitialised junk) |}.
Definition packet_push_back (p : pkt) (value : N) : pkt := {| k_buffer := k_buffer p ++ [value] |}.

(** [assign], 112-116 and 121-125 (and 129-132). *)
Definition packet_assign_value (junk : memory) (p : pkt) (count : nat) (value : N) : outcome pkt :=
  let p := packet_resize junk p count in
  b <- vec_copy (repeat value (length (k_buffer p) - shift)) shift (k_buffer p) ;;
  Ok {| k_buffer := b |}.
Definition packet_assign (junk : memory) (p : pkt) (l : list N) : outcome pkt :=
  let p := packet_resize junk p (length l) in
  b <- vec_copy l shift (k_buffer p) ;; Ok {| k_buffer := b |}.

(** The memory a user sees between begin() and end(), 175-226: a pointer before the
    end is required. *)
Definition packet_range (p : pkt) : outcome (list N) :=
  if Nat.leb shift (length (k_buffer p)) then Ok (skipn shift (k_buffer p)) else Fault OutOfBounds.

(** The memory from symbol() on, 320-335. *)
Definition packet_symbol (p : pkt) : outcome (list N) :=
  if Nat.leb alignment (length (k_buffer p)) then Ok (skipn alignment (k_buffer p)) else Fault OutOfBounds.

(** What a move leaves behind (59, 62): the vector of the source of a move is empty
    in the usual implementations. *)
Definition moved_from : pkt := {| k_buffer := [] |}.

(** ** Dumps *)

(** std::copy_n from an istreambuf_iterator reads [n] characters and leaves the
    stream behind them ([Bulk]: libstdc++ since version 10) or on the last one
    ([Stepwise]: the C++ standard since LWG 2471, older libstdc++). *)
Inductive copy_n_style := Bulk | Stepwise.

(** std::copy_n: the characters and the rest of the stream. A read behind the
    end of the stream is a fault. *)
Definition copy_n (style : copy_n_style) (s : list N) (n : nat) : outcome (list N * list N) :=
  if Nat.ltb (length s) n then Fault OutOfBounds
  else Ok (firstn n s, skipn (match style with Bulk => n | Stepwise => n - 1 end) s).

(** [++isb]: sbumpc, does nothing at the end of the stream. *)
Definition bump (s : list N) : list N := tl s.

(** [serialize_packet::write], 17-24: the bytes appended to the stream. *)
Definition dump_packet (p : pkt) : list N :=
  be 2 (N.of_nat (length (k_buffer p))) ++ k_buffer p.

(** [serialize_packet::read], 26-44: the packet and the rest of the stream. *)
Definition load_packet (style : copy_n_style) (s : list N) : outcome (pkt * list N) :=
  '(sz, s) <- copy_n style s 2 ;;
  let s := bump s in
  let n := N.to_nat (fold_left (fun a b => a * 256 + b) sz 0) in
  '(b, s) <- copy_n style s n ;;
  let s := bump s in
  Ok ({| k_buffer := b |}, s).
