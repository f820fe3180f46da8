(** * Wire format: model of [netcode/detail/packetizer.hh]

    A packet is the list of its bytes (numbers below 256). Writers return the
    successive calls of the packet handler with data; the final call without
    data ([mark_end], 355-360) is made exactly once, after them. *)
From Coq Require Import NArith List Bool.
From Verif Require Import Outcome GF Containers.
Import ListNotations.
Open Scope N_scope.

(** packet_type.hh 11. *)
Inductive ptype : Set := TAck | TRepair | TSource.

(** packet_type.hh 17-36. Reading the first byte of an empty packet is out of
    bounds. *)
Definition get_packet_type (p : list N) : outcome ptype :=
  match p with
  | [] => Fault OutOfBounds
  | b :: _ =>
      if b =? 0 then Ok TAck
      else if b =? 1 then Ok TRepair
      else if b =? 2 then Ok TSource
      else Throw PacketTypeError
  end.

Definition ptype_eqb (a b : ptype) : bool :=
  match a, b with
  | TAck, TAck | TRepair, TRepair | TSource, TSource => true
  | _, _ => false
  end.

(** ** Writing *)

(** [write<T>], 250-258: [n] bytes, most significant first; the value is
    truncated to the type. *)
Fixpoint be (n : nat) (x : N) : list N :=
  match n with
  | O => []
  | S n' => be n' (x / 256) ++ [x mod 256]
  end.

(** [std::adjacent_difference] on 32-bit unsigned values (277), without its
    first element. *)
Fixpoint differences (prev : N) (l : list N) : list N :=
  match l with
  | [] => []
  | x :: l' => u32 (x + (4294967296 - prev)) :: differences x l'
  end.

(** Run-length encoding, 283-296: [d] is [*cit], [run] is [run_length]. *)
Fixpoint rle_from (d run : N) (l : list N) : list (N * N) :=
  match l with
  | [] => [(run, u16 d)]
  | d' :: l' =>
      if (d =? d') && (run <? 255) then rle_from d' (run + 1) l'
      else (run, u16 d) :: rle_from d' 1 l'
  end.

Definition rle (l : list N) : list (N * N) :=
  match l with
  | [] => []
  | d :: l' => rle_from d 1 l'
  end.

(** [write(const source_id_list&)], 260-309. *)
Definition write_ids (ids : list N) : list (list N) :=
  match ids with
  | [] => [be 2 0]
  | x :: l =>
      let pairs := rle (differences x l) in
      be 2 (N.of_nat (length pairs) + 1) :: be 4 x
        :: flat_map (fun rv => [be 1 (fst rv); be 2 (snd rv)]) pairs
  end.

(** detail/ack.hh: an ack. *)
Record ack := { a_ids : list N; a_nb : N }.

(** detail/repair.hh 13-135: a repair of the encoder. *)
Record erepair := { er_id : N; er_ids : list N; er_enc : N; er_sym : list N }.

(** detail/source.hh 11-72: a source of the encoder. *)
Record esource := { es_id : N; es_data : list N }.

(** [write_ack], 46-61. *)
Definition write_ack (a : ack) : list (list N) :=
  [be 1 0; be 2 (a_nb a)] ++ write_ids (a_ids a).

(** [write_repair], 90-122. The symbol and its size are written twice. *)
Definition write_repair (m : mode) (r : erepair) : outcome (list (list N)) :=
  _ <- assert_ m (Nat.ltb 0 (length (er_sym r))) ;;
  let size := be 2 (N.of_nat (length (er_sym r))) in
  Ok ([be 1 1; be 4 (er_id r); size; er_sym r] ++ write_ids (er_ids r)
      ++ [be 2 (er_enc r); size; er_sym r]).

(** [write_source], 165-183. *)
Definition write_source (s : esource) : list (list N) :=
  [be 1 2; be 4 (es_id s); be 2 (N.of_nat (length (es_data s))); es_data s].

(** ** Reading *)

(** The pointer [data], as an offset in the packet, and [max_len]. *)
Definition cursor : Type := nat * nat.

(** [std::copy_n] of [n] bytes from the pointer followed by [big_to_native]. *)
Fixpoint copy_be (p : list N) (pos n : nat) (acc : N) : outcome N :=
  match n with
  | O => Ok acc
  | S n' =>
      match nth_error p pos with
      | Some b => copy_be p (S pos) n' (acc * 256 + b)
      | None => Fault OutOfBounds
      end
  end.

(** [read<T>] for a type of [n] bytes, 222-240. *)
Definition read (p : list N) (n : nat) (c : cursor) : outcome (N * cursor) :=
  let '(pos, max_len) := c in
  if Nat.ltb max_len n then Throw OverflowError
  else v <- copy_be p pos n 0 ;;
       Ok (v, ((pos + n)%nat, (max_len - n)%nat)).

(** The loop 336-345: the differences, runs expanded. *)
Fixpoint read_pairs (p : list N) (nb : nat) (c : cursor) : outcome (list N * cursor) :=
  match nb with
  | O => Ok ([], c)
  | S nb' =>
      '(run, c) <- read p 1 c ;;
      '(value, c) <- read p 2 c ;;
      '(l, c) <- read_pairs p nb' c ;;
      Ok (repeat value (N.to_nat run) ++ l, c)
  end.

(** [std::partial_sum] on 32-bit unsigned values, 348. *)
Fixpoint partial_sum (acc : N) (l : list N) : list N :=
  match l with
  | [] => []
  | d :: l' => let acc' := u32 (acc + d) in acc' :: partial_sum acc' l'
  end.

(** [read_ids], 311-352. *)
Definition read_ids (p : list N) (c : cursor) : outcome (list N * cursor) :=
  '(nb, c) <- read p 2 c ;;
  if nb =? 0 then Ok ([], c)
  else
    '(first, c) <- read p 4 c ;;
    '(diffs, c) <- read_pairs p (N.to_nat (nb - 1)) c ;;
    Ok (fold_left (fun s x => sinsert x s) (partial_sum 0 (first :: diffs)) [], c).

(** The check 148-153 and 209-214 that skips the symbol. *)
Definition skip (n : N) (c : cursor) : outcome cursor :=
  let '(pos, max_len) := c in
  if Nat.ltb max_len (N.to_nat n) then Throw OverflowError
  else Ok ((pos + N.to_nat n)%nat, (max_len - N.to_nat n)%nat).

(** detail/repair.hh 144-258: [dr_buf] is the part of the packet that starts at
    the symbol (packet.hh 320-335). *)
Record drepair := { dr_id : N; dr_ids : list N; dr_enc : N; dr_buf : list N; dr_size : N }.

(** detail/source.hh 81-146. *)
Record dsource := { ds_id : N; ds_buf : list N; ds_size : N }.

(** The assertions 68, 129 and 190. *)
Definition assert_type (m : mode) (p : list N) (t : ptype) : outcome unit :=
  match m with
  | Release => Ok tt
  | Debug => t' <- get_packet_type p ;; assert_ m (ptype_eqb t' t)
  end.

(** [read_ack], 64-88. *)
Definition read_ack (m : mode) (p : list N) : outcome (ack * nat) :=
  _ <- assert_type m p TAck ;;
  let c := (0%nat, length p) in
  '(_, c) <- read p 1 c ;;
  '(nb, c) <- read p 2 c ;;
  '(ids, c) <- read_ids p c ;;
  Ok ({| a_ids := ids; a_nb := nb |}, fst c).

(** [read_repair], 124-163. *)
Definition read_repair (m : mode) (p : list N) : outcome (drepair * nat) :=
  _ <- assert_type m p TRepair ;;
  let c := (0%nat, length p) in
  '(_, c) <- read p 1 c ;;
  '(id, c) <- read p 4 c ;;
  '(size, c) <- read p 2 c ;;
  c <- skip size c ;;
  '(ids, c) <- read_ids p c ;;
  '(enc, c) <- read p 2 c ;;
  Ok ({| dr_id := id; dr_ids := ids; dr_enc := enc; dr_buf := skipn 7 p; dr_size := size |}, fst c).

(** [read_source], 185-218. *)
Definition read_source (m : mode) (p : list N) : outcome (dsource * nat) :=
  _ <- assert_type m p TSource ;;
  let c := (0%nat, length p) in
  '(_, c) <- read p 1 c ;;
  '(id, c) <- read p 4 c ;;
  '(size, c) <- read p 2 c ;;
  c <- skip size c ;;
  Ok ({| ds_id := id; ds_buf := skipn 7 p; ds_size := size |}, fst c).

(** The bytes seen through [symbol()] and [symbol_size()]. *)
Definition ds_data (s : dsource) : list N := firstn (N.to_nat (ds_size s)) (ds_buf s).
Definition dr_sym (r : drepair) : list N := firstn (N.to_nat (dr_size r)) (dr_buf r).
