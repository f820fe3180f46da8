(** * Model of the C interface: netcode/c/detail/check_error.hh and the entry points of
    netcode/c/decoder.cc and netcode/c/encoder.cc that report errors *)
From Coq Require Import ZArith NArith List Bool.
From Verif Require Import Outcome GF Packetizer Encoder DetailDecoder Decoder.
Import ListNotations.
Open Scope N_scope.

(** What the wrapped C++ call may throw. [Std what] is any other exception derived from
    std::exception, with the characters of what(); [NonStd] is anything else. *)
Inductive raised :=
| PacketTypeEx
| OverflowEx
| BadAllocEx
| StdEx (what : list N)
| NonStdEx.

(** The end of the wrapped call. *)
Inductive result (A : Type) :=
| Returned (a : A)
| Raised (x : raised).
Arguments Returned {A} a.
Arguments Raised {A} x.

(** c/error.h 11-20. *)
Inductive error_type := NoError | UnknownError | NoMemory | PacketTypeErr | OverflowErr.

(** A char*: null, a block of the heap, or an indeterminate value. *)
Inductive pointer := Null | Block (n : nat) | Wild.

(** c/error.h 24-33. *)
Record c_error := { ce_type : error_type; ce_message : pointer }.

(** The blocks allocated by check_error that are alive, and the next name. *)
Record heap := { h_live : list (nat * list N); h_next : nat }.

Inductive crash := BadDelete | Terminate.

Inductive c_run (A : Type) :=
| Done (a : A)
| Crash (c : crash).
Arguments Done {A} a.
Arguments Crash {A} c.

Definition is_block (n : nat) (b : nat * list N) : bool := Nat.eqb (fst b) n.

(** [delete error->message], 50 and 61. That the block was allocated with new[] is ignored. *)
Definition delete (h : heap) (p : pointer) : c_run heap :=
  match p with
  | Null => Done h
  | Block n =>
      if existsb (is_block n) (h_live h)
      then Done {| h_live := filter (fun b => negb (is_block n b)) (h_live h); h_next := h_next h |}
      else Crash BadDelete
  | Wild => Crash BadDelete
  end.

(** [new (std::nothrow) char\[sz\]] filled with [content], 51-55; [room] tells if there
    is memory. *)
Definition allocate (room : bool) (h : heap) (content : list N) : heap * pointer :=
  if room
  then ({| h_live := (h_next h, content) :: h_live h; h_next := S (h_next h) |}, Block (h_next h))
  else (h, Null).

(** The types of the catch clauses, and which exceptions they catch: errors.hh 14-30,
    std::bad_alloc is a std::exception. *)
Inductive clause := CatchPacketType | CatchOverflow | CatchBadAlloc | CatchStd | CatchAll.

Definition catches (c : clause) (x : raised) : bool :=
  match c, x with
  | CatchPacketType, PacketTypeEx => true
  | CatchOverflow, OverflowEx => true
  | CatchBadAlloc, BadAllocEx => true
  | CatchStd, NonStdEx => false
  | CatchStd, _ => true
  | CatchAll, _ => true
  | _, _ => false
  end.

(** what() of an exception; those of the library do not override it. *)
Definition what_of (x : raised) : list N :=
  match x with
  | StdEx w => w
  | _ => [115; 116; 100; 58; 58; 101; 120; 99; 101; 112; 116; 105; 111; 110]
  end.

(** The bodies of the clauses, 31-62. *)
Definition clause_body (room : bool) (c : clause) (x : raised) (e : c_error) (h : heap) : c_run (c_error * heap) :=
  match c with
  | CatchPacketType => Done ({| ce_type := PacketTypeErr; ce_message := ce_message e |}, h)
  | CatchOverflow => Done ({| ce_type := OverflowErr; ce_message := ce_message e |}, h)
  | CatchBadAlloc => Done ({| ce_type := NoMemory; ce_message := ce_message e |}, h)
  | CatchStd =>
      match delete h (ce_message e) with
      | Crash c => Crash c
      | Done h =>
          let '(h, p) := allocate room h (what_of x) in
          Done ({| ce_type := UnknownError; ce_message := p |}, h)
      end
  | CatchAll =>
      match delete h (ce_message e) with
      | Crash c => Crash c
      | Done h => Done ({| ce_type := UnknownError; ce_message := ce_message e |}, h)
      end
  end.

(** The order of the clauses. *)
Definition clauses : list clause := [CatchPacketType; CatchOverflow; CatchBadAlloc; CatchStd; CatchAll].

(** [check_error], 17-66. It is noexcept: an exception that no clause catches terminates
    the program. *)
Definition check_error {A} (room : bool) (default : A) (fn : result A) (e : c_error) (h : heap)
  : c_run (A * c_error * heap) :=
  let e := {| ce_type := NoError; ce_message := ce_message e |} in
  match fn with
  | Returned a => Done (a, e, h)
  | Raised x =>
      match find (fun c => catches c x) clauses with
      | None => Crash Terminate
      | Some c =>
          match clause_body room c x e h with
          | Crash c => Crash c
          | Done (e, h) => Done (default, e, h)
          end
      end
  end.

(** ** Entry points *)

(** The exceptions of the library. *)
Definition exception (x : exn) : raised :=
  match x with PacketTypeError => PacketTypeEx | OverflowError => OverflowEx end.

(** How a call of the C++ library ends; undefined behaviour has no result. *)
Definition ended {A} (x : outcome A) : option (result A) :=
  match x with
  | Ok a => Some (Returned a)
  | Throw x => Some (Raised (exception x))
  | Fault _ => None
  end.

(** [ntc_decoder_add_packet], c/decoder.cc 32-37. *)
Definition c_decoder_add_packet (room : bool) (m : mode) (clk : clock) (d : dec) (p : packet) (e : c_error) (h : heap)
  : dec * option (c_run (nat * c_error * heap)) :=
  let '(d', r) := dec_packet m clk d p in
  (d', option_map (fun fn => check_error room O fn e h) (ended (bind r (fun '(_, n) => Ok n)))).

(** [ntc_encoder_add_packet], c/encoder.cc 36-41. *)
Definition c_encoder_add_packet (room : bool) (m : mode) (e0 : enc) (p : packet) (e : c_error) (h : heap)
  : enc * option (c_run (nat * c_error * heap)) :=
  let '(e1, r) := notify m e0 p in
  (e1, option_map (fun fn => check_error room O fn e h) (ended r)).

(** What a reader of a C string sees: the bytes before the first zero, or nothing if
    there is no zero in the block. *)
Fixpoint until_zero (l : list N) : option (list N) :=
  match l with
  | [] => None
  | 0 :: _ => Some []
  | b :: l' => option_map (cons b) (until_zero l')
  end.

Definition c_string (h : heap) (p : pointer) : option (list N) :=
  match p with
  | Block n => match find (is_block n) (h_live h) with Some (_, l) => until_zero l | None => None end
  | _ => None
  end.
