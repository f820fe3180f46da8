(** * Models of tools/replay.cc and tools/source_forwarder.cc *)
From Coq Require Import ZArith NArith List Bool.
From Verif Require Import Outcome GF Packetizer Packet Encoder DetailDecoder Decoder.
Import ListNotations.
Open Scope N_scope.
Open Scope outcome_scope.

(** ** replay.cc *)

(** How the program ends when it is not by a fault: at the end of the file (66-69) or by an exception (94-101). *)
Inductive ending : Type := AtEnd | ByException.

(** Lines 71-89: the packet is parsed, and what is read is dropped. *)
Definition preview (m : mode) (bytes : packet) : outcome unit :=
  t <- get_packet_type bytes ;;
  match t with
  | TAck => Throw PacketTypeError     (* std::runtime_error, caught alike *)
  | TRepair => _ <- read_repair m bytes ;; Ok tt
  | TSource => _ <- read_source m bytes ;; Ok tt
  end.

(** The loop, 62-92, on the stream [s]. Each round reads at least two characters: the length of the
    stream is enough fuel. *)
Fixpoint replay_loop (fuel : nat) (style : copy_n_style) (m : mode) (clk : clock) (d : dec) (s : list N)
  : outcome (dec * list dout * ending) :=
  match fuel with
  | O => Fault OutOfFuel
  | S fuel =>
      '(p, s) <- load_packet style s ;;
      match s with
      | [] => Ok (d, [], AtEnd)
      | _ =>
          bytes <- packet_range p ;;
          match preview m bytes with
          | Throw _ => Ok (d, [], ByException)
          | Fault x => Fault x
          | Ok _ =>
              match dec_packet m clk d bytes with
              | (d, Ok (out, _)) =>
                  '(d, out', e) <- replay_loop fuel style m clk d s ;; Ok (d, out ++ out', e)
              | (d, Throw _) => Ok (d, [], ByException)
              | (_, Fault x) => Fault x
              end
          end
      end
  end.

(** [main], 47-93: the file, read by a receiver of 8 bits that delivers in order. *)
Definition replay (style : copy_n_style) (m : mode) (clk : clock) (file : list N)
  : outcome (dec * list dout * ending) :=
  replay_loop (S (length file)) style m clk (new_dec clk W8 true) file.

(** ** source_forwarder.cc *)

(** The size of the buffer, line 74. *)
Definition forwarder_buffer : nat := N.to_nat 4096.

(** One round of the loop, 72-85: the datagram that is sent, if any. The contents of the new buffer are not
    initialised; an exception ends the program (87-90). *)
Definition forward (m : mode) (junk : memory) (datagram : list N) : outcome (option (list N)) :=
  let received := firstn forwarder_buffer datagram in
  let buffer := received ++ skipn (length received) (uninitialised junk forwarder_buffer) in
  match received with
  | [] => Ok None
  | type :: _ =>
      if type =? 2 then '(s, _) <- read_source m buffer ;; Ok (Some (ds_data s))
      else Ok None
  end.

Fixpoint forward_all (m : mode) (l : list (memory * list N)) : outcome (list (list N)) :=
  match l with
  | [] => Ok []
  | (junk, d) :: l =>
      x <- forward m junk d ;;
      xs <- forward_all m l ;;
      Ok (match x with Some y => [y] | None => [] end ++ xs)
  end.
