(** * Models of tests/end_to_end.cc and tests/end_to_end_mt.cc

    The two programs that test the library as a whole: a sender gives numbered data to an encoder, packets and acks
    are lost, a data handler checks what the decoder delivers. The progress messages and statistics are
    not modelled. *)
From Coq Require Import ZArith NArith List Bool.
From Verif Require Import Outcome GF Packetizer Encoder Decoder.
Import ListNotations.
Open Scope N_scope.

(** How a program ends before its time: the data handler throws, another exception that nobody catches, undefined behaviour. *)
Inductive failure : Type :=
| Check
| Uncaught (x : exn)
| Undefined (x : fault).

Inductive result (A : Type) : Type :=
| Runs (a : A)
| Fails (x : failure).
Arguments Runs {A} a.
Arguments Fails {A} x.

Definition next {A B} (r : result A) (k : A -> result B) : result B :=
  match r with Runs a => k a | Fails x => Fails x end.

Definition call {A B} (r : outcome A) (k : A -> result B) : result B :=
  match r with Ok a => k a | Throw x => Fails (Uncaught x) | Fault x => Fails (Undefined x) end.

(** ** Data, end_to_end.cc 78-86, end_to_end_mt.cc 103-111 *)

(** A [std::uint32_t] in memory, on a little-endian machine. *)
Definition word_bytes (x : N) : list N := [x mod 256; x / 256 mod 256; x / 65536 mod 256; x / 16777216 mod 256].

(** [generate_data]; [size] is a multiple of 4 ([main], 117-122). *)
Definition generate_data (id : N) (size : nat) : list N := concat (repeat (word_bytes id) (Nat.div size 4)).

(** ** The data handler, 40-74 (mt: 65-99) *)

Record handler := { h_received : N; h_expected : N }.

(** The words that are read through the [std::uint32_t*]; a rest of less than four bytes is not looked at. *)
Fixpoint words (l : list N) : list N :=
  match l with
  | a :: b :: c :: d :: l' => a + 256 * b + 65536 * c + 16777216 * d :: words l'
  | _ => []
  end.

(** [operator()], 50-73 *)
Definition check (size : nat) (h : handler) (data : list N) : result handler :=
  if negb (Nat.eqb (length data) size) then Fails Check
  else match words data with
       | [] => Fails (Undefined OutOfBounds)
       | id :: _ =>
           if negb (id =? h_expected h) then Fails Check
           else if negb (forallb (fun x => x =? id) (words data)) then Fails Check
           else Runs {| h_received := u64 (h_received h + 1); h_expected := u32 (h_expected h + 1) |}
       end.

Fixpoint checks (size : nat) (h : handler) (l : list (list N)) : result handler :=
  match l with
  | [] => Runs h
  | d :: l' => next (check size h d) (fun h => checks size h l')
  end.

(** ** end_to_end.cc *)

(** The encoder, the decoder and its data handler; how often [loss()] has been called; the packets in the buffer of the
    decoder's packet handler; [to_dec_nb_loss] and [to_enc_nb_loss]. *)
Record test := {
  t_enc : enc;
  t_dec : dec;
  t_handler : handler;
  t_calls : nat;
  t_acks : list packet;
  t_lost_dec : N;
  t_lost_enc : N
}.

Section Single.
Variable m : mode.
Variable clk : clock.
Variable lose : nat -> bool.      (* the results of the calls of [loss()], 93 *)
Variable size : nat.              (* [packet_size], 117 *)

(** 148-161: one packet on its way to the decoder *)
Definition to_decoder (s : test) (p : packet) : result test :=
  if lose (t_calls s) then
    Runs {| t_enc := t_enc s; t_dec := t_dec s; t_handler := t_handler s; t_calls := S (t_calls s); t_acks := t_acks s;
            t_lost_dec := u64 (t_lost_dec s + 1); t_lost_enc := t_lost_enc s |}
  else
    let '(d, r) := dec_packet m clk (t_dec s) p in
    call r (fun '(out, _) =>
    next (checks size (t_handler s) (to_user out)) (fun h =>
    Runs {| t_enc := t_enc s; t_dec := d; t_handler := h; t_calls := S (t_calls s); t_acks := t_acks s ++ to_network out;
            t_lost_dec := t_lost_dec s; t_lost_enc := t_lost_enc s |})).

(** 168-180: one ack on its way to the encoder *)
Definition to_encoder (s : test) (p : packet) : result test :=
  if lose (t_calls s) then
    Runs {| t_enc := t_enc s; t_dec := t_dec s; t_handler := t_handler s; t_calls := S (t_calls s); t_acks := t_acks s;
            t_lost_dec := t_lost_dec s; t_lost_enc := u64 (t_lost_enc s + 1) |}
  else
    let '(e, r) := notify m (t_enc s) p in
    call r (fun _ =>
    Runs {| t_enc := e; t_dec := t_dec s; t_handler := t_handler s; t_calls := S (t_calls s); t_acks := t_acks s;
            t_lost_dec := t_lost_dec s; t_lost_enc := t_lost_enc s |}).

Fixpoint each (f : test -> packet -> result test) (s : test) (l : list packet) : result test :=
  match l with
  | [] => Runs s
  | p :: l' => next (f s p) (fun s => each f s l')
  end.

Definition clear_acks (s : test) : test :=
  {| t_enc := t_enc s; t_dec := t_dec s; t_handler := t_handler s; t_calls := t_calls s; t_acks := [];
     t_lost_dec := t_lost_dec s; t_lost_enc := t_lost_enc s |}.

(** 163-181 *)
Definition maybe_acks (s : test) : result test :=
  if u64 (dc_nb_sources (t_dec s) + dc_nb_repairs (t_dec s)) mod 50 =? 0 then
    let '(d, out) := generate_ack (t_dec s) in
    let s := {| t_enc := t_enc s; t_dec := d; t_handler := t_handler s; t_calls := t_calls s;
                t_acks := t_acks s ++ to_network out; t_lost_dec := t_lost_dec s; t_lost_enc := t_lost_enc s |} in
    each to_encoder s (t_acks s)
  else Runs s.

(** 133-185: one round of the loop *)
Definition round (s : test) (id : N) : result test :=
  call (enc_data m (t_enc s) (generate_data id size)) (fun '(e, out) =>
  let s := {| t_enc := e; t_dec := t_dec s; t_handler := t_handler s; t_calls := t_calls s; t_acks := t_acks s;
              t_lost_dec := t_lost_dec s; t_lost_enc := t_lost_enc s |} in
  next (each to_decoder s out) (fun s => next (maybe_acks s) (fun s => Runs (clear_acks s)))).

(** [n] rounds, from the datum [id] *)
Fixpoint rounds (n : nat) (id : N) (s : test) : result test :=
  match n with
  | O => Runs s
  | S n => next (round s id) (rounds n (u32 (id + 1)))
  end.

(** 124-128 *)
Definition test_start : test := {|
  t_enc := new_encoder W8;
  t_dec := set_ack_period (new_dec clk W8 true) 0;
  t_handler := {| h_received := 0; h_expected := 0 |};
  t_calls := 0; t_acks := []; t_lost_dec := 0; t_lost_enc := 0 |}.

(** [main] with [nb_packets] = [n] *)
Definition end_to_end (n : nat) : result test := rounds n 0 test_start.

End Single.

(** ** end_to_end_mt.cc *)

(** The sending thread has an encoder, the number of the next datum, the packets of the last call that its packet
    handler has not yet treated, the number of packets treated; the receiving thread has a decoder with its handler,
    acks not yet treated, the number of acks treated; both have the two queues. [x_send] tells if
    the sending thread is about to send data (125) or to look for an ack (127-136). *)
Record threads := {
  x_enc : enc;
  x_id : N;
  x_send : bool;
  x_packets : list packet;
  x_nb_packets : nat;
  x_dec : dec;
  x_handler : handler;
  x_acks : list packet;
  x_nb_acks : nat;
  x_to_dec : list packet;
  x_to_enc : list packet
}.

Section Threads.
Variable m : mode.
Variable clk : clock.
Variable lose_packet : nat -> bool.   (* the [loss] of the encoder's thread, 119: is the k-th packet lost? *)
Variable lose_ack : nat -> bool.      (* the one of the decoder's thread, 152 *)
Variable size : nat.

Definition threads_start : threads := {|
  x_enc := new_encoder W8; x_id := 0; x_send := true; x_packets := []; x_nb_packets := 0;
  x_dec := new_dec clk W8 true; x_handler := {| h_received := 0; h_expected := 0 |}; x_acks := []; x_nb_acks := 0;
  x_to_dec := []; x_to_enc := [] |}.

(** The next step of the sending thread. Each step holds a mutex from its beginning to its end, or
    touches nothing that is shared. *)
Definition step_sender (s : threads) : result threads :=
  match x_packets s with
  | p :: rest =>
      (* [packet_handler::operator()()], 46-60: a packet is complete *)
      Runs {| x_enc := x_enc s; x_id := x_id s; x_send := x_send s; x_packets := rest; x_nb_packets := S (x_nb_packets s);
              x_dec := x_dec s; x_handler := x_handler s; x_acks := x_acks s; x_nb_acks := x_nb_acks s;
              x_to_dec := if lose_packet (x_nb_packets s) then x_to_dec s else x_to_dec s ++ [p]; x_to_enc := x_to_enc s |}
  | [] =>
      if x_send s then
        (* 125 *)
        call (enc_data m (x_enc s) (generate_data (x_id s) size)) (fun '(e, out) =>
        Runs {| x_enc := e; x_id := u32 (x_id s + 1); x_send := false; x_packets := out; x_nb_packets := x_nb_packets s;
                x_dec := x_dec s; x_handler := x_handler s; x_acks := x_acks s; x_nb_acks := x_nb_acks s;
                x_to_dec := x_to_dec s; x_to_enc := x_to_enc s |})
      else
        (* 127-136 *)
        match x_to_enc s with
        | [] =>
            Runs {| x_enc := x_enc s; x_id := x_id s; x_send := true; x_packets := []; x_nb_packets := x_nb_packets s;
                    x_dec := x_dec s; x_handler := x_handler s; x_acks := x_acks s; x_nb_acks := x_nb_acks s;
                    x_to_dec := x_to_dec s; x_to_enc := [] |}
        | p :: rest =>
            let '(e, r) := notify m (x_enc s) p in
            call r (fun _ =>
            Runs {| x_enc := e; x_id := x_id s; x_send := true; x_packets := []; x_nb_packets := x_nb_packets s;
                    x_dec := x_dec s; x_handler := x_handler s; x_acks := x_acks s; x_nb_acks := x_nb_acks s;
                    x_to_dec := x_to_dec s; x_to_enc := rest |})
        end
  end.

(** The next step of the receiving thread, 158-169. The acks of a call are pushed one after the other; in the
    program the queue of packets is locked meanwhile, here it is not: there are more schedules here. *)
Definition step_receiver (s : threads) : result threads :=
  match x_acks s with
  | p :: rest =>
      Runs {| x_enc := x_enc s; x_id := x_id s; x_send := x_send s; x_packets := x_packets s; x_nb_packets := x_nb_packets s;
              x_dec := x_dec s; x_handler := x_handler s; x_acks := rest; x_nb_acks := S (x_nb_acks s);
              x_to_dec := x_to_dec s; x_to_enc := if lose_ack (x_nb_acks s) then x_to_enc s else x_to_enc s ++ [p] |}
  | [] =>
      match x_to_dec s with
      | [] => Runs s
      | p :: rest =>
          let '(d, r) := dec_packet m clk (x_dec s) p in
          call r (fun '(out, _) =>
          next (checks size (x_handler s) (to_user out)) (fun h =>
          Runs {| x_enc := x_enc s; x_id := x_id s; x_send := x_send s; x_packets := x_packets s; x_nb_packets := x_nb_packets s;
                  x_dec := d; x_handler := h; x_acks := to_network out; x_nb_acks := x_nb_acks s;
                  x_to_dec := rest; x_to_enc := x_to_enc s |}))
      end
  end.

(** A schedule: whose turn it is ([true]: the sending thread). *)
Fixpoint schedule (turns : list bool) (s : threads) : result threads :=
  match turns with
  | [] => Runs s
  | t :: turns' => next (if t then step_sender s else step_receiver s) (schedule turns')
  end.

Definition end_to_end_mt (turns : list bool) : result threads := schedule turns threads_start.

End Threads.
