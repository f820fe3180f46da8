(** * The basic examples

    Model of examples/basic/cpp_basic.cc and examples/basic/c_basic.c. Both give two data to an
    encoder and hand what its packet handler collected to a decoder, without a network. One "round"
    below is what these programs do with one datum (for the second one: cpp_basic.cc 81-106,
    c_basic.c 137-192); the programs are the runs of two rounds, and the model continues them with
    any number of data.

    Both handlers of packets append the bytes to a buffer and do nothing when a packet is complete
    (cpp_basic.cc 12-30, c_basic.c 22-39): the bytes of all packets made while one datum is encoded
    form one incoming packet. The acks of the decoder go to the buffer of its own packet handler, which
    is never cleared and never given to the encoder. Simplified: the printing is left out; the functions
    of the C interface, which catch the exceptions (CApi.v), are the calls of the encoder and of the
    decoder; the first datum of c_basic.c lies in a holder of its own size (89) and not of 1024 bytes,
    which makes no difference: a longer one faults at line 114. *)
From Coq Require Import ZArith NArith List Bool Arith.
From Verif Require Import Outcome GF Packetizer Encoder DetailDecoder Decoder.
Import ListNotations.
Open Scope N_scope.
Open Scope outcome_scope.

Record basic := {
  b_enc : enc;
  b_dec : dec;
  b_out : list N;    (* the buffer of the encoder's packet handler *)
  b_acks : list N;   (* the buffer of the decoder's packet handler *)
  b_in : list N      (* the buffer of the data handler *)
}.

(** cpp_basic.cc 55-62, c_basic.c 73-86; the clock is read once by the constructor of the decoder. *)
Definition basic_start (m : mode) (clk : clock) : outcome basic :=
  e <- set_window_size m (new_encoder W8) 32 ;;
  Ok {| b_enc := e; b_dec := set_ack_period (new_dec clk W8 true) 200;
        b_out := []; b_acks := []; b_in := [] |}.

Fixpoint same (l l' : list N) : bool :=
  match l, l' with
  | [], [] => true
  | x :: l, y :: l' => (x =? y) && same l l'
  | _, _ => false
  end.

(** The asserts of cpp_basic.cc 77-79 and 103-106: [buffer[i]] for each byte of the datum. A shorter
    buffer is read out of its bounds, in Debug builds only. *)
Definition cpp_check (m : mode) (received d : list N) : outcome unit :=
  match m with
  | Release => Ok tt
  | Debug => if Nat.ltb (length received) (length d) then Fault OutOfBounds
             else assert_ m (same (firstn (length d) received) d)
  end.

(** cpp_basic.cc 81-106: clear both buffers (85-86), encode (95), copy (99), decode (100), check. An
    exception ends the program (108-113). *)
Definition cpp_round (m : mode) (clk : clock) (b : basic) (d : list N) : outcome basic :=
  '(e, packets) <- enc_data m (b_enc b) d ;;
  let incoming := concat packets in
  let '(dc, r) := dec_packet m clk (b_dec b) incoming in
  '(out, _) <- r ;;
  let received := concat (to_user out) in
  _ <- cpp_check m received d ;;
  Ok {| b_enc := e; b_dec := dc; b_out := incoming;
        b_acks := b_acks b ++ concat (to_network out); b_in := received |}.

(** What lies in a context of c_basic.c (13-17) or in the packet (111, 141) has its number of bytes as
    limit. *)
Definition fits (n : N) (l : list N) : outcome unit :=
  if N.of_nat (length l) <=? n then Ok tt else Fault OutOfBounds.

(** c_basic.c 137-192: the holder of 1024 bytes (138, 154-157), encode (164) into encoder_cxt, reset
    before (145), copy to the packet of 1024 bytes (141, 173), decode (179); [receive_data] (46-51)
    overwrites data_cxt, whose [nb_read] and bytes are checked (188-192); the acks are appended to
    decoder_cxt, which is never reset. *)
Definition c_round (m : mode) (clk : clock) (b : basic) (d : list N) : outcome basic :=
  _ <- fits 1024 d ;;
  '(e, packets) <- enc_data m (b_enc b) d ;;
  let incoming := concat packets in
  _ <- fits 4096 incoming ;;
  _ <- fits 1024 incoming ;;
  let '(dc, r) := dec_packet m clk (b_dec b) incoming in
  '(out, _) <- r ;;
  let received := last (to_user out) (b_in b) in
  _ <- fits 4096 received ;;
  let acks := b_acks b ++ concat (to_network out) in
  _ <- fits 4096 acks ;;
  _ <- assert_ m (Nat.eqb (length received) (length d)) ;;
  _ <- assert_ m (same received d) ;;
  Ok {| b_enc := e; b_dec := dc; b_out := incoming; b_acks := acks; b_in := received |}.

Fixpoint rounds (round : basic -> list N -> outcome basic) (b : basic) (ds : list (list N)) : outcome basic :=
  match ds with
  | [] => Ok b
  | d :: ds' => b <- round b d ;; rounds round b ds'
  end.

(** The programs, for any data instead of "abc" and "defg". *)
Definition cpp_basic (m : mode) (clk : clock) (ds : list (list N)) : outcome basic :=
  b <- basic_start m clk ;; rounds (cpp_round m clk) b ds.
Definition c_basic (m : mode) (clk : clock) (ds : list (list N)) : outcome basic :=
  b <- basic_start m clk ;; rounds (c_round m clk) b ds.
