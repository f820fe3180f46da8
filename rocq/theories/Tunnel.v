(** * Model of examples/accelerator/transcoder.hh: a tunnel in both directions

    Two programs, each with an encoder and a decoder, exchange datagrams. *)
From Coq Require Import ZArith NArith List Bool.
From Verif Require Import Outcome GF Packetizer Encoder Decoder Dispatch.
Import ListNotations.
Open Scope N_scope.

(** Why a program ends: the system refuses to send a datagram, an exception of
    the library reaches [io.run()] (accelerator.cc 88), or a fault. *)
Inductive stop : Type :=
| TooLong
| Uncaught (x : exn)
| Undefined (x : fault).

Inductive result (A : Type) : Type :=
| Runs (a : A)
| Stops (s : stop).
Arguments Runs {A} a.
Arguments Stops {A} s.

(** One side: the members m_encoder, m_decoder and m_other_side_seen (transcoder.hh
    278-291), then five histories: the data of the local application, the packets the
    encoder and the acks the decoder sent, the data sent to the local application, the
    positions of the arrived packets among those of the other side's encoder. *)
Record side := {
  s_enc : enc;
  s_dec : dec;
  s_seen : bool;
  s_given : list (list N);
  s_out : list packet;
  s_acks : list packet;
  s_got : list (list N);
  s_arrived : list nat
}.

(** Constructor, 110-138: 8 bits, in order, no periodic acks, a window of 32, adaptive. *)
Definition new_side (m : mode) (clk : clock) : outcome side :=
  match set_window_size m (new_encoder W8) 32 with
  | Ok e => Ok {| s_enc := set_adaptive e true;
                  s_dec := set_ack_period (new_dec clk W8 true) 0;
                  s_seen := false;
                  s_given := []; s_out := []; s_acks := []; s_got := []; s_arrived := [] |}
  | Throw x => Throw x
  | Fault x => Fault x
  end.

(** [buffer_size], line 39. *)
Definition buffer_size : nat := N.to_nat 65504.

(** [socket.send_to] in [packet_handler] (76) and [data_handler] (96): a UDP datagram has at
    most 65507 bytes, asio throws for longer ones. *)
Definition sendable (l : list (list N)) : bool := forallb (fun p => N.of_nat (length p) <=? 65507) l.

(** [start_app_handler], 174-202: a datagram of the application. [async_receive_from] cuts it
    to the buffer. *)
Definition from_app (m : mode) (s : side) (d : list N) : result side :=
  match firstn buffer_size d with
  | [] => Runs s
  | cut =>
      match enc_data m (s_enc s) cut with
      | Ok (e, out) =>
          if sendable out then
            Runs {| s_enc := e; s_dec := s_dec s; s_seen := s_seen s;
                    s_given := s_given s ++ [d]; s_out := s_out s ++ out;
                    s_acks := s_acks s; s_got := s_got s; s_arrived := s_arrived s |}
          else Stops TooLong
      | Throw x => Stops (Uncaught x)
      | Fault x => Stops (Undefined x)
      end
  end.

(** [start_handler], 143-171: a datagram [p] of the other side. m_packet is not resized to the
    length of the datagram: other bytes [tail] follow. (In the code they fill the buffer;
    any bytes are allowed here.) *)
Definition from_peer (m : mode) (clk : clock) (s : side) (arrived : list nat) (p tail : list N)
  : result side :=
  match p with
  | [] => Runs {| s_enc := s_enc s; s_dec := s_dec s; s_seen := true; s_given := s_given s;
                  s_out := s_out s; s_acks := s_acks s; s_got := s_got s;
                  s_arrived := s_arrived s ++ arrived |}
  | _ =>
      match dispatch m clk (s_enc s) (s_dec s) (firstn buffer_size p ++ tail) with
      | (e, d, Ok (out, _)) =>
          if sendable (to_network out) && sendable (to_user out) then
            Runs {| s_enc := e; s_dec := d; s_seen := true; s_given := s_given s;
                    s_out := s_out s;
                    s_acks := s_acks s ++ to_network out;
                    s_got := s_got s ++ to_user out;
                    s_arrived := s_arrived s ++ arrived |}
          else Stops TooLong
      | (_, _, Throw x) => Stops (Uncaught x)
      | (_, _, Fault x) => Stops (Undefined x)
      end
  end.

(** [start_timer_handler], 205-221: an ack, if the other side has been seen. *)
Definition on_timer (s : side) : result side :=
  if s_seen s then
    let '(d, out) := generate_ack (s_dec s) in
    if sendable (to_network out) then
      Runs {| s_enc := s_enc s; s_dec := d; s_seen := s_seen s; s_given := s_given s;
              s_out := s_out s; s_acks := s_acks s ++ to_network out; s_got := s_got s;
              s_arrived := s_arrived s |}
    else Stops TooLong
  else Runs s.

(** ** Both sides and the network *)

Record tunnel := { left : side; right : side }.

Definition at_ (t : tunnel) (who : bool) : side := if who then right t else left t.
Definition put (t : tunnel) (who : bool) (s : side) : tunnel :=
  if who then {| left := left t; right := s |} else {| left := s; right := right t |}.

(** What may happen at side [who]: its application sends a datagram, its timer expires, the
    k-th packet of the other side's encoder arrives, the j-th ack of the other
    side's decoder arrives. So datagrams may be lost, repeated, delayed and
    reordered. *)
Inductive taction : Type :=
| App (who : bool) (d : list N)
| Tick (who : bool)
| Datagram (who : bool) (k : nat) (tail : list N)
| AckDatagram (who : bool) (j : nat) (tail : list N).

Definition update (t : tunnel) (who : bool) (r : result side) : result tunnel :=
  match r with
  | Runs s => Runs (put t who s)
  | Stops x => Stops x
  end.

Definition tstep (m : mode) (clks : bool -> clock) (t : tunnel) (a : taction) : result tunnel :=
  match a with
  | App who d => update t who (from_app m (at_ t who) d)
  | Tick who => update t who (on_timer (at_ t who))
  | Datagram who k tail =>
      match nth_error (s_out (at_ t (negb who))) k with
      | Some p => update t who (from_peer m (clks who) (at_ t who) [k] p tail)
      | None => Runs t
      end
  | AckDatagram who j tail =>
      match nth_error (s_acks (at_ t (negb who))) j with
      | Some p => update t who (from_peer m (clks who) (at_ t who) [] p tail)
      | None => Runs t
      end
  end.

Fixpoint trun (m : mode) (clks : bool -> clock) (t : tunnel) (l : list taction) : result tunnel :=
  match l with
  | [] => Runs t
  | a :: l' =>
      match tstep m clks t a with
      | Runs t' => trun m clks t' l'
      | Stops x => Stops x
      end
  end.

(** Both programs are started, then [l] happens. *)
Definition tunnel_run (m : mode) (clks : bool -> clock) (l : list taction) : result tunnel :=
  match new_side m (clks false), new_side m (clks true) with
  | Ok a, Ok b => trun m clks {| left := a; right := b |} l
  | _, _ => Stops TooLong
  end.
