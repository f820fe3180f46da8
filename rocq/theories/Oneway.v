(** * Model of examples/accelerator-oneway: sender.cc and receiver.cc

    The sender program has an encoder, the receiver program a decoder; the datagrams of the first are lost,
    repeated and delayed, and so are the acks on their way back. The statistics are not modelled; the
    addresses of the other program and of the application are right. *)
From Coq Require Import ZArith NArith List Bool.
From Verif Require Import Outcome GF Packetizer Encoder Decoder Tunnel.
Import ListNotations.
Open Scope N_scope.

(** Both programs: the encoder (sender.cc 237), the decoder and [m_tunnel_up] (receiver.cc 257-260, 224), then five
    histories: the data of the sending application, the packets of the encoder and the acks of the
    decoder, the data sent to the receiving application, the positions of the arrived packets. *)
Record oneway := {
  o_enc : enc;
  o_dec : dec;
  o_up : bool;
  o_given : list (list N);
  o_out : list packet;
  o_acks : list packet;
  o_got : list (list N);
  o_arrived : list nat
}.

(** sender.cc 11, receiver.cc 11: [buffer_size]. *)
Definition small_buffer : nat := N.to_nat 4096.

(** sender.cc 237-239, receiver.cc 257-264: the settings. *)
Definition new_oneway (m : mode) (clk : clock) : outcome oneway :=
  bind (set_window_size m (new_encoder W8) 256) (fun e =>
  bind (set_ack_nb_packets m (set_ack_period (new_dec clk W8 true) 5) 64) (fun d =>
  Ok {| o_enc := set_adaptive e true; o_dec := d; o_up := false;
        o_given := []; o_out := []; o_acks := []; o_got := []; o_arrived := [] |})).

(** What may happen: the application sends a datagram, the timer of the receiver expires, the k-th packet
    arrives at the receiver, the j-th ack arrives at the sender, where [stale] are the bytes behind
    it in the buffer. *)
Inductive oaction : Type :=
| OApp (d : list N)
| OTick
| ODatagram (k : nat)
| OAck (j : nat) (stale : list N).

(** [app_handler::start], sender.cc 104-125: [async_receive_from] cuts the datagram to the buffer. *)
Definition oapp (m : mode) (s : oneway) (d : list N) : result oneway :=
  match firstn small_buffer d with
  | [] => Runs s
  | cut =>
      match enc_data m (o_enc s) cut with
      | Ok (e, out) =>
          (* 60-78: an error of [async_send_to] ends the program *)
          if sendable out then
            Runs {| o_enc := e; o_dec := o_dec s; o_up := o_up s; o_given := o_given s ++ [d];
                    o_out := o_out s ++ out; o_acks := o_acks s; o_got := o_got s; o_arrived := o_arrived s |}
          else Stops TooLong
      | Throw x => Stops (Uncaught x)
      | Fault x => Stops (Undefined x)
      end
  end.

(** The decoder was called: its packets and data are sent, receiver.cc 60-80, 101-118. *)
Definition deliver (s : oneway) (d : dec) (out : list dout) (arrived : list nat) : result oneway :=
  if sendable (to_network out) && sendable (to_user out) then
    Runs {| o_enc := o_enc s; o_dec := d; o_up := true; o_given := o_given s; o_out := o_out s;
            o_acks := o_acks s ++ to_network out; o_got := o_got s ++ to_user out;
            o_arrived := o_arrived s ++ arrived |}
  else Stops TooLong.

(** [netcode_handler::start], receiver.cc 149-170: the packet is resized to the length of the datagram. *)
Definition opacket (m : mode) (clk : clock) (s : oneway) (k : nat) (p : packet) : result oneway :=
  match firstn small_buffer p with
  | [] => Runs s
  | cut =>
      match dec_packet m clk (o_dec s) cut with
      | (d, Ok (out, _)) => deliver s d out [k]
      | (_, Throw x) => Stops (Uncaught x)
      | (_, Fault x) => Stops (Undefined x)
      end
  end.

(** [start_timer], receiver.cc 172-188. *)
Definition otick (s : oneway) : result oneway :=
  if o_up s then let '(d, out) := generate_ack (o_dec s) in deliver s d out [] else Runs s.

(** [netcode_handler::start], sender.cc 154-174: the packet is not resized. *)
Definition oack (m : mode) (s : oneway) (p : packet) (stale : list N) : result oneway :=
  match firstn small_buffer p with
  | [] => Runs s
  | cut =>
      match notify m (o_enc s) (cut ++ firstn (small_buffer - length cut) stale) with
      | (e, Ok _) =>
          Runs {| o_enc := e; o_dec := o_dec s; o_up := o_up s; o_given := o_given s; o_out := o_out s;
                  o_acks := o_acks s; o_got := o_got s; o_arrived := o_arrived s |}
      | (_, Throw x) => Stops (Uncaught x)
      | (_, Fault x) => Stops (Undefined x)
      end
  end.

Definition ostep (m : mode) (clk : clock) (s : oneway) (a : oaction) : result oneway :=
  match a with
  | OApp d => oapp m s d
  | OTick => otick s
  | ODatagram k =>
      match nth_error (o_out s) k with
      | Some p => opacket m clk s k p
      | None => Runs s
      end
  | OAck j stale =>
      match nth_error (o_acks s) j with
      | Some p => oack m s p stale
      | None => Runs s
      end
  end.

Fixpoint orun (m : mode) (clk : clock) (s : oneway) (l : list oaction) : result oneway :=
  match l with
  | [] => Runs s
  | a :: l' =>
      match ostep m clk s a with
      | Runs s' => orun m clk s' l'
      | Stops x => Stops x
      end
  end.

(** Both programs are started, then [l] happens. *)
Definition oneway_run (m : mode) (clk : clock) (l : list oaction) : result oneway :=
  match new_oneway m clk with
  | Ok s => orun m clk s l
  | Throw x => Stops (Uncaught x)
  | Fault x => Stops (Undefined x)
  end.
