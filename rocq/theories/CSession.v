(** * Model of a program that uses the C interface: netcode/c/data.cc, packet.cc, encoder.cc,
    decoder.cc

    One encoder, one decoder, one data and one packet object. Errors of the allocator
    are not modelled. *)
From Coq Require Import ZArith NArith List Bool.
From Verif Require Import Outcome GF Packetizer Packet Encoder EncoderRun DetailDecoder Decoder DecoderOuter CApi.
Import ListNotations.
Open Scope N_scope.
Open Scope outcome_scope.

(** c/detail/types.hh 11-29: the C++ objects behind the pointers. The last three fields are the
    caller's ntc_error, the heap of its messages, the result of the last call that has one.
    [c_sent], [c_acks] and [c_read] are what the callbacks got (c/detail/handlers.hh 11-46): complete packets
    of the encoder and of the decoder, and data. *)
Record session := {
  c_enc : enc;
  c_dec : dec;
  c_data : list N;
  c_packet : pkt;
  c_sent : list packet;
  c_acks : list packet;
  c_read : list (list N);
  c_err : c_error;
  c_heap : heap;
  c_result : N
}.

Definition with_data (s : session) (d : list N) : session := {|
  c_enc := c_enc s; c_dec := c_dec s; c_data := d; c_packet := c_packet s; c_sent := c_sent s; c_acks := c_acks s;
  c_read := c_read s; c_err := c_err s; c_heap := c_heap s; c_result := c_result s |}.
Definition with_packet (s : session) (p : pkt) : session := {|
  c_enc := c_enc s; c_dec := c_dec s; c_data := c_data s; c_packet := p; c_sent := c_sent s; c_acks := c_acks s;
  c_read := c_read s; c_err := c_err s; c_heap := c_heap s; c_result := c_result s |}.
Definition with_result (s : session) (n : N) : session := {|
  c_enc := c_enc s; c_dec := c_dec s; c_data := c_data s; c_packet := c_packet s; c_sent := c_sent s; c_acks := c_acks s;
  c_read := c_read s; c_err := c_err s; c_heap := c_heap s; c_result := n |}.
Definition with_error (s : session) (e : c_error) (h : heap) (n : N) : session := {|
  c_enc := c_enc s; c_dec := c_dec s; c_data := c_data s; c_packet := c_packet s; c_sent := c_sent s; c_acks := c_acks s;
  c_read := c_read s; c_err := e; c_heap := h; c_result := n |}.
Definition with_sender (s : session) (e : enc) (out : list packet) : session := {|
  c_enc := e; c_dec := c_dec s; c_data := c_data s; c_packet := c_packet s; c_sent := c_sent s ++ out; c_acks := c_acks s;
  c_read := c_read s; c_err := c_err s; c_heap := c_heap s; c_result := c_result s |}.
Definition with_receiver (s : session) (d : dec) (out : list dout) : session := {|
  c_enc := c_enc s; c_dec := d; c_data := c_data s; c_packet := c_packet s; c_sent := c_sent s; c_acks := c_acks s ++ to_network out;
  c_read := c_read s ++ to_user out; c_err := c_err s; c_heap := c_heap s; c_result := c_result s |}.

(** The calls of the interface. Sizes are uint16_t or size_t. *)
Inductive cop :=
| NewData (size : N)                (* data.cc 8-13 *)
| NewDataFrom (src : list N)        (* data.cc 17-22, the size is that of [src] *)
| DataPut (pos : nat) (v : N)       (* data.cc 35-40, a write through the pointer *)
| DataSize                          (* data.cc 44-49 *)
| DataResize (size : N)             (* data.cc 53-58 *)
| NewPacket (size : N)              (* packet.cc 8-13 *)
| NewPacketFrom (src : list N)      (* packet.cc 17-22 *)
| PacketPut (pos : nat) (v : N)     (* packet.cc 35-40 *)
| PacketSize                        (* packet.cc 44-49 *)
| PacketResize (size : N)           (* packet.cc 53-58 *)
| AddData                           (* encoder.cc 27-32 *)
| EncAddPacket                      (* encoder.cc 36-41 *)
| GenerateRepair                    (* encoder.cc 45-50 *)
| Window                            (* encoder.cc 54-59 *)
| SetCodeType (code : N)            (* encoder.cc 63-68, the value of the C enumeration (c/encoder.h 29) *)
| SetRate (rate : N)                (* encoder.cc 72-77 *)
| SetWindowSize (size : N)          (* encoder.cc 81-86 *)
| SetAdaptive (adaptive : bool)     (* encoder.cc 90-95 *)
| DecAddPacket                      (* decoder.cc 32-37 *)
| GenerateAck                       (* decoder.cc 41-46 *)
| SetAckPeriod (period : N)         (* decoder.cc 50-55 *)
| SetAckNbPackets (nb : N).         (* decoder.cc 59-64 *)

(** decoder.cc 54: std::chrono::milliseconds holds a std::int64_t, the size_t is converted to it. *)
Definition milliseconds_of (period : N) : Z :=
  ((Z.of_N period + 2 ^ 63) mod 2 ^ 64 - 2 ^ 63)%Z.

(** The bytes the library reads from a packet: p.data() and p.size(). *)
Definition packet_bytes (p : pkt) : outcome (list N) := packet_range p.

(** [check_error] around a call that leaves the objects in the state [s] and ends with [r]. The
    exceptions of the library do not crash it (C47_library_errors). *)
Definition checked (s : session) (r : outcome N) : outcome session :=
  match ended r with
  | Some fn =>
      match check_error true 0 fn (c_err s) (c_heap s) with
      | Done (n, e, h) => Ok (with_error s e h n)
      | Crash _ => Fault AssertFailure
      end
  | None => match r with Fault x => Fault x | _ => Ok s end
  end.

(** The same for calls without result. *)
Definition checked_void (s : session) : outcome session :=
  s' <- checked s (Ok 0) ;; Ok (with_result s' (c_result s)).

(** What the C++ call (decoder.hh 88-121) leaves of the packet with the content [bytes]: read_repair and
    read_source move it away as their last action (packetizer.hh 161 and 216), after their checks. *)
Definition packet_after (m : mode) (p : pkt) (bytes : list N) : pkt :=
  match get_packet_type bytes with
  | Ok TRepair => match read_repair m bytes with Ok _ => moved_from | _ => p end
  | Ok TSource => match read_source m bytes with Ok _ => moved_from | _ => p end
  | _ => p
  end.

(** [junk] is the content of uninitialised memory. *)
Definition cstep (m : mode) (clk : clock) (junk : memory) (s : session) (o : cop) : outcome session :=
  match o with
  | NewData n => Ok (with_data s (uninitialised junk (N.to_nat (u16 n))))
  | NewDataFrom l => Ok (with_data s l)
  | DataPut i v => d <- vec_copy [v] i (c_data s) ;; Ok (with_data s d)
  | DataSize => Ok (with_result s (u16 (N.of_nat (length (c_data s)))))
  | DataResize n =>
      checked_void (with_data s (vec_resize (c_data s) (N.to_nat (u16 n)) (uninitialised junk)))
  | NewPacket n => Ok (with_packet s (packet_sized junk (N.to_nat (u16 n))))
  | NewPacketFrom l => p <- packet_of junk l ;; Ok (with_packet s p)
  | PacketPut i v => p <- packet_put (c_packet s) i v ;; Ok (with_packet s p)
  | PacketSize => Ok (with_result s (u16 (packet_size (c_packet s))))
  | PacketResize n => checked_void (with_packet s (packet_resize junk (c_packet s) (N.to_nat (u16 n))))
  | AddData =>
      (* encoder.hh 87-96 and 264: the data is moved into the list of sources *)
      '(e, out) <- enc_data m (c_enc s) (c_data s) ;;
      checked_void (with_data (with_sender s e out) [])
  | EncAddPacket =>
      (* read_ack (packetizer.hh 64-88) does not move the packet *)
      bytes <- packet_bytes (c_packet s) ;;
      let '(e, r) := notify m (c_enc s) bytes in
      checked (with_sender s e []) (n <- r ;; Ok (N.of_nat n))
  | GenerateRepair =>
      '(e, out) <- generate_repair m (c_enc s) ;; checked_void (with_sender s e out)
  | SetCodeType c => Ok (with_sender s (set_code_type (c_enc s) (c =? 0)) [])
  | SetRate n => e <- set_rate m (c_enc s) (u64 n) ;; Ok (with_sender s e [])
  | SetWindowSize n => e <- set_window_size m (c_enc s) (u64 n) ;; Ok (with_sender s e [])
  | SetAdaptive b => Ok (with_sender s (set_adaptive (c_enc s) b) [])
  | Window => Ok (with_result s (window (c_enc s)))
  | DecAddPacket =>
      bytes <- packet_bytes (c_packet s) ;;
      let '(d, r) := dec_packet m clk (c_dec s) bytes in
      let out := match r with Ok (out, _) => out | _ => [] end in
      checked (with_packet (with_receiver s d out) (packet_after m (c_packet s) bytes))
        ('(_, n) <- r ;; Ok (N.of_nat n))
  | GenerateAck =>
      let '(d, out) := generate_ack (c_dec s) in checked_void (with_receiver s d out)
  | SetAckPeriod n => Ok (with_receiver s (set_ack_period (c_dec s) (milliseconds_of n)) [])
  | SetAckNbPackets n => d <- set_ack_nb_packets m (c_dec s) (u16 n) ;; Ok (with_receiver s d [])
  end.

Fixpoint crun (m : mode) (clk : clock) (s : session) (l : list (memory * cop)) : outcome session :=
  match l with
  | [] => Ok s
  | (junk, o) :: l' => s' <- cstep m clk junk s o ;; crun m clk s' l'
  end.

(** [ntc_new_encoder] (encoder.cc 8-14), [ntc_new_decoder] (decoder.cc 9-19) with a field the library knows, and
    the objects a program creates first. *)
Definition new_session (clk : clock) (f : field) (ordered : bool) (err : c_error) (h : heap) : session := {|
  c_enc := new_encoder f; c_dec := new_dec clk f ordered; c_data := []; c_packet := {| k_buffer := repeat 0 shift |};
  c_sent := []; c_acks := []; c_read := []; c_err := err; c_heap := h; c_result := 0 |}.
