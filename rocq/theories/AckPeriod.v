(** * Model of the receiver's time arithmetic: netcode/decoder.hh 230-260

    [Decoder.v] computes with unbounded numbers. Here the durations are what std::chrono uses on
    the platforms of the library: a std::int64_t, milliseconds for m_ack_period and nanoseconds for the clock. *)
From Coq Require Import ZArith NArith List Bool.
From Verif Require Import Outcome GF Containers Packetizer Encoder DetailDecoder Decoder.
Import ListNotations.
Open Scope N_scope.
Open Scope outcome_scope.

(** A std::int64_t result; overflow is undefined behaviour. *)
Definition int64 (z : Z) : outcome Z :=
  if ((- 2 ^ 63 <=? z) && (z <? 2 ^ 63))%Z then Ok z else Fault SignedOverflow.

(** [maybe_ack], 230-248. Line 242 subtracts two dates and converts m_ack_period to nanoseconds
    (std::chrono compares in the common type of both sides). *)
Definition maybe_ack64 (clk : clock) (known : list N) (d : dec) : outcome (dec * list dout) :=
  if dc_ack_nb d <=? a_nb (dc_ack d) then
    let '(d, out) := generate_ack_of known d in Ok (read_clock clk true d, out)
  else if (dc_period d =? 0)%Z then Ok (d, [])
  else
    elapsed <- int64 (clk (dc_reads d) - dc_last_date d) ;;
    period <- int64 (dc_period d * 1000000) ;;
    if (elapsed <? period)%Z then Ok (read_clock clk false d, [])
    else let '(d, out) := generate_ack_of known d in Ok (read_clock clk true d, out).

(** [handle_source], 291-300. *)
Definition handle_source64 (clk : clock) (d : dec) (v : event) : outcome (dec * list dout) :=
  '(d, out) <- maybe_ack64 clk (v_known v) d ;; Ok (d, ToUser (v_data v) :: out).

Fixpoint handle_sources64 (clk : clock) (d : dec) (l : list event) : outcome (dec * list dout) :=
  match l with
  | [] => Ok (d, [])
  | v :: l' =>
      '(d, out) <- handle_source64 clk d v ;;
      '(d, out') <- handle_sources64 clk d l' ;;
      Ok (d, out ++ out')
  end.

(** As [call_core]. A fault of the decoding that comes after an overflow in the callback is reported in its
    place. *)
Definition call_core64 (clk : clock) (d : dec) (run : ddec -> outcome ddec) : outcome (dec * list dout) :=
  c <- run (dc_core d) ;;
  handle_sources64 clk (with_core d c) (skipn (length (d_log (dc_core d))) (d_log c)).

(** [operator()(packet&&)], 87-122. *)
Definition dec_packet64 (m : mode) (clk : clock) (d : dec) (p : packet) : dec * outcome (list dout * nat) :=
  match (_ <- assert_ m (Nat.ltb 0 (length p)) ;; get_packet_type p) with
  | Ok TRepair =>
      let d := count_packet d 1 0 in
      finish d ('(r, n) <- read_repair m p ;;
                '(d, out) <- call_core64 clk d (fun c => recv_repair m c r) ;;
                Ok (d, (out, n)))
  | Ok TSource =>
      let d := count_packet d 0 1 in
      finish d ('(s, n) <- read_source m p ;;
                '(d, out) <- call_core64 clk d (fun c => recv_source m c (ds_id s) (ds_data s)) ;;
                Ok (d, (out, n)))
  | Ok TAck => (d, Throw PacketTypeError)
  | Throw x => (d, Throw x)
  | Fault x => (d, Fault x)
  end.

(** The calls of [dop]. *)
Definition dstep64 (m : mode) (clk : clock) (d : dec) (op : dop) : dec * outcome (list dout) :=
  match op with
  | DPacket p => let '(d', r) := dec_packet64 m clk d p in (d', '(out, _) <- r ;; Ok out)
  | DAck => let '(d', out) := generate_ack d in (d', Ok out)
  | DMaybe => finish d (maybe_ack64 clk (mkeys (d_sources (dc_core d))) d)
  | DSetPeriod t => (set_ack_period d t, Ok [])
  | DSetNb n => finish d (d' <- set_ack_nb_packets m d n ;; Ok (d', []))
  end.

Fixpoint drun64 (m : mode) (clk : clock) (d : dec) (ops : list dop) : outcome (dec * list dout) :=
  match ops with
  | [] => Ok (d, [])
  | op :: ops' =>
      match dstep64 m clk d op with
      | (d', Ok out) => '(d'', out') <- drun64 m clk d' ops' ;; Ok (d'', out ++ out')
      | (d', Throw _) => drun64 m clk d' ops'
      | (_, Fault x) => Fault x
      end
  end.
