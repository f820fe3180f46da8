(** * Model of the receiver: netcode/decoder.hh *)
From Coq Require Import ZArith NArith List Bool.
From Verif Require Import Outcome GF Containers Packetizer Encoder DetailDecoder.
Import ListNotations.
Open Scope N_scope.
Open Scope outcome_scope.

(** What the user's handlers get: a datum (data handler) or the bytes of a packet
    (packet handler). *)
Inductive dout : Type :=
| ToUser (data : list N)
| ToNetwork (p : packet).

(** decoder.hh 304-338. The counters of repairs, sources and acks are std::size_t
    and [dc_ack] is detail/ack.hh. [dc_reads] is not part of the class: it counts
    the readings of std::chrono::steady_clock. *)
Record dec := {
  dc_period : Z;            (* m_ack_period, milliseconds *)
  dc_ack_nb : N;            (* m_ack_nb_packets *)
  dc_last_date : Z;         (* m_last_ack_date, nanoseconds *)
  dc_ack : ack;             (* m_ack *)
  dc_core : ddec;           (* m_decoder *)
  dc_nb_repairs : N;
  dc_nb_sources : N;
  dc_nb_acks : N;
  dc_reads : nat
}.

(** The clock: the value of the n-th reading, in nanoseconds. *)
Definition clock := nat -> Z.

(** Constructor, 51-78. *)
Definition new_dec (clk : clock) (f : field) (in_order : bool) : dec := {|
  dc_period := 100;
  dc_ack_nb := 50;
  dc_last_date := clk O;
  dc_ack := {| a_ids := []; a_nb := 0 |};
  dc_core := new_ddec f in_order;
  dc_nb_repairs := 0;
  dc_nb_sources := 0;
  dc_nb_acks := 0;
  dc_reads := 1 |}.

(** [generate_ack], 212-228; [known] are the keys of m_decoder.sources(). *)
Definition generate_ack_of (known : list N) (d : dec) : dec * list dout :=
  let a := {| a_ids := fold_left (fun s x => sinsert x s) known (a_ids (dc_ack d));
              a_nb := a_nb (dc_ack d) |} in
  ({| dc_period := dc_period d;
      dc_ack_nb := dc_ack_nb d;
      dc_last_date := dc_last_date d;
      dc_ack := {| a_ids := []; a_nb := 0 |};
      dc_core := dc_core d;
      dc_nb_repairs := dc_nb_repairs d;
      dc_nb_sources := dc_nb_sources d;
      dc_nb_acks := u64 (dc_nb_acks d + 1);
      dc_reads := dc_reads d |}, [ToNetwork (concat (write_ack a))]).

(** The clock is read; [set] tells if the reading becomes m_last_ack_date. *)
Definition read_clock (clk : clock) (set : bool) (d : dec) : dec := {|
  dc_period := dc_period d;
  dc_ack_nb := dc_ack_nb d;
  dc_last_date := if set then clk (dc_reads d) else dc_last_date d;
  dc_ack := dc_ack d;
  dc_core := dc_core d;
  dc_nb_repairs := dc_nb_repairs d;
  dc_nb_sources := dc_nb_sources d;
  dc_nb_acks := dc_nb_acks d;
  dc_reads := S (dc_reads d) |}.

(** [maybe_ack], 230-248. *)
Definition maybe_ack_of (clk : clock) (known : list N) (d : dec) : dec * list dout :=
  if dc_ack_nb d <=? a_nb (dc_ack d) then
    let '(d, out) := generate_ack_of known d in (read_clock clk true d, out)
  else if (dc_period d =? 0)%Z then (d, [])
  else if (dc_period d * 1000000 <=? clk (dc_reads d) - dc_last_date d)%Z then
    let '(d, out) := generate_ack_of known d in (read_clock clk true d, out)
  else (read_clock clk false d, []).

(** [handle_source], 291-300. *)
Definition handle_source (clk : clock) (d : dec) (v : event) : dec * list dout :=
  let '(d, out) := maybe_ack_of clk (v_known v) d in (d, ToUser (v_data v) :: out).

(** The calls of the callback during one call of m_decoder, in order. *)
Fixpoint handle_sources (clk : clock) (d : dec) (l : list event) : dec * list dout :=
  match l with
  | [] => (d, [])
  | v :: l' =>
      let '(d, out) := handle_source clk d v in
      let '(d, out') := handle_sources clk d l' in
      (d, out ++ out')
  end.

Definition with_core (d : dec) (c : ddec) : dec := {|
  dc_period := dc_period d;
  dc_ack_nb := dc_ack_nb d;
  dc_last_date := dc_last_date d;
  dc_ack := dc_ack d;
  dc_core := c;
  dc_nb_repairs := dc_nb_repairs d;
  dc_nb_sources := dc_nb_sources d;
  dc_nb_acks := dc_nb_acks d;
  dc_reads := dc_reads d |}.

(** A call of m_decoder. Its callback only touches members of the outer class
    and reads the known sources (kept in the log), so that running the
    callbacks after the call is the same as running them during the call. *)
Definition call_core (clk : clock) (d : dec) (run : ddec -> outcome ddec)
  : outcome (dec * list dout) :=
  c <- run (dc_core d) ;;
  Ok (handle_sources clk (with_core d c) (skipn (length (d_log (dc_core d))) (d_log c))).

(** Lines 101-102 and 110-111: the number of packets of the ack is 16 bits wide
    (detail/ack.hh 67). *)
Definition count_packet (d : dec) (repairs sources : N) : dec := {|
  dc_period := dc_period d;
  dc_ack_nb := dc_ack_nb d;
  dc_last_date := dc_last_date d;
  dc_ack := {| a_ids := a_ids (dc_ack d); a_nb := u16 (a_nb (dc_ack d) + 1) |};
  dc_core := dc_core d;
  dc_nb_repairs := u64 (dc_nb_repairs d + repairs);
  dc_nb_sources := u64 (dc_nb_sources d + sources);
  dc_nb_acks := dc_nb_acks d;
  dc_reads := dc_reads d |}.

(** The outcome of a call that counted the packet in [d] first. *)
Definition finish {A} (d : dec) (x : outcome (dec * A)) : dec * outcome A :=
  match x with
  | Ok (d', a) => (d', Ok a)
  | Throw e => (d, Throw e)
  | Fault e => (d, Fault e)
  end.

(** [operator()(packet&&)], 87-122. The number is the number of bytes read. *)
Definition dec_packet (m : mode) (clk : clock) (d : dec) (p : packet)
  : dec * outcome (list dout * nat) :=
  match (_ <- assert_ m (Nat.ltb 0 (length p)) ;; get_packet_type p) with
  | Ok TRepair =>
      let d := count_packet d 1 0 in
      finish d ('(r, n) <- read_repair m p ;;
                '(d, out) <- call_core clk d (fun c => recv_repair m c r) ;;
                Ok (d, (out, n)))
  | Ok TSource =>
      let d := count_packet d 0 1 in
      finish d ('(s, n) <- read_source m p ;;
                '(d, out) <- call_core clk d (fun c => recv_source m c (ds_id s) (ds_data s)) ;;
                Ok (d, (out, n)))
  | Ok TAck => (d, Throw PacketTypeError)
  | Throw x => (d, Throw x)
  | Fault x => (d, Fault x)
  end.

(** [generate_ack] and [maybe_ack] called by the user. *)
Definition generate_ack (d : dec) : dec * list dout :=
  generate_ack_of (mkeys (d_sources (dc_core d))) d.
Definition maybe_ack (clk : clock) (d : dec) : dec * list dout :=
  maybe_ack_of clk (mkeys (d_sources (dc_core d))) d.

Definition with_ack_params (d : dec) (period : Z) (nb : N) : dec := {|
  dc_period := period;
  dc_ack_nb := nb;
  dc_last_date := dc_last_date d;
  dc_ack := dc_ack d;
  dc_core := dc_core d;
  dc_nb_repairs := dc_nb_repairs d;
  dc_nb_sources := dc_nb_sources d;
  dc_nb_acks := dc_nb_acks d;
  dc_reads := dc_reads d |}.

(** [set_ack_period], 254-260. *)
Definition set_ack_period (d : dec) (period : Z) : dec :=
  with_ack_params d period (dc_ack_nb d).

(** [set_ack_nb_packets], 272-279. *)
Definition set_ack_nb_packets (m : mode) (d : dec) (nb : N) : outcome dec :=
  _ <- assert_ m (0 <? nb) ;;
  Ok (with_ack_params d (dc_period d) (N.min nb 128)).

(** [nb_missing_sources], 172-178. *)
Definition nb_missing_sources (d : dec) : N := N.of_nat (length (d_missing (dc_core d))).

(** ** Sequences of calls *)

Inductive dop : Type :=
| DPacket (p : packet)
| DAck
| DMaybe
| DSetPeriod (period : Z)
| DSetNb (nb : N).

Definition dstep (m : mode) (clk : clock) (d : dec) (op : dop) : dec * outcome (list dout) :=
  match op with
  | DPacket p => let '(d', r) := dec_packet m clk d p in (d', '(out, _) <- r ;; Ok out)
  | DAck => let '(d', out) := generate_ack d in (d', Ok out)
  | DMaybe => let '(d', out) := maybe_ack clk d in (d', Ok out)
  | DSetPeriod t => (set_ack_period d t, Ok [])
  | DSetNb n => finish d (d' <- set_ack_nb_packets m d n ;; Ok (d', []))
  end.

(** The caller survives exceptions, faults end the run. *)
Fixpoint drun (m : mode) (clk : clock) (d : dec) (ops : list dop)
  : outcome (dec * list dout) :=
  match ops with
  | [] => Ok (d, [])
  | op :: ops' =>
      match dstep m clk d op with
      | (d', Ok out) => '(d'', out') <- drun m clk d' ops' ;; Ok (d'', out ++ out')
      | (d', Throw _) => drun m clk d' ops'
      | (_, Fault x) => Fault x
      end
  end.

(** What the data handler got. *)
Fixpoint to_user (l : list dout) : list (list N) :=
  match l with
  | [] => []
  | ToUser d :: l' => d :: to_user l'
  | ToNetwork _ :: l' => to_user l'
  end.

(** What the packet handler got. *)
Fixpoint to_network (l : list dout) : list packet :=
  match l with
  | [] => []
  | ToUser _ :: l' => to_network l'
  | ToNetwork p :: l' => p :: to_network l'
  end.
