(** * Closed system: a sender, a receiver, and the channel between them

    Not a file of the library: the setting of its documentation (README.md), in
    which the packets made by an encoder reach a decoder, and the acks made by
    the decoder reach the encoder. *)
From Coq Require Import ZArith NArith List Bool Sorted.
From Verif Require Import Outcome GF Packetizer Encoder EncoderRun EncoderHistory
  Containers DetailDecoder Decoder PropsPacketizer.
Import ListNotations.
Open Scope N_scope.
Open Scope outcome_scope.

(** [w_sent], [w_out], [w_got] and [w_acks] are histories: the data given to the
    sender, the packets it emitted, the data handed to the receiver's user,
    the acks the receiver emitted. [w_arrived] has the positions, in [w_out], of the
    packets given to the receiver, in the order of arrival. [w_lists] has the
    lists of identifiers written into packets. *)
Record world := {
  w_enc : enc;
  w_dec : dec;
  w_sent : list (list N);
  w_out : list packet;
  w_arrived : list nat;
  w_got : list (list N);
  w_acks : list packet;
  w_lists : list (list N)
}.

Inductive action : Type :=
(* calls of the encoder *)
| Data (d : list N)
| Repair
| SetCode (systematic : bool)
| SetRate (rate : N)
| SetWindow (size : N)
| SetAdaptive (adaptive : bool)
(* calls of the decoder *)
| Ack
| MaybeAck
| SetPeriod (period : Z)
| SetNb (nb : N)
(* the channel: the packet, or the ack, at this position arrives *)
| Arrive (k : nat)
| AckArrive (j : nat).

Definition start (clk : clock) (f : field) (in_order : bool) : world := {|
  w_enc := new_encoder f;
  w_dec := new_dec clk f in_order;
  w_sent := []; w_out := []; w_arrived := []; w_got := []; w_acks := []; w_lists := [] |}.

(** Exceptions are survived, see [erun] and [drun]. *)
Definition survive {A} (r : outcome (list A)) : outcome (list A) :=
  match r with
  | Ok l => Ok l
  | Throw _ => Ok []
  | Fault x => Fault x
  end.

Definition sender (m : mode) (w : world) (op : eop) (data : list (list N)) : outcome world :=
  let '(e, r) := estep m (w_enc w) op in
  out <- survive r ;;
  Ok {| w_enc := e; w_dec := w_dec w;
        w_sent := w_sent w ++ data;
        w_out := w_out w ++ out;
        w_arrived := w_arrived w; w_got := w_got w; w_acks := w_acks w;
        w_lists := w_lists w ++ map (fun _ => map es_id (e_sources e)) (of_type 1 out) |}.

(** If acks are emitted: the known sources at the calls of the callback or, when
    the user asks for an ack, at that time. *)
Definition acked (d d' : dec) (out : list dout) : list (list N) :=
  match to_network out with
  | [] => []
  | _ => match skipn (length (d_log (dc_core d))) (d_log (dc_core d')) with
         | [] => [mkeys (d_sources (dc_core d))]
         | new => map v_known new
         end
  end.

Definition receiver (m : mode) (clk : clock) (w : world) (op : dop) (arrived : list nat)
  : outcome world :=
  let '(d, r) := dstep m clk (w_dec w) op in
  out <- survive r ;;
  Ok {| w_enc := w_enc w; w_dec := d;
        w_sent := w_sent w; w_out := w_out w;
        w_arrived := w_arrived w ++ arrived;
        w_got := w_got w ++ to_user out;
        w_acks := w_acks w ++ to_network out;
        w_lists := w_lists w ++ acked (w_dec w) d out |}.

Definition wstep (m : mode) (clk : clock) (w : world) (a : action) : outcome world :=
  match a with
  | Data d => sender m w (EData d) [d]
  | Repair => sender m w ERepair []
  | SetCode b => sender m w (ESetCode b) []
  | SetRate r => sender m w (ESetRate r) []
  | SetWindow n => sender m w (ESetWindow n) []
  | SetAdaptive b => sender m w (ESetAdaptive b) []
  | Ack => receiver m clk w DAck []
  | MaybeAck => receiver m clk w DMaybe []
  | SetPeriod t => receiver m clk w (DSetPeriod t) []
  | SetNb n => receiver m clk w (DSetNb n) []
  | Arrive k => match nth_error (w_out w) k with
                | Some p => receiver m clk w (DPacket p) [k]
                | None => Ok w
                end
  | AckArrive j => match nth_error (w_acks w) j with
                   | Some p => sender m w (EPacket p) []
                   | None => Ok w
                   end
  end.

Fixpoint wrun (m : mode) (clk : clock) (w : world) (l : list action) : outcome world :=
  match l with
  | [] => Ok w
  | a :: l' => w' <- wstep m clk w a ;; wrun m clk w' l'
  end.

(** ** Assumptions on the channel *)

Definition repair_at (w : world) (k : nat) : bool :=
  match nth_error (w_out w) k with Some p => type_of p =? 1 | None => false end.

(** No repair arrives after a later one has arrived. Everything else is allowed:
    loss of anything, duplication and reordering of sources and acks,
    duplication of a repair before the arrival of a later one. *)
Definition repairs_in_order (w : world) : Prop :=
  StronglySorted le (filter (repair_at w) (w_arrived w)).

(** No packet overtakes another one: losses, and duplicates in place. The acks are free. *)
Definition fifo (w : world) : Prop := StronglySorted le (w_arrived w).

(** ** Limits of the wire format (C01, C04, C09) *)

Definition wire_ok (l : list N) : Prop := close_ids l /\ run_count_fits l.

(** With 32-bit words the library keeps 16 bits of the product of a size and a
    coefficient (galois_field.hh 118): the products in the repairs that lose no
    bit. In the other fields there is nothing to lose. *)
Definition sizes_fit (f : field) (w : world) : Prop :=
  f = W32 -> forall m p r k x, In p (w_out w) -> get_packet_type p = Ok TRepair ->
  read_repair m p = Ok (r, k) -> In x (dr_ids r) ->
  gmul f (N.of_nat (length (nth (N.to_nat x) (w_sent w) []))) (coefficient f (dr_id r) x) < 65536.

(** The same at each point of a run. *)
Definition sizes_fit_during (m : mode) (clk : clock) (f : field) (o : bool) (l : list action) : Prop :=
  forall before after w, l = before ++ after -> wrun m clk (start clk f o) before = Ok w -> sizes_fit f w.

(** What the caller gives, and what fits the format. *)
Record within_limits (f : field) (w : world) : Prop := {
  wl_data : Forall (fun d => (0 < length d)%nat /\ N.of_nat (length d) < 65536
              /\ aligned f (length d) = true /\ Forall (fun b => b < 256) d) (w_sent w);
  wl_count : N.of_nat (length (w_sent w)) < 2 ^ 32;
  wl_lists : Forall wire_ok (w_lists w);
  wl_sizes : sizes_fit f w
}.
