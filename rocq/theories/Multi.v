(** * One sender, several receivers

    Not a file of the library: nothing in its interface keeps a user from giving
    the packets of one encoder to several decoders (multicast, or one receiver
    that is started again), and the acks of each of them to the encoder. *)
From Coq Require Import ZArith NArith List Bool.
From Verif Require Import Outcome GF Packetizer Encoder EncoderRun Containers DetailDecoder Decoder System.
Import ListNotations.
Open Scope N_scope.
Open Scope outcome_scope.

(** A receiver with its history, see [world]. One that has failed stays as it was
    when the failing call began. *)
Record station := {
  r_dec : dec;
  r_arrived : list nat;
  r_got : list (list N);
  r_acks : list packet;
  r_failed : option fault
}.

Record multi := {
  u_enc : enc;
  u_sent : list (list N);
  u_out : list packet;
  u_stations : list station
}.

(** [clks] has a clock for each receiver, [orders] says which of them keep the order. *)
Definition new_station (clk : clock) (f : field) (in_order : bool) : station :=
  {| r_dec := new_dec clk f in_order; r_arrived := []; r_got := []; r_acks := []; r_failed := None |}.

Definition mstart (clks : nat -> clock) (f : field) (orders : list bool) : multi := {|
  u_enc := new_encoder f; u_sent := []; u_out := [];
  u_stations := map (fun i => new_station (clks i) f (nth i orders false)) (seq 0 (length orders)) |}.

Fixpoint replace {A} (l : list A) (i : nat) (a : A) : list A :=
  match l, i with
  | [], _ => []
  | _ :: t, O => a :: t
  | x :: t, S j => x :: replace t j a
  end.

Definition msender (m : mode) (w : multi) (op : eop) (data : list (list N)) : outcome multi :=
  let '(e, r) := estep m (u_enc w) op in
  out <- survive r ;;
  Ok {| u_enc := e; u_sent := u_sent w ++ data; u_out := u_out w ++ out; u_stations := u_stations w |}.

(** A call of one receiver; its failure ends this receiver only. *)
Definition station_step (m : mode) (clk : clock) (s : station) (op : dop) (arrived : list nat) : station :=
  match r_failed s with
  | Some _ => s
  | None =>
      let '(d, r) := dstep m clk (r_dec s) op in
      match survive r with
      | Fault x => {| r_dec := r_dec s; r_arrived := r_arrived s; r_got := r_got s; r_acks := r_acks s; r_failed := Some x |}
      | Ok out => {| r_dec := d; r_arrived := r_arrived s ++ arrived; r_got := r_got s ++ to_user out;
                     r_acks := r_acks s ++ to_network out; r_failed := None |}
      | Throw _ => s
      end
  end.

Definition mreceiver (m : mode) (clks : nat -> clock) (w : multi) (i : nat) (op : dop) (arrived : list nat) : outcome multi :=
  match nth_error (u_stations w) i with
  | None => Ok w
  | Some s => Ok {| u_enc := u_enc w; u_sent := u_sent w; u_out := u_out w;
                    u_stations := replace (u_stations w) i (station_step m (clks i) s op arrived) |}
  end.

(** Who acts, and what: the receiver [i] is called, a packet arrives at it, or one
    of its acks arrives at the sender. For calls of the sender [i] means nothing. *)
Definition mstep (m : mode) (clks : nat -> clock) (w : multi) (ia : nat * action) : outcome multi :=
  let (i, a) := ia in
  match a with
  | Data d => msender m w (EData d) [d]
  | Repair => msender m w ERepair []
  | SetCode b => msender m w (ESetCode b) []
  | SetRate r => msender m w (ESetRate r) []
  | SetWindow n => msender m w (ESetWindow n) []
  | SetAdaptive b => msender m w (ESetAdaptive b) []
  | Ack => mreceiver m clks w i DAck []
  | MaybeAck => mreceiver m clks w i DMaybe []
  | SetPeriod t => mreceiver m clks w i (DSetPeriod t) []
  | SetNb n => mreceiver m clks w i (DSetNb n) []
  | Arrive k => match nth_error (u_out w) k with
                | Some p => mreceiver m clks w i (DPacket p) [k]
                | None => Ok w
                end
  | AckArrive j => match nth_error (u_stations w) i with
                   | Some s => match nth_error (r_acks s) j with
                               | Some p => msender m w (EPacket p) []
                               | None => Ok w
                               end
                   | None => Ok w
                   end
  end.

Fixpoint mrun (m : mode) (clks : nat -> clock) (w : multi) (l : list (nat * action)) : outcome multi :=
  match l with
  | [] => Ok w
  | a :: l' => w' <- mstep m clks w a ;; mrun m clks w' l'
  end.
