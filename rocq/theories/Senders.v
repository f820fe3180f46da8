(** * Several senders, one receiver

    Not a file of the library: nothing in the packets (detail/packetizer.hh) says which encoder
    wrote them, and nothing in the interface of the decoder (netcode/decoder.hh) keeps a user from giving it
    the packets of several encoders: an application that is started again while its peer
    goes on, or two applications that send to the same port. *)
From Coq Require Import ZArith NArith List Bool.
From Verif Require Import Outcome GF Packetizer Encoder EncoderRun Containers DetailDecoder Decoder System Multi.
Import ListNotations.
Open Scope N_scope.
Open Scope outcome_scope.

(** The encoders, what each was given, the packets of all of them in the order in which they were written. *)
Record crowd := {
  c_encs : list enc;
  c_sent : list (list (list N));
  c_out : list packet;
  c_dec : dec;
  c_seen : list packet;
  c_got : list (list N);
  c_acks : list packet
}.

Definition cstart (clk : clock) (f : field) (o : bool) (n : nat) : crowd := {|
  c_encs := repeat (new_encoder f) n; c_sent := repeat [] n; c_out := [];
  c_dec := new_dec clk f o; c_seen := []; c_got := []; c_acks := [] |}.

(** A call of the sender [i]; see [sender] of System.v. *)
Definition csender (m : mode) (w : crowd) (i : nat) (op : eop) (data : list (list N)) : outcome crowd :=
  match nth_error (c_encs w) i with
  | None => Ok w
  | Some e =>
      let '(e, r) := estep m e op in
      out <- survive r ;;
      Ok {| c_encs := replace (c_encs w) i e;
            c_sent := replace (c_sent w) i (nth i (c_sent w) [] ++ data);
            c_out := c_out w ++ out;
            c_dec := c_dec w; c_seen := c_seen w; c_got := c_got w; c_acks := c_acks w |}
  end.

Definition creceiver (m : mode) (clk : clock) (w : crowd) (op : dop) (seen : list packet) : outcome crowd :=
  let '(d, r) := dstep m clk (c_dec w) op in
  out <- survive r ;;
  Ok {| c_encs := c_encs w; c_sent := c_sent w; c_out := c_out w;
        c_dec := d; c_seen := c_seen w ++ seen; c_got := c_got w ++ to_user out; c_acks := c_acks w ++ to_network out |}.

(** Who acts, and what. An ack arrives at the sender [i]; for calls of the receiver and packets that arrive at
    it [i] means nothing. *)
Definition cstep (m : mode) (clk : clock) (w : crowd) (ia : nat * action) : outcome crowd :=
  let (i, a) := ia in
  match a with
  | Data d => csender m w i (EData d) [d]
  | Repair => csender m w i ERepair []
  | SetCode b => csender m w i (ESetCode b) []
  | SetRate r => csender m w i (ESetRate r) []
  | SetWindow n => csender m w i (ESetWindow n) []
  | SetAdaptive b => csender m w i (ESetAdaptive b) []
  | Ack => creceiver m clk w DAck []
  | MaybeAck => creceiver m clk w DMaybe []
  | SetPeriod t => creceiver m clk w (DSetPeriod t) []
  | SetNb n => creceiver m clk w (DSetNb n) []
  | Arrive k => match nth_error (c_out w) k with
                | Some p => creceiver m clk w (DPacket p) [p]
                | None => Ok w
                end
  | AckArrive j => match nth_error (c_acks w) j with
                   | Some p => csender m w i (EPacket p) []
                   | None => Ok w
                   end
  end.

Fixpoint crun (m : mode) (clk : clock) (w : crowd) (l : list (nat * action)) : outcome crowd :=
  match l with
  | [] => Ok w
  | a :: l' => w' <- cstep m clk w a ;; crun m clk w' l'
  end.
