(** * Model of dispatch.hh *)
From Coq Require Import NArith List Bool.
From Verif Require Import Outcome Packetizer Encoder Decoder.
Import ListNotations.
Open Scope N_scope.
Open Scope outcome_scope.

(** [dispatch], dispatch.hh 17-43: the type is read, then the encoder or the
    decoder is called. The encoder has no handler call to make for a packet. The
    default case (37-40) is for values [get_packet_type] never returns. *)
Definition dispatch (m : mode) (clk : clock) (e : enc) (d : dec) (p : packet)
  : enc * dec * outcome (list dout * nat) :=
  match get_packet_type p with
  | Ok TAck => let '(e', r) := notify m e p in (e', d, n <- r ;; Ok ([], n))
  | Ok TRepair | Ok TSource => let '(d', r) := dec_packet m clk d p in (e, d', r)
  | Throw x => (e, d, Throw x)
  | Fault x => (e, d, Fault x)
  end.
