(** * Model of the encoder when its packet handler calls the encoder: [netcode/encoder.hh]
      and the writing half of [netcode/detail/packetizer.hh]

    In [Handlers.v] the packet handler may throw but makes no calls. Here it makes
    calls of the encoder that is calling it: data, acks, repairs or settings. It
    does not throw, and catches the exceptions of the calls it makes.

    Simplified: while a packet is written (all calls of the handler but the one that
    marks the end), the packetizer holds references to the source in the list
    (encoder.hh 264, packetizer.hh 165-183), to [m_repair] (encoder.hh 168) and to its
    buffers (packetizer.hh 304-308). A handler that gives data or a packet or asks for
    a repair at this moment is the fault [DeadIterator], although some of these calls
    would do no harm. At the end of a packet nothing is held. *)
From Coq Require Import NArith List Bool.
From Verif Require Import Outcome GF Containers Packetizer Rate Encoder EncoderRun Handlers.
Import ListNotations.
Open Scope N_scope.
Open Scope outcome_scope.

(** The calls a handler makes, depending on all the calls it got before and this one. *)
Definition caller : Type := list hcall -> hcall -> list eop.

(** The calls that set a parameter, encoder.hh 179-241. *)
Definition setting (op : eop) : bool :=
  match op with
  | ESetCode _ | ESetRate _ | ESetWindow _ | ESetAdaptive _ => true
  | EData _ | EPacket _ | ERepair => false
  end.

Definition at_end (c : hcall) : bool := match c with HEnd => true | HBytes _ => false end.

Section Nested.

(** The calls made by the handler: from a state of the encoder and the calls the
    handler got so far to the next ones. *)
Variable nested : enc -> list hcall -> list eop -> outcome (enc * list hcall).
Variable h : caller.
Variable m : mode.

(** packetizer.hh 242-260, 354-360. *)
Fixpoint sfeed (e : enc) (tr calls : list hcall) : outcome (enc * list hcall) :=
  match calls with
  | [] => Ok (e, tr)
  | c :: l =>
      if negb (at_end c) && negb (forallb setting (h tr c)) then Fault DeadIterator
      else '(e, tr) <- nested e (tr ++ [c]) (h tr c) ;; sfeed e tr l
  end.

(** [generate_repair], encoder.hh 161-169. *)
Definition srepair (e : enc) (tr : list hcall) : outcome (enc * list hcall) :=
  '(e, w) <- prepare_repair m e ;; sfeed e tr (packet_calls w).

(** encoder.hh 266-276: the counters first, then the calls of the handler. *)
Definition ssend (e : enc) (s : esource) (tr : list hcall) : outcome (enc * list hcall) :=
  if e_systematic e
  then
    let e := {| e_field := e_field e;
                e_systematic := e_systematic e;
                e_rate := e_rate e;
                e_window_size := e_window_size e;
                e_adaptive := e_adaptive e;
                e_source_id := e_source_id e;
                e_repair_id := e_repair_id e;
                e_sources := e_sources e;
                e_nb_sent_repairs := e_nb_sent_repairs e;
                e_nb_acks := e_nb_acks e;
                e_nb_sent_sources := u64 (e_nb_sent_sources e + 1);
                e_nb_sent_packets := u16 (e_nb_sent_packets e + 1) |} in
    sfeed e tr (packet_calls (write_source s))
  else srepair e tr.

(** [commit_impl], encoder.hh 253-285. The identifier, the rate and the window are
    read again after the calls of the handler. *)
Definition scommit (e : enc) (d : list N) (tr : list hcall) : outcome (enc * list hcall) :=
  let s := {| es_id := e_source_id e; es_data := d |} in
  l <- push_source e s ;;
  '(e, tr) <- ssend (with_sources e l) s tr ;;
  if e_rate e =? 0 then Fault DivisionByZero
  else
    '(e, tr) <- (if u32 (e_source_id e + 1) mod e_rate e =? 0 then srepair e tr else Ok (e, tr)) ;;
    Ok (with_source_id e (u32 (e_source_id e + 1)), tr).

(** [operator()(data&&)], encoder.hh 86-96. *)
Definition sdata (e : enc) (d : list N) (tr : list hcall) : outcome (enc * list hcall) :=
  _ <- assert_ m (Nat.ltb 0 (length d)) ;;
  _ <- assert_ m (match e_field e with
                  | W16 | W32 => aligned (e_field e) (length d)
                  | _ => true
                  end) ;;
  scommit e d tr.

(** A call of the user or of the handler; the caller survives exceptions. *)
Definition sstep (e : enc) (op : eop) (tr : list hcall) : outcome (enc * list hcall) :=
  match op with
  | EData d => sdata e d tr
  | ERepair => srepair e tr
  | _ =>
      match estep m e op with
      | (e, Ok _) => Ok (e, tr)
      | (e, Throw _) => Ok (e, tr)
      | (_, Fault x) => Fault x
      end
  end.

Fixpoint sseq (e : enc) (tr : list hcall) (ops : list eop) : outcome (enc * list hcall) :=
  match ops with
  | [] => Ok (e, tr)
  | op :: l => '(e, tr) <- sstep e op tr ;; sseq e tr l
  end.

End Nested.

(** Sequences of calls, each of which may lead to calls made by the handler, and so
    on to the given depth. *)
Fixpoint sops (depth : nat) (h : caller) (m : mode) (e : enc) (tr : list hcall) (ops : list eop)
  : outcome (enc * list hcall) :=
  match depth with
  | O => match ops with [] => Ok (e, tr) | _ => Fault OutOfFuel end
  | S depth => sseq (sops depth h m) h m e tr ops
  end.
