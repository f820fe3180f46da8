(** * Model of the encoder with its packet handler: [netcode/encoder.hh] and the
      writing half of [netcode/detail/packetizer.hh]

    [Encoder.v] hands out whole packets. Here the handler is called as in the code:
    once with each piece of a packet and once without arguments at its end; each
    of these calls may throw. The exceptions of the handler pass through the library,
    as no function between handler and user is noexcept unless the handler is. *)
From Coq Require Import NArith List Bool.
From Verif Require Import Outcome GF Containers Packetizer Rate Encoder EncoderRun.
Import ListNotations.
Open Scope N_scope.

(** The two overloads of a packet handler: packetizer.hh 242-260 and [mark_end],
    354-360. *)
Inductive hcall : Type :=
| HBytes (b : list N)
| HEnd.

(** The handler throws or not, depending on all the calls it completed before. *)
Definition handler : Type := list hcall -> hcall -> bool.

(** How a call of the encoder ends. [HError]: an exception of the library. *)
Inductive hres : Type :=
| HDone
| HThrew
| HError (x : exn)
| HFault (x : fault).

(** Calls of the handler, one after the other; the completed ones are added to
    the trace. *)
Fixpoint feed (h : handler) (tr calls : list hcall) : list hcall * hres :=
  match calls with
  | [] => (tr, HDone)
  | c :: l => if h tr c then (tr, HThrew) else feed h (tr ++ [c]) l
  end.

(** The calls for one packet, packetizer.hh 46-61, 90-122, 165-183. *)
Definition packet_calls (pieces : list (list N)) : list hcall := map HBytes pieces ++ [HEnd].

(** encoder.hh 161-168 and 320-333, up to the first call of the handler. *)
Definition prepare_repair (m : mode) (e : enc) : outcome (enc * list (list N)) :=
  _ <- assert_ m (Nat.ltb 0 (length (e_sources e))) ;;
  r <- encode (e_field e) m (e_repair_id e) (e_sources e) ;;
  w <- write_repair m r ;;
  Ok ({| e_field := e_field e;
         e_systematic := e_systematic e;
         e_rate := e_rate e;
         e_window_size := e_window_size e;
         e_adaptive := e_adaptive e;
         e_source_id := e_source_id e;
         e_repair_id := u32 (e_repair_id e + 1);
         e_sources := e_sources e;
         e_nb_sent_repairs := u64 (e_nb_sent_repairs e + 1);
         e_nb_acks := e_nb_acks e;
         e_nb_sent_sources := e_nb_sent_sources e;
         e_nb_sent_packets := u16 (e_nb_sent_packets e + 1) |},
      w).

(** [generate_repair], encoder.hh 161-169. *)
Definition hrepair (h : handler) (m : mode) (e : enc) (tr : list hcall) : enc * list hcall * hres :=
  match prepare_repair m e with
  | Ok (e, w) => let '(tr, r) := feed h tr (packet_calls w) in (e, tr, r)
  | Throw x => (e, tr, HError x)
  | Fault x => (e, tr, HFault x)
  end.

(** encoder.hh 266-276: the counters first, then the calls of the handler. *)
Definition hsend (h : handler) (m : mode) (e : enc) (s : esource) (tr : list hcall) : enc * list hcall * hres :=
  if e_systematic e
  then
    let e := {| e_field := e_field e;
                e_systematic := e_systematic e;
                e_rate := e_rate e;
                e_window_size := e_window_size e;
                e_adaptive := e_adaptive e;
                e_source_id := e_source_id e;
                e_repair_id := e_repair_id e;
                e_sources := e_sources e;
                e_nb_sent_repairs := e_nb_sent_repairs e;
                e_nb_acks := e_nb_acks e;
                e_nb_sent_sources := u64 (e_nb_sent_sources e + 1);
                e_nb_sent_packets := u16 (e_nb_sent_packets e + 1) |} in
    let '(tr, r) := feed h tr (packet_calls (write_source s)) in (e, tr, r)
  else hrepair h m e tr.

(** [commit_impl], encoder.hh 253-285. The increment 284 of the identifier is not
    reached when a call of the handler throws. *)
Definition hcommit (h : handler) (m : mode) (e : enc) (d : list N) (tr : list hcall) : enc * list hcall * hres :=
  let s := {| es_id := e_source_id e; es_data := d |} in
  match push_source e s with
  | Ok l =>
      let '(e, tr, r) := hsend h m (with_sources e l) s tr in
      match r with
      | HDone =>
          if e_rate e =? 0 then (e, tr, HFault DivisionByZero)
          else
            let '(e, tr, r) :=
              if u32 (e_source_id e + 1) mod e_rate e =? 0 then hrepair h m e tr else (e, tr, HDone) in
            match r with
            | HDone => (with_source_id e (u32 (e_source_id e + 1)), tr, HDone)
            | _ => (e, tr, r)
            end
      | _ => (e, tr, r)
      end
  | Throw x => (e, tr, HError x)
  | Fault x => (e, tr, HFault x)
  end.

(** [operator()(data&&)], encoder.hh 86-96. *)
Definition hdata (h : handler) (m : mode) (e : enc) (d : list N) (tr : list hcall) : enc * list hcall * hres :=
  match
    (_ <- assert_ m (Nat.ltb 0 (length d)) ;;
     assert_ m (match e_field e with
                | W16 | W32 => aligned (e_field e) (length d)
                | _ => true
                end))
  with
  | Ok _ => hcommit h m e d tr
  | Throw x => (e, tr, HError x)
  | Fault x => (e, tr, HFault x)
  end.

(** A call of the user; the other calls do not use the handler. *)
Definition hstep (h : handler) (m : mode) (e : enc) (op : eop) (tr : list hcall) : enc * list hcall * hres :=
  match op with
  | EData d => hdata h m e d tr
  | ERepair => hrepair h m e tr
  | _ =>
      match estep m e op with
      | (e, Ok _) => (e, tr, HDone)
      | (e, Throw x) => (e, tr, HError x)
      | (e, Fault x) => (e, tr, HFault x)
      end
  end.

(** A user that catches all exceptions and carries on. The result has, for each
    call, the calls of the handler that were completed and the end; a fault ends
    the run. *)
Fixpoint hrun (h : handler) (m : mode) (e : enc) (tr : list hcall) (ops : list eop) :
  enc * list (list hcall * hres) :=
  match ops with
  | [] => (e, [])
  | op :: l =>
      let '(e, tr', r) := hstep h m e op tr in
      let done := (skipn (length tr) tr', r) in
      match r with
      | HFault _ => (e, [done])
      | _ => let '(e, rs) := hrun h m e tr' l in (e, done :: rs)
      end
  end.
