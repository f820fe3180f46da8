(** * Model of the encoder when memory runs out: [netcode/encoder.hh], [netcode/detail/encoder.cc],
      [netcode/detail/source_list.hh], the writing half of [netcode/detail/packetizer.hh]

    [Handlers.v] again, with the places where the code may allocate. [mem n] says that the
    allocation number [n] fails (std::bad_alloc, which no function on the way to the user stops).
    Whether a vector has to grow is not modelled: each place where it may grow is an attempt that
    may fail or not. *)
From Coq Require Import NArith List Bool.
From Verif Require Import Outcome GF Containers Packetizer Rate Encoder EncoderRun Handlers.
Import ListNotations.
Open Scope N_scope.

Definition memory : Type := nat -> bool.

(** How a call ends: as in [Handlers.v], or by std::bad_alloc. *)
Inductive mres : Type :=
| MRes (r : hres)
| MNoMemory.

(** [k] attempts to allocate, one after the other. *)
Fixpoint attempts (mem : memory) (k n : nat) : nat * bool :=
  match k with
  | O => (n, true)
  | S k => if mem n then (S n, false) else attempts mem k (S n)
  end.

(** [generate_repair], encoder.hh 162-169. The attempts of detail/encoder.cc 26, 29, 47 and 54: for each
    source the symbol and the identifiers of [m_repair] may grow; [m_repair] is reset at the
    beginning of the next call (164, repair.hh 98-104), the encoder is otherwise as before. Then the
    number and the counters of the repair are increased (331, 332, 167), and
    the symbol is handed out; the attempts of packetizer.hh 276-296 (both buffers of the list of
    identifiers) come after the first four pieces and before the others. A fault of
    the computation is reported even if an allocation would fail before it. *)
Definition mrepair (h : handler) (mem : memory) (m : mode) (e : enc) (tr : list hcall) (n : nat) :
  enc * list hcall * nat * mres :=
  match prepare_repair m e with
  | Ok (e', w) =>
      let '(n, ok) := attempts mem (2 * length (e_sources e)) n in
      if ok
      then
        let '(tr, r) := feed h tr (firstn 4 (packet_calls w)) in
        match r with
        | HDone =>
            let '(n, ok) := attempts mem (2 * length (e_sources e)) n in
            if ok
            then let '(tr, r) := feed h tr (skipn 4 (packet_calls w)) in (e', tr, n, MRes r)
            else (e', tr, n, MNoMemory)
        | _ => (e', tr, n, MRes r)
        end
      else (e, tr, n, MNoMemory)
  | Throw x => (e, tr, n, MRes (HError x))
  | Fault x => (e, tr, n, MRes (HFault x))
  end.

(** encoder.hh 266-276; a source is written without allocation. *)
Definition msend (h : handler) (mem : memory) (m : mode) (e : enc) (s : esource) (tr : list hcall) (n : nat) :
  enc * list hcall * nat * mres :=
  if e_systematic e
  then let '(e, tr, r) := hsend h m e s tr in (e, tr, n, MRes r)
  else mrepair h mem m e tr n.

(** 258-261: the window after [pop_front], before the new source is stored. *)
Definition make_room (e : enc) : list esource :=
  if N.of_nat (length (e_sources e)) =? e_window_size e then tl (e_sources e) else e_sources e.

(** [commit_impl], encoder.hh 253-285. The node of the list is allocated (source_list.hh 28)
    after the oldest source was dropped. *)
Definition mcommit (h : handler) (mem : memory) (m : mode) (e : enc) (d : list N) (tr : list hcall) (n : nat) :
  enc * list hcall * nat * mres :=
  let s := {| es_id := e_source_id e; es_data := d |} in
  match push_source e s with
  | Ok l =>
      let '(n, ok) := attempts mem 1 n in
      if ok
      then
        let '(e, tr, n, r) := msend h mem m (with_sources e l) s tr n in
        match r with
        | MRes HDone =>
            if e_rate e =? 0 then (e, tr, n, MRes (HFault DivisionByZero))
            else
              let '(e, tr, n, r) :=
                if u32 (e_source_id e + 1) mod e_rate e =? 0 then mrepair h mem m e tr n else (e, tr, n, MRes HDone) in
              match r with
              | MRes HDone => (with_source_id e (u32 (e_source_id e + 1)), tr, n, MRes HDone)
              | _ => (e, tr, n, r)
              end
        | _ => (e, tr, n, r)
        end
      else (with_sources e (make_room e), tr, n, MNoMemory)
  | Throw x => (e, tr, n, MRes (HError x))
  | Fault x => (e, tr, n, MRes (HFault x))
  end.

(** [operator()(data&&)], encoder.hh 86-97. *)
Definition mdata (h : handler) (mem : memory) (m : mode) (e : enc) (d : list N) (tr : list hcall) (n : nat) :
  enc * list hcall * nat * mres :=
  match
    (_ <- assert_ m (Nat.ltb 0 (length d)) ;;
     assert_ m (match e_field e with
                | W16 | W32 => aligned (e_field e) (length d)
                | _ => true
                end))
  with
  | Ok _ => mcommit h mem m e d tr n
  | Throw x => (e, tr, n, MRes (HError x))
  | Fault x => (e, tr, n, MRes (HFault x))
  end.

(** [operator()(const packet&)] and [notify_impl], encoder.hh 99-111 and 287-318: the copy of the
    packet, then either the copy in the exception 295, or, after the increment 299, the reading of
    the ack: [k] attempts for the list of identifiers (packetizer.hh 312-352), where [k] depends on the packet and is
    bounded here by its length in bits. Nothing else has changed when one of them fails. *)
Definition mnotify (mem : memory) (m : mode) (e : enc) (p : packet) (n : nat) : enc * nat * mres :=
  let done (e : enc) (n : nat) (r : outcome nat) : enc * nat * mres :=
    (e, n, MRes (match r with Ok _ => HDone | Throw x => HError x | Fault x => HFault x end)) in
  match (_ <- assert_ m (Nat.ltb 0 (length p)) ;; get_packet_type p) with
  | Ok t =>
      let '(n, ok) := attempts mem 1 n in
      if ok
      then
        match t with
        | TAck =>
            let '(n, ok) := attempts mem (256 * length p) n in
            if ok then let '(e, r) := notify m e p in done e n r
            else (with_ack e, n, MNoMemory)
        | _ =>
            let '(n, ok) := attempts mem 1 n in
            if ok then let '(e, r) := notify m e p in done e n r
            else (e, n, MNoMemory)
        end
      else (e, n, MNoMemory)
  | Throw x => (e, n, MRes (HError x))
  | Fault x => (e, n, MRes (HFault x))
  end.

(** A call of the user; the setters do not allocate. *)
Definition mstep (h : handler) (mem : memory) (m : mode) (e : enc) (op : eop) (tr : list hcall) (n : nat) :
  enc * list hcall * nat * mres :=
  match op with
  | EData d => mdata h mem m e d tr n
  | ERepair => mrepair h mem m e tr n
  | EPacket p => let '(e, n, r) := mnotify mem m e p n in (e, tr, n, r)
  | _ => let '(e, tr, r) := hstep h m e op tr in (e, tr, n, MRes r)
  end.

(** A user that catches all exceptions and carries on, as in [Handlers.v]. *)
Fixpoint mrun (h : handler) (mem : memory) (m : mode) (e : enc) (tr : list hcall) (n : nat) (ops : list eop) :
  enc * list (list hcall * mres) :=
  match ops with
  | [] => (e, [])
  | op :: l =>
      let '(e, tr', n, r) := mstep h mem m e op tr n in
      let done := (skipn (length tr) tr', r) in
      match r with
      | MRes (HFault _) => (e, [done])
      | _ => let '(e, rs) := mrun h mem m e tr' n l in (e, done :: rs)
      end
  end.
