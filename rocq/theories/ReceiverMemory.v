(** * Model of the receiver when memory runs out: [netcode/decoder.hh], [netcode/detail/decoder.cc]

    [DecoderHandlers.v] again, with the places where the code may allocate, and with handlers that do
    not throw. As in [SenderMemory.v], [mem n] says that the allocation number [n] fails, and each place
    where a container may grow is an attempt. The number of attempts so far is kept beside
    the members of the outer class. [TThrew] is std::bad_alloc here. Where a call both fails to allocate
    and has undefined behaviour or a failing assertion shortly after it in the same function, the model reports the latter. *)
From Coq Require Import ZArith NArith List Bool.
From Verif Require Import Outcome GF Containers Packetizer Matrix Encoder Handlers DetailDecoder Decoder DecoderHandlers SenderMemory.
Import ListNotations.
Open Scope N_scope.

Section Core.
Variable mem : memory.
Context {T : Type}.
Variable cb : T * nat -> event -> (T * nat) * bool.

(** [k] attempts; the state [d] is left behind if one fails. *)
Definition spend (k : nat) (t : T * nat) (d : ddec) (next : T * nat -> tres (T * nat)) : tres (T * nat) :=
  let '(n, ok) := attempts mem k (snd t) in
  if ok then next (fst t, n) else TThrew (fst t, n) d.

(** [create_source_from_repair], decoder.cc 156-178: the packet of line 170 in a noexcept function. *)
Definition spend_noexcept (k : nat) (t : T * nat) (next : T * nat -> tres (T * nat)) : tres (T * nat) :=
  let '(n, ok) := attempts mem k (snd t) in
  if ok then next (fst t, n) else TTerminate.

(** decoder.cc 281-325. *)
Fixpoint xscan (rec : T * nat -> ddec -> N -> list N -> tres (T * nat)) (m : mode) (keys : list N)
  (t : T * nat) (d : ddec) : tres (T * nat) :=
  match keys with
  | [] => TOk t d
  | k :: keys' =>
      match mfind k (d_missing d) with
      | Some [r] =>
          match mfind r (d_repairs d) with
          | None => TFault DeadIterator
          | Some rep =>
              if Nat.eqb (length (dr_ids rep)) 1 then
                tlift (assert_ m (not_outdated d (hd 0 (dr_ids rep)))) (fun _ =>
                tlift (assert_ m (negb (mmem (hd 0 (dr_ids rep)) (d_sources d)))) (fun _ =>
                tlift (create_source m (d_field d) rep) (fun '(id, data) =>
                spend_noexcept 1 t (fun t =>
                let d := count_decoded d 1 in
                let d := with_repairs d (merase r (d_repairs d)) in
                let d := with_missing d (merase k (d_missing d)) in
                let next := find (fun k' => mmem k' (d_missing d)) keys' in
                tbind (rec t d id data) (fun t d =>
                match next with
                | None => TOk t d
                | Some k' => if mmem k' (d_missing d) then xscan rec m keys' t d
                             else TFault DeadIterator
                end)))))
              else xscan rec m keys' t d
          end
      | _ => xscan rec m keys' t d
      end
  end.

(** decoder.cc 327-336: the nodes of m_sources and of m_ordered_sources. *)
Definition xstore (m : mode) (t : T * nat) (d : ddec) (id : N) (data : list N) : tres (T * nat) :=
  tlift (assert_ m (negb (mmem id (d_sources d)))) (fun _ =>
  spend 1 t d (fun t =>
  let d := with_sources d (mput id data (d_sources d)) in
  if d_in_order d && (d_first d <? id)
  then spend 1 t d (fun t => TOk t (with_ordered d (sinsert id (d_ordered d))))
  else TOk t d)).

(** [add_source_recursive], decoder.cc 249-337. *)
Fixpoint xadd_source (fuel : nat) (m : mode) (t : T * nat) (d : ddec) (id : N) (data : list N) : tres (T * nat) :=
  match fuel with
  | O => TFault OutOfFuel
  | S fuel =>
      tbind (tannounce cb m t d id data) (fun t d =>
      tlift (no_longer_missing m d id data) (fun d =>
      tbind (xscan (xadd_source fuel m) m (mkeys (d_missing d)) t d) (fun t d =>
      xstore m t d id data)))
  end.

(** decoder.cc 537-558: the nodes of m_sources and of m_ordered_sources. *)
Definition xadd_decoded (m : mode) (t : T * nat) (d : ddec) (id : N) (data : list N) : tres (T * nat) :=
  tlift (assert_ m (negb (mmem id (d_sources d)))) (fun _ =>
  spend 1 t d (fun t =>
  let data := match mfind id (d_sources d) with None => data | Some old => old end in
  let d := with_sources d (mput id data (d_sources d)) in
  if negb (d_in_order d) then tcallback cb t d id data
  else if id =? d_first d then
    tbind (tcallback cb t d id data) (fun t d => tflush cb m t (with_first d (u32 (d_first d + 1))))
  else spend 1 t d (fun t => TOk t (with_ordered d (sinsert id (d_ordered d)))))).

(** decoder.cc 480-559: the packet of line 503. *)
Fixpoint xdecode_all (m : mode) (n : nat) (inv : list N) (reps : list drepair) (col : nat)
  (missing : list N) (t : T * nat) (d : ddec) : tres (T * nat) :=
  match missing with
  | [] => TOk t d
  | id :: missing' =>
      let l := combine (column n inv col) reps in
      let src_sz := decode_size (d_field d) l in
      tlift (decode_symbol m (d_field d) src_sz l) (fun data =>
      spend 1 t d (fun t =>
      tbind (xadd_decoded m t d id data) (fun t d =>
      xdecode_all m n inv reps (S col) missing' t d)))
  end.

(** decoder.cc 460-463: operator[] allocates for a source that is not in m_missing_sources. *)
Fixpoint xunlink (r : N) (ids : list N) (t : T * nat) (d : ddec) (next : T * nat -> ddec -> tres (T * nat)) : tres (T * nat) :=
  match ids with
  | [] => next t d
  | id :: ids' =>
      match mfind id (d_missing d) with
      | None => spend 1 t d (fun t => xunlink r ids' t (with_missing d (mset id [] (d_missing d))) next)
      | Some links => xunlink r ids' t (with_missing d (mset id (serase r links) (d_missing d))) next
      end
  end.

(** [attempt_full_decoding], decoder.cc 412-566: the matrices 430 and 446, the index 474. *)
Definition xattempt (m : mode) (t : T * nat) (d : ddec) : tres (T * nat) :=
  let nr := length (d_repairs d) in
  let nm := length (d_missing d) in
  if Nat.eqb nr 0 || Nat.eqb nm 0 then TOk t d
  else if Nat.ltb nr nm then TOk t d
  else
    tlift (assert_ m (Nat.eqb nm nr)) (fun _ =>
    tlift (assert_ m (Nat.ltb 1 nm)) (fun _ =>
    if negb (Nat.eqb nm nr) then TFault Uninitialised
    else
      let coeffs := coefficients (d_field d) (d_repairs d) (mkeys (d_missing d)) in
      tlift (invert (d_field d) nr coeffs (repeat 0 (nr * nr))) (fun r =>
      spend 2 t d (fun t =>
      match r with
      | inl k =>
          match nth_error (d_repairs d) k with
          | None => TFault DeadIterator
          | Some (r, rep) =>
              xunlink r (dr_ids rep) t (with_failed d (d_failed d + 1)) (fun t d =>
              TOk t (with_repairs d (merase r (d_repairs d))))
          end
      | inr (_, inv) =>
          spend 1 t d (fun t =>
          tbind (xdecode_all m nr inv (map snd (d_repairs d)) 0 (mkeys (d_missing d)) t d) (fun t d' =>
          let d' := count_decoded d' (N.of_nat nm) in
          TOk t (with_missing (with_repairs d' []) [])))
      end)))).

(** [operator()(decoder_source&&)], decoder.cc 33-50. *)
Definition xrecv_source (m : mode) (t : T * nat) (d : ddec) (id : N) (data : list N) : tres (T * nat) :=
  if outdated d id then TOk t d
  else if mmem id (d_sources d) then TOk t d
  else
    tbind (xadd_source (enough d) m t d id data) (fun t d => xattempt m t d).

(** decoder.cc 102-130. A missing source takes a set of one repair and a node (122), a further repair may
    make the set grow (127). The repair is in m_repairs since line 93, with the identifiers it has now. *)
Fixpoint xlink (m : mode) (ids : list N) (t : T * nat) (d : ddec) (r : drepair)
  (next : T * nat -> ddec -> drepair -> tres (T * nat)) : tres (T * nat) :=
  match ids with
  | [] => next t d r
  | id :: ids' =>
      match mfind id (d_sources d) with
      | Some data =>
          tlift (remove_data m (d_field d) id data r) (fun r =>
          xlink m ids' t d (with_ids r (serase id (dr_ids r))) next)
      | None =>
          let '(links, k) := match mfind id (d_missing d) with None => ([], 2%nat) | Some l => (l, 1%nat) end in
          spend k t (with_repairs d (mset (dr_id r) r (d_repairs d))) (fun t =>
          xlink m ids' t (with_missing d (mset id (sinsert (dr_id r) links) (d_missing d))) r next)
      end
  end.

(** [operator()(decoder_repair&&)], decoder.cc 54-152; the node of m_repairs in line 93. *)
Definition xrecv_repair (m : mode) (t : T * nat) (d : ddec) (r : drepair) : tres (T * nat) :=
  tlift (assert_ m (negb (Nat.eqb (length (dr_ids r)) 0))) (fun _ =>
  match dr_ids r with
  | [] => TFault EmptyFront
  | first :: _ =>
      if outdated d (last (dr_ids r) 0) then TOk t d
      else if mmem (dr_id r) (d_repairs d) then TOk t d
      else
        tbind (tdrop_outdated cb m t d first) (fun t d =>
        if forallb (fun id => mmem id (d_sources d)) (dr_ids r)
        then TOk t (with_useless d (d_useless d + 1))
        else
          tlift (assert_ m (negb (mmem (dr_id r) (d_repairs d)))) (fun _ =>
          spend 1 t d (fun t =>
          xlink m (rev (dr_ids r)) t d r (fun t d r =>
          let d := with_repairs d (mset (dr_id r) r (d_repairs d)) in
          tlift (assert_ m (negb (Nat.eqb (length (dr_ids r)) 0))) (fun _ =>
          if Nat.eqb (length (dr_ids r)) 1 then
            tlift (create_source m (d_field d) r) (fun '(id, data) =>
            spend_noexcept 1 t (fun t =>
            let d := count_decoded d 1 in
            let d := with_missing d (merase id (d_missing d)) in
            let d := with_repairs d (merase (dr_id r) (d_repairs d)) in
            xadd_source (enough d) m t d id data))
          else xattempt m t d)))))
  end).

End Core.

(** ** The outer class *)

Section Outer.
Variable mem : memory.

(** decoder.hh 217-220: the set of identifiers of m_ack may grow with each of them. *)
Fixpoint xfill (known : list N) (d : dec) (n : nat) : dec * nat * bool :=
  match known with
  | [] => (d, n, true)
  | x :: l => if mem n then (d, S n, false) else xfill l (fill_ack [x] d) (S n)
  end.

(** [generate_ack], decoder.hh 212-228. The buffers for the list of identifiers are filled after the first
    two pieces of the ack (packetizer.hh 46-61 and 264-309). *)
Definition xgenerate_ack (known : list N) (o : outer) (n : nat) : outer * nat * bool :=
  let '(d, tr) := o in
  let '(d, n, ok) := xfill known d n in
  if ok then
    let calls := map UPacket (packet_calls (write_ack (dc_ack d))) in
    let '(n, ok) := attempts mem (2 * length (a_ids (dc_ack d))) n in
    if ok then ((fresh_ack d, tr ++ calls), n, false)
    else ((d, tr ++ firstn 2 calls), n, true)
  else ((d, tr), n, true).

(** [maybe_ack], decoder.hh 230-248. *)
Definition xmaybe_ack (clk : clock) (known : list N) (o : outer) (n : nat) : outer * nat * bool :=
  let d := fst o in
  if dc_ack_nb d <=? a_nb (dc_ack d) then
    let '(o, n, bad) := xgenerate_ack known o n in
    if bad then (o, n, true) else ((read_clock clk true (fst o), snd o), n, false)
  else if (dc_period d =? 0)%Z then (o, n, false)
  else if (dc_period d * 1000000 <=? clk (dc_reads d) - dc_last_date d)%Z then
    let '(o', n, bad) := xgenerate_ack known o n in
    if bad then ((read_clock clk false (fst o'), snd o'), n, true)
    else ((read_clock clk true (fst o'), snd o'), n, false)
  else ((read_clock clk false d, snd o), n, false).

(** [handle_source], decoder.hh 291-300. *)
Definition xhandle_source (clk : clock) (x : outer * nat) (v : event) : (outer * nat) * bool :=
  let '((d, tr), n) := x in
  let '(o, n, bad) := xmaybe_ack clk (v_known v) (d, tr ++ [UData (v_data v)]) n in
  ((o, n), bad).

(** How a call of the receiver ends. *)
Inductive xres : Type :=
| XRes (r : ures)
| XNoMemory.

Definition xfinish (o : outer) (n : nat) (x : tres (outer * nat)) : outer * nat * xres :=
  match x with
  | TOk ((d, tr), n) c => ((with_core d c, tr), n, XRes UDone)
  | TThrew ((d, tr), n) c => ((with_core d c, tr), n, XNoMemory)
  | TError x => (o, n, XRes (UError x))
  | TTerminate => (o, n, XRes UTerminate)
  | TFault x => (o, n, XRes (UFault x))
  end.

(** [operator()(const packet&)] and [operator()(packet&&)], decoder.hh 80-122: the copy of the packet (84), the one in
    the exception (119), the list of identifiers of a repair (packetizer.hh 312-352, where one attempt stands for all, as
    the same is left whichever fails). *)
Definition xpacket (m : mode) (clk : clock) (o : outer) (n : nat) (p : packet) : outer * nat * xres :=
  let '(d, tr) := o in
  match bind (assert_ m (Nat.ltb 0 (length p))) (fun _ => get_packet_type p) with
  | Ok t =>
      let '(n, ok) := attempts mem 1 n in
      if ok then
        match t with
        | TRepair =>
            let d := count_packet d 1 0 in
            let '(n, ok) := attempts mem 1 n in
            if ok then
              match read_repair m p with
              | Ok (r, _) => xfinish (d, tr) n (xrecv_repair mem (xhandle_source clk) m ((d, tr), n) (dc_core d) r)
              | Throw x => ((d, tr), n, XRes (UError x))
              | Fault x => ((d, tr), n, XRes (UFault x))
              end
            else ((d, tr), n, XNoMemory)
        | TSource =>
            let d := count_packet d 0 1 in
            match read_source m p with
            | Ok (s, _) => xfinish (d, tr) n (xrecv_source mem (xhandle_source clk) m ((d, tr), n) (dc_core d) (ds_id s) (ds_data s))
            | Throw x => ((d, tr), n, XRes (UError x))
            | Fault x => ((d, tr), n, XRes (UFault x))
            end
        | TAck =>
            let '(n, ok) := attempts mem 1 n in
            ((d, tr), n, if ok then XRes (UError PacketTypeError) else XNoMemory)
        end
      else ((d, tr), n, XNoMemory)
  | Throw x => ((d, tr), n, XRes (UError x))
  | Fault x => ((d, tr), n, XRes (UFault x))
  end.

(** A call of the user; the setters do not allocate. *)
Definition xstep (m : mode) (clk : clock) (o : outer) (n : nat) (op : dop) : outer * nat * xres :=
  let known := mkeys (d_sources (dc_core (fst o))) in
  match op with
  | DPacket p => xpacket m clk o n p
  | DAck => let '(o, n, bad) := xgenerate_ack known o n in (o, n, if bad then XNoMemory else XRes UDone)
  | DMaybe => let '(o, n, bad) := xmaybe_ack clk known o n in (o, n, if bad then XNoMemory else XRes UDone)
  | _ => let '(o, r) := ustep (fun _ _ => false) m clk o op in (o, n, XRes r)
  end.

(** A user that catches all exceptions and carries on. *)
Fixpoint xrun (m : mode) (clk : clock) (o : outer) (n : nat) (ops : list dop) :
  outer * list (list ucall * xres) :=
  match ops with
  | [] => (o, [])
  | op :: l =>
      let '(o', n, r) := xstep m clk o n op in
      let done := (skipn (length (snd o)) (snd o'), r) in
      match r with
      | XRes (UFault _) | XRes UTerminate => (o', [done])
      | _ => let '(o', rs) := xrun m clk o' n l in (o', done :: rs)
      end
  end.

End Outer.
