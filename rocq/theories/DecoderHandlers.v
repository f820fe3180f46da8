(** * Model of the receiver with its handlers: [netcode/decoder.hh] and
      [netcode/detail/decoder.cc], when handlers may throw

    [DetailDecoder.v] collects the calls of the callback in a log. Here the callback
    runs during the call, where the code has it, and it may throw: then the state
    is the one at the moment of the exception. The callback works on the members
    of the outer class, of type [T]. [drop_outdated] is noexcept (decoder.cc
    343): an exception that leaves it ends the program. *)
From Coq Require Import ZArith NArith List Bool.
From Verif Require Import Outcome GF Containers Packetizer Matrix Encoder Handlers DetailDecoder Decoder.
Import ListNotations.
Open Scope N_scope.

(** How a call of the decoding algorithm ends. *)
Inductive tres (T : Type) : Type :=
| TOk (t : T) (d : ddec)
| TThrew (t : T) (d : ddec)
| TError (x : exn)
| TTerminate
| TFault (x : fault).
Arguments TOk {T}. Arguments TThrew {T}. Arguments TError {T}. Arguments TTerminate {T}. Arguments TFault {T}.

Definition tbind {T} (x : tres T) (k : T -> ddec -> tres T) : tres T :=
  match x with
  | TOk t d => k t d
  | TThrew t d => TThrew t d
  | TError x => TError x
  | TTerminate => TTerminate
  | TFault x => TFault x
  end.

(** A step without callback. *)
Definition tlift {T A} (x : outcome A) (k : A -> tres T) : tres T :=
  match x with
  | Ok a => k a
  | Throw x => TError x
  | Fault x => TFault x
  end.

(** A noexcept function. *)
Definition tnoexcept {T} (x : tres T) : tres T :=
  match x with
  | TThrew _ _ | TError _ => TTerminate
  | x => x
  end.

Section Callback.
Context {T : Type}.

(** [m_callback]; the boolean is true for an exception. *)
Variable cb : T -> event -> T * bool.

(** decoder.cc 254, 258: the call. [d_log] has the calls that returned. *)
Definition tcallback (t : T) (d : ddec) (id : N) (data : list N) : tres T :=
  let '(t, thrown) := cb t {| v_id := id; v_data := data; v_known := mkeys (d_sources d) |} in
  if thrown then TThrew t d else TOk t (callback d id data).

(** decoder.cc 375, 580: the callback on an ordered source. *)
Definition tcallback_ordered (t : T) (d : ddec) (id : N) : tres T :=
  match mfind id (d_sources d) with
  | None => TFault DeadIterator
  | Some data => tcallback t d id data
  end.

(** decoder.cc 577-589. *)
Fixpoint tflush_loop (m : mode) (l : list N) (t : T) (d : ddec) : tres T :=
  match l with
  | [] => TOk t d
  | id :: l' =>
      tlift (assert_ m (id =? d_first d)) (fun _ =>
      tbind (tcallback_ordered t d id) (fun t d =>
      let d := with_ordered d (serase id (d_ordered d)) in
      let d := with_first d (u32 (d_first d + 1)) in
      match l' with
      | [] => TOk t d
      | id' :: _ => if d_first d <? id' then TOk t d else tflush_loop m l' t d
      end))
  end.

(** [flush_ordered_sources], decoder.cc 570-591. *)
Definition tflush (m : mode) (t : T) (d : ddec) : tres T :=
  if smem (d_first d) (d_ordered d)
  then tflush_loop m (from (d_first d) (d_ordered d)) t d
  else TOk t d.

(** decoder.cc 252-263. *)
Definition tannounce (m : mode) (t : T) (d : ddec) (id : N) (data : list N) : tres T :=
  if negb (d_in_order d) then tcallback t d id data
  else if id =? d_first d then
    tbind (tcallback t d id data) (fun t d => tflush m t (with_first d (u32 (d_first d + 1))))
  else TOk t d.

(** decoder.cc 281-323. The repair and the missing source are erased before the
    recursive call (305-311). *)
Fixpoint tscan (rec : T -> ddec -> N -> list N -> tres T) (m : mode) (keys : list N)
  (t : T) (d : ddec) : tres T :=
  match keys with
  | [] => TOk t d
  | k :: keys' =>
      match mfind k (d_missing d) with
      | Some [r] =>
          match mfind r (d_repairs d) with
          | None => TFault DeadIterator
          | Some rep =>
              if Nat.eqb (length (dr_ids rep)) 1 then
                tlift (assert_ m (not_outdated d (hd 0 (dr_ids rep)))) (fun _ =>
                tlift (assert_ m (negb (mmem (hd 0 (dr_ids rep)) (d_sources d)))) (fun _ =>
                tlift (create_source m (d_field d) rep) (fun '(id, data) =>
                let d := count_decoded d 1 in
                let d := with_repairs d (merase r (d_repairs d)) in
                let d := with_missing d (merase k (d_missing d)) in
                let next := find (fun k' => mmem k' (d_missing d)) keys' in
                tbind (rec t d id data) (fun t d =>
                match next with
                | None => TOk t d
                | Some k' => if mmem k' (d_missing d) then tscan rec m keys' t d
                             else TFault DeadIterator
                end))))
              else tscan rec m keys' t d
          end
      | _ => tscan rec m keys' t d
      end
  end.

(** [add_source_recursive], decoder.cc 249-337. *)
Fixpoint tadd_source (fuel : nat) (m : mode) (t : T) (d : ddec) (id : N) (data : list N) : tres T :=
  match fuel with
  | O => TFault OutOfFuel
  | S fuel =>
      tbind (tannounce m t d id data) (fun t d =>
      tlift (no_longer_missing m d id data) (fun d =>
      tbind (tscan (tadd_source fuel m) m (mkeys (d_missing d)) t d) (fun t d =>
      tlift (store m d id data) (fun d => TOk t d))))
  end.

(** decoder.cc 373-377. *)
Fixpoint tdeliver_outdated (l : list N) (t : T) (d : ddec) : tres T :=
  match l with
  | [] => TOk t d
  | id :: l' =>
      tbind (tcallback_ordered t d id) (fun t d =>
      tdeliver_outdated l' t (with_ordered d (serase id (d_ordered d))))
  end.

(** [drop_outdated], decoder.cc 341-389, noexcept in line 343. *)
Definition tdrop_outdated (m : mode) (t : T) (d : ddec) (id : N) : tres T :=
  tnoexcept
    (let d := with_last d (Some id) in
     tlift (drop_repairs m id (d_repairs d) d) (fun d =>
     tbind (if d_in_order d then
              tbind (tdeliver_outdated (before id (d_ordered d)) t d) (fun t d =>
              tflush m t (if d_first d <? id then with_first d id else d))
            else TOk t d) (fun t d =>
     let d := with_sources d (mfrom id (d_sources d)) in
     TOk t (with_missing d (mfrom id (d_missing d)))))).

(** decoder.cc 541-562: here the source is stored before the callback. *)
Definition tadd_decoded (m : mode) (t : T) (d : ddec) (id : N) (data : list N) : tres T :=
  tlift (assert_ m (negb (mmem id (d_sources d)))) (fun _ =>
  let data := match mfind id (d_sources d) with None => data | Some old => old end in
  let d := with_sources d (mput id data (d_sources d)) in
  if negb (d_in_order d) then tcallback t d id data
  else if id =? d_first d then
    tbind (tcallback t d id data) (fun t d => tflush m t (with_first d (u32 (d_first d + 1))))
  else TOk t (with_ordered d (sinsert id (d_ordered d)))).

(** decoder.cc 484-556. *)
Fixpoint tdecode_all (m : mode) (n : nat) (inv : list N) (reps : list drepair) (col : nat)
  (missing : list N) (t : T) (d : ddec) : tres T :=
  match missing with
  | [] => TOk t d
  | id :: missing' =>
      let l := combine (column n inv col) reps in
      let src_sz := decode_size (d_field d) l in
      tlift (decode_symbol m (d_field d) src_sz l) (fun data =>
      tbind (tadd_decoded m t d id data) (fun t d =>
      tdecode_all m n inv reps (S col) missing' t d))
  end.

(** [attempt_full_decoding], decoder.cc 412-566. The repairs and the missing sources
    are only cleared at the end (563-565). *)
Definition tattempt (m : mode) (t : T) (d : ddec) : tres T :=
  let nr := length (d_repairs d) in
  let nm := length (d_missing d) in
  if Nat.eqb nr 0 || Nat.eqb nm 0 then TOk t d
  else if Nat.ltb nr nm then TOk t d
  else
    tlift (assert_ m (Nat.eqb nm nr)) (fun _ =>
    tlift (assert_ m (Nat.ltb 1 nm)) (fun _ =>
    if negb (Nat.eqb nm nr) then TFault Uninitialised
    else
      let coeffs := coefficients (d_field d) (d_repairs d) (mkeys (d_missing d)) in
      tlift (invert (d_field d) nr coeffs (repeat 0 (nr * nr))) (fun r =>
      match r with
      | inl k => tlift (failed_decoding d k) (fun d => TOk t d)
      | inr (_, inv) =>
          tbind (tdecode_all m nr inv (map snd (d_repairs d)) 0 (mkeys (d_missing d)) t d) (fun t d' =>
          let d' := count_decoded d' (N.of_nat nm) in
          TOk t (with_missing (with_repairs d' []) []))
      end))).

(** [operator()(decoder_source&&)], decoder.cc 34-50. *)
Definition trecv_source (m : mode) (t : T) (d : ddec) (id : N) (data : list N) : tres T :=
  if outdated d id then TOk t d
  else if mmem id (d_sources d) then TOk t d
  else
    tbind (tadd_source (enough d) m t d id data) (fun t d => tattempt m t d).

(** [operator()(decoder_repair&&)], decoder.cc 54-152. *)
Definition trecv_repair (m : mode) (t : T) (d : ddec) (r : drepair) : tres T :=
  tlift (assert_ m (negb (Nat.eqb (length (dr_ids r)) 0))) (fun _ =>
  match dr_ids r with
  | [] => TFault EmptyFront
  | first :: _ =>
      if outdated d (last (dr_ids r) 0) then TOk t d
      else if mmem (dr_id r) (d_repairs d) then TOk t d
      else
        tbind (tdrop_outdated m t d first) (fun t d =>
        if forallb (fun id => mmem id (d_sources d)) (dr_ids r)
        then TOk t (with_useless d (d_useless d + 1))
        else
          tlift (assert_ m (negb (mmem (dr_id r) (d_repairs d)))) (fun _ =>
          tlift (link_repair m (rev (dr_ids r)) d r) (fun '(d, r) =>
          let d := with_repairs d (mset (dr_id r) r (d_repairs d)) in
          tlift (assert_ m (negb (Nat.eqb (length (dr_ids r)) 0))) (fun _ =>
          if Nat.eqb (length (dr_ids r)) 1 then
            tlift (create_source m (d_field d) r) (fun '(id, data) =>
            let d := count_decoded d 1 in
            let d := with_missing d (merase id (d_missing d)) in
            let d := with_repairs d (merase (dr_id r) (d_repairs d)) in
            tadd_source (enough d) m t d id data)
          else tattempt m t d))))
  end).

End Callback.

(** ** The outer class *)

(** The calls of the user's two handlers: a datum for the data handler, a piece or
    the end of an ack for the packet handler. *)
Inductive ucall : Type :=
| UData (data : list N)
| UPacket (c : hcall).

(** The handlers throw or not, depending on all calls that returned before. *)
Definition uhandler : Type := list ucall -> ucall -> bool.

(** Calls of the packet handler; true for an exception. *)
Fixpoint ufeed (u : uhandler) (tr : list ucall) (calls : list hcall) : list ucall * bool :=
  match calls with
  | [] => (tr, false)
  | c :: l => if u tr (UPacket c) then (tr, true) else ufeed u (tr ++ [UPacket c]) l
  end.

(** The members of the outer class and the calls of the handlers that returned.
    The member m_decoder is not used during a callback. *)
Definition outer : Type := dec * list ucall.

(** The identifiers are added to m_ack, decoder.hh 215-219. *)
Definition fill_ack (known : list N) (d : dec) : dec := {|
  dc_period := dc_period d;
  dc_ack_nb := dc_ack_nb d;
  dc_last_date := dc_last_date d;
  dc_ack := {| a_ids := fold_left (fun s x => sinsert x s) known (a_ids (dc_ack d));
               a_nb := a_nb (dc_ack d) |};
  dc_core := dc_core d;
  dc_nb_repairs := dc_nb_repairs d;
  dc_nb_sources := dc_nb_sources d;
  dc_nb_acks := dc_nb_acks d;
  dc_reads := dc_reads d |}.

(** decoder.hh 223-227. *)
Definition fresh_ack (d : dec) : dec := {|
  dc_period := dc_period d;
  dc_ack_nb := dc_ack_nb d;
  dc_last_date := dc_last_date d;
  dc_ack := {| a_ids := []; a_nb := 0 |};
  dc_core := dc_core d;
  dc_nb_repairs := dc_nb_repairs d;
  dc_nb_sources := dc_nb_sources d;
  dc_nb_acks := u64 (dc_nb_acks d + 1);
  dc_reads := dc_reads d |}.

(** [generate_ack], decoder.hh 212-228: an exception of the packet handler leaves
    the identifiers in m_ack. *)
Definition ugenerate_ack (u : uhandler) (known : list N) (o : outer) : outer * bool :=
  let '(d, tr) := o in
  let d := fill_ack known d in
  let '(tr, thrown) := ufeed u tr (packet_calls (write_ack (dc_ack d))) in
  if thrown then ((d, tr), true) else ((fresh_ack d, tr), false).

(** [maybe_ack], decoder.hh 230-248. The clock is read before the ack of line 244
    and after the one of line 235. *)
Definition umaybe_ack (u : uhandler) (clk : clock) (known : list N) (o : outer) : outer * bool :=
  let d := fst o in
  if dc_ack_nb d <=? a_nb (dc_ack d) then
    let '(o, thrown) := ugenerate_ack u known o in
    if thrown then (o, true) else ((read_clock clk true (fst o), snd o), false)
  else if (dc_period d =? 0)%Z then (o, false)
  else if (dc_period d * 1000000 <=? clk (dc_reads d) - dc_last_date d)%Z then
    let '(o', thrown) := ugenerate_ack u known o in
    if thrown then ((read_clock clk false (fst o'), snd o'), true)
    else ((read_clock clk true (fst o'), snd o'), false)
  else ((read_clock clk false d, snd o), false).

(** [handle_source], decoder.hh 291-300. *)
Definition uhandle_source (u : uhandler) (clk : clock) (o : outer) (v : event) : outer * bool :=
  let '(d, tr) := o in
  if u tr (UData (v_data v)) then ((d, tr), true)
  else umaybe_ack u clk (v_known v) (d, tr ++ [UData (v_data v)]).

(** How a call of the receiver ends. *)
Inductive ures : Type :=
| UDone
| UThrew               (* an exception of a handler *)
| UError (x : exn)     (* an exception of the library *)
| UTerminate           (* std::terminate *)
| UFault (x : fault).

(** The end of a call of m_decoder. *)
Definition ufinish (o : outer) (x : tres outer) : outer * ures :=
  match x with
  | TOk (d, tr) c => ((with_core d c, tr), UDone)
  | TThrew (d, tr) c => ((with_core d c, tr), UThrew)
  | TError x => (o, UError x)
  | TTerminate => (o, UTerminate)
  | TFault x => (o, UFault x)
  end.

(** [operator()(packet&&)], decoder.hh 87-122. *)
Definition upacket (u : uhandler) (m : mode) (clk : clock) (o : outer) (p : packet) : outer * ures :=
  let '(d, tr) := o in
  match bind (assert_ m (Nat.ltb 0 (length p))) (fun _ => get_packet_type p) with
  | Ok TRepair =>
      let d := count_packet d 1 0 in
      match read_repair m p with
      | Ok (r, _) => ufinish (d, tr) (trecv_repair (uhandle_source u clk) m (d, tr) (dc_core d) r)
      | Throw x => ((d, tr), UError x)
      | Fault x => ((d, tr), UFault x)
      end
  | Ok TSource =>
      let d := count_packet d 0 1 in
      match read_source m p with
      | Ok (s, _) => ufinish (d, tr) (trecv_source (uhandle_source u clk) m (d, tr) (dc_core d) (ds_id s) (ds_data s))
      | Throw x => ((d, tr), UError x)
      | Fault x => ((d, tr), UFault x)
      end
  | Ok TAck => ((d, tr), UError PacketTypeError)
  | Throw x => ((d, tr), UError x)
  | Fault x => ((d, tr), UFault x)
  end.

(** A call of the user. *)
Definition ustep (u : uhandler) (m : mode) (clk : clock) (o : outer) (op : dop) : outer * ures :=
  let known := mkeys (d_sources (dc_core (fst o))) in
  match op with
  | DPacket p => upacket u m clk o p
  | DAck => let '(o, thrown) := ugenerate_ack u known o in (o, if thrown then UThrew else UDone)
  | DMaybe => let '(o, thrown) := umaybe_ack u clk known o in (o, if thrown then UThrew else UDone)
  | DSetPeriod t => ((set_ack_period (fst o) t, snd o), UDone)
  | DSetNb n =>
      match set_ack_nb_packets m (fst o) n with
      | Ok d => ((d, snd o), UDone)
      | Throw x => (o, UError x)
      | Fault x => (o, UFault x)
      end
  end.

(** A user that catches all exceptions and carries on. The result has, for each
    call, the calls of the handlers that returned and the end; a fault or
    std::terminate ends the run. *)
Fixpoint urun (u : uhandler) (m : mode) (clk : clock) (o : outer) (ops : list dop) :
  outer * list (list ucall * ures) :=
  match ops with
  | [] => (o, [])
  | op :: l =>
      let '(o', r) := ustep u m clk o op in
      let done := (skipn (length (snd o)) (snd o'), r) in
      match r with
      | UFault _ | UTerminate => (o', [done])
      | _ => let '(o', rs) := urun u m clk o' l in (o', done :: rs)
      end
  end.
