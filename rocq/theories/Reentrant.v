(** * Model of the receiver when its data handler calls the receiver: netcode/decoder.hh
      and netcode/detail/decoder.cc

    In [Decoder.v] the data handler only looks at its data. Here it may call the
    receiver: acks, settings, or another packet. The callback gets the decoding
    state of that moment and returns the one after the calls it made. Handlers do
    not throw ([DecoderHandlers.v] is about that), and catch the exceptions of the
    calls they make.

    Simplified: where the code holds iterators or references over the callback
    (decoder.cc 281-323, 373-377, 484-556, 577-589), a handler that gives the
    receiver a packet is the fault [DeadIterator], although some of these packets
    would do no harm. The callback of lines 254 and 258 for the packet itself
    holds none. *)
From Coq Require Import ZArith NArith List Bool.
From Verif Require Import Outcome GF Containers Packetizer Matrix Encoder DetailDecoder Decoder.
Import ListNotations.
Open Scope N_scope.
Open Scope outcome_scope.

Section Callback.
Context {T : Type}.

(** [m_callback] on the members of the outer class, of type [T]. The boolean tells
    if a packet was given to the receiver. *)
Variable cb : T -> ddec -> event -> outcome (T * ddec * bool).

(** decoder.cc 254, 258. The log has the call before the calls made by it. *)
Definition re_callback (t : T) (d : ddec) (id : N) (data : list N) : outcome (T * ddec) :=
  '(t, d, _) <- cb t (callback d id data)
                  {| v_id := id; v_data := data; v_known := mkeys (d_sources d) |} ;;
  Ok (t, d).

(** The same where iterators are held. *)
Definition re_callback_held (t : T) (d : ddec) (id : N) (data : list N) : outcome (T * ddec) :=
  '(t, d, fed) <- cb t (callback d id data)
                    {| v_id := id; v_data := data; v_known := mkeys (d_sources d) |} ;;
  if fed : bool then Fault DeadIterator else Ok (t, d).

(** decoder.cc 375, 580. *)
Definition re_callback_ordered (t : T) (d : ddec) (id : N) : outcome (T * ddec) :=
  match mfind id (d_sources d) with
  | None => Fault DeadIterator
  | Some data => re_callback_held t d id data
  end.

(** decoder.cc 577-589. *)
Fixpoint re_flush_loop (m : mode) (l : list N) (t : T) (d : ddec) : outcome (T * ddec) :=
  match l with
  | [] => Ok (t, d)
  | id :: l' =>
      _ <- assert_ m (id =? d_first d) ;;
      '(t, d) <- re_callback_ordered t d id ;;
      let d := with_ordered d (serase id (d_ordered d)) in
      let d := with_first d (u32 (d_first d + 1)) in
      match l' with
      | [] => Ok (t, d)
      | id' :: _ => if d_first d <? id' then Ok (t, d) else re_flush_loop m l' t d
      end
  end.

(** [flush_ordered_sources], decoder.cc 570-591. *)
Definition re_flush (m : mode) (t : T) (d : ddec) : outcome (T * ddec) :=
  if smem (d_first d) (d_ordered d)
  then re_flush_loop m (from (d_first d) (d_ordered d)) t d
  else Ok (t, d).

(** decoder.cc 252-263, with one or the other callback. *)
Definition re_announce (call : T -> ddec -> N -> list N -> outcome (T * ddec)) (m : mode)
  (t : T) (d : ddec) (id : N) (data : list N) : outcome (T * ddec) :=
  if negb (d_in_order d) then call t d id data
  else if id =? d_first d then
    '(t, d) <- call t d id data ;;
    re_flush m t (with_first d (u32 (d_first d + 1)))
  else Ok (t, d).

(** decoder.cc 281-323. *)
Fixpoint re_scan (rec : T -> ddec -> N -> list N -> outcome (T * ddec)) (m : mode) (keys : list N)
  (t : T) (d : ddec) : outcome (T * ddec) :=
  match keys with
  | [] => Ok (t, d)
  | k :: keys' =>
      match mfind k (d_missing d) with
      | Some [r] =>
          match mfind r (d_repairs d) with
          | None => Fault DeadIterator
          | Some rep =>
              if Nat.eqb (length (dr_ids rep)) 1 then
                _ <- assert_ m (not_outdated d (hd 0 (dr_ids rep))) ;;
                _ <- assert_ m (negb (mmem (hd 0 (dr_ids rep)) (d_sources d))) ;;
                '(id, data) <- create_source m (d_field d) rep ;;
                let d := count_decoded d 1 in
                let d := with_repairs d (merase r (d_repairs d)) in
                let d := with_missing d (merase k (d_missing d)) in
                let next := find (fun k' => mmem k' (d_missing d)) keys' in
                '(t, d) <- rec t d id data ;;
                match next with
                | None => Ok (t, d)
                | Some k' => if mmem k' (d_missing d) then re_scan rec m keys' t d
                             else Fault DeadIterator
                end
              else re_scan rec m keys' t d
          end
      | _ => re_scan rec m keys' t d
      end
  end.

(** decoder.cc 265-336: [add_source_recursive] after the callback. *)
Definition re_settle (rec : T -> ddec -> N -> list N -> outcome (T * ddec)) (m : mode)
  (t : T) (d : ddec) (id : N) (data : list N) : outcome (T * ddec) :=
  d <- no_longer_missing m d id data ;;
  '(t, d) <- re_scan rec m (mkeys (d_missing d)) t d ;;
  d <- store m d id data ;;
  Ok (t, d).

(** [add_source_recursive], decoder.cc 249-337, called from line 311. *)
Fixpoint re_add_source (fuel : nat) (m : mode) (t : T) (d : ddec) (id : N) (data : list N) : outcome (T * ddec) :=
  match fuel with
  | O => Fault OutOfFuel
  | S fuel =>
      '(t, d) <- re_announce re_callback_held m t d id data ;;
      re_settle (re_add_source fuel m) m t d id data
  end.

(** The same, called from lines 48 and 146. *)
Definition re_add_first (m : mode) (t : T) (d : ddec) (id : N) (data : list N) : outcome (T * ddec) :=
  '(t, d) <- re_announce re_callback m t d id data ;;
  re_settle (re_add_source (length (d_missing d)) m) m t d id data.

(** decoder.cc 373-377. *)
Fixpoint re_deliver_outdated (l : list N) (t : T) (d : ddec) : outcome (T * ddec) :=
  match l with
  | [] => Ok (t, d)
  | id :: l' =>
      '(t, d) <- re_callback_ordered t d id ;;
      re_deliver_outdated l' t (with_ordered d (serase id (d_ordered d)))
  end.

(** [drop_outdated], decoder.cc 341-389. *)
Definition re_drop_outdated (m : mode) (t : T) (d : ddec) (id : N) : outcome (T * ddec) :=
  let d := with_last d (Some id) in
  d <- drop_repairs m id (d_repairs d) d ;;
  '(t, d) <- (if d_in_order d then
                '(t, d) <- re_deliver_outdated (before id (d_ordered d)) t d ;;
                re_flush m t (if d_first d <? id then with_first d id else d)
              else Ok (t, d)) ;;
  let d := with_sources d (mfrom id (d_sources d)) in
  Ok (t, with_missing d (mfrom id (d_missing d))).

(** decoder.cc 541-562. *)
Definition re_add_decoded (m : mode) (t : T) (d : ddec) (id : N) (data : list N) : outcome (T * ddec) :=
  _ <- assert_ m (negb (mmem id (d_sources d))) ;;
  let data := match mfind id (d_sources d) with None => data | Some old => old end in
  let d := with_sources d (mput id data (d_sources d)) in
  if negb (d_in_order d) then re_callback_held t d id data
  else if id =? d_first d then
    '(t, d) <- re_callback_held t d id data ;;
    re_flush m t (with_first d (u32 (d_first d + 1)))
  else Ok (t, with_ordered d (sinsert id (d_ordered d))).

(** decoder.cc 484-556. *)
Fixpoint re_decode_all (m : mode) (n : nat) (inv : list N) (reps : list drepair) (col : nat)
  (missing : list N) (t : T) (d : ddec) : outcome (T * ddec) :=
  match missing with
  | [] => Ok (t, d)
  | id :: missing' =>
      let l := combine (column n inv col) reps in
      let src_sz := decode_size (d_field d) l in
      data <- decode_symbol m (d_field d) src_sz l ;;
      '(t, d) <- re_add_decoded m t d id data ;;
      re_decode_all m n inv reps (S col) missing' t d
  end.

(** [attempt_full_decoding], decoder.cc 412-566. *)
Definition re_attempt (m : mode) (t : T) (d : ddec) : outcome (T * ddec) :=
  let nr := length (d_repairs d) in
  let nm := length (d_missing d) in
  if Nat.eqb nr 0 || Nat.eqb nm 0 then Ok (t, d)
  else if Nat.ltb nr nm then Ok (t, d)
  else
    _ <- assert_ m (Nat.eqb nm nr) ;;
    _ <- assert_ m (Nat.ltb 1 nm) ;;
    if negb (Nat.eqb nm nr) then Fault Uninitialised
    else
      let coeffs := coefficients (d_field d) (d_repairs d) (mkeys (d_missing d)) in
      r <- invert (d_field d) nr coeffs (repeat 0 (nr * nr)) ;;
      match r with
      | inl k => d <- failed_decoding d k ;; Ok (t, d)
      | inr (_, inv) =>
          '(t, d') <- re_decode_all m nr inv (map snd (d_repairs d)) 0 (mkeys (d_missing d)) t d ;;
          let d' := count_decoded d' (N.of_nat nm) in
          Ok (t, with_missing (with_repairs d' []) [])
      end.

(** [operator()(decoder_source&&)], decoder.cc 34-50. *)
Definition re_recv_source (m : mode) (t : T) (d : ddec) (id : N) (data : list N) : outcome (T * ddec) :=
  if outdated d id then Ok (t, d)
  else if mmem id (d_sources d) then Ok (t, d)
  else
    '(t, d) <- re_add_first m t d id data ;;
    re_attempt m t d.

(** [operator()(decoder_repair&&)], decoder.cc 54-152. *)
Definition re_recv_repair (m : mode) (t : T) (d : ddec) (r : drepair) : outcome (T * ddec) :=
  _ <- assert_ m (negb (Nat.eqb (length (dr_ids r)) 0)) ;;
  match dr_ids r with
  | [] => Fault EmptyFront
  | first :: _ =>
      if outdated d (last (dr_ids r) 0) then Ok (t, d)
      else if mmem (dr_id r) (d_repairs d) then Ok (t, d)
      else
        '(t, d) <- re_drop_outdated m t d first ;;
        if forallb (fun id => mmem id (d_sources d)) (dr_ids r)
        then Ok (t, with_useless d (d_useless d + 1))
        else
          _ <- assert_ m (negb (mmem (dr_id r) (d_repairs d))) ;;
          '(d, r) <- link_repair m (rev (dr_ids r)) d r ;;
          let d := with_repairs d (mset (dr_id r) r (d_repairs d)) in
          _ <- assert_ m (negb (Nat.eqb (length (dr_ids r)) 0)) ;;
          if Nat.eqb (length (dr_ids r)) 1 then
            '(id, data) <- create_source m (d_field d) r ;;
            let d := count_decoded d 1 in
            let d := with_missing d (merase id (d_missing d)) in
            let d := with_repairs d (merase (dr_id r) (d_repairs d)) in
            re_add_first m t d id data
          else re_attempt m t d
  end.

End Callback.

(** ** The outer class *)

(** The members, and what the handlers got since the start. *)
Definition shared : Type := dec * list dout.

(** The calls that the data handler makes on a datum, from the data it got before. *)
Definition reaction : Type := list (list N) -> list N -> list dop.

Definition gives_packet (op : dop) : bool := match op with DPacket _ => true | _ => false end.

(** [handle_source], decoder.hh 291-300: the data handler, then maybe_ack. [call]
    is a call of the receiver by the handler. *)
Definition re_handle (call : shared -> dop -> outcome shared) (react : reaction) (clk : clock)
  (t : shared) (c : ddec) (v : event) : outcome (shared * ddec * bool) :=
  let '(d, out) := t in
  let ops := react (to_user out) (v_data v) in
  '(d, out) <- fold_left (fun t op => t <- t ;; call t op) ops
                 (Ok (with_core d c, out ++ [ToUser (v_data v)])) ;;
  let '(d, acks) := maybe_ack clk d in
  Ok ((d, out ++ acks), dc_core d, existsb gives_packet ops).

(** [operator()(packet&&)], decoder.hh 87-122; an exception is caught by the caller. *)
Definition re_packet (cb : shared -> ddec -> event -> outcome (shared * ddec * bool)) (m : mode)
  (t : shared) (p : packet) : outcome shared :=
  let '(d, out) := t in
  let finish (d : dec) (x : outcome (shared * ddec)) :=
    match x with
    | Ok (d, out, c) => Ok (with_core d c, out)
    | Throw _ => Ok (d, out)
    | Fault x => Fault x
    end in
  match (_ <- assert_ m (Nat.ltb 0 (length p)) ;; get_packet_type p) with
  | Ok TRepair =>
      let d := count_packet d 1 0 in
      finish d ('(r, _) <- read_repair m p ;; re_recv_repair cb m (d, out) (dc_core d) r)
  | Ok TSource =>
      let d := count_packet d 0 1 in
      finish d ('(s, _) <- read_source m p ;;
                re_recv_source cb m (d, out) (dc_core d) (ds_id s) (ds_data s))
  | Ok TAck | Throw _ => Ok (d, out)
  | Fault x => Fault x
  end.

(** A call of the receiver, from outside or from its data handler; [depth] bounds
    the nesting of the calls. *)
Fixpoint re_call (depth : nat) (react : reaction) (m : mode) (clk : clock) (t : shared) (op : dop)
  : outcome shared :=
  match depth with
  | O => Fault OutOfFuel
  | S depth =>
      let '(d, out) := t in
      match op with
      | DPacket p => re_packet (re_handle (re_call depth react m clk) react clk) m (d, out) p
      | DAck => let '(d, acks) := generate_ack d in Ok (d, out ++ acks)
      | DMaybe => let '(d, acks) := maybe_ack clk d in Ok (d, out ++ acks)
      | DSetPeriod x => Ok (set_ack_period d x, out)
      | DSetNb n =>
          match set_ack_nb_packets m d n with
          | Ok d => Ok (d, out)
          | Throw _ => Ok (d, out)
          | Fault x => Fault x
          end
      end
  end.

(** A sequence of calls from outside. *)
Definition re_run (depth : nat) (react : reaction) (m : mode) (clk : clock) (d : dec) (ops : list dop)
  : outcome shared :=
  fold_left (fun t op => t <- t ;; re_call depth react m clk t op) ops (Ok (d, [])).
