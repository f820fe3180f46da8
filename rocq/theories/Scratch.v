(** * Model of the memory that is used again: the members of
      [netcode/detail/packetizer.hh], [netcode/encoder.hh] and
      [netcode/detail/decoder.hh] that keep values of earlier calls, and memory that
      is allocated without being initialised

    The other models treat these objects as local and empty. Here a call gets them
    with contents that are given from outside, as [ememory] or [dmemory]: nothing
    is assumed about what earlier calls, among them calls ended by an exception,
    left there. What a call leaves is not returned for the same reason. *)
From Coq Require Import ZArith NArith List Bool.
From Verif Require Import Outcome GF Containers Packetizer Matrix Rate Encoder EncoderRun DetailDecoder Decoder Handlers.
Import ListNotations.
Open Scope N_scope.
Open Scope outcome_scope.

(** ** Lists of identifiers *)

(** packetizer.hh 367-373: m_difference_buffer and m_rle_buffer. *)
Record pscratch := { ps_diff : list N; ps_rle : list (N * N) }.

(** packetizer.hh 38-42: constructed with 32 elements. *)
Definition new_pscratch : pscratch :=
  {| ps_diff := repeat 0 32; ps_rle := repeat (0, 0) 32 |}.

(** packetizer.hh 266-267 and 317-318. *)
Definition clear_pscratch (s : pscratch) : pscratch := {| ps_diff := []; ps_rle := [] |}.

(** packetizer.hh 277: [std::adjacent_difference] through a back_inserter, after
    the first element. *)
Fixpoint push_differences (prev : N) (l out : list N) : list N :=
  match l with
  | [] => out
  | x :: l' => push_differences x l' (out ++ [u32 (x + (4294967296 - prev))])
  end.

(** packetizer.hh 283-296; [d] is [*cit], [l] what is behind it. *)
Fixpoint push_runs (d run : N) (l : list N) (out : list (N * N)) : list (N * N) :=
  match l with
  | [] => out ++ [(run, u16 d)]
  | d' :: l' =>
      if (d =? d') && (run <? 255) then push_runs d' (run + 1) l' out
      else push_runs d' 1 l' (out ++ [(run, u16 d)])
  end.

(** [write(const source_id_list&)], packetizer.hh 260-309. *)
Definition swrite_ids (s : pscratch) (ids : list N) : list (list N) :=
  let s := clear_pscratch s in
  match ids with
  | [] => [be 2 0]
  | x :: l =>
      let diff := push_differences x l (ps_diff s ++ [x]) in
      let runs := match tl diff with
                  | [] => ps_rle s
                  | d :: rest => push_runs d 1 rest (ps_rle s)
                  end in
      be 2 (N.of_nat (length runs) + 1) :: be 4 x
        :: flat_map (fun rv => [be 1 (fst rv); be 2 (snd rv)]) runs
  end.

(** packetizer.hh 336-345. *)
Fixpoint push_pairs (p : list N) (nb : nat) (c : cursor) (out : list N) : outcome (list N * cursor) :=
  match nb with
  | O => Ok (out, c)
  | S nb' =>
      '(run, c) <- read p 1 c ;;
      '(value, c) <- read p 2 c ;;
      push_pairs p nb' c (out ++ repeat value (N.to_nat run))
  end.

(** [read_ids], packetizer.hh 311-352. *)
Definition sread_ids (s : pscratch) (p : list N) (c : cursor) : outcome (list N * cursor) :=
  let s := clear_pscratch s in
  '(nb, c) <- read p 2 c ;;
  if nb =? 0 then Ok ([], c)
  else
    '(first, c) <- read p 4 c ;;
    '(diff, c) <- push_pairs p (N.to_nat (nb - 1)) c (ps_diff s ++ [first]) ;;
    Ok (fold_left (fun s x => sinsert x s) (partial_sum 0 diff) [], c).

(** [write_ack], packetizer.hh 46-61. *)
Definition swrite_ack (s : pscratch) (a : ack) : list (list N) :=
  [be 1 0; be 2 (a_nb a)] ++ swrite_ids s (a_ids a).

(** [read_ack], packetizer.hh 64-88. *)
Definition sread_ack (s : pscratch) (m : mode) (p : list N) : outcome (ack * nat) :=
  _ <- assert_type m p TAck ;;
  let c := (0%nat, length p) in
  '(_, c) <- read p 1 c ;;
  '(nb, c) <- read p 2 c ;;
  '(ids, c) <- sread_ids s p c ;;
  Ok ({| a_ids := ids; a_nb := nb |}, fst c).

(** [write_repair], packetizer.hh 90-122. *)
Definition swrite_repair (s : pscratch) (m : mode) (r : erepair) : outcome (list (list N)) :=
  _ <- assert_ m (Nat.ltb 0 (length (er_sym r))) ;;
  let size := be 2 (N.of_nat (length (er_sym r))) in
  Ok ([be 1 1; be 4 (er_id r); size; er_sym r] ++ swrite_ids s (er_ids r)
      ++ [be 2 (er_enc r); size; er_sym r]).

(** [read_repair], packetizer.hh 124-163. *)
Definition sread_repair (s : pscratch) (m : mode) (p : list N) : outcome (drepair * nat) :=
  _ <- assert_type m p TRepair ;;
  let c := (0%nat, length p) in
  '(_, c) <- read p 1 c ;;
  '(id, c) <- read p 4 c ;;
  '(size, c) <- read p 2 c ;;
  c <- skip size c ;;
  '(ids, c) <- sread_ids s p c ;;
  '(enc, c) <- read p 2 c ;;
  Ok ({| dr_id := id; dr_ids := ids; dr_enc := enc; dr_buf := skipn 7 p; dr_size := size |}, fst c).

(** ** Regions *)

(** [galois_field::multiply], galois_field.hh 66-75, into a destination that may
    be larger than what is written. *)
Definition multiply_into (f : field) (src dst : list N) (len : nat) (c : N) : outcome (list N) :=
  if Nat.ltb (length src) len || Nat.ltb (length dst) len then Fault OutOfBounds
  else if negb (aligned f len) then Fault GfMisaligned
  else Ok (rmul f c (firstn len src) ++ skipn len dst).

(** ** The sender *)

(** The contents of m_packetizer's buffers and of m_repair (encoder.hh 373-383) at
    each of the at most two times that a call uses them. *)
Record ememory := { em_ps : bool -> pscratch; em_repair : bool -> erepair }.

(** detail/repair.hh 83-93: the encoded size and the identifier stay. *)
Definition reset_repair (r : erepair) : erepair :=
  {| er_id := er_id r; er_ids := []; er_enc := er_enc r; er_sym := [] |}.

Definition with_repair_id (r : erepair) (id : N) : erepair :=
  {| er_id := id; er_ids := er_ids r; er_enc := er_enc r; er_sym := er_sym r |}.

(** detail/encoder.cc 15-64, on any repair. *)
Definition sencode (f : field) (m : mode) (r : erepair) (sources : list esource) : outcome erepair :=
  _ <- assert_ m (Nat.ltb 0 (length sources)) ;;
  match sources with
  | [] => Fault DeadIterator
  | s :: l =>
      let size := N.to_nat (es_size s) in
      let sym := resize size (er_sym r) in
      let ids := sinsert (es_id s) (er_ids r) in
      let c := coefficient f (er_id r) (es_id s) in
      sym <- multiply_into f (es_data s) sym size c ;;
      encode_loop f l
        {| er_id := er_id r; er_ids := ids; er_enc := multiply_size f (es_size s) c; er_sym := sym |}
  end.

(** [generate_repair], encoder.hh 161-169, and [mk_repair], 320-333, up to the
    first call of the packet handler. *)
Definition sprepare_repair (mem : ememory) (second : bool) (m : mode) (e : enc)
  : outcome (enc * list (list N)) :=
  let r := with_repair_id (reset_repair (em_repair mem second)) (e_repair_id e) in
  _ <- assert_ m (Nat.ltb 0 (length (e_sources e))) ;;
  r <- sencode (e_field e) m r (e_sources e) ;;
  w <- swrite_repair (em_ps mem second) m r ;;
  Ok ({| e_field := e_field e;
         e_systematic := e_systematic e;
         e_rate := e_rate e;
         e_window_size := e_window_size e;
         e_adaptive := e_adaptive e;
         e_source_id := e_source_id e;
         e_repair_id := u32 (e_repair_id e + 1);
         e_sources := e_sources e;
         e_nb_sent_repairs := u64 (e_nb_sent_repairs e + 1);
         e_nb_acks := e_nb_acks e;
         e_nb_sent_sources := e_nb_sent_sources e;
         e_nb_sent_packets := u16 (e_nb_sent_packets e + 1) |},
      w).

(** As in Handlers.v, with the memory: encoder.hh 161-169, 266-276, 253-285, 86-96. *)
Definition shrepair (mem : ememory) (second : bool) (h : handler) (m : mode) (e : enc)
  (tr : list hcall) : enc * list hcall * hres :=
  match sprepare_repair mem second m e with
  | Ok (e, w) => let '(tr, r) := feed h tr (packet_calls w) in (e, tr, r)
  | Throw x => (e, tr, HError x)
  | Fault x => (e, tr, HFault x)
  end.

Definition shsend (mem : ememory) (h : handler) (m : mode) (e : enc) (s : esource)
  (tr : list hcall) : enc * list hcall * hres :=
  if e_systematic e then hsend h m e s tr else shrepair mem false h m e tr.

Definition shcommit (mem : ememory) (h : handler) (m : mode) (e : enc) (d : list N)
  (tr : list hcall) : enc * list hcall * hres :=
  let s := {| es_id := e_source_id e; es_data := d |} in
  match push_source e s with
  | Ok l =>
      let '(e, tr, r) := shsend mem h m (Encoder.with_sources e l) s tr in
      match r with
      | HDone =>
          if e_rate e =? 0 then (e, tr, HFault DivisionByZero)
          else
            let '(e, tr, r) :=
              if u32 (e_source_id e + 1) mod e_rate e =? 0 then shrepair mem true h m e tr
              else (e, tr, HDone) in
            match r with
            | HDone => (with_source_id e (u32 (e_source_id e + 1)), tr, HDone)
            | _ => (e, tr, r)
            end
      | _ => (e, tr, r)
      end
  | Throw x => (e, tr, HError x)
  | Fault x => (e, tr, HFault x)
  end.

Definition shdata (mem : ememory) (h : handler) (m : mode) (e : enc) (d : list N)
  (tr : list hcall) : enc * list hcall * hres :=
  match
    (_ <- assert_ m (Nat.ltb 0 (length d)) ;;
     assert_ m (match e_field e with
                | W16 | W32 => aligned (e_field e) (length d)
                | _ => true
                end))
  with
  | Ok _ => shcommit mem h m e d tr
  | Throw x => (e, tr, HError x)
  | Fault x => (e, tr, HFault x)
  end.

(** [operator()(packet&&)], encoder.hh 105-111, and [notify_impl], 287-318. *)
Definition snotify (s : pscratch) (m : mode) (e : enc) (p : packet) : enc * outcome nat :=
  match (_ <- assert_ m (Nat.ltb 0 (length p)) ;; get_packet_type p) with
  | Ok TAck =>
      let e := with_ack e in
      match sread_ack s m p with
      | Ok (a, n) =>
          match apply_ack e a with
          | Ok e => (e, Ok n)
          | Throw x => (e, Throw x)
          | Fault x => (e, Fault x)
          end
      | Throw x => (e, Throw x)
      | Fault x => (e, Fault x)
      end
  | Ok _ => (e, Throw PacketTypeError)
  | Throw x => (e, Throw x)
  | Fault x => (e, Fault x)
  end.

(** One call of a member function; the setters use no such memory. *)
Definition shstep (mem : ememory) (h : handler) (m : mode) (e : enc) (op : eop)
  (tr : list hcall) : enc * list hcall * hres :=
  match op with
  | EData d => shdata mem h m e d tr
  | ERepair => shrepair mem false h m e tr
  | EPacket p =>
      match snotify (em_ps mem false) m e p with
      | (e, Ok _) => (e, tr, HDone)
      | (e, Throw x) => (e, tr, HError x)
      | (e, Fault x) => (e, tr, HFault x)
      end
  | _ => hstep h m e op tr
  end.

(** A user that catches all exceptions and carries on, as [hrun]. Each call comes
    with the memory that it finds. *)
Fixpoint shrun (h : handler) (m : mode) (e : enc) (tr : list hcall) (ops : list (ememory * eop)) :
  enc * list (list hcall * hres) :=
  match ops with
  | [] => (e, [])
  | (mem, op) :: l =>
      let '(e, tr', r) := shstep mem h m e op tr in
      let done := (skipn (length tr) tr', r) in
      match r with
      | HFault _ => (e, [done])
      | _ => let '(e, rs) := shrun h m e tr' l in (e, done :: rs)
      end
  end.

(** ** The receiver *)

(** What a call of the receiver finds: the buffers of m_packetizer when a repair is
    read and when the k-th ack of the call is written (decoder.hh 330), the members
    m_coefficients, m_inv and m_index (detail/decoder.hh 148-157; the index has keys
    for pointers), what the growing of a matrix finds, and what a new packet finds
    (by the repair it is made for). *)
Record dmemory := {
  dm_read : pscratch;
  dm_acks : nat -> pscratch;
  dm_coeff : list N;
  dm_inv : list N;
  dm_index : list N;
  dm_grow : nat -> N;
  dm_fresh : N -> nat -> N
}.

(** [square_matrix::resize], square_matrix.hh 72-79: entries are kept as they lie
    in the storage, new ones are not initialised (buffer.hh 40-45). *)
Definition resize_raw (junk : nat -> N) (n : nat) (l : list N) : list N :=
  firstn n l ++ map junk (seq (length l) (n - length l)).

(** [packet::packet(size)], packet.hh 68-71: the storage has 9 more bytes
    ([shift]), and the symbol starts at byte 16 ([alignment], 318-335). *)
Definition raw_packet (junk : nat -> N) (size : nat) : list N := map junk (seq 0 (size + 9)).

(** [packet::packet(count, 0)], packet.hh 73-76. *)
Definition zero_packet (size : nat) : list N := repeat 0 (size + 9).

(** An operation on the part of the storage that starts at [symbol()]. *)
Definition at_symbol (g : list N -> outcome (list N)) (buf : list N) : outcome (list N) :=
  s <- g (skipn 16 buf) ;;
  Ok (firstn 16 buf ++ s).

(** The bytes of a source seen through [symbol()] and [symbol_size()]. *)
Definition symbol_of (size : nat) (buf : list N) : list N := firstn size (skipn 16 buf).

(** [create_source_from_repair], detail/decoder.cc 156-178. *)
Definition screate_source (mem : dmemory) (m : mode) (f : field) (r : drepair) : outcome (N * list N) :=
  _ <- assert_ m (Nat.eqb (length (dr_ids r)) 1) ;;
  match dr_ids r with
  | [] => Fault EmptyFront
  | id :: _ =>
      let inv := gf_invert f (coefficient f (dr_id r) id) in
      let sz := N.to_nat (multiply_size f (dr_enc r) inv) in
      buf <- at_symbol (fun dst => multiply_into f (dr_buf r) dst sz inv)
               (raw_packet (dm_fresh mem (dr_id r)) (sz + 16)) ;;
      Ok (id, symbol_of sz buf)
  end.

(** The loop 281-323, as [scan] of DetailDecoder.v. *)
Fixpoint sscan (mem : dmemory) (rec : ddec -> N -> list N -> outcome ddec) (m : mode) (keys : list N)
  (d : ddec) : outcome ddec :=
  match keys with
  | [] => Ok d
  | k :: keys' =>
      match mfind k (d_missing d) with
      | Some [r] =>
          match mfind r (d_repairs d) with
          | None => Fault DeadIterator
          | Some rep =>
              if Nat.eqb (length (dr_ids rep)) 1 then
                _ <- assert_ m (not_outdated d (hd 0 (dr_ids rep))) ;;
                _ <- assert_ m (negb (mmem (hd 0 (dr_ids rep)) (d_sources d))) ;;
                '(id, data) <- screate_source mem m (d_field d) rep ;;
                let d := count_decoded d 1 in
                let d := with_repairs d (merase r (d_repairs d)) in
                let d := with_missing d (merase k (d_missing d)) in
                let next := find (fun k' => mmem k' (d_missing d)) keys' in
                d <- rec d id data ;;
                match next with
                | None => Ok d
                | Some k' => if mmem k' (d_missing d) then sscan mem rec m keys' d
                             else Fault DeadIterator
                end
              else sscan mem rec m keys' d
          end
      | _ => sscan mem rec m keys' d
      end
  end.

(** [add_source_recursive], 249-337. *)
Fixpoint sadd_source (mem : dmemory) (fuel : nat) (m : mode) (d : ddec) (id : N) (data : list N)
  : outcome ddec :=
  match fuel with
  | O => Fault OutOfFuel
  | S fuel =>
      d <- announce m d id data ;;
      d <- no_longer_missing m d id data ;;
      d <- sscan mem (sadd_source mem fuel m) m (mkeys (d_missing d)) d ;;
      store m d id data
  end.

(** Lines 430-445: [m_coefficients(row, col) = ...] for all repairs and all missing
    sources. *)
Fixpoint set_column (n col row : nat) (f : field) (r : N) (ids missing : list N) (mat : list N)
  : outcome (list N) :=
  match missing with
  | [] => Ok mat
  | id :: missing' =>
      mat <- set mat (index n row col) (if smem id ids then coefficient f r id else 0) ;;
      set_column n col (S row) f r ids missing' mat
  end.

Fixpoint set_columns (n col : nat) (f : field) (reps : list (N * drepair)) (missing : list N)
  (mat : list N) : outcome (list N) :=
  match reps with
  | [] => Ok mat
  | (r, rep) :: reps' =>
      mat <- set_column n col 0 f r (dr_ids rep) missing mat ;;
      set_columns n (S col) f reps' missing mat
  end.

(** Lines 474-481: m_index is cleared and gets a pointer to each repair. *)
Definition fill_index (old : list N) (reps : list (N * drepair)) : list N :=
  fold_left (fun l rr => l ++ [fst rr]) reps (firstn 0 old).

(** [m_index[row]->], dereferenced. *)
Definition indexed (index : list N) (reps : list (N * drepair)) (row : nat) : outcome drepair :=
  match nth_error index row with
  | None => Fault OutOfBounds
  | Some r => match mfind r reps with
              | None => Fault DeadIterator
              | Some rep => Ok rep
              end
  end.

(** Lines 486-498. *)
Definition sdecode_size (f : field) (n : nat) (inv : list N) (idx : list N)
  (reps : list (N * drepair)) (col : nat) : outcome N :=
  loop (seq 0 n) (fun row res =>
    c <- get inv (index n row col) ;;
    if c =? 0 then Ok res
    else
      r <- indexed idx reps row ;;
      Ok (N.lxor (u16 (multiply_size f (dr_enc r) c)) res)) 0.

(** Lines 508-519: the first row from [row] on with a non-zero coefficient; [k] is
    the number of the remaining rows. *)
Fixpoint first_row (n : nat) (inv : list N) (col k row : nat) : outcome nat :=
  match k with
  | O => Ok row
  | S k' =>
      c <- get inv (index n row col) ;;
      if c =? 0 then first_row n inv col k' (S row) else Ok row
  end.

(** Lines 500-537. *)
Definition sdecode_symbol (m : mode) (f : field) (n : nat) (inv : list N) (idx : list N)
  (reps : list (N * drepair)) (col : nat) (src_sz : N) : outcome (list N) :=
  let buf := zero_packet (N.to_nat src_sz + 16) in
  row <- first_row n inv col (length reps) 0 ;;
  _ <- assert_ m (negb (Nat.eqb row (length reps))) ;;
  r <- indexed idx reps row ;;
  c <- get inv (index n row col) ;;
  buf <- at_symbol (fun dst =>
           multiply_into f (dr_buf r) dst (N.to_nat (N.min src_sz (dr_size r))) c) buf ;;
  buf <- loop (seq (S row) (n - S row)) (fun row buf =>
           c <- get inv (index n row col) ;;
           if c =? 0 then Ok buf
           else
             r <- indexed idx reps row ;;
             at_symbol (fun dst =>
               region_multiply_add f (dr_buf r) dst (N.to_nat (N.min src_sz (dr_size r))) c) buf) buf ;;
  Ok (symbol_of (N.to_nat src_sz) buf).

(** The loop 484-556. *)
Fixpoint sdecode_all (m : mode) (n : nat) (inv : list N) (idx : list N) (col : nat)
  (missing : list N) (d : ddec) : outcome ddec :=
  match missing with
  | [] => Ok d
  | id :: missing' =>
      src_sz <- sdecode_size (d_field d) n inv idx (d_repairs d) col ;;
      data <- sdecode_symbol m (d_field d) n inv idx (d_repairs d) col src_sz ;;
      d <- add_decoded m d id data ;;
      sdecode_all m n inv idx (S col) missing' d
  end.

(** [attempt_full_decoding], 412-566. With more repairs than missing sources the
    entries that are not set keep the value that the memory has. *)
Definition sattempt (mem : dmemory) (m : mode) (d : ddec) : outcome ddec :=
  let nr := length (d_repairs d) in
  let nm := length (d_missing d) in
  if Nat.eqb nr 0 || Nat.eqb nm 0 then Ok d
  else if Nat.ltb nr nm then Ok d
  else
    _ <- assert_ m (Nat.eqb nm nr) ;;
    _ <- assert_ m (Nat.ltb 1 nm) ;;
    coeffs <- set_columns nr 0 (d_field d) (d_repairs d) (mkeys (d_missing d))
                (resize_raw (dm_grow mem) (nr * nr) (dm_coeff mem)) ;;
    r <- invert (d_field d) nr coeffs (resize_raw (dm_grow mem) (nr * nr) (dm_inv mem)) ;;
    match r with
    | inl k => failed_decoding d k
    | inr (_, inv) =>
        let idx := fill_index (dm_index mem) (d_repairs d) in
        d' <- sdecode_all m nr inv idx 0 (mkeys (d_missing d)) d ;;
        let d' := count_decoded d' (N.of_nat nm) in
        Ok (with_missing (with_repairs d' []) [])
    end.

(** [operator()(decoder_source&&)], 34-50. *)
Definition srecv_source (mem : dmemory) (m : mode) (d : ddec) (id : N) (data : list N) : outcome ddec :=
  if outdated d id then Ok d
  else if mmem id (d_sources d) then Ok d
  else
    d <- sadd_source mem (enough d) m d id data ;;
    sattempt mem m d.

(** [operator()(decoder_repair&&)], 54-152. *)
Definition srecv_repair (mem : dmemory) (m : mode) (d : ddec) (r : drepair) : outcome ddec :=
  _ <- assert_ m (negb (Nat.eqb (length (dr_ids r)) 0)) ;;
  match dr_ids r with
  | [] => Fault EmptyFront
  | first :: _ =>
      if outdated d (last (dr_ids r) 0) then Ok d
      else if mmem (dr_id r) (d_repairs d) then Ok d
      else
        d <- drop_outdated m d first ;;
        if forallb (fun id => mmem id (d_sources d)) (dr_ids r)
        then Ok (with_useless d (d_useless d + 1))
        else
          _ <- assert_ m (negb (mmem (dr_id r) (d_repairs d))) ;;
          '(d, r) <- link_repair m (rev (dr_ids r)) d r ;;
          let d := with_repairs d (mset (dr_id r) r (d_repairs d)) in
          _ <- assert_ m (negb (Nat.eqb (length (dr_ids r)) 0)) ;;
          if Nat.eqb (length (dr_ids r)) 1 then
            '(id, data) <- screate_source mem m (d_field d) r ;;
            let d := count_decoded d 1 in
            let d := with_missing d (merase id (d_missing d)) in
            let d := with_repairs d (merase (dr_id r) (d_repairs d)) in
            sadd_source mem (enough d) m d id data
          else sattempt mem m d
  end.

(** [generate_ack], decoder.hh 212-228. *)
Definition sgenerate_ack_of (s : pscratch) (known : list N) (d : dec) : dec * list dout :=
  let a := {| a_ids := fold_left (fun s x => sinsert x s) known (a_ids (dc_ack d));
              a_nb := a_nb (dc_ack d) |} in
  (fst (generate_ack_of known d), [ToNetwork (concat (swrite_ack s a))]).

(** [maybe_ack], decoder.hh 230-248. *)
Definition smaybe_ack_of (s : pscratch) (clk : clock) (known : list N) (d : dec) : dec * list dout :=
  if dc_ack_nb d <=? a_nb (dc_ack d) then
    let '(d, out) := sgenerate_ack_of s known d in (read_clock clk true d, out)
  else if (dc_period d =? 0)%Z then (d, [])
  else if (dc_period d * 1000000 <=? clk (dc_reads d) - dc_last_date d)%Z then
    let '(d, out) := sgenerate_ack_of s known d in (read_clock clk true d, out)
  else (read_clock clk false d, []).

(** [handle_source], decoder.hh 291-300, for the calls of the callback during one
    call of m_decoder; [k] counts them. *)
Fixpoint shandle_sources (mem : dmemory) (k : nat) (clk : clock) (d : dec) (l : list event)
  : dec * list dout :=
  match l with
  | [] => (d, [])
  | v :: l' =>
      let '(d, out) := smaybe_ack_of (dm_acks mem k) clk (v_known v) d in
      let '(d, out') := shandle_sources mem (S k) clk d l' in
      (d, (ToUser (v_data v) :: out) ++ out')
  end.

Definition scall_core (mem : dmemory) (clk : clock) (d : dec) (run : ddec -> outcome ddec)
  : outcome (dec * list dout) :=
  c <- run (dc_core d) ;;
  Ok (shandle_sources mem 0 clk (with_core d c) (skipn (length (d_log (dc_core d))) (d_log c))).

(** [operator()(packet&&)], decoder.hh 87-122. *)
Definition sdec_packet (mem : dmemory) (m : mode) (clk : clock) (d : dec) (p : packet)
  : dec * outcome (list dout * nat) :=
  match (_ <- assert_ m (Nat.ltb 0 (length p)) ;; get_packet_type p) with
  | Ok TRepair =>
      let d := count_packet d 1 0 in
      finish d ('(r, n) <- sread_repair (dm_read mem) m p ;;
                '(d, out) <- scall_core mem clk d (fun c => srecv_repair mem m c r) ;;
                Ok (d, (out, n)))
  | Ok TSource =>
      let d := count_packet d 0 1 in
      finish d ('(s, n) <- read_source m p ;;
                '(d, out) <- scall_core mem clk d
                               (fun c => srecv_source mem m c (ds_id s) (ds_data s)) ;;
                Ok (d, (out, n)))
  | Ok TAck => (d, Throw PacketTypeError)
  | Throw x => (d, Throw x)
  | Fault x => (d, Fault x)
  end.

(** One call of a member function; the setters use no such memory. *)
Definition sdstep (mem : dmemory) (m : mode) (clk : clock) (d : dec) (op : dop)
  : dec * outcome (list dout) :=
  let known := mkeys (d_sources (dc_core d)) in
  match op with
  | DPacket p => let '(d', r) := sdec_packet mem m clk d p in (d', '(out, _) <- r ;; Ok out)
  | DAck => let '(d', out) := sgenerate_ack_of (dm_acks mem 0) known d in (d', Ok out)
  | DMaybe => let '(d', out) := smaybe_ack_of (dm_acks mem 0) clk known d in (d', Ok out)
  | _ => dstep m clk d op
  end.

(** As [drun]; each call comes with the memory that it finds. *)
Fixpoint sdrun (m : mode) (clk : clock) (d : dec) (ops : list (dmemory * dop))
  : outcome (dec * list dout) :=
  match ops with
  | [] => Ok (d, [])
  | (mem, op) :: ops' =>
      match sdstep mem m clk d op with
      | (d', Ok out) => '(d'', out') <- sdrun m clk d' ops' ;; Ok (d'', out ++ out')
      | (d', Throw _) => sdrun m clk d' ops'
      | (_, Fault x) => Fault x
      end
  end.
