(** * Model of the decoding algorithm: netcode/detail/decoder.{hh,cc}

    Containers are sorted lists (Containers.v) and iterators are keys: the sets
    of iterators on repairs kept in the missing sources (decoder.hh 26-29,
    48-53) are sets of repair identifiers, the pointers of the ordered sources
    (decoder.hh 44, 53) are looked up in the known sources. A look-up that fails
    stands for the use of a dangling iterator or pointer.

    The user's callback is modelled by a log of its calls. Each entry also has
    the identifiers of the known sources at the time of the call, because this is
    what the callback reads (decoder.hh 217 in [generate_ack]). *)
From Coq Require Import NArith List Bool.
From Verif Require Import Outcome GF Containers Packetizer Matrix.
Import ListNotations.
Open Scope N_scope.
Open Scope outcome_scope.

(** One call of [m_callback]. *)
Record event := { v_id : N; v_data : list N; v_known : list N }.

(** detail/decoder.hh 119-165, without the re-used buffers m_coefficients,
    m_inv and m_index. [d_log] is not part of the C++ class. *)
Record ddec := {
  d_field : field;
  d_in_order : bool;
  d_first : N;                          (* m_first_missing_source_in_order *)
  d_ordered : list N;                   (* m_ordered_sources *)
  d_repairs : list (N * drepair);       (* m_repairs *)
  d_sources : list (N * list N);        (* m_sources *)
  d_last : option N;                    (* m_last_id *)
  d_missing : list (N * list N);        (* m_missing_sources *)
  d_useless : N;
  d_failed : N;
  d_decoded : N;
  d_log : list event
}.

(** Constructor, decoder.cc 12-30. *)
Definition new_ddec (f : field) (in_order : bool) : ddec :=
  {| d_field := f; d_in_order := in_order; d_first := 0; d_ordered := [];
     d_repairs := []; d_sources := []; d_last := None; d_missing := [];
     d_useless := 0; d_failed := 0; d_decoded := 0; d_log := [] |}.

(** Assignments to one member. *)
Definition with_first (d : ddec) x := {| d_field := d_field d; d_in_order := d_in_order d; d_first := x; d_ordered := d_ordered d; d_repairs := d_repairs d; d_sources := d_sources d; d_last := d_last d; d_missing := d_missing d; d_useless := d_useless d; d_failed := d_failed d; d_decoded := d_decoded d; d_log := d_log d |}.
Definition with_ordered (d : ddec) x := {| d_field := d_field d; d_in_order := d_in_order d; d_first := d_first d; d_ordered := x; d_repairs := d_repairs d; d_sources := d_sources d; d_last := d_last d; d_missing := d_missing d; d_useless := d_useless d; d_failed := d_failed d; d_decoded := d_decoded d; d_log := d_log d |}.
Definition with_repairs (d : ddec) x := {| d_field := d_field d; d_in_order := d_in_order d; d_first := d_first d; d_ordered := d_ordered d; d_repairs := x; d_sources := d_sources d; d_last := d_last d; d_missing := d_missing d; d_useless := d_useless d; d_failed := d_failed d; d_decoded := d_decoded d; d_log := d_log d |}.
Definition with_sources (d : ddec) x := {| d_field := d_field d; d_in_order := d_in_order d; d_first := d_first d; d_ordered := d_ordered d; d_repairs := d_repairs d; d_sources := x; d_last := d_last d; d_missing := d_missing d; d_useless := d_useless d; d_failed := d_failed d; d_decoded := d_decoded d; d_log := d_log d |}.
Definition with_last (d : ddec) x := {| d_field := d_field d; d_in_order := d_in_order d; d_first := d_first d; d_ordered := d_ordered d; d_repairs := d_repairs d; d_sources := d_sources d; d_last := x; d_missing := d_missing d; d_useless := d_useless d; d_failed := d_failed d; d_decoded := d_decoded d; d_log := d_log d |}.
Definition with_missing (d : ddec) x := {| d_field := d_field d; d_in_order := d_in_order d; d_first := d_first d; d_ordered := d_ordered d; d_repairs := d_repairs d; d_sources := d_sources d; d_last := d_last d; d_missing := x; d_useless := d_useless d; d_failed := d_failed d; d_decoded := d_decoded d; d_log := d_log d |}.
Definition with_useless (d : ddec) x := {| d_field := d_field d; d_in_order := d_in_order d; d_first := d_first d; d_ordered := d_ordered d; d_repairs := d_repairs d; d_sources := d_sources d; d_last := d_last d; d_missing := d_missing d; d_useless := x; d_failed := d_failed d; d_decoded := d_decoded d; d_log := d_log d |}.
Definition with_failed (d : ddec) x := {| d_field := d_field d; d_in_order := d_in_order d; d_first := d_first d; d_ordered := d_ordered d; d_repairs := d_repairs d; d_sources := d_sources d; d_last := d_last d; d_missing := d_missing d; d_useless := d_useless d; d_failed := x; d_decoded := d_decoded d; d_log := d_log d |}.
Definition with_decoded (d : ddec) x := {| d_field := d_field d; d_in_order := d_in_order d; d_first := d_first d; d_ordered := d_ordered d; d_repairs := d_repairs d; d_sources := d_sources d; d_last := d_last d; d_missing := d_missing d; d_useless := d_useless d; d_failed := d_failed d; d_decoded := x; d_log := d_log d |}.

(** [m_callback(src)]. *)
Definition callback (d : ddec) (id : N) (data : list N) : ddec := {| d_field := d_field d; d_in_order := d_in_order d; d_first := d_first d; d_ordered := d_ordered d; d_repairs := d_repairs d; d_sources := d_sources d; d_last := d_last d; d_missing := d_missing d; d_useless := d_useless d; d_failed := d_failed d; d_decoded := d_decoded d;
  d_log := d_log d ++ [{| v_id := id; v_data := data; v_known := mkeys (d_sources d) |}] |}.

(** The callback on an ordered source: its pointer is dereferenced. *)
Definition callback_ordered (d : ddec) (id : N) : outcome ddec :=
  match mfind id (d_sources d) with
  | None => Fault DeadIterator
  | Some data => Ok (callback d id data)
  end.

(** [lower_bound] and [erase] of a prefix. *)
Definition from (id : N) (l : list N) : list N := filter (fun x => id <=? x) l.
Definition before (id : N) (l : list N) : list N := filter (fun x => x <? id) l.
Definition mfrom {V} (id : N) (l : list (N * V)) : list (N * V) :=
  filter (fun '(x, _) => id <=? x) l.

(** The loop of [flush_ordered_sources], 577-589; [l] is the part of the ordered
    sources that starts at the iterator. *)
Fixpoint flush_loop (m : mode) (l : list N) (d : ddec) : outcome ddec :=
  match l with
  | [] => Ok d
  | id :: l' =>
      _ <- assert_ m (id =? d_first d) ;;
      d <- callback_ordered d id ;;
      let d := with_ordered d (serase id (d_ordered d)) in
      let d := with_first d (u32 (d_first d + 1)) in
      match l' with
      | [] => Ok d
      | id' :: _ => if d_first d <? id' then Ok d else flush_loop m l' d
      end
  end.

(** [flush_ordered_sources], 570-591. *)
Definition flush (m : mode) (d : ddec) : outcome ddec :=
  if smem (d_first d) (d_ordered d)
  then flush_loop m (from (d_first d) (d_ordered d)) d
  else Ok d.

(** [remove_source_data_from_repair], 393-408. [data] is the symbol of the
    source, its length is [symbol_size()]. *)
Definition remove_data (m : mode) (f : field) (id : N) (data : list N) (r : drepair)
  : outcome drepair :=
  _ <- assert_ m (Nat.ltb 1 (length (dr_ids r))) ;;
  _ <- assert_ m (N.of_nat (length data) <=? dr_size r) ;;
  let coeff := coefficient f (dr_id r) id in
  buf <- region_multiply_add f data (dr_buf r) (length data) coeff ;;
  Ok {| dr_id := dr_id r; dr_ids := dr_ids r;
        dr_enc := N.lxor (multiply_size f (N.of_nat (length data)) coeff) (dr_enc r);
        dr_buf := buf; dr_size := dr_size r |}.

Definition with_ids (r : drepair) (ids : list N) : drepair :=
  {| dr_id := dr_id r; dr_ids := ids; dr_enc := dr_enc r; dr_buf := dr_buf r;
     dr_size := dr_size r |}.

(** [remove_source_from_repair], 182-191. *)
Definition remove_source (m : mode) (f : field) (id : N) (data : list N) (r : drepair)
  : outcome drepair :=
  r <- remove_data m f id data r ;;
  _ <- assert_ m (smem id (dr_ids r)) ;;
  if smem id (dr_ids r) then Ok (with_ids r (serase id (dr_ids r)))
  else Fault DeadIterator.

(** [create_source_from_repair], 156-178, without the counter (line 175). *)
Definition create_source (m : mode) (f : field) (r : drepair) : outcome (N * list N) :=
  _ <- assert_ m (Nat.eqb (length (dr_ids r)) 1) ;;
  match dr_ids r with
  | [] => Fault EmptyFront
  | id :: _ =>
      let inv := gf_invert f (coefficient f (dr_id r) id) in
      let sz := multiply_size f (dr_enc r) inv in
      data <- region_multiply f (dr_buf r) (N.to_nat sz) inv ;;
      Ok (id, data)
  end.

(** Line 175. *)
Definition count_decoded (d : ddec) (n : N) : ddec := with_decoded d (d_decoded d + n).

(** Lines 252-263. *)
Definition announce (m : mode) (d : ddec) (id : N) (data : list N) : outcome ddec :=
  if negb (d_in_order d) then Ok (callback d id data)
  else if id =? d_first d then
    let d := callback d id data in
    flush m (with_first d (u32 (d_first d + 1)))
  else Ok d.

(** Lines 269-273. *)
Fixpoint remove_from_repairs (m : mode) (f : field) (id : N) (data : list N)
  (rs : list N) (reps : list (N * drepair)) : outcome (list (N * drepair)) :=
  match rs with
  | [] => Ok reps
  | r :: rs' =>
      match mfind r reps with
      | None => Fault DeadIterator
      | Some rep =>
          rep <- remove_source m f id data rep ;;
          remove_from_repairs m f id data rs' (mset r rep reps)
      end
  end.

(** Lines 265-277. *)
Definition no_longer_missing (m : mode) (d : ddec) (id : N) (data : list N) : outcome ddec :=
  match mfind id (d_missing d) with
  | None => Ok d
  | Some rs =>
      reps <- remove_from_repairs m (d_field d) id data rs (d_repairs d) ;;
      Ok (with_missing (with_repairs d reps) (merase id (d_missing d)))
  end.

(** Lines 295-297 and 137: an assertion on the optional m_last_id. *)
Definition not_outdated (d : ddec) (id : N) : bool :=
  match d_last d with None => true | Some l => l <=? id end.

(** The loop 281-323, [rec] is the recursive call. [keys] are the keys of the
    missing sources that the iterator has not reached yet, at the start of the
    loop. Nothing is added during the loop; the ones erased since then are
    skipped. An iterator to an element that the recursive call erases is dead. *)
Fixpoint scan (rec : ddec -> N -> list N -> outcome ddec) (m : mode) (keys : list N)
  (d : ddec) : outcome ddec :=
  match keys with
  | [] => Ok d
  | k :: keys' =>
      match mfind k (d_missing d) with
      | Some [r] =>
          match mfind r (d_repairs d) with
          | None => Fault DeadIterator
          | Some rep =>
              if Nat.eqb (length (dr_ids rep)) 1 then
                _ <- assert_ m (not_outdated d (hd 0 (dr_ids rep))) ;;
                _ <- assert_ m (negb (mmem (hd 0 (dr_ids rep)) (d_sources d))) ;;
                '(id, data) <- create_source m (d_field d) rep ;;
                let d := count_decoded d 1 in
                let d := with_repairs d (merase r (d_repairs d)) in
                let d := with_missing d (merase k (d_missing d)) in
                let next := find (fun k' => mmem k' (d_missing d)) keys' in
                d <- rec d id data ;;
                match next with
                | None => Ok d
                | Some k' => if mmem k' (d_missing d) then scan rec m keys' d
                             else Fault DeadIterator
                end
              else scan rec m keys' d
          end
      | _ => scan rec m keys' d
      end
  end.

(** Lines 325-335. An already known source is kept by [emplace]. *)
Definition store (m : mode) (d : ddec) (id : N) (data : list N) : outcome ddec :=
  _ <- assert_ m (negb (mmem id (d_sources d))) ;;
  let d := with_sources d (mput id data (d_sources d)) in
  Ok (if d_in_order d && (d_first d <? id)
      then with_ordered d (sinsert id (d_ordered d)) else d).

(** [add_source_recursive], 249-337. Each recursive call is made with one missing
    source less: the fuel is never exhausted (proved in the facts file). *)
Fixpoint add_source (fuel : nat) (m : mode) (d : ddec) (id : N) (data : list N)
  : outcome ddec :=
  match fuel with
  | O => Fault OutOfFuel
  | S fuel =>
      d <- announce m d id data ;;
      d <- no_longer_missing m d id data ;;
      d <- scan (add_source fuel m) m (mkeys (d_missing d)) d ;;
      store m d id data
  end.

Definition enough (d : ddec) : nat := S (length (d_missing d)).

(** Lines 357-360: the links to repair [r] are removed. *)
Fixpoint unlink (r : N) (ids : list N) (missing : list (N * list N))
  : outcome (list (N * list N)) :=
  match ids with
  | [] => Ok missing
  | id :: ids' =>
      match mfind id missing with
      | None => Fault DeadIterator
      | Some links => unlink r ids' (mset id (serase r links) missing)
      end
  end.

(** The loop 348-367, on the repairs as they were at its start. *)
Fixpoint drop_repairs (m : mode) (id : N) (reps : list (N * drepair)) (d : ddec)
  : outcome ddec :=
  match reps with
  | [] => Ok d
  | (r, rep) :: reps' =>
      _ <- assert_ m (negb (Nat.eqb (length (dr_ids rep)) 0)) ;;
      match dr_ids rep with
      | [] => Fault EmptyFront
      | first :: _ =>
          if first <? id then
            missing <- unlink r (dr_ids rep) (d_missing d) ;;
            drop_repairs m id reps'
              (with_missing (with_repairs d (merase r (d_repairs d))) missing)
          else drop_repairs m id reps' d
      end
  end.

(** The loop 373-377. *)
Fixpoint deliver_outdated (l : list N) (d : ddec) : outcome ddec :=
  match l with
  | [] => Ok d
  | id :: l' =>
      d <- callback_ordered d id ;;
      deliver_outdated l' (with_ordered d (serase id (d_ordered d)))
  end.

(** [drop_outdated], 341-389. *)
Definition drop_outdated (m : mode) (d : ddec) (id : N) : outcome ddec :=
  let d := with_last d (Some id) in
  d <- drop_repairs m id (d_repairs d) d ;;
  d <- (if d_in_order d then
          d <- deliver_outdated (before id (d_ordered d)) d ;;
          flush m (if d_first d <? id then with_first d id else d)
        else Ok d) ;;
  let d := with_sources d (mfrom id (d_sources d)) in
  Ok (with_missing d (mfrom id (d_missing d))).

(** Lines 430-445: column [col] of the code is row [col] of the storage
    (Matrix.v). *)
Definition coefficients (f : field) (reps : list (N * drepair)) (missing : list N) : list N :=
  concat (map (fun '(r, rep) =>
                 map (fun id => if smem id (dr_ids rep) then coefficient f r id else 0)
                   missing) reps).

(** Lines 462-466: [m_missing_sources[src].erase(r_cit)], which creates the
    missing source if it is absent. *)
Fixpoint unlink_or_create (r : N) (ids : list N) (missing : list (N * list N))
  : list (N * list N) :=
  match ids with
  | [] => missing
  | id :: ids' =>
      let links := match mfind id missing with None => [] | Some l => l end in
      unlink_or_create r ids' (mset id (serase r links) missing)
  end.

(** Lines 449-471: the repair of column [k] is removed. *)
Definition failed_decoding (d : ddec) (k : nat) : outcome ddec :=
  let d := with_failed d (d_failed d + 1) in
  match nth_error (d_repairs d) k with
  | None => Fault DeadIterator
  | Some (r, rep) =>
      let d := with_missing d (unlink_or_create r (dr_ids rep) (d_missing d)) in
      Ok (with_repairs d (merase r (d_repairs d)))
  end.

(** The coefficients m_inv(0, col), m_inv(1, col), ... *)
Definition column (n : nat) (inv : list N) (col : nat) : list N :=
  firstn n (skipn (col * n) inv).

(** Lines 488-500. *)
Definition decode_size (f : field) (l : list (N * drepair)) : N :=
  fold_left (fun res '(c, r) =>
               if c =? 0 then res else N.lxor (u16 (multiply_size f (dr_enc r) c)) res) l 0.

(** Lines 530-537. *)
Fixpoint decode_rest (f : field) (src_sz : N) (l : list (N * drepair)) (data : list N)
  : outcome (list N) :=
  match l with
  | [] => Ok data
  | (c, r) :: l' =>
      if c =? 0 then decode_rest f src_sz l' data
      else
        data <- region_multiply_add f (dr_buf r) data (N.to_nat (N.min src_sz (dr_size r))) c ;;
        decode_rest f src_sz l' data
  end.

(** Lines 505-528: the zeroed buffer, and the first non-zero coefficient. *)
Fixpoint decode_symbol (m : mode) (f : field) (src_sz : N) (l : list (N * drepair))
  : outcome (list N) :=
  match l with
  | [] => _ <- assert_ m false ;; Fault OutOfBounds
  | (c, r) :: l' =>
      if c =? 0 then decode_symbol m f src_sz l'
      else
        let sz := N.to_nat (N.min src_sz (dr_size r)) in
        data <- region_multiply f (dr_buf r) sz c ;;
        decode_rest f src_sz l' (data ++ repeat 0 (N.to_nat src_sz - sz))
  end.

(** Lines 541-562. *)
Definition add_decoded (m : mode) (d : ddec) (id : N) (data : list N) : outcome ddec :=
  _ <- assert_ m (negb (mmem id (d_sources d))) ;;
  let data := match mfind id (d_sources d) with None => data | Some old => old end in
  let d := with_sources d (mput id data (d_sources d)) in
  if negb (d_in_order d) then Ok (callback d id data)
  else if id =? d_first d then
    let d := callback d id data in
    flush m (with_first d (u32 (d_first d + 1)))
  else Ok (with_ordered d (sinsert id (d_ordered d))).

(** The loop 484-556. *)
Fixpoint decode_all (m : mode) (n : nat) (inv : list N) (reps : list drepair) (col : nat)
  (missing : list N) (d : ddec) : outcome ddec :=
  match missing with
  | [] => Ok d
  | id :: missing' =>
      let l := combine (column n inv col) reps in
      let src_sz := decode_size (d_field d) l in
      data <- decode_symbol m (d_field d) src_sz l ;;
      d <- add_decoded m d id data ;;
      decode_all m n inv reps (S col) missing' d
  end.

(** [attempt_full_decoding], 412-566. In a build without assertions, more repairs
    than missing sources leave entries of the matrix with the values of an earlier
    use: this is a fault of the model. *)
Definition attempt_full_decoding (m : mode) (d : ddec) : outcome ddec :=
  let nr := length (d_repairs d) in
  let nm := length (d_missing d) in
  if Nat.eqb nr 0 || Nat.eqb nm 0 then Ok d
  else if Nat.ltb nr nm then Ok d
  else
    _ <- assert_ m (Nat.eqb nm nr) ;;
    _ <- assert_ m (Nat.ltb 1 nm) ;;
    if negb (Nat.eqb nm nr) then Fault Uninitialised
    else
      let coeffs := coefficients (d_field d) (d_repairs d) (mkeys (d_missing d)) in
      r <- invert (d_field d) nr coeffs (repeat 0 (nr * nr)) ;;
      match r with
      | inl k => failed_decoding d k
      | inr (_, inv) =>
          d' <- decode_all m nr inv (map snd (d_repairs d)) 0 (mkeys (d_missing d)) d ;;
          let d' := count_decoded d' (N.of_nat nm) in
          Ok (with_missing (with_repairs d' []) [])
      end.

(** Lines 36-40 and 60-64. *)
Definition outdated (d : ddec) (id : N) : bool := negb (not_outdated d id).

(** [operator()(decoder_source&&)], 34-50. *)
Definition recv_source (m : mode) (d : ddec) (id : N) (data : list N) : outcome ddec :=
  if outdated d id then Ok d
  else if mmem id (d_sources d) then Ok d
  else
    d <- add_source (enough d) m d id data ;;
    attempt_full_decoding m d.

(** The loop 97-127, on the identifiers in decreasing order. The reverse iterator
    stays meaningful after the [erase] of line 110, for the vector below the
    flat_set; this is not modelled further. *)
Fixpoint link_repair (m : mode) (ids : list N) (d : ddec) (r : drepair)
  : outcome (ddec * drepair) :=
  match ids with
  | [] => Ok (d, r)
  | id :: ids' =>
      match mfind id (d_sources d) with
      | Some data =>
          r <- remove_data m (d_field d) id data r ;;
          link_repair m ids' d (with_ids r (serase id (dr_ids r)))
      | None =>
          let links := match mfind id (d_missing d) with None => [] | Some l => l end in
          link_repair m ids' (with_missing d (mset id (sinsert (dr_id r) links) (d_missing d))) r
      end
  end.

(** [operator()(decoder_repair&&)], 54-152. *)
Definition recv_repair (m : mode) (d : ddec) (r : drepair) : outcome ddec :=
  _ <- assert_ m (negb (Nat.eqb (length (dr_ids r)) 0)) ;;
  match dr_ids r with
  | [] => Fault EmptyFront
  | first :: _ =>
      if outdated d (last (dr_ids r) 0) then Ok d
      else if mmem (dr_id r) (d_repairs d) then Ok d
      else
        d <- drop_outdated m d first ;;
        if forallb (fun id => mmem id (d_sources d)) (dr_ids r)
        then Ok (with_useless d (d_useless d + 1))
        else
          _ <- assert_ m (negb (mmem (dr_id r) (d_repairs d))) ;;
          '(d, r) <- link_repair m (rev (dr_ids r)) d r ;;
          let d := with_repairs d (mset (dr_id r) r (d_repairs d)) in
          _ <- assert_ m (negb (Nat.eqb (length (dr_ids r)) 0)) ;;
          if Nat.eqb (length (dr_ids r)) 1 then
            '(id, data) <- create_source m (d_field d) r ;;
            let d := count_decoded d 1 in
            let d := with_missing d (merase id (d_missing d)) in
            let d := with_repairs d (merase (dr_id r) (d_repairs d)) in
            add_source (enough d) m d id data
          else attempt_full_decoding m d
  end.
