(** * Model of the iterators and pointers kept by netcode/detail/decoder.{hh,cc}

    [DetailDecoder.v] replaces iterators and pointers by keys. There a
    dangling iterator is not noticed when another element with the same key was inserted.
    Here each element of the maps m_repairs, m_sources and m_missing_sources is an object with
    an address of its own: an address is given once and never again. What the code keeps
    are addresses: the sets of iterators in the missing sources (decoder.hh 47-53), the
    pointers of the ordered sources (decoder.hh 143), the index (decoder.hh 183), the local iterators.
    Every use of an address whose object does not exist is [Fault DeadIterator].

    The maps are node based: an address stays valid until its element is erased. *)
From Coq Require Import NArith List Bool.
From Verif Require Import Outcome GF Containers Packetizer Matrix DetailDecoder.
Import ListNotations.
Open Scope N_scope.
Open Scope outcome_scope.

(** ** Maps of objects *)

Section Nodes.
Context {V : Type}.

(** Key, address and value, sorted by key. *)
Definition nodes := list (N * (N * V)).

(** Dereference: the key and the value of the object at [p]. *)
Fixpoint node_at (p : N) (m : nodes) : option (N * V) :=
  match m with
  | [] => None
  | (k, (q, v)) :: m' => if p =? q then Some (k, v) else node_at p m'
  end.

Definition deref (p : N) (m : nodes) : outcome (N * V) :=
  match node_at p m with None => Fault DeadIterator | Some x => Ok x end.

(** An assignment through an iterator. *)
Fixpoint assign (p : N) (v : V) (m : nodes) : nodes :=
  match m with
  | [] => []
  | (k, (q, w)) :: m' => if p =? q then (k, (q, v)) :: m' else (k, (q, w)) :: assign p v m'
  end.

(** [map::erase(iterator)]. *)
Fixpoint erase_at (p : N) (m : nodes) : nodes :=
  match m with
  | [] => []
  | (k, (q, w)) :: m' => if p =? q then m' else (k, (q, w)) :: erase_at p m'
  end.

(** [begin()]; [None] is [end()]. *)
Definition first_node (m : nodes) : option N :=
  match m with [] => None | (_, (q, _)) :: _ => Some q end.

(** [++it]; also what [erase] returns. *)
Fixpoint next_node (p : N) (m : nodes) : option N :=
  match m with
  | [] => None
  | (_, (q, _)) :: m' => if p =? q then first_node m' else next_node p m'
  end.

(** [find(key)]: the address. *)
Definition find_node (k : N) (m : nodes) : option (N * V) := mfind k m.

(** What is left without the addresses. *)
Definition plain (m : nodes) : list (N * V) := map (fun '(k, (_, v)) => (k, v)) m.

End Nodes.
Arguments nodes : clear implicits.

(** The members, as in [ddec]; [n_next] is the next address. *)
Record ndec := {
  n_field : field;
  n_in_order : bool;
  n_first : N;
  n_ordered : list (N * N);             (* m_ordered_sources: identifier, pointer *)
  n_repairs : nodes drepair;            (* m_repairs *)
  n_sources : nodes (list N);           (* m_sources *)
  n_last : option N;
  n_missing : nodes (list N);           (* m_missing_sources: sets of iterators *)
  n_useless : N;
  n_failed : N;
  n_decoded : N;
  n_log : list event;
  n_next : N
}.

(** Constructor, decoder.cc 12-30. *)
Definition new_ndec (f : field) (in_order : bool) : ndec :=
  {| n_field := f; n_in_order := in_order; n_first := 0; n_ordered := [];
     n_repairs := []; n_sources := []; n_last := None; n_missing := [];
     n_useless := 0; n_failed := 0; n_decoded := 0; n_log := []; n_next := 0 |}.

(** Assignments to one member. *)
Definition set_first (d : ndec) x := {| n_field := n_field d; n_in_order := n_in_order d; n_first := x; n_ordered := n_ordered d; n_repairs := n_repairs d; n_sources := n_sources d; n_last := n_last d; n_missing := n_missing d; n_useless := n_useless d; n_failed := n_failed d; n_decoded := n_decoded d; n_log := n_log d; n_next := n_next d |}.
Definition set_ordered (d : ndec) x := {| n_field := n_field d; n_in_order := n_in_order d; n_first := n_first d; n_ordered := x; n_repairs := n_repairs d; n_sources := n_sources d; n_last := n_last d; n_missing := n_missing d; n_useless := n_useless d; n_failed := n_failed d; n_decoded := n_decoded d; n_log := n_log d; n_next := n_next d |}.
Definition set_repairs (d : ndec) x := {| n_field := n_field d; n_in_order := n_in_order d; n_first := n_first d; n_ordered := n_ordered d; n_repairs := x; n_sources := n_sources d; n_last := n_last d; n_missing := n_missing d; n_useless := n_useless d; n_failed := n_failed d; n_decoded := n_decoded d; n_log := n_log d; n_next := n_next d |}.
Definition set_sources (d : ndec) x := {| n_field := n_field d; n_in_order := n_in_order d; n_first := n_first d; n_ordered := n_ordered d; n_repairs := n_repairs d; n_sources := x; n_last := n_last d; n_missing := n_missing d; n_useless := n_useless d; n_failed := n_failed d; n_decoded := n_decoded d; n_log := n_log d; n_next := n_next d |}.
Definition set_last (d : ndec) x := {| n_field := n_field d; n_in_order := n_in_order d; n_first := n_first d; n_ordered := n_ordered d; n_repairs := n_repairs d; n_sources := n_sources d; n_last := x; n_missing := n_missing d; n_useless := n_useless d; n_failed := n_failed d; n_decoded := n_decoded d; n_log := n_log d; n_next := n_next d |}.
Definition set_missing (d : ndec) x := {| n_field := n_field d; n_in_order := n_in_order d; n_first := n_first d; n_ordered := n_ordered d; n_repairs := n_repairs d; n_sources := n_sources d; n_last := n_last d; n_missing := x; n_useless := n_useless d; n_failed := n_failed d; n_decoded := n_decoded d; n_log := n_log d; n_next := n_next d |}.
Definition set_useless (d : ndec) x := {| n_field := n_field d; n_in_order := n_in_order d; n_first := n_first d; n_ordered := n_ordered d; n_repairs := n_repairs d; n_sources := n_sources d; n_last := n_last d; n_missing := n_missing d; n_useless := x; n_failed := n_failed d; n_decoded := n_decoded d; n_log := n_log d; n_next := n_next d |}.
Definition set_failed (d : ndec) x := {| n_field := n_field d; n_in_order := n_in_order d; n_first := n_first d; n_ordered := n_ordered d; n_repairs := n_repairs d; n_sources := n_sources d; n_last := n_last d; n_missing := n_missing d; n_useless := n_useless d; n_failed := x; n_decoded := n_decoded d; n_log := n_log d; n_next := n_next d |}.
Definition set_decoded (d : ndec) x := {| n_field := n_field d; n_in_order := n_in_order d; n_first := n_first d; n_ordered := n_ordered d; n_repairs := n_repairs d; n_sources := n_sources d; n_last := n_last d; n_missing := n_missing d; n_useless := n_useless d; n_failed := n_failed d; n_decoded := x; n_log := n_log d; n_next := n_next d |}.

(** A new address, for an object that is about to be inserted. *)
Definition set_next (d : ndec) : ndec := {| n_field := n_field d; n_in_order := n_in_order d; n_first := n_first d; n_ordered := n_ordered d; n_repairs := n_repairs d; n_sources := n_sources d; n_last := n_last d; n_missing := n_missing d; n_useless := n_useless d; n_failed := n_failed d; n_decoded := n_decoded d; n_log := n_log d; n_next := n_next d + 1 |}.

(** [m_callback(src)]. *)
Definition ncallback (d : ndec) (id : N) (data : list N) : ndec := {| n_field := n_field d; n_in_order := n_in_order d; n_first := n_first d; n_ordered := n_ordered d; n_repairs := n_repairs d; n_sources := n_sources d; n_last := n_last d; n_missing := n_missing d; n_useless := n_useless d; n_failed := n_failed d; n_decoded := n_decoded d;
  n_log := n_log d ++ [{| v_id := id; v_data := data; v_known := mkeys (n_sources d) |}]; n_next := n_next d |}.

(** [m_callback( *cit->second )]. *)
Definition ncallback_at (d : ndec) (p : N) : outcome ndec :=
  '(id, data) <- deref p (n_sources d) ;;
  Ok (ncallback d id data).

(** [m_sources.emplace(id, data)]: an existing element is kept. The address of the element
    comes with it. *)
Definition emplace_source (d : ndec) (id : N) (data : list N) : ndec * N :=
  match find_node id (n_sources d) with
  | Some (p, _) => (d, p)
  | None => (set_next (set_sources d (mset id (n_next d, data) (n_sources d))), n_next d)
  end.

(** [m_ordered_sources.emplace(id, p)]: an existing element is kept. *)
Definition emplace_ordered (d : ndec) (id p : N) : ndec := set_ordered d (mput id p (n_ordered d)).

(** ** Sets of iterators on repairs

    [cmp_repairs_iterator], decoder.hh 32-42, dereferences both iterators. Which elements a search
    compares depends on the search; here it dereferences all of them. *)
Fixpoint all_alive (reps : nodes drepair) (l : list N) : outcome unit :=
  match l with
  | [] => Ok tt
  | p :: l' => _ <- deref p reps ;; all_alive reps l'
  end.

Definition key_at (reps : nodes drepair) (p : N) : N :=
  match node_at p reps with None => 0 | Some (k, _) => k end.

(** The position of key [k], once all iterators were dereferenced. *)
Fixpoint link_insert (reps : nodes drepair) (k p : N) (l : list N) : list N :=
  match l with
  | [] => [p]
  | q :: l' =>
      if k <? key_at reps q then p :: l
      else if k =? key_at reps q then l
      else q :: link_insert reps k p l'
  end.

Fixpoint link_erase (reps : nodes drepair) (k : N) (l : list N) : list N :=
  match l with
  | [] => []
  | q :: l' => if k =? key_at reps q then l' else q :: link_erase reps k l'
  end.

(** [emplace(r_cit)]. *)
Definition links_emplace (reps : nodes drepair) (p : N) (l : list N) : outcome (list N) :=
  '(k, _) <- deref p reps ;;
  _ <- all_alive reps l ;;
  Ok (link_insert reps k p l).

(** [erase(r_cit)], which takes the iterator as a key. *)
Definition links_erase (reps : nodes drepair) (p : N) (l : list N) : outcome (list N) :=
  '(k, _) <- deref p reps ;;
  _ <- all_alive reps l ;;
  Ok (link_erase reps k l).

(** ** The functions of decoder.cc *)

(** The loop of [flush_ordered_sources], 577-589; [l] is the part of the ordered sources that
    starts at the iterator. *)
Fixpoint nflush_loop (m : mode) (l : list (N * N)) (d : ndec) : outcome ndec :=
  match l with
  | [] => Ok d
  | (id, p) :: l' =>
      _ <- assert_ m (id =? n_first d) ;;
      d <- ncallback_at d p ;;
      let d := set_ordered d (merase id (n_ordered d)) in
      let d := set_first d (u32 (n_first d + 1)) in
      match l' with
      | [] => Ok d
      | (id', _) :: _ => if n_first d <? id' then Ok d else nflush_loop m l' d
      end
  end.

(** [flush_ordered_sources], 570-591. *)
Definition nflush (m : mode) (d : ndec) : outcome ndec :=
  if mmem (n_first d) (n_ordered d)
  then nflush_loop m (mfrom (n_first d) (n_ordered d)) d
  else Ok d.

(** Lines 252-263. *)
Definition nannounce (m : mode) (d : ndec) (id : N) (data : list N) : outcome ndec :=
  if negb (n_in_order d) then Ok (ncallback d id data)
  else if id =? n_first d then
    let d := ncallback d id data in
    nflush m (set_first d (u32 (n_first d + 1)))
  else Ok d.

(** Lines 269-273. *)
Fixpoint nremove_from_repairs (m : mode) (f : field) (id : N) (data : list N)
  (links : list N) (reps : nodes drepair) : outcome (nodes drepair) :=
  match links with
  | [] => Ok reps
  | p :: links' =>
      '(_, rep) <- deref p reps ;;
      rep <- remove_source m f id data rep ;;
      nremove_from_repairs m f id data links' (assign p rep reps)
  end.

(** Lines 265-277. *)
Definition nno_longer_missing (m : mode) (d : ndec) (id : N) (data : list N) : outcome ndec :=
  match find_node id (n_missing d) with
  | None => Ok d
  | Some (q, links) =>
      reps <- nremove_from_repairs m (n_field d) id data links (n_repairs d) ;;
      Ok (set_missing (set_repairs d reps) (erase_at q (n_missing d)))
  end.

(** Lines 295-297 and 137. *)
Definition nnot_outdated (d : ndec) (id : N) : bool :=
  match n_last d with None => true | Some l => l <=? id end.

(** The loop 281-323: [it] is miss_cit, [None] is miss_end. [rec] is the recursive call. The fuel is never exhausted
    (proved). *)
Fixpoint nscan (rec : ndec -> N -> list N -> outcome ndec) (m : mode) (fuel : nat) (it : option N)
  (d : ndec) : outcome ndec :=
  match it with
  | None => Ok d
  | Some q =>
      match fuel with
      | O => Fault OutOfFuel
      | S fuel =>
          '(_, links) <- deref q (n_missing d) ;;
          match links with
          | [p] =>
              '(_, rep) <- deref p (n_repairs d) ;;
              if Nat.eqb (length (dr_ids rep)) 1 then
                _ <- assert_ m (nnot_outdated d (hd 0 (dr_ids rep))) ;;
                _ <- assert_ m (negb (mmem (hd 0 (dr_ids rep)) (n_sources d))) ;;
                '(id, data) <- create_source m (n_field d) rep ;;
                let d := set_decoded d (n_decoded d + 1) in
                let d := set_repairs d (erase_at p (n_repairs d)) in
                let it := next_node q (n_missing d) in
                let d := set_missing d (erase_at q (n_missing d)) in
                d <- rec d id data ;;
                nscan rec m fuel it d
              else nscan rec m fuel (next_node q (n_missing d)) d
          | _ => nscan rec m fuel (next_node q (n_missing d)) d
          end
      end
  end.

(** Lines 325-335. *)
Definition nstore (m : mode) (d : ndec) (id : N) (data : list N) : outcome ndec :=
  _ <- assert_ m (negb (mmem id (n_sources d))) ;;
  let '(d, p) := emplace_source d id data in
  Ok (if n_in_order d && (n_first d <? id) then emplace_ordered d id p else d).

(** [add_source_recursive], 249-337. *)
Fixpoint nadd_source (fuel : nat) (m : mode) (d : ndec) (id : N) (data : list N) : outcome ndec :=
  match fuel with
  | O => Fault OutOfFuel
  | S fuel =>
      d <- nannounce m d id data ;;
      d <- nno_longer_missing m d id data ;;
      d <- nscan (nadd_source fuel m) m (length (n_missing d)) (first_node (n_missing d)) d ;;
      nstore m d id data
  end.

Definition nenough (d : ndec) : nat := S (length (n_missing d)).

(** Lines 357-360: [m_missing_sources.find(src_id)->second.erase(cit)]. *)
Fixpoint nunlink (reps : nodes drepair) (p : N) (ids : list N) (missing : nodes (list N))
  : outcome (nodes (list N)) :=
  match ids with
  | [] => Ok missing
  | id :: ids' =>
      match find_node id missing with
      | None => Fault DeadIterator
      | Some (q, links) =>
          links <- links_erase reps p links ;;
          nunlink reps p ids' (assign q links missing)
      end
  end.

(** The loop 348-367, [it] is [cit]. *)
Fixpoint ndrop_repairs (m : mode) (id : N) (fuel : nat) (it : option N) (d : ndec) : outcome ndec :=
  match it with
  | None => Ok d
  | Some p =>
      match fuel with
      | O => Fault OutOfFuel
      | S fuel =>
          '(_, rep) <- deref p (n_repairs d) ;;
          _ <- assert_ m (negb (Nat.eqb (length (dr_ids rep)) 0)) ;;
          match dr_ids rep with
          | [] => Fault EmptyFront
          | first :: _ =>
              if first <? id then
                missing <- nunlink (n_repairs d) p (dr_ids rep) (n_missing d) ;;
                let it := next_node p (n_repairs d) in
                ndrop_repairs m id fuel it
                  (set_missing (set_repairs d (erase_at p (n_repairs d))) missing)
              else ndrop_repairs m id fuel (next_node p (n_repairs d)) d
          end
      end
  end.

(** The loop 373-377. *)
Fixpoint ndeliver_outdated (l : list (N * N)) (d : ndec) : outcome ndec :=
  match l with
  | [] => Ok d
  | (id, p) :: l' =>
      d <- ncallback_at d p ;;
      ndeliver_outdated l' (set_ordered d (merase id (n_ordered d)))
  end.

Definition mbefore {V} (id : N) (l : list (N * V)) : list (N * V) := filter (fun '(x, _) => x <? id) l.

(** [drop_outdated], 341-389. *)
Definition ndrop_outdated (m : mode) (d : ndec) (id : N) : outcome ndec :=
  let d := set_last d (Some id) in
  d <- ndrop_repairs m id (length (n_repairs d)) (first_node (n_repairs d)) d ;;
  d <- (if n_in_order d then
          d <- ndeliver_outdated (mbefore id (n_ordered d)) d ;;
          nflush m (if n_first d <? id then set_first d id else d)
        else Ok d) ;;
  let d := set_sources d (mfrom id (n_sources d)) in
  Ok (set_missing d (mfrom id (n_missing d))).

(** Lines 462-466: [m_missing_sources[src].erase(r_cit)], which creates the missing source if it
    is absent. *)
Fixpoint nunlink_or_create (p : N) (ids : list N) (d : ndec) : outcome ndec :=
  match ids with
  | [] => Ok d
  | id :: ids' =>
      match find_node id (n_missing d) with
      | None =>
          nunlink_or_create p ids' (set_next (set_missing d (mset id (n_next d, []) (n_missing d))))
      | Some (q, links) =>
          links <- links_erase (n_repairs d) p links ;;
          nunlink_or_create p ids' (set_missing d (assign q links (n_missing d)))
      end
  end.

(** Lines 449-471: [std::advance(r_cit, k)]. *)
Definition nfailed_decoding (d : ndec) (k : nat) : outcome ndec :=
  let d := set_failed d (n_failed d + 1) in
  match nth_error (n_repairs d) k with
  | None => Fault DeadIterator
  | Some (_, (p, rep)) =>
      d <- nunlink_or_create p (dr_ids rep) d ;;
      Ok (set_repairs d (erase_at p (n_repairs d)))
  end.

(** m_index[0], m_index[1], ... dereferenced. *)
Fixpoint deref_all (reps : nodes drepair) (l : list N) : outcome (list drepair) :=
  match l with
  | [] => Ok []
  | p :: l' => '(_, rep) <- deref p reps ;; rest <- deref_all reps l' ;; Ok (rep :: rest)
  end.

(** Lines 541-562. *)
Definition nadd_decoded (m : mode) (d : ndec) (id : N) (data : list N) : outcome ndec :=
  _ <- assert_ m (negb (mmem id (n_sources d))) ;;
  let '(d, p) := emplace_source d id data in
  '(id, data) <- deref p (n_sources d) ;;
  if negb (n_in_order d) then Ok (ncallback d id data)
  else if id =? n_first d then
    let d := ncallback d id data in
    nflush m (set_first d (u32 (n_first d + 1)))
  else Ok (emplace_ordered d id p).

(** The loop 484-556, on the missing sources as they were at its start; the loop changes none of
    them. *)
Fixpoint ndecode_all (m : mode) (n : nat) (inv : list N) (index : list N) (col : nat)
  (missing : list N) (d : ndec) : outcome ndec :=
  match missing with
  | [] => Ok d
  | id :: missing' =>
      reps <- deref_all (n_repairs d) index ;;
      let l := combine (column n inv col) reps in
      let src_sz := decode_size (n_field d) l in
      data <- decode_symbol m (n_field d) src_sz l ;;
      d <- nadd_decoded m d id data ;;
      ndecode_all m n inv index (S col) missing' d
  end.

(** [attempt_full_decoding], 412-566. *)
Definition nattempt_full_decoding (m : mode) (d : ndec) : outcome ndec :=
  let nr := length (n_repairs d) in
  let nm := length (n_missing d) in
  if Nat.eqb nr 0 || Nat.eqb nm 0 then Ok d
  else if Nat.ltb nr nm then Ok d
  else
    _ <- assert_ m (Nat.eqb nm nr) ;;
    _ <- assert_ m (Nat.ltb 1 nm) ;;
    if negb (Nat.eqb nm nr) then Fault Uninitialised
    else
      let coeffs := coefficients (n_field d) (plain (n_repairs d)) (mkeys (n_missing d)) in
      r <- invert (n_field d) nr coeffs (repeat 0 (nr * nr)) ;;
      match r with
      | inl k => nfailed_decoding d k
      | inr (_, inv) =>
          let index := map (fun '(_, (p, _)) => p) (n_repairs d) in
          d' <- ndecode_all m nr inv index 0 (mkeys (n_missing d)) d ;;
          let d' := set_decoded d' (n_decoded d' + N.of_nat nm) in
          Ok (set_missing (set_repairs d' []) [])
      end.

Definition noutdated (d : ndec) (id : N) : bool := negb (nnot_outdated d id).

(** [operator()(decoder_source&&)], 34-50. *)
Definition nrecv_source (m : mode) (d : ndec) (id : N) (data : list N) : outcome ndec :=
  if noutdated d id then Ok d
  else if mmem id (n_sources d) then Ok d
  else
    d <- nadd_source (nenough d) m d id data ;;
    nattempt_full_decoding m d.

(** [flat_set::erase(position)]: the elements behind it move. *)
Definition erase_position (i : nat) (l : list N) : list N := firstn i l ++ skipn (S i) l.

(** The loop 102-127, on the repair at address [p]. The reverse iterator is the position [i] of
    its base in the vector below the flat_set: it stands for the element at [i - 1] and is at the end of the loop
    when [i] is zero. [std::next(id_rcit).base()] is [i - 1]. The erasure moves only elements at or behind [i].

    By the documentation of flat_set, [erase] invalidates all iterators at or behind the erased element, hence the base
    of the reverse iterator, and the base of [end] when the first element is erased. With [strict] the next use of such a reverse iterator
    is a fault. *)
Fixpoint nlink_repair (strict : bool) (m : mode) (i : nat) (p : N) (d : ndec) : outcome ndec :=
  match i with
  | O => Ok d
  | S i' =>
      '(_, r) <- deref p (n_repairs d) ;;
      match nth_error (dr_ids r) i' with
      | None => Fault OutOfBounds
      | Some id =>
          match find_node id (n_sources d) with
          | Some (_, data) =>
              r <- remove_data m (n_field d) id data r ;;
              let d := set_repairs d (assign p (with_ids r (erase_position i' (dr_ids r))) (n_repairs d)) in
              if strict then Fault DeadIterator else nlink_repair strict m i' p d
          | None =>
              match find_node id (n_missing d) with
              | None =>
                  let d := set_next (set_missing d (mset id (n_next d, [p]) (n_missing d))) in
                  nlink_repair strict m i' p d
              | Some (q, links) =>
                  links <- links_emplace (n_repairs d) p links ;;
                  nlink_repair strict m i' p (set_missing d (assign q links (n_missing d)))
              end
          end
      end
  end.

(** [operator()(decoder_repair&&)], 54-152. *)
Definition nrecv_repair (strict : bool) (m : mode) (d : ndec) (r : drepair) : outcome ndec :=
  _ <- assert_ m (negb (Nat.eqb (length (dr_ids r)) 0)) ;;
  match dr_ids r with
  | [] => Fault EmptyFront
  | first :: _ =>
      if noutdated d (last (dr_ids r) 0) then Ok d
      else if mmem (dr_id r) (n_repairs d) then Ok d
      else
        d <- ndrop_outdated m d first ;;
        if forallb (fun id => mmem id (n_sources d)) (dr_ids r)
        then Ok (set_useless d (n_useless d + 1))
        else
          _ <- assert_ m (negb (mmem (dr_id r) (n_repairs d))) ;;
          let p := n_next d in
          let d := set_next (set_repairs d (mset (dr_id r) (p, r) (n_repairs d))) in
          d <- nlink_repair strict m (length (dr_ids r)) p d ;;
          '(_, r) <- deref p (n_repairs d) ;;
          _ <- assert_ m (negb (Nat.eqb (length (dr_ids r)) 0)) ;;
          if Nat.eqb (length (dr_ids r)) 1 then
            '(id, data) <- create_source m (n_field d) r ;;
            let d := set_decoded d (n_decoded d + 1) in
            let d := set_missing d (merase id (n_missing d)) in
            let d := set_repairs d (erase_at p (n_repairs d)) in
            nadd_source (nenough d) m d id data
          else nattempt_full_decoding m d
  end.
