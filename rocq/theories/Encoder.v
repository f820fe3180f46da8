(** * Model of the encoder: [netcode/encoder.hh], [netcode/detail/encoder.cc],
      [netcode/detail/source_list.hh] *)
From Coq Require Import NArith List Bool.
From Verif Require Import Outcome GF Containers Packetizer Rate.
Import ListNotations.
Open Scope N_scope.

(** Counters of type [std::size_t]. *)
Definition u64 (x : N) : N := x mod 18446744073709551616.

(** ** Making a repair, detail/encoder.cc *)

(** detail/source.hh 58-63: the size of a source, truncated to 16 bits. *)
Definition es_size (s : esource) : N := u16 (N.of_nat (length (es_data s))).

(** [zero_byte_buffer::resize]: growing adds zeros. *)
Definition resize (n : nat) (l : list N) : list N := firstn n l ++ repeat 0 (n - length l).

(** detail/encoder.cc 42-63: the remaining sources. *)
Fixpoint encode_loop (f : field) (l : list esource) (r : erepair) : outcome erepair :=
  match l with
  | [] => Ok r
  | s :: l' =>
      let size := N.to_nat (es_size s) in
      let sym := if Nat.ltb (length (er_sym r)) size then resize size (er_sym r) else er_sym r in
      let c := coefficient f (er_id r) (es_id s) in
      sym <- region_multiply_add f (es_data s) sym size c ;;
      encode_loop f l'
        {| er_id := er_id r;
           er_ids := sinsert (es_id s) (er_ids r);
           er_enc := N.lxor (multiply_size f (es_size s) c) (er_enc r);
           er_sym := sym |}
  end.

(** detail/encoder.cc 15-64. The repair was reset before (encoder.hh 165).
    The iterator of an empty list is dereferenced in Release mode. *)
Definition encode (f : field) (m : mode) (id : N) (sources : list esource) : outcome erepair :=
  _ <- assert_ m (Nat.ltb 0 (length sources)) ;;
  match sources with
  | [] => Fault DeadIterator
  | s :: l =>
      let c := coefficient f id (es_id s) in
      sym <- region_multiply f (es_data s) (N.to_nat (es_size s)) c ;;
      encode_loop f l
        {| er_id := id; er_ids := [es_id s]; er_enc := multiply_size f (es_size s) c;
           er_sym := sym |}
  end.

(** ** The window, detail/source_list.hh *)

(** [source_list::erase], 33-60: a merge of the sources with the ids to erase. *)
Fixpoint erase_sources (sources : list esource) : list N -> list esource :=
  match sources with
  | [] => fun _ => []
  | s :: sources' =>
      fix go (ids : list N) : list esource :=
        match ids with
        | [] => s :: sources'
        | i :: ids' =>
            if es_id s =? i then erase_sources sources' ids'
            else if i <? es_id s then go ids'
            else s :: erase_sources sources' ids
        end
  end.

(** ** The encoder, encoder.hh *)

(** The members 346-394; [m_repair] is scratch space. *)
Record enc := {
  e_field : field;
  e_systematic : bool;
  e_rate : N;
  e_window_size : N;
  e_adaptive : bool;
  e_source_id : N;
  e_repair_id : N;
  e_sources : list esource;
  e_nb_sent_repairs : N;
  e_nb_acks : N;
  e_nb_sent_sources : N;
  e_nb_sent_packets : N
}.

(** The constructor, 49-77. *)
Definition new_encoder (f : field) : enc := {|
  e_field := f;
  e_systematic := true;
  e_rate := 5;
  e_window_size := 18446744073709551615;
  e_adaptive := false;
  e_source_id := 0;
  e_repair_id := 0;
  e_sources := [];
  e_nb_sent_repairs := 0;
  e_nb_acks := 0;
  e_nb_sent_sources := 0;
  e_nb_sent_packets := 0
|}.

(** A packet given to the packet handler: the concatenation of its calls up to
    the one that marks the end. *)
Definition packet : Type := list N.

(** [generate_repair], 161-169, and [mk_repair], 320-333. *)
Definition generate_repair (m : mode) (e : enc) : outcome (enc * list packet) :=
  _ <- assert_ m (Nat.ltb 0 (length (e_sources e))) ;;
  r <- encode (e_field e) m (e_repair_id e) (e_sources e) ;;
  w <- write_repair m r ;;
  Ok ({| e_field := e_field e;
         e_systematic := e_systematic e;
         e_rate := e_rate e;
         e_window_size := e_window_size e;
         e_adaptive := e_adaptive e;
         e_source_id := e_source_id e;
         e_repair_id := u32 (e_repair_id e + 1);
         e_sources := e_sources e;
         e_nb_sent_repairs := u64 (e_nb_sent_repairs e + 1);
         e_nb_acks := e_nb_acks e;
         e_nb_sent_sources := e_nb_sent_sources e;
         e_nb_sent_packets := u16 (e_nb_sent_packets e + 1) |},
      [concat w]).

(** 258-264: make room in the window and append the new source. [pop_front] of
    an empty list (a window size of 0) is undefined. *)
Definition push_source (e : enc) (s : esource) : outcome (list esource) :=
  if N.of_nat (length (e_sources e)) =? e_window_size e
  then match e_sources e with
       | [] => Fault EmptyFront
       | _ :: l => Ok (l ++ [s])
       end
  else Ok (e_sources e ++ [s]).

(** 266-276: send the new source, or a repair. *)
Definition send_source (m : mode) (e : enc) (s : esource) : outcome (enc * list packet) :=
  if e_systematic e
  then Ok ({| e_field := e_field e;
              e_systematic := e_systematic e;
              e_rate := e_rate e;
              e_window_size := e_window_size e;
              e_adaptive := e_adaptive e;
              e_source_id := e_source_id e;
              e_repair_id := e_repair_id e;
              e_sources := e_sources e;
              e_nb_sent_repairs := e_nb_sent_repairs e;
              e_nb_acks := e_nb_acks e;
              e_nb_sent_sources := u64 (e_nb_sent_sources e + 1);
              e_nb_sent_packets := u16 (e_nb_sent_packets e + 1) |},
           [concat (write_source s)])
  else generate_repair m e.

Definition with_sources (e : enc) (l : list esource) : enc := {|
  e_field := e_field e;
  e_systematic := e_systematic e;
  e_rate := e_rate e;
  e_window_size := e_window_size e;
  e_adaptive := e_adaptive e;
  e_source_id := e_source_id e;
  e_repair_id := e_repair_id e;
  e_sources := l;
  e_nb_sent_repairs := e_nb_sent_repairs e;
  e_nb_acks := e_nb_acks e;
  e_nb_sent_sources := e_nb_sent_sources e;
  e_nb_sent_packets := e_nb_sent_packets e |}.

Definition with_source_id (e : enc) (i : N) : enc := {|
  e_field := e_field e;
  e_systematic := e_systematic e;
  e_rate := e_rate e;
  e_window_size := e_window_size e;
  e_adaptive := e_adaptive e;
  e_source_id := i;
  e_repair_id := e_repair_id e;
  e_sources := e_sources e;
  e_nb_sent_repairs := e_nb_sent_repairs e;
  e_nb_acks := e_nb_acks e;
  e_nb_sent_sources := e_nb_sent_sources e;
  e_nb_sent_packets := e_nb_sent_packets e |}.

(** [commit_impl], 253-285. The sum 279 is one of 32-bit unsigned integers. *)
Definition commit (m : mode) (e : enc) (d : list N) : outcome (enc * list packet) :=
  let s := {| es_id := e_source_id e; es_data := d |} in
  l <- push_source e s ;;
  '(e, out1) <- send_source m (with_sources e l) s ;;
  if e_rate e =? 0 then Fault DivisionByZero
  else
    '(e, out2) <- (if u32 (e_source_id e + 1) mod e_rate e =? 0
                   then generate_repair m e else Ok (e, [])) ;;
    Ok (with_source_id e (u32 (e_source_id e + 1)), out1 ++ out2).

(** [operator()(data&&)], 86-96. *)
Definition enc_data (m : mode) (e : enc) (d : list N) : outcome (enc * list packet) :=
  _ <- assert_ m (Nat.ltb 0 (length d)) ;;
  _ <- assert_ m (match e_field e with
                  | W16 | W32 => aligned (e_field e) (length d)
                  | _ => true
                  end) ;;
  commit m e d.

Definition with_ack (e : enc) : enc := {|
  e_field := e_field e;
  e_systematic := e_systematic e;
  e_rate := e_rate e;
  e_window_size := e_window_size e;
  e_adaptive := e_adaptive e;
  e_source_id := e_source_id e;
  e_repair_id := e_repair_id e;
  e_sources := e_sources e;
  e_nb_sent_repairs := e_nb_sent_repairs e;
  e_nb_acks := u64 (e_nb_acks e + 1);
  e_nb_sent_sources := e_nb_sent_sources e;
  e_nb_sent_packets := e_nb_sent_packets e |}.

(** 301-315: what a well-formed ack does. *)
Definition apply_ack (e : enc) (a : ack) : outcome enc :=
  rate <- (if e_adaptive e then adapted_rate (e_nb_sent_packets e) (a_nb a) else Ok (e_rate e)) ;;
  Ok {|
    e_field := e_field e;
    e_systematic := e_systematic e;
    e_rate := rate;
    e_window_size := e_window_size e;
    e_adaptive := e_adaptive e;
    e_source_id := e_source_id e;
    e_repair_id := e_repair_id e;
    e_sources := erase_sources (e_sources e) (a_ids a);
    e_nb_sent_repairs := e_nb_sent_repairs e;
    e_nb_acks := e_nb_acks e;
    e_nb_sent_sources := e_nb_sent_sources e;
    e_nb_sent_packets := 0 |}.

(** [operator()(packet&&)], 105-111, and [notify_impl], 287-318. The state is
    returned also for a call that throws: the ack is counted (299) before it is
    read (300). *)
Definition notify (m : mode) (e : enc) (p : packet) : enc * outcome nat :=
  match (_ <- assert_ m (Nat.ltb 0 (length p)) ;; get_packet_type p) with
  | Ok TAck =>
      let e := with_ack e in
      match read_ack m p with
      | Ok (a, n) =>
          match apply_ack e a with
          | Ok e => (e, Ok n)
          | Throw x => (e, Throw x)
          | Fault x => (e, Fault x)
          end
      | Throw x => (e, Throw x)
      | Fault x => (e, Fault x)
      end
  | Ok _ => (e, Throw PacketTypeError)
  | Throw x => (e, Throw x)
  | Fault x => (e, Fault x)
  end.

(** [window], 113-119. *)
Definition window (e : enc) : N := N.of_nat (length (e_sources e)).

(** [set_code_type], 179-186. *)
Definition set_code_type (e : enc) (systematic : bool) : enc := {|
  e_field := e_field e;
  e_systematic := systematic;
  e_rate := e_rate e;
  e_window_size := e_window_size e;
  e_adaptive := e_adaptive e;
  e_source_id := e_source_id e;
  e_repair_id := e_repair_id e;
  e_sources := e_sources e;
  e_nb_sent_repairs := e_nb_sent_repairs e;
  e_nb_acks := e_nb_acks e;
  e_nb_sent_sources := e_nb_sent_sources e;
  e_nb_sent_packets := e_nb_sent_packets e |}.

(** [set_rate], 196-205. *)
Definition set_rate (m : mode) (e : enc) (rate : N) : outcome enc :=
  _ <- assert_ m (0 <? rate) ;;
  Ok {|
    e_field := e_field e;
    e_systematic := e_systematic e;
    e_rate := rate;
    e_window_size := e_window_size e;
    e_adaptive := e_adaptive e;
    e_source_id := e_source_id e;
    e_repair_id := e_repair_id e;
    e_sources := e_sources e;
    e_nb_sent_repairs := e_nb_sent_repairs e;
    e_nb_acks := e_nb_acks e;
    e_nb_sent_sources := e_nb_sent_sources e;
    e_nb_sent_packets := e_nb_sent_packets e |}.

(** [set_window_size], 215-224. *)
Definition set_window_size (m : mode) (e : enc) (size : N) : outcome enc :=
  _ <- assert_ m (0 <? size) ;;
  Ok {|
    e_field := e_field e;
    e_systematic := e_systematic e;
    e_rate := e_rate e;
    e_window_size := size;
    e_adaptive := e_adaptive e;
    e_source_id := e_source_id e;
    e_repair_id := e_repair_id e;
    e_sources := e_sources e;
    e_nb_sent_repairs := e_nb_sent_repairs e;
    e_nb_acks := e_nb_acks e;
    e_nb_sent_sources := e_nb_sent_sources e;
    e_nb_sent_packets := e_nb_sent_packets e |}.

(** [set_adaptive], 234-241. *)
Definition set_adaptive (e : enc) (adaptive : bool) : enc := {|
  e_field := e_field e;
  e_systematic := e_systematic e;
  e_rate := e_rate e;
  e_window_size := e_window_size e;
  e_adaptive := adaptive;
  e_source_id := e_source_id e;
  e_repair_id := e_repair_id e;
  e_sources := e_sources e;
  e_nb_sent_repairs := e_nb_sent_repairs e;
  e_nb_acks := e_nb_acks e;
  e_nb_sent_sources := e_nb_sent_sources e;
  e_nb_sent_packets := e_nb_sent_packets e |}.
