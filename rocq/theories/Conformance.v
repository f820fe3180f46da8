(** * The unit tests of the library, run on the model

    Each example is a TEST_CASE of tests/netcode (named beside it); the required
    values are those of the REQUIREs. These are tests of the model, not proofs
    of properties: they check that the model computes what the library's authors
    require of the code. As in the tests, assertions are on and a test is run
    for each size of the field unless its name says otherwise.

    Left out: what the model has no counterpart for (addresses: test_buffer.cc
    17-37; data and decoders of the C interface: c/test_data.cc, c/test_decoder.cc) and
    the inputs of thousands of bytes (detail/test_encoder.cc 45-84), which are
    instances of C17. *)
From Coq Require Import ZArith NArith List Bool.
From Verif Require Import Outcome GF Containers Matrix Packetizer Encoder DetailDecoder Decoder Packet.
Import ListNotations.
Open Scope N_scope.
Open Scope outcome_scope.

(** ** The means of the tests: common.hh, launch.hh *)

Definition passes (t : outcome bool) : bool := match t with Ok b => b | _ => false end.
Definition launch (fields : list field) (t : field -> outcome bool) : bool := forallb (fun f => passes (t f)) fields.
Definition all_fields : list field := [W4; W8; W16; W32].

(** REQUIRE. *)
Definition require (b : bool) (k : outcome bool) : outcome bool := if b then k else Ok false.
Notation "'REQUIRE' b ;; k" := (require b k) (at level 61, b at next level, right associativity).
Definition done : outcome bool := Ok true.

Fixpoint same (a b : list N) : bool :=
  match a, b with
  | [], [] => true
  | x :: a', y :: b' => (x =? y) && same a' b'
  | _, _ => false
  end.
Fixpoint same_all (a b : list (list N)) : bool :=
  match a, b with
  | [], [] => true
  | x :: a', y :: b' => same x y && same_all a' b'
  | _, _ => false
  end.

(** Characters. *)
Definition a := 97. Definition b := 98. Definition c := 99. Definition d := 100. Definition e := 101.
Definition x := 120.
Definition abcd := [97; 98; 99; 100].
Definition efgh := [101; 102; 103; 104; 105; 106; 107; 108].

Definition mk_decoder_repair (r : erepair) : drepair :=
  {| dr_id := er_id r; dr_ids := er_ids r; dr_enc := er_enc r; dr_buf := er_sym r; dr_size := N.of_nat (length (er_sym r)) |}.
Definition source_list (l : list (N * list N)) : list esource := map (fun s => {| es_id := fst s; es_data := snd s |}) l.
Definition make_repair (f : field) (id : N) (l : list (N * list N)) : outcome erepair := encode f Debug id (source_list l).

Definition give_source (s : ddec) (id : N) (data : list N) : outcome ddec := recv_source Debug s id data.
Definition give_repair (s : ddec) (r : erepair) : outcome ddec := recv_repair Debug s (mk_decoder_repair r).

(** sources().size(), missing_sources().size(), repairs().size(). *)
Definition sizes (s : ddec) (sources missing repairs : nat) : bool :=
  Nat.eqb (length (d_sources s)) sources && Nat.eqb (length (d_missing s)) missing && Nat.eqb (length (d_repairs s)) repairs.
Definition has_source (s : ddec) (id : N) (data : list N) : bool :=
  match mfind id (d_sources s) with Some l => same l data | None => false end.
Definition sources_are (s : ddec) (ids : list N) : bool := same (mkeys (d_sources s)) ids.
Definition missing_are (s : ddec) (ids : list N) : bool := same (mkeys (d_missing s)) ids.

(** ** detail/test_galois_field.cc *)

Example operations_on_single_elements : launch all_fields (fun f => Ok (gf_multiply f 5 (gf_invert f 5) =? 1)) = true.
Proof. vm_compute. reflexivity. Qed.

(** ** detail/test_square_matrix.cc, detail/test_invert_matrix.cc *)

Definition fill (n : nat) : outcome (list N) :=
  loop (seq 0 n) (fun i v => loop (seq 0 n) (fun j v => set v (index n i j) (N.of_nat (i * n + j))) v) (repeat 0 (n * n)).

Example stores_column_by_column :
  fill 4 = Ok [0; 4; 8; 12; 1; 5; 9; 13; 2; 6; 10; 14; 3; 7; 11; 15].
Proof. vm_compute. reflexivity. Qed.

(** 3 x 3, identity(i, j) is the sum of m(i, k) * inv(k, j). *)
Example matrix_is_correctly_inverted : launch all_fields (fun f =>
  m <- fill 3 ;;
  r <- invert f 3 m (repeat 0 9) ;;
  match r with
  | inl _ => Ok false
  | inr (_, inv) =>
      Ok (forallb (fun i => forallb (fun j =>
            fold_left (fun acc k => N.lxor acc (gf_multiply f (nth (index 3 i k) m 0) (nth (index 3 k j) inv 0))) (seq 0 3) 0
            =? (if Nat.eqb i j then 1 else 0)) (seq 0 3)) (seq 0 3))
  end) = true.
Proof. vm_compute. reflexivity. Qed.

Example non_invertible_matrix :
  invert W8 3 [0; 2; 4; 8; 10; 12; 16; 18; 20] (repeat 0 9) = Ok (inl 2%nat).
Proof. vm_compute. reflexivity. Qed.

(** ** detail/test_source_list.cc *)

Definition some_sources := source_list [(0, []); (1, []); (2, []); (3, [])].
Definition left (l : list esource) : list N := map es_id l.

Example remove_sources :
  left (erase_sources some_sources [0; 1; 2; 3]) = []
  /\ left (erase_sources some_sources [0; 3]) = [1; 2]
  /\ left (erase_sources (erase_sources some_sources [0; 3]) [1]) = [2]
  /\ left (erase_sources some_sources [0; 2; 9]) = [1; 3]
  /\ left (erase_sources (erase_sources some_sources [0; 2]) [0]) = [1; 3]
  /\ left (erase_sources (erase_sources (erase_sources some_sources [0; 2; 9]) [0]) [1]) = [3]
  /\ left (erase_sources (source_list [(1, [])]) [0; 1]) = [].
Proof. vm_compute. repeat (split; [reflexivity|]). reflexivity. Qed.

(** ** detail/test_packetizer.cc *)

Example ack_is_deserialized :
  match read_ack Debug (concat (write_ack {| a_ids := [0; 1; 2; 3]; a_nb := 33 |})) with
  | Ok (k, _) => same (a_ids k) [0; 1; 2; 3] && (a_nb k =? 33)
  | _ => false
  end = true.
Proof. vm_compute. reflexivity. Qed.

Definition repair_comes_back (r : erepair) : bool :=
  passes (
    w <- write_repair Debug r ;;
    '(s, _) <- read_repair Debug (concat w) ;;
    Ok ((er_id r =? dr_id s) && same (er_ids r) (dr_ids s) && (er_enc r =? dr_enc s) && same (er_sym r) (dr_sym s))).

Example repair_is_deserialized : forallb repair_comes_back
  [ {| er_id := 42; er_enc := 54; er_ids := [1; 2; 3; 4]; er_sym := [a; b; c] |};
    {| er_id := 42; er_enc := 3; er_ids := map N.of_nat (seq 0 1024); er_sym := [a; b; c] |};
    {| er_id := 42; er_enc := 54; er_ids := [0; 1; 4; 5; 6; 100; 101]; er_sym := [a; b; c] |};
    {| er_id := 2 ^ 20; er_enc := 54; er_ids := map (N.add (2 ^ 21)) [0; 1; 2; 100; 101]; er_sym := [a; b; c] |};
    {| er_id := 0; er_enc := 33; er_ids := [4242]; er_sym := [x] |} ] = true.
Proof. vm_compute. reflexivity. Qed.

Example source_is_deserialized : passes (
  let w := concat (write_source {| es_id := 394839; es_data := abcd |}) in
  REQUIRE Nat.eqb (length w) (1 + 4 + 2 + 4) ;;
  '(s, _) <- read_source Debug w ;;
  Ok ((ds_id s =? 394839) && (ds_size s =? 4) && same (ds_data s) abcd)) = true.
Proof. vm_compute. reflexivity. Qed.

(** 512 bytes, all zero but the type and the size. *)
Definition crafted (type size : N) : list N := type :: repeat 0 4 ++ be 2 size ++ repeat 0 505.

Example prevent_buffer_overflow :
  read_repair Debug (crafted 1 1024) = Throw OverflowError
  /\ read_source Debug (crafted 2 1024) = Throw OverflowError
  /\ (exists s, read_source Debug (crafted 2 (512 - 7)) = Ok s)
  /\ read_source Debug (crafted 2 (512 - 7 + 1)) = Throw OverflowError.
Proof. vm_compute. split; [reflexivity|]. split; [reflexivity|]. split; [eexists; reflexivity | reflexivity]. Qed.

(** ** detail/test_encoder.cc *)

Example create_repairs : launch all_fields (fun f =>
  r <- make_repair f 0 [(0, []); (1, []); (2, []); (3, []); (4, [])] ;;
  Ok (same (er_ids r) [0; 1; 2; 3; 4])) = true.
Proof. vm_compute. reflexivity. Qed.

(** ** test_reconstruction.cc *)

Example encode_one_source : launch all_fields (fun f =>
  r <- make_repair f 0 [(0, abcd)] ;;
  let inv := gf_invert f (coefficient f 0 0) in
  let size := multiply_size f (er_enc r) inv in
  REQUIRE size =? 4 ;;
  s <- region_multiply f (er_sym r) (N.to_nat size) inv ;;
  Ok (same s abcd)) = true.
Proof. vm_compute. reflexivity. Qed.

Example encode_two_sizes : launch all_fields (fun f =>
  let c0 := coefficient f 0 0 in
  let c1 := coefficient f 0 1 in
  let r := gf_multiply f c0 4 in
  REQUIRE gf_multiply f (gf_invert f c0) r =? 4 ;;
  let r := N.lxor r (gf_multiply f c1 5) in
  REQUIRE gf_multiply f (gf_invert f c1) (N.lxor r (gf_multiply f c0 4)) =? 5 ;;
  Ok (gf_multiply f (gf_invert f c0) (N.lxor r (gf_multiply f c1 5)) =? 4)) = true.
Proof. vm_compute. reflexivity. Qed.

Example encode_two_sources : launch all_fields (fun f =>
  r <- make_repair f 0 [(0, abcd); (1, efgh)] ;;
  REQUIRE same (er_ids r) [0; 1] ;;
  let c0 := coefficient f 0 0 in
  let c1 := coefficient f 0 1 in
  (* s0 is lost *)
  let size := multiply_size f (N.lxor (multiply_size f 8 c1) (er_enc r)) (gf_invert f c0) in
  REQUIRE size =? 4 ;;
  sym <- region_multiply_add f efgh (er_sym r) 8 c1 ;;
  s <- region_multiply f sym 4 (gf_invert f c0) ;;
  REQUIRE same s abcd ;;
  (* s1 is lost *)
  let size := multiply_size f (N.lxor (multiply_size f 4 c0) (er_enc r)) (gf_invert f c1) in
  REQUIRE size =? 8 ;;
  sym <- region_multiply_add f abcd (er_sym r) 4 c0 ;;
  s <- region_multiply f sym 8 (gf_invert f c1) ;;
  Ok (same s efgh)) = true.
Proof. vm_compute. reflexivity. Qed.

Example two_sources_lost : launch all_fields (fun f =>
  r0 <- make_repair f 0 [(0, abcd); (1, efgh)] ;;
  r1 <- make_repair f 1 [(0, abcd); (1, efgh)] ;;
  REQUIRE same (er_ids r0) [0; 1] && same (er_ids r1) [0; 1] ;;
  (* mat(src, repair), stored by columns *)
  let mat := [coefficient f 0 0; coefficient f 0 1; coefficient f 1 0; coefficient f 1 1] in
  r <- invert f 2 mat (repeat 0 4) ;;
  match r with
  | inl _ => Ok false
  | inr (_, inv) =>
      let at_ row col := nth (index 2 row col) inv 0 in
      let size col := N.lxor (multiply_size f (er_enc r0) (at_ 0%nat col)) (multiply_size f (er_enc r1) (at_ 1%nat col)) in
      REQUIRE (size 0%nat =? 4) && (size 1%nat =? 8) ;;
      let rebuild col n :=
        s <- region_multiply f (er_sym r0) n (at_ 0%nat col) ;; region_multiply_add f (er_sym r1) s n (at_ 1%nat col) in
      s0 <- rebuild 0%nat 4%nat ;;
      s1 <- rebuild 1%nat 8%nat ;;
      Ok (same s0 abcd && same s1 efgh)
  end) = true.
Proof. vm_compute. reflexivity. Qed.

(** ** detail/test_decoder.cc *)

Example reconstruct_a_source_from_a_repair : launch all_fields (fun f =>
  r <- make_repair f 0 [(0, abcd)] ;;
  '(_, s) <- create_source Debug f (mk_decoder_repair r) ;;
  Ok (same s abcd)) = true.
Proof. vm_compute. reflexivity. Qed.

Example remove_a_source_from_a_repair : launch all_fields (fun f =>
  r <- make_repair f 0 [(0, abcd); (1, efgh)] ;;
  r0 <- remove_source Debug f 0 abcd (mk_decoder_repair r) ;;
  REQUIRE same (dr_ids r0) [1] ;;
  '(_, s1) <- create_source Debug f r0 ;;
  REQUIRE same s1 efgh ;;
  r1 <- remove_source Debug f 1 efgh (mk_decoder_repair r) ;;
  REQUIRE same (dr_ids r1) [0] ;;
  '(_, s0) <- create_source Debug f r1 ;;
  Ok (same s0 abcd)) = true.
Proof. vm_compute. reflexivity. Qed.

Fixpoint give_empty (s : ddec) (ids : list N) : outcome ddec :=
  match ids with
  | [] => Ok s
  | i :: ids' => s <- give_source s i [] ;; give_empty s ids'
  end.
Definition empty (ids : list N) : list (N * list N) := map (fun i => (i, [])) ids.

Example useless_repair : launch all_fields (fun f =>
  r <- make_repair f 0 (empty [0; 1; 2; 3; 4]) ;;
  s <- give_empty (new_ddec f false) [0; 1; 2; 3; 4] ;;
  s <- give_repair s r ;;
  Ok (sizes s 5 0 0 && (d_useless s =? 1))) = true.
Proof. vm_compute. reflexivity. Qed.

Example missing_sources : launch all_fields (fun f =>
  r <- make_repair f 0 (empty [0; 1; 2; 3; 4]) ;;
  s <- give_empty (new_ddec f false) [0; 2; 4] ;;
  s <- give_repair s r ;;
  Ok (sizes s 3 2 1 && (d_useless s =? 0))) = true.
Proof. vm_compute. reflexivity. Qed.

Example drop_outdated_sources : launch all_fields (fun f =>
  s <- give_empty (new_ddec f false) [0; 1] ;;
  REQUIRE sizes s 2 0 0 ;;
  r <- make_repair f 0 (empty [2; 3; 4]) ;;
  (* sources lost *)
  t <- give_repair s r ;;
  REQUIRE sizes t 0 3 1 && missing_are t [2; 3; 4] && (d_useless t =? 0) ;;
  (* sources received *)
  t <- give_empty s [2; 3; 4] ;;
  t <- give_repair t r ;;
  Ok (sizes t 3 0 0 && sources_are t [2; 3; 4] && (d_useless t =? 1))) = true.
Proof. vm_compute. reflexivity. Qed.

Example drop_outdated_lost_sources : launch all_fields (fun f =>
  r0 <- make_repair f 0 (empty [0; 1]) ;;
  s <- give_repair (new_ddec f false) r0 ;;
  REQUIRE missing_are s [0; 1] ;;
  REQUIRE match mfind 0 (d_repairs s) with Some r => Nat.ltb 0 (length (dr_ids r)) | None => false end ;;
  r1 <- make_repair f 1 (empty [2; 3]) ;;
  (* sources lost *)
  t <- give_repair s r1 ;;
  REQUIRE sizes t 0 2 1 && missing_are t [2; 3] && (d_useless t =? 0) ;;
  (* sources received *)
  t <- give_empty s [2; 3] ;;
  t <- give_repair t r1 ;;
  Ok (sizes t 2 0 0 && sources_are t [2; 3] && (d_useless t =? 1))) = true.
Proof. vm_compute. reflexivity. Qed.

Example one_source_lost_encoded_in_one_received_repair : launch all_fields (fun f =>
  r <- make_repair f 0 [(0, abcd)] ;;
  s <- give_repair (new_ddec f false) r ;;
  Ok (match d_log s with [v] => (v_id v =? 0) && same (v_data v) abcd | _ => false end
      (* repair with only one source *)
      && sizes s 1 0 0 && has_source s 0 abcd)) = true.
Proof. vm_compute. reflexivity. Qed.

Definition s0 := repeat a 4. Definition s1 := repeat b 8. Definition s2 := repeat c 12.
Definition s3 := repeat d 4. Definition s4 := repeat e 8.

Example lost_sources_from_2_repairs : launch all_fields (fun f =>
  r0 <- make_repair f 0 [(0, abcd); (1, efgh)] ;;
  r1 <- make_repair f 1 [(0, abcd); (1, efgh)] ;;
  s <- give_repair (new_ddec f false) r0 ;;
  REQUIRE sizes s 0 2 1 && missing_are s [0; 1] && same (mkeys (d_repairs s)) [0] ;;
  (* source after repair *)
  t <- give_source s 0 abcd ;;
  REQUIRE sizes t 2 0 0 && has_source t 0 abcd && has_source t 1 efgh ;;
  (* 2 lost sources from 2 repairs *)
  s <- give_repair s r1 ;;
  Ok ((d_failed s =? 0) && sizes s 2 0 0 && has_source s 0 abcd && has_source s 1 efgh)) = true.
Proof. vm_compute. reflexivity. Qed.

(** 325-480: with [outdated] the first two sources leave the window before the others come. *)
Definition several_lost (outdated : bool) (f : field) : outcome bool :=
  let l := [(0, s0); (1, s1)] in
  r0 <- make_repair f 0 l ;;
  r1 <- make_repair f 1 l ;;
  s <- give_repair (new_ddec f false) r0 ;;
  REQUIRE sizes s 0 2 1 && missing_are s [0; 1] ;;
  s <- give_repair s r1 ;;
  REQUIRE sizes s 2 0 0 && has_source s 0 s0 && has_source s 1 s1 ;;
  let l := if outdated then [] else l in
  let n := if outdated then 0%nat else 2%nat in
  r2 <- make_repair f 2 (l ++ [(2, s2); (3, s3)]) ;;
  r3 <- make_repair f 3 (l ++ [(2, s2); (3, s3); (4, s4)]) ;;
  r4 <- make_repair f 4 (l ++ [(2, s2); (3, s3); (4, s4)]) ;;
  r5 <- make_repair f 5 (l ++ [(2, s2); (3, s3); (4, s4)]) ;;
  s <- give_repair s r2 ;;
  REQUIRE sizes s n 2 1 ;;
  s <- give_repair s r3 ;;
  REQUIRE sizes s n 3 2 ;;
  s <- give_repair s r4 ;;
  s <- (if d_failed s =? 0 then Ok s
        else if Nat.eqb (length (d_repairs s)) 2
             then s <- give_repair s r5 ;; if d_failed s =? 1 then Ok s else Fault AssertFailure
             else Fault AssertFailure) ;;
  Ok (sizes s (n + 3) 0 0 && has_source s 2 s2 && has_source s 3 s3 && has_source s 4 s4).

Example several_lost_sources_from_several_repairs :
  launch all_fields (several_lost false) = true /\ launch all_fields (several_lost true) = true.
Proof. split; vm_compute; reflexivity. Qed.

Example duplicate_source : launch all_fields (fun f =>
  s <- give_source (new_ddec f false) 0 [] ;;
  REQUIRE sizes s 1 0 0 && (d_useless s =? 0) ;;
  s <- give_source s 0 [] ;;
  Ok (sizes s 1 0 0 && (d_useless s =? 0))) = true.
Proof. vm_compute. reflexivity. Qed.

Example source_and_repair_again : launch all_fields (fun f =>
  r0 <- make_repair f 0 (empty [0]) ;;
  s <- give_repair (new_ddec f false) r0 ;;
  REQUIRE sizes s 1 0 0 && sources_are s [0] && (d_useless s =? 0) ;;
  (* out-of-order source after repair: lost source is not outdated *)
  t <- give_source s 0 [] ;;
  REQUIRE sources_are t [0] ;;
  (* duplicate repair 1: reconstructed source is not outdated *)
  t <- give_repair s r0 ;;
  REQUIRE sizes t 1 0 0 && (d_useless t =? 1) ;;
  r1 <- make_repair f 0 (empty [1]) ;;
  s <- give_repair s r1 ;;
  REQUIRE sources_are s [1] ;;
  (* lost source is outdated *)
  t <- give_source s 0 [] ;;
  REQUIRE sources_are t [1] ;;
  (* reconstructed source is outdated *)
  t <- give_repair s r0 ;;
  Ok (sizes t 1 0 0 && sources_are t [1] && (d_useless t =? 0))) = true.
Proof. vm_compute. reflexivity. Qed.

Example duplicate_repair_2 : launch all_fields (fun f =>
  r0 <- make_repair f 0 (empty [0; 1]) ;;
  s <- give_repair (new_ddec f false) r0 ;;
  REQUIRE sizes s 0 2 1 && (d_useless s =? 0) ;;
  s <- give_repair s r0 ;;
  Ok (sizes s 0 2 1 && (d_useless s =? 0))) = true.
Proof. vm_compute. reflexivity. Qed.

Example one_packet_loss : launch all_fields (fun f =>
  r0 <- make_repair f 0 [(0, s0); (1, s1); (2, s2); (3, s3)] ;;
  s <- give_source (new_ddec f false) 1 s1 ;;
  s <- give_source s 2 s2 ;;
  s <- give_source s 3 s3 ;;
  REQUIRE sources_are s [1; 2; 3] ;;
  s <- give_repair s r0 ;;
  Ok (sizes s 4 0 0 && sources_are s [0; 1; 2; 3] && (d_useless s =? 0) && (d_failed s =? 0))) = true.
Proof. vm_compute. reflexivity. Qed.

Example two_repairs_for_3_sources : launch all_fields (fun f =>
  let l := [(0, repeat a 4); (1, repeat b 12); (2, repeat c 4)] in
  r0 <- make_repair f 0 l ;;
  r1 <- make_repair f 1 l ;;
  s <- give_repair (new_ddec f false) r0 ;;
  s <- give_repair s r1 ;;
  REQUIRE (d_decoded s =? 0) && Nat.eqb (length (d_missing s)) 3 ;;
  s <- give_source s 2 (repeat c 4) ;;
  REQUIRE (d_decoded s =? 2) && Nat.eqb (length (d_missing s)) 0 ;;
  Ok (forallb (fun v => match mfind (v_id v) l with Some data => same data (v_data v) | None => false end) (d_log s))) = true.
Proof. vm_compute. reflexivity. Qed.

Example outdating_repair : launch all_fields (fun f =>
  r0 <- make_repair f 0 [(0, repeat a 4); (1, repeat b 12); (2, repeat c 4)] ;;
  s <- give_source (new_ddec f true) 0 (repeat a 4) ;;
  s <- give_repair s r0 ;;
  Ok ((d_decoded s =? 0) && Nat.eqb (length (d_missing s)) 2)) = true.
Proof. vm_compute. reflexivity. Qed.

(** ** test_encoder.cc *)

(** A sender and the packets its handler got. *)
Definition new_enc (f : field) (rate window : N) (systematic : bool) : outcome enc :=
  s <- set_rate Debug (new_encoder f) rate ;;
  s <- set_window_size Debug s window ;;
  Ok (set_code_type s systematic).
Definition no_limit : N := 18446744073709551615.

Fixpoint enc_all (s : enc) (l : list (list N)) : outcome (enc * list packet) :=
  match l with
  | [] => Ok (s, [])
  | data :: l' => '(s, out) <- enc_data Debug s data ;; '(s, out') <- enc_all s l' ;; Ok (s, out ++ out')
  end.

Definition types (l : list packet) : list N :=
  map (fun p => match get_packet_type p with Ok TAck => 0 | Ok TRepair => 1 | Ok TSource => 2 | _ => 9 end) l.
Definition xs (n : nat) : list N := repeat x n.

Example window_size : launch all_fields (fun f =>
  s <- new_enc f 1 no_limit true ;;
  '(s, _) <- enc_data Debug s (xs 12) ;;
  REQUIRE window s =? 1 ;;
  '(s, _) <- enc_data Debug s (xs 16) ;;
  REQUIRE window s =? 2 ;;
  '(s, _) <- enc_data Debug s (xs 64) ;;
  Ok (window s =? 3)) = true.
Proof. vm_compute. reflexivity. Qed.

Example limited_window : launch all_fields (fun f =>
  s <- new_enc f 5 4 true ;;
  '(s, _) <- enc_all s [xs 8; xs 16; xs 32; xs 8; xs 24] ;;
  REQUIRE window s =? 4 ;;
  '(s, _) <- enc_data Debug s (xs 72) ;;
  Ok (window s =? 4)) = true.
Proof. vm_compute. reflexivity. Qed.

(** With data of 4 bytes instead of 96. *)
Example generates_repairs : launch all_fields (fun f =>
  s <- new_enc f 5 no_limit true ;;
  '(s, _) <- enc_all s (repeat (xs 4) 100) ;;
  Ok (e_nb_sent_repairs s =? 100 / 5)) = true.
Proof. vm_compute. reflexivity. Qed.

Definition returns {A} (p : A * outcome nat) : bool := match snd p with Ok _ => true | _ => false end.
Definition rejects {A B} (p : A * outcome B) : bool := match snd p with Throw PacketTypeError => true | _ => false end.
Definition an_ack (ids : list N) (nb : N) : packet := concat (write_ack {| a_ids := ids; a_nb := nb |}).

Example new_incoming_packets : launch all_fields (fun f =>
  s <- new_enc f 5 no_limit true ;;
  '(s, _) <- enc_all s (repeat (xs 512) 4) ;;
  REQUIRE window s =? 4 ;;
  (* incoming ack *)
  let t := notify Debug s (an_ack [0; 2; 9] 0) in
  REQUIRE returns t && (window (fst t) =? 2) ;;
  let t := notify Debug (fst t) (an_ack [0] 0) in
  REQUIRE returns t && (window (fst t) =? 2) ;;
  let t := notify Debug (fst t) (an_ack [1] 0) in
  REQUIRE returns t && (window (fst t) =? 1) ;;
  (* incoming repair *)
  w <- write_repair Debug {| er_id := 0; er_enc := 42; er_ids := [0; 1]; er_sym := [x] |} ;;
  let t := notify Debug s (concat w) in
  REQUIRE rejects t && (window (fst t) =? 4) ;;
  (* incoming source *)
  let t := notify Debug s (concat (write_source {| es_id := 0; es_data := [] |})) in
  Ok (rejects t && (window (fst t) =? 4))) = true.
Proof. vm_compute. reflexivity. Qed.

Example sends_correct_sources : launch all_fields (fun f =>
  '(_, out) <- enc_data Debug (new_encoder f) [65; 66; 67; 68] ;;
  match out with
  | [p] => Ok (Nat.eqb (length p) (1 + 4 + 2 + 4) && same (skipn (1 + 4 + 2) p) [65; 66; 67; 68])
  | _ => Ok false
  end) = true.
Proof. vm_compute. reflexivity. Qed.

Example sends_repairs : launch all_fields (fun f =>
  s <- new_enc f 1 no_limit true ;;
  '(_, out) <- enc_data Debug s abcd ;;
  Ok (same (types out) [2; 1])) = true.
Proof. vm_compute. reflexivity. Qed.

Example invalid_memory_access_scenario : launch all_fields (fun f =>
  s <- new_enc f 5 no_limit true ;;
  '(s, out) <- enc_all s [xs 4; repeat 121 4; repeat 121 4; repeat 121 4; repeat 121 4] ;;
  Ok (Nat.eqb (length out) 6 && (e_nb_sent_repairs s =? 1) && (e_nb_sent_sources s =? 5) && (e_nb_acks s =? 0))) = true.
Proof. vm_compute. reflexivity. Qed.

Example non_systematic_encoder : launch all_fields (fun f =>
  s <- new_enc f 3 no_limit false ;;
  let check s w n := (e_nb_sent_sources s =? 0) && (window s =? w) && (e_nb_sent_repairs s =? n) in
  '(s, o1) <- enc_data Debug s (xs 8) ;;
  REQUIRE check s 1 1 ;;
  '(s, o2) <- enc_data Debug s (xs 24) ;;
  REQUIRE check s 2 2 ;;
  '(s, o3) <- enc_data Debug s (xs 76) ;;
  REQUIRE check s 3 4 ;;
  '(s, o4) <- enc_data Debug s (xs 32) ;;
  REQUIRE check s 4 5 ;;
  Ok (same (types (o1 ++ o2 ++ o3 ++ o4)) [1; 1; 1; 1; 1])) = true.
Proof. vm_compute. reflexivity. Qed.

Example rejects_sources_and_repairs : launch all_fields (fun f =>
  let s := new_encoder f in
  w <- write_repair Debug {| er_id := 42; er_enc := 54; er_ids := [0; 1]; er_sym := xs 1024 |} ;;
  Ok (rejects (notify Debug s (concat w))
      && rejects (notify Debug s (concat (write_source {| es_id := 394839; es_data := abcd |})))
      && rejects (notify Debug s [33; 35; 1; 0]))) = true.
Proof. vm_compute. reflexivity. Qed.

(** With data of one byte instead of 32 and one field. *)
Example adapts_rate_automatically : launch [W8] (fun f =>
  s <- new_enc f 1 no_limit true ;;
  let s := set_adaptive s true in
  '(s, _) <- enc_all s (repeat [x] 100) ;;
  REQUIRE (window s =? 100) && (e_rate s =? 1) ;;
  let t := notify Debug s (an_ack (map N.of_nat (seq 0 100)) 200) in
  REQUIRE returns t && (window (fst t) =? 0) && (e_rate (fst t) =? 50) ;;
  '(s, _) <- enc_all (fst t) (repeat [x] 100) ;;
  REQUIRE window s =? 100 ;;
  let t := notify Debug s (an_ack (map (fun i => 100 + 2 * N.of_nat i) (seq 0 50)) 50) in
  Ok (returns t && (e_rate (fst t) =? 1))) = true.
Proof. vm_compute. reflexivity. Qed.

(** ** test_decoder.cc *)

(** The clock stands still; 200 ms pass where a test sleeps. *)
Definition standing : clock := fun _ => 0%Z.
Definition after_200_ms (reads : nat) : clock := fun n => if Nat.ltb n reads then 0%Z else 200000000%Z.

(** A receiver with the period and the number of packets of its acks. *)
Definition receiver (f : field) (ordered : bool) (period : Z) (nb : N) : outcome dec :=
  set_ack_nb_packets Debug (set_ack_period (new_dec standing f ordered) period) nb.

(** Give packets; the data and the acks of the handlers. *)
Fixpoint dec_all (s : dec) (l : list packet) : outcome (dec * list dout) :=
  match l with
  | [] => Ok (s, [])
  | p :: l' =>
      match dec_packet Debug standing s p with
      | (s, Ok (out, _)) => '(s, out') <- dec_all s l' ;; Ok (s, out ++ out')
      | (_, Throw y) => Throw y
      | (_, Fault y) => Fault y
      end
  end.
Definition pick (l : list packet) (is : list nat) : list packet := map (fun i => nth i l []) is.

(** nb_received_sources, nb_received_repairs, nb_missing_sources, nb_decoded. *)
Definition counts (s : dec) (sources repairs missing decoded : N) : bool :=
  (dc_nb_sources s =? sources) && (dc_nb_repairs s =? repairs) && (nb_missing_sources s =? missing) && (d_decoded (dc_core s) =? decoded).

(** Send the picked packets to a fresh receiver. *)
Definition gets (f : field) (ordered : bool) (out : list packet) (is : list nat) (sources repairs missing decoded : N)
  (data : list (list N)) : outcome bool :=
  t <- receiver f ordered 0 50 ;;
  '(t, got) <- dec_all t (pick out is) ;;
  Ok (counts t sources repairs missing decoded && same_all (to_user got) data).

Example gives_a_correct_source_to_user : launch all_fields (fun f =>
  '(_, out) <- enc_data Debug (new_encoder f) abcd ;;
  '(_, got) <- dec_all (new_dec standing f true) out ;;
  Ok (same_all (to_user got) [abcd])) = true.
Proof. vm_compute. reflexivity. Qed.

Example repairs_a_lost_source : launch all_fields (fun f =>
  s <- new_enc f 1 no_limit true ;;
  '(_, out) <- enc_data Debug s abcd ;;
  '(t, got) <- dec_all (new_dec standing f true) (pick out [1%nat]) ;;
  Ok (counts t 0 1 0 1 && same_all (to_user got) [abcd])) = true.
Proof. vm_compute. reflexivity. Qed.

Example generate_correct_ack : launch all_fields (fun f =>
  s <- new_enc f 100 no_limit true ;;
  '(s, out) <- enc_data Debug s abcd ;;
  REQUIRE window s =? 1 ;;
  t <- receiver f true 100 50 ;;
  '(t, _) <- dec_all t out ;;
  let acked u :=
    (dc_nb_acks (fst u) =? 1) &&
    match to_network (snd u) with
    | [p] => let n := notify Debug s p in returns n && (window (fst n) =? 0)
    | _ => false
    end in
  (* force ack *)
  REQUIRE acked (generate_ack t) ;;
  (* wait for trigger *)
  Ok (acked (maybe_ack (after_200_ms (dc_reads t)) t))) = true.
Proof. vm_compute. reflexivity. Qed.

Example acks_when_N_packets_are_received : launch all_fields (fun f =>
  s <- new_enc f 100 no_limit true ;;
  '(s, out) <- enc_all s (repeat [97; 98; 99; 100; 101; 102; 103; 105] 4) ;;
  REQUIRE (window s =? 4) && same (types out) [2; 2; 2; 2] ;;
  t <- receiver f true 0 4 ;;
  '(t, got) <- dec_all t out ;;
  Ok (same (types (to_network got)) [0])) = true.
Proof. vm_compute. reflexivity. Qed.

Definition test_case_0 (ordered : bool) (f : field) : outcome bool :=
  s <- new_enc f 4 3 true ;;
  '(s, out) <- enc_all s [repeat a 4; repeat b 4; repeat c 8; repeat d 4] ;;
  REQUIRE (window s =? 3) && same (types out) [2; 2; 2; 2; 1] ;;
  gets f ordered out [1; 2; 3; 4]%nat 3 1 0 0 [repeat b 4; repeat c 8; repeat d 4].

Example lost_packet_with_limited_window :
  launch all_fields (test_case_0 true) = true /\ launch all_fields (test_case_0 false) = true.
Proof. split; vm_compute; reflexivity. Qed.

(** Not with the field of 4 bits, as in the test. *)
Definition test_non_systematic (ordered : bool) (f : field) : outcome bool :=
  s <- new_enc f 4 no_limit false ;;
  '(_, out) <- enc_all s [s0; s1; s2; s3] ;;
  REQUIRE same (types out) [1; 1; 1; 1; 1] ;;
  let all is := gets f ordered out is 0 4 0 4 [s0; s1; s2; s3] in
  r <- all [1; 2; 3; 4]%nat ;;
  REQUIRE r ;;
  r <- all [0; 1; 3; 4]%nat ;;
  REQUIRE r ;;
  all [0; 1; 2; 3]%nat.

Example non_systematic_code :
  launch [W8; W16; W32] (test_non_systematic true) = true /\ launch [W8; W16; W32] (test_non_systematic false) = true.
Proof. split; vm_compute; reflexivity. Qed.

Example invalid_read_scenario : launch all_fields (fun f =>
  s <- new_enc f 3 no_limit false ;;
  '(_, out) <- enc_all s [repeat a 4; repeat b 4; repeat c 4] ;;
  REQUIRE same (types out) [1; 1; 1; 1] ;;
  gets f true out [1; 2; 3]%nat 0 3 0 3 [repeat a 4; repeat b 4; repeat c 4]) = true.
Proof. vm_compute. reflexivity. Qed.

Example in_order_decoder : launch all_fields (fun f =>
  s <- new_enc f 4 no_limit true ;;
  let data := [repeat a 4; repeat b 4; repeat c 4; repeat d 4] in
  '(_, out) <- enc_all s data ;;
  REQUIRE same (types out) [2; 2; 2; 2; 1] ;;
  r <- gets f true out [0; 3; 1; 2; 4]%nat 4 1 0 0 data ;;
  REQUIRE r ;;
  r <- gets f true out [3; 2; 1; 0; 4]%nat 4 1 0 0 data ;;
  REQUIRE r ;;
  gets f true out [0; 4; 3; 1; 2]%nat 4 1 0 1 data) = true.
Proof. vm_compute. reflexivity. Qed.

Example in_order_decoder_missing_sources : launch all_fields (fun f =>
  s <- new_enc f 3 3 true ;;
  let d0 := repeat a 4 in let d1 := repeat b 16 in let d2 := repeat c 8 in
  let d3 := repeat d 4 in let d4 := repeat e 12 in let d5 := repeat 102 4 in
  '(_, out) <- enc_all s [d0; d1; d2; d3; d4; d5] ;;
  REQUIRE same (types out) [2; 2; 2; 1; 2; 2; 2; 1] ;;
  (* right order *)
  t <- receiver f true 0 50 ;;
  '(t, _) <- dec_all t (pick out [0; 3]%nat) ;;
  REQUIRE nb_missing_sources t =? 2 ;;
  r <- gets f true out [0; 3; 4; 5; 6; 7]%nat 4 2 0 0 [d0; d3; d4; d5] ;;
  REQUIRE r ;;
  (* wrong order 1, 2, 3 *)
  r <- gets f true out [0; 4; 5; 6; 7; 3]%nat 4 2 0 0 [d0; d3; d4; d5] ;;
  REQUIRE r ;;
  r <- gets f true out [4; 5; 6; 7; 3; 0]%nat 4 2 0 0 [d3; d4; d5] ;;
  REQUIRE r ;;
  r <- gets f true out [5; 6; 7; 3; 0; 4]%nat 4 2 0 1 [d3; d4; d5] ;;
  REQUIRE r ;;
  (* outdated sources *)
  gets f true out [1; 2; 4; 5; 6; 7]%nat 5 1 0 0 [d1; d2; d3; d4; d5]) = true.
Proof. vm_compute. reflexivity. Qed.

Example decoder_rejects_ack : launch all_fields (fun f =>
  Ok (rejects (dec_packet Debug standing (new_dec standing f true) (an_ack [0; 1; 2; 3] 33))
      && rejects (dec_packet Debug standing (new_dec standing f true) [33; 35; 1; 0]))) = true.
Proof. vm_compute. reflexivity. Qed.

(** ** test_packet.cc, detail/test_serialize_packet.cc *)

(** What is in the memory that is not initialised. *)
Definition rubbish : memory := fun n => N.of_nat n + 200.
Definition holds (p : pkt) (l : list N) : bool :=
  (packet_size p =? N.of_nat (length l))
  && match packet_range p with Ok r => same r l | _ => false end
  && forallb (fun i => match packet_get p i with Ok y => y =? nth i l 0 | _ => false end) (seq 0 (length l)).

Example packets : passes (
  let p := packet_empty rubbish in
  REQUIRE packet_is_empty p && holds p [] ;;
  let p := packet_push_back p x in
  REQUIRE negb (packet_is_empty p) && holds p [x] ;;
  let init := map (fun i => 97 + N.of_nat i) (seq 0 21) in
  p <- packet_of rubbish init ;;
  REQUIRE holds p init ;;
  p <- packet_of rubbish [0; 1; 2; 3] ;;
  REQUIRE holds (packet_clear rubbish p) [] ;;
  REQUIRE packet_size (packet_sized rubbish 10) =? 10 ;;
  REQUIRE holds (packet_filled 10 x) (xs 10) ;;
  REQUIRE holds (packet_resize rubbish p 2) [0; 1] ;;
  let q := packet_resize rubbish p 10 in
  REQUIRE (packet_size q =? 10)
    && forallb (fun i => match packet_get q i with Ok y => y =? N.of_nat i | _ => false end) (seq 0 4) ;;
  REQUIRE holds (packet_resize_with p 2 x) [0; 1] ;;
  REQUIRE holds (packet_resize_with p 10 x) ([0; 1; 2; 3] ++ xs 6) ;;
  (* packet serialization *)
  p <- packet_of rubbish (abcd ++ [101; 102; 103; 104]) ;;
  '(q, _) <- load_packet Stepwise (dump_packet p) ;;
  Ok (holds q (abcd ++ [101; 102; 103; 104]))) = true.
Proof. vm_compute. reflexivity. Qed.
