(** * Properties of the C interface: C47, C48 *)
From Coq Require Import ZArith NArith List Bool Lia Arith.
From Verif Require Import Outcome GF Packetizer Encoder DetailDecoder Decoder CApi.
Import ListNotations.
Open Scope N_scope.

(** ** C47: error codes *)

(** The documented code of each exception, c/error.h 11-20. *)
Definition documented (x : raised) : error_type :=
  match x with
  | PacketTypeEx => PacketTypeErr
  | OverflowEx => OverflowErr
  | BadAllocEx => NoMemory
  | StdEx _ | NonStdEx => UnknownError
  end.

(** The message is null or a block that may be deleted. *)
Definition owned (e : c_error) (h : heap) : Prop :=
  match ce_message e with
  | Null => True
  | Block n => In n (map fst (h_live h))
  | Wild => False
  end.

Lemma delete_owned h p : (match p with Null => True | Block n => In n (map fst (h_live h)) | Wild => False end) ->
  exists h', delete h p = Done h' /\ h_next h' = h_next h
  /\ h_live h' = filter (fun b => match p with Block n => negb (is_block n b) | _ => true end) (h_live h).
Proof.
  destruct p as [|n|]; intros H; [| |contradiction].
  - exists h. repeat split. cbn [delete]. induction (h_live h) as [|b l IH]; [reflexivity|]. cbn. rewrite <- IH. reflexivity.
  - cbn [delete]. destruct (existsb (is_block n) (h_live h)) eqn:E; [eexists; repeat split|].
    exfalso. apply in_map_iff in H. destruct H as (b & Eb & Hb).
    assert (existsb (is_block n) (h_live h) = true); [|congruence].
    apply existsb_exists. exists b. split; [exact Hb|]. unfold is_block. rewrite Eb. apply Nat.eqb_refl.
Qed.

(** For every end of the wrapped call the caller gets the value or the default value, and the
    documented code. *)
Theorem C47_error_codes :
  forall A room (default : A) fn e h, owned e h ->
  exists e' h', check_error room default fn e h
    = Done (match fn with Returned a => a | Raised _ => default end, e', h')
  /\ ce_type e' = match fn with Returned _ => NoError | Raised x => documented x end.
Proof.
  intros A room default [a|x] e h Ho; [eexists; eexists; split; reflexivity|].
  destruct (delete_owned h (ce_message e) Ho) as (h1 & E1 & _).
  destruct x as [| | |w|]; cbn; try (eexists; eexists; split; reflexivity).
  - rewrite E1. destruct (allocate room h1 w) as [h2 p]. eexists. eexists. split; reflexivity.
  - rewrite E1. eexists. eexists. split; reflexivity.
Qed.
Print Assumptions C47_error_codes.

(** The exceptions of the library and a lack of memory are reported whatever the message is, and
    leave it alone. *)
Theorem C47_library_errors :
  forall A room (default : A) fn e h,
  match fn with Raised (StdEx _) | Raised NonStdEx => False | _ => True end ->
  check_error room default fn e h
  = Done (match fn with Returned a => a | Raised _ => default end,
          {| ce_type := match fn with Returned _ => NoError | Raised x => documented x end;
             ce_message := ce_message e |}, h).
Proof. intros A room default [a|[| | |w|]] e h H; try contradiction; reflexivity. Qed.
Print Assumptions C47_library_errors.

(** No exception ever leaves the C interface. *)
Theorem C47_never_escapes :
  forall A room (default : A) fn e h, check_error room default fn e h <> Crash Terminate.
Proof.
  intros A room default [a|x] e h; [discriminate|].
  assert (Hd : delete h (ce_message e) <> Crash Terminate).
  { destruct (ce_message e); cbn [delete]; try discriminate. destruct (existsb _ _); discriminate. }
  destruct x as [| | |w|]; cbn; try discriminate.
  - destruct (delete h (ce_message e)) as [h1|c]; [|congruence]. destruct (allocate room h1 w). discriminate.
  - destruct (delete h (ce_message e)) as [h1|c]; [discriminate|congruence].
Qed.
Print Assumptions C47_never_escapes.

(** The two entry points that read packets: the state and the code for every end of the
    C++ call. *)
Theorem C47_add_packet :
  (forall room m clk d p e h d' r, dec_packet m clk d p = (d', r) ->
     c_decoder_add_packet room m clk d p e h = (d',
       match r with
       | Ok (_, n) => Some (Done (n, {| ce_type := NoError; ce_message := ce_message e |}, h))
       | Throw PacketTypeError => Some (Done (O, {| ce_type := PacketTypeErr; ce_message := ce_message e |}, h))
       | Throw OverflowError => Some (Done (O, {| ce_type := OverflowErr; ce_message := ce_message e |}, h))
       | Fault _ => None
       end))
  /\ (forall room m e0 p e h e1 r, notify m e0 p = (e1, r) ->
     c_encoder_add_packet room m e0 p e h = (e1,
       match r with
       | Ok n => Some (Done (n, {| ce_type := NoError; ce_message := ce_message e |}, h))
       | Throw PacketTypeError => Some (Done (O, {| ce_type := PacketTypeErr; ce_message := ce_message e |}, h))
       | Throw OverflowError => Some (Done (O, {| ce_type := OverflowErr; ce_message := ce_message e |}, h))
       | Fault _ => None
       end)).
Proof.
  split.
  - intros room m clk d p e h d' r E. unfold c_decoder_add_packet. rewrite E.
    destruct r as [[out n]|[|]|x]; reflexivity.
  - intros room m e0 p e h e1 r E. unfold c_encoder_add_packet. rewrite E.
    destruct r as [n|[|]|x]; reflexivity.
Qed.
Print Assumptions C47_add_packet.

(** A packet of unknown type, given to a new decoder through the C interface. *)
Example C47_add_packet_case : forall clk,
  snd (c_decoder_add_packet true Debug clk (new_dec clk W8 false) [9; 1; 2] {| ce_type := NoError; ce_message := Null |} {| h_live := []; h_next := 0 |})
  = Some (Done (O, {| ce_type := PacketTypeErr; ce_message := Null |}, {| h_live := []; h_next := 0 |})).
Proof. intros clk. reflexivity. Qed.

Example C47_case :
  let e := {| ce_type := NoError; ce_message := Block 3 |} in
  let h := {| h_live := [(3%nat, [65])]; h_next := 4 |} in
  owned e h /\ check_error true 0 (Raised (StdEx [66; 67])) e h
    = Done (0, {| ce_type := UnknownError; ce_message := Block 4 |}, {| h_live := [(4%nat, [66; 67])]; h_next := 5 |}).
Proof. split; [left; reflexivity | reflexivity]. Qed.

(** ** C48: the message *)

(** Several calls with the same error object; [room] tells which allocations succeed. *)
Fixpoint calls (e : c_error) (h : heap) (l : list (bool * result nat)) : c_run (c_error * heap) :=
  match l with
  | [] => Done (e, h)
  | (room, fn) :: l' =>
      match check_error room O fn e h with
      | Done (_, e', h') => calls e' h' l'
      | Crash c => Crash c
      end
  end.

(** The live blocks are those of the message. *)
Definition tidy (e : c_error) (h : heap) : Prop :=
  match ce_message e with
  | Null => h_live h = []
  | Block n => map fst (h_live h) = [n]
  | Wild => False
  end.

Lemma tidy_owned e h : tidy e h -> owned e h.
Proof. unfold tidy, owned. destruct (ce_message e); auto. intros ->. left. reflexivity. Qed.

Lemma tidy_delete e h : tidy e h -> exists n, delete h (ce_message e) = Done {| h_live := []; h_next := n |}.
Proof.
  unfold tidy. destruct h as [live next]. cbn [h_live]. destruct (ce_message e) as [|n|]; [intros -> | intros H | contradiction].
  - exists next. reflexivity.
  - destruct live as [|[k c] [|b live]]; try discriminate. cbn in H. injection H as ->. exists next.
    cbn [delete h_live]. unfold existsb, is_block. cbn [fst]. rewrite Nat.eqb_refl. cbn [orb filter]. cbn [fst]. rewrite Nat.eqb_refl. reflexivity.
Qed.

(** From a null message on, any number of calls without a foreign exception (not derived from
    std::exception) is safe, and at most one block, the message, is alive. *)
Theorem C48_message_safe :
  forall l e h, tidy e h -> (forall room, ~ In (room, Raised NonStdEx) l) ->
  exists e' h', calls e h l = Done (e', h') /\ tidy e' h'.
Proof.
  induction l as [|[room fn] l IH]; intros e h Ht Hn; [exists e, h; split; [reflexivity | exact Ht]|].
  assert (Hl : forall room, ~ In (room, Raised NonStdEx) l) by (intros r H; apply (Hn r); right; exact H).
  assert (St : exists a e1 h1, check_error room O fn e h = Done (a, e1, h1) /\ tidy e1 h1).
  { destruct fn as [a|[| | |w|]].
    - eexists. eexists. eexists. split; [reflexivity | exact Ht].
    - eexists. eexists. eexists. split; [reflexivity | exact Ht].
    - eexists. eexists. eexists. split; [reflexivity | exact Ht].
    - eexists. eexists. eexists. split; [reflexivity | exact Ht].
    - destruct (tidy_delete e h Ht) as [n E]. cbn. rewrite E. unfold allocate.
      destruct room; eexists; eexists; eexists; (split; [reflexivity|]); reflexivity.
    - exfalso. apply (Hn room). left. reflexivity. }
  destruct St as (a & e1 & h1 & E & T1). cbn [calls]. rewrite E. apply IH; assumption.
Qed.
Print Assumptions C48_message_safe.

Example C48_case :
  tidy {| ce_type := NoError; ce_message := Null |} {| h_live := []; h_next := 0 |}
  /\ calls {| ce_type := NoError; ce_message := Null |} {| h_live := []; h_next := 0 |}
       [(true, Raised (StdEx [65])); (true, Returned 4%nat); (false, Raised (StdEx [66])); (true, Raised (StdEx [67; 68]))]
     = Done ({| ce_type := UnknownError; ce_message := Block 1 |}, {| h_live := [(1%nat, [67; 68])]; h_next := 2 |}).
Proof. split; reflexivity. Qed.

(** After a foreign exception on an error with a message, any further failure that deletes the
    message deletes it a second time, whatever succeeds or fails in between. *)
Theorem C48_double_delete_refuted :
  forall n c next room1 room2 between last,
  (forall room fn, In (room, fn) between -> match fn with Raised (StdEx _) | Raised NonStdEx => False | _ => True end) ->
  match last with Raised (StdEx _) | Raised NonStdEx => True | _ => False end ->
  let e := {| ce_type := UnknownError; ce_message := Block n |} in
  let h := {| h_live := [(n, c)]; h_next := next |} in
  tidy e h /\ calls e h ((room1, Raised NonStdEx) :: between ++ [(room2, last)]) = Crash BadDelete.
Proof.
  intros n c next room1 room2 between last Hb Hl e h. split; [reflexivity|].
  cbn [calls]. unfold check_error. cbn [find catches clauses clause_body ce_message e h delete h_live].
  unfold existsb, is_block. cbn [fst]. rewrite Nat.eqb_refl. cbn [orb filter fst]. rewrite Nat.eqb_refl. cbn [negb].
  set (h1 := {| h_live := []; h_next := next |}).
  assert (G : forall t, calls {| ce_type := t; ce_message := Block n |} h1 (between ++ [(room2, last)]) = Crash BadDelete).
  { revert Hb. induction between as [|[room fn] between IH]; intros Hb t.
    - destruct last as [a|[| | |w|]]; try contradiction; reflexivity.
    - specialize (IH (fun r g H => Hb r g (or_intror H))). specialize (Hb room fn (or_introl eq_refl)).
      cbn [app calls]. destruct fn as [a|[| | |w|]]; try contradiction; cbn; apply IH. }
  apply G.
Qed.
Print Assumptions C48_double_delete_refuted.

(** An error object that is not initialised (examples/basic/c_basic.c 97): the first unknown
    error deletes an indeterminate pointer. *)
Theorem C48_uninitialised_refuted :
  forall t h room w, calls {| ce_type := t; ce_message := Wild |} h [(room, Raised (StdEx w))] = Crash BadDelete.
Proof. reflexivity. Qed.
Print Assumptions C48_uninitialised_refuted.

(** The message is not terminated: reading it as a C string runs out of the block, for
    every exception (what() itself is a C string, its characters are not zero). *)
Theorem C48_unterminated_refuted :
  forall w e h e' h', ~ In 0 w -> tidy e h -> calls e h [(true, Raised (StdEx w))] = Done (e', h') ->
  ce_type e' = UnknownError /\ ce_message e' <> Null /\ c_string h' (ce_message e') = None.
Proof.
  intros w e h e' h' Hw Ht E. destruct (tidy_delete e h Ht) as [n D]. cbn in E. rewrite D in E.
  cbn in E. injection E as <- <-. cbn [ce_type ce_message c_string h_live].
  split; [reflexivity|]. split; [discriminate|]. unfold find, is_block. cbn [fst]. rewrite Nat.eqb_refl.
  induction w as [|b w IH]; [reflexivity|]. cbn [until_zero]. destruct b; [exfalso; apply Hw; left; reflexivity|].
  rewrite IH; [reflexivity|]. intros H. apply Hw. right. exact H.
Qed.
Print Assumptions C48_unterminated_refuted.
