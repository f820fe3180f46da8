(** * The sender when memory runs out

    C96: which calls leave the sender as if the call, or a packet, were lost, and which do not. *)
From Coq Require Import ZArith NArith PeanoNat List Bool Lia.
From Verif Require Import Outcome GF Containers Packetizer
  DetailDecoder Decoder PropsDecoder Encoder EncoderRun EncoderHistory Handlers PropsHandlers SenderMemory.
Import ListNotations.
Open Scope N_scope.
Open Scope outcome_scope.

(** ** Vocabulary *)

Definition enough (mem : memory) : Prop := forall n, mem n = false.

(** The allocations number [bad] fail. *)
Definition failing (bad : list nat) : memory := fun n => existsb (Nat.eqb n) bad.

(** Equal but for the number of received acks. *)
Definition but_acks (e e' : enc) : Prop :=
  e' = {| e_field := e_field e;
          e_systematic := e_systematic e;
          e_rate := e_rate e;
          e_window_size := e_window_size e;
          e_adaptive := e_adaptive e;
          e_source_id := e_source_id e;
          e_repair_id := e_repair_id e;
          e_sources := e_sources e;
          e_nb_sent_repairs := e_nb_sent_repairs e;
          e_nb_acks := e_nb_acks e';
          e_nb_sent_sources := e_nb_sent_sources e;
          e_nb_sent_packets := e_nb_sent_packets e |}.

(** ** Lemmas *)

Lemma attempts_enough mem k : enough mem -> forall n, snd (attempts mem k n) = true.
Proof.
  intros Hm. induction k as [|k IH]; intros n; cbn [attempts]; [reflexivity|]. rewrite Hm. apply IH.
Qed.

Lemma feed_app h a : forall b tr, feed h tr (a ++ b) =
  let '(tr', r) := feed h tr a in match r with HDone => feed h tr' b | _ => (tr', r) end.
Proof.
  induction a as [|c a IH]; intros b tr; cbn [app feed]; [reflexivity|]. destruct (h tr c); [reflexivity | apply IH].
Qed.

Lemma mrepair_enough h mem m e tr n : enough mem ->
  exists n', mrepair h mem m e tr n = let '(e', tr', r) := hrepair h m e tr in (e', tr', n', MRes r).
Proof.
  intros Hm. unfold mrepair, hrepair. destruct (prepare_repair m e) as [[e' w]|x|x]; [|eexists; reflexivity..].
  pose proof (attempts_enough mem (2 * length (e_sources e)) Hm n) as A.
  destruct (attempts mem _ n) as [n1 ok]. cbn [snd] in A. subst ok.
  replace (feed h tr (packet_calls w)) with (feed h tr (firstn 4 (packet_calls w) ++ skipn 4 (packet_calls w)))
    by (rewrite firstn_skipn; reflexivity).
  rewrite feed_app.
  destruct (feed h tr (firstn 4 (packet_calls w))) as [tr1 r1]. destruct r1; [|eexists; reflexivity..].
  pose proof (attempts_enough mem (2 * length (e_sources e)) Hm n1) as A.
  destruct (attempts mem _ n1) as [n2 ok]. cbn [snd] in A. subst ok.
  destruct (feed h tr1 _) as [tr2 r2]. eexists; reflexivity.
Qed.

Lemma msend_enough h mem m e s tr n : enough mem ->
  exists n', msend h mem m e s tr n = let '(e', tr', r) := hsend h m e s tr in (e', tr', n', MRes r).
Proof.
  intros Hm. unfold msend. destruct (e_systematic e) eqn:Es.
  - exists n. destruct (hsend h m e s tr) as [[e' tr'] r]. reflexivity.
  - unfold hsend. rewrite Es. apply mrepair_enough, Hm.
Qed.

Lemma mdata_enough h mem m e d tr n : enough mem ->
  exists n', mdata h mem m e d tr n = let '(e', tr', r) := hdata h m e d tr in (e', tr', n', MRes r).
Proof.
  intros Hm. unfold mdata, hdata. destruct (bind _ _); [|eexists; reflexivity..]. unfold mcommit, hcommit.
  destruct (push_source e _) as [l|x|x]; [|eexists; reflexivity..].
  pose proof (attempts_enough mem 1 Hm n) as A. destruct (attempts mem 1 n) as [n1 ok]. cbn [snd] in A. subst ok.
  destruct (msend_enough h mem m (with_sources e l) {| es_id := e_source_id e; es_data := d |} tr n1 Hm) as (n2 & ->).
  destruct (hsend _ _ _ _ _) as [[e1 tr1] r1]. destruct r1; [|eexists; reflexivity..].
  destruct (e_rate e1 =? 0); [eexists; reflexivity|]. destruct (_ =? 0); [|eexists; reflexivity].
  destruct (mrepair_enough h mem m e1 tr1 n2 Hm) as (n3 & ->).
  destruct (hrepair h m e1 tr1) as [[e2 tr2] r2]. destruct r2; eexists; reflexivity.
Qed.

Lemma mnotify_enough mem m e p n : enough mem ->
  exists n', mnotify mem m e p n =
    let '(e', r) := notify m e p in
    (e', n', MRes (match r with Ok _ => HDone | Throw x => HError x | Fault x => HFault x end)).
Proof.
  intros Hm. unfold mnotify. cbv zeta. unfold notify at 4.
  destruct (_ <- assert_ m (Nat.ltb 0 (length p)) ;; get_packet_type p) as [t|x|x] eqn:Et; [|eexists; reflexivity..].
  pose proof (attempts_enough mem 1 Hm n) as A. destruct (attempts mem 1 n) as [n1 ok]. cbn [snd] in A. subst ok.
  assert (En : forall y, notify m e p = y -> notify m e p = y) by auto. clear En.
  destruct t; unfold notify; rewrite Et.
  all: try (pose proof (attempts_enough mem 1 Hm n1) as A; destruct (attempts mem 1 n1) as [n2 ok]; cbn [snd] in A;
    subst ok; eexists; reflexivity).
  pose proof (attempts_enough mem (256 * length p) Hm n1) as A. destruct (attempts mem (256 * length p) n1) as [n2 ok].
  cbn [snd] in A. subst ok. exists n2. destruct (read_ack m p) as [[a k]|x|x]; [destruct (apply_ack _ a)|..]; reflexivity.
Qed.

Lemma mstep_enough h mem m e op tr n : enough mem ->
  exists n', mstep h mem m e op tr n = let '(e', tr', r) := hstep h m e op tr in (e', tr', n', MRes r).
Proof.
  intros Hm. destruct op; cbn [mstep]; try (exists n; destruct (hstep h m e _ tr) as [[e' tr'] r]; reflexivity).
  - apply mdata_enough, Hm.
  - destruct (mnotify_enough mem m e p n Hm) as (n' & ->). exists n'. cbn [hstep estep].
    destruct (notify m e p) as [e' r]. destruct r; reflexivity.
  - apply mrepair_enough, Hm.
Qed.

Lemma mrepair_no_memory h mem m e tr n e' tr' n' : mrepair h mem m e tr n = (e', tr', n', MNoMemory) ->
  (e' = e /\ tr' = tr)
  \/ exists w, prepare_repair m e = Ok (e', w) /\ tr' = tr ++ firstn 4 (packet_calls w).
Proof.
  unfold mrepair. destruct (prepare_repair m e) as [[e1 w]|x|x]; [|discriminate..].
  destruct (attempts mem _ n) as [n1 ok]. destruct ok; [|intros H; injection H as <- <- _; auto].
  destruct (feed h tr _) as [tr1 r1] eqn:E. apply feed_ok in E.
  destruct r1; try discriminate. destruct E as [[_ ->]|[E _]]; [|discriminate].
  destruct (attempts mem _ n1) as [n2 ok]. destruct ok; [destruct (feed h _ _); discriminate|].
  intros H. injection H as <- <- _. right. exists w. auto.
Qed.

Lemma prepare_pieces m e e' w : prepare_repair m e = Ok (e', w) ->
  exists b1 b2 b3 b4 b5 rest, w = b1 :: b2 :: b3 :: b4 :: b5 :: rest.
Proof.
  unfold prepare_repair. intros H. apply bind_ok in H. destruct H as (_ & _ & H). apply bind_ok in H.
  destruct H as (r & _ & H). apply bind_ok in H. destruct H as (w' & Ew & H). assert (w' = w) by congruence. subst w'.
  unfold write_repair in Ew. apply bind_ok in Ew. destruct Ew as (_ & _ & Ew). cbv zeta in Ew.
  assert (E : [be 1 1; be 4 (er_id r); be 2 (N.of_nat (length (er_sym r))); er_sym r] ++ write_ids (er_ids r)
    ++ [be 2 (er_enc r); be 2 (N.of_nat (length (er_sym r))); er_sym r] = w) by congruence. rewrite <- E. cbn [app].
  destruct (write_ids (er_ids r)); cbn [app]; do 6 eexists; reflexivity.
Qed.

Lemma prepare_keeps m e e' w : prepare_repair m e = Ok (e', w) ->
  e_source_id e' = e_source_id e /\ e_sources e' = e_sources e.
Proof.
  unfold prepare_repair. intros H. apply bind_ok in H. destruct H as (_ & _ & H). apply bind_ok in H.
  destruct H as (r & _ & H). apply bind_ok in H. destruct H as (w' & Ew & H). injection H as <- _. auto.
Qed.

Lemma mrepair_keeps h mem m e tr n e' tr' n' r : mrepair h mem m e tr n = (e', tr', n', r) ->
  e_source_id e' = e_source_id e /\ e_sources e' = e_sources e.
Proof.
  unfold mrepair. destruct (prepare_repair m e) as [[e1 w]|x|x] eqn:Ep.
  - apply prepare_keeps in Ep. destruct (attempts mem _ n) as [n1 ok]. destruct ok.
    + destruct (feed h tr _) as [tr1 r1]. destruct r1; try (intros H; injection H as <- _ _ _; exact Ep).
      destruct (attempts mem _ n1) as [n2 ok]. destruct ok.
      * destruct (feed h tr1 _). intros H; injection H as <- _ _ _; exact Ep.
      * intros H; injection H as <- _ _ _; exact Ep.
    + intros H; injection H as <- _ _ _; auto.
  - intros H; injection H as <- _ _ _; auto.
  - intros H; injection H as <- _ _ _; auto.
Qed.

Lemma push_after_room e s s' l : push_source e s = Ok l ->
  push_source (with_sources e (make_room e)) s' = push_source e s'.
Proof.
  unfold push_source, make_room. cbn [with_sources e_sources e_window_size].
  destruct (N.of_nat (length (e_sources e)) =? e_window_size e) eqn:E; [|rewrite E; reflexivity].
  destruct (e_sources e) as [|s0 l0]; [discriminate|]. intros _. cbn [tl].
  apply N.eqb_eq in E. cbn [length] in E.
  replace (N.of_nat (length l0) =? e_window_size e) with false; [reflexivity|].
  symmetry. apply N.eqb_neq. lia.
Qed.

(** ** C96 *)

(** While memory suffices this model is the one of C53 and C54. *)
Theorem C96_enough_memory :
  forall h mem m ops e tr n, enough mem ->
  mrun h mem m e tr n ops = (fst (hrun h m e tr ops), map (fun x => (fst x, MRes (snd x))) (snd (hrun h m e tr ops))).
Proof.
  intros h mem m ops. induction ops as [|op ops IH]; intros e tr n Hm; cbn [mrun hrun]; [reflexivity|].
  destruct (mstep_enough h mem m e op tr n Hm) as (n' & ->). destruct (hstep h m e op tr) as [[e1 tr1] r1].
  rewrite (IH e1 tr1 n' Hm). destruct (hrun h m e1 tr1 ops) as [e2 rs]. destruct r1; reflexivity.
Qed.
Print Assumptions C96_enough_memory.

(** A call of [generate_repair] that runs out of memory: either nothing happened at all, or the sender
    is as after a success and the handler got a beginning of the repair, without the end; so the repair is lost. *)
Theorem C96_repair :
  forall h mem m e tr n e' tr' n', mstep h mem m e ERepair tr n = (e', tr', n', MNoMemory) ->
  (e' = e /\ tr' = tr)
  \/ exists p calls rest, generate_repair m e = Ok (e', [p])
     /\ tr' = tr ++ calls /\ calls <> [] /\ ~ In HEnd calls
     /\ gather [] calls = ([], rest) /\ exists more, p = rest ++ more.
Proof.
  intros h mem m e tr n e' tr' n' H. cbn [mstep] in H. apply mrepair_no_memory in H.
  destruct H as [H|(w & Ep & ->)]; [left; exact H | right].
  rewrite prepare_generate, Ep. cbn [bind].
  apply prepare_pieces in Ep. destruct Ep as (b1 & b2 & b3 & b4 & b5 & rest & ->).
  unfold packet_calls. cbn [map app firstn concat].
  exists (b1 ++ b2 ++ b3 ++ b4 ++ b5 ++ concat rest), [HBytes b1; HBytes b2; HBytes b3; HBytes b4], (b1 ++ b2 ++ b3 ++ b4).
  split; [reflexivity|]. split; [reflexivity|]. split; [discriminate|].
  split; [intros [X|[X|[X|[X|[]]]]]; discriminate|].
  split; [cbn [gather app]; rewrite <- !app_assoc; reflexivity|].
  exists (b5 ++ concat rest). rewrite <- !app_assoc. reflexivity.
Qed.
Print Assumptions C96_repair.

(** A packet on which the sender runs out of memory has no effect but that an ack is counted. *)
Theorem C96_ack :
  forall h mem m e p tr n e' tr' n', mstep h mem m e (EPacket p) tr n = (e', tr', n', MNoMemory) ->
  tr' = tr /\ but_acks e e' /\ (e_nb_acks e' = e_nb_acks e \/ e_nb_acks e' = u64 (e_nb_acks e + 1)).
Proof.
  intros h mem m e p tr n e' tr' n' H. cbn [mstep] in H.
  destruct (mnotify mem m e p n) as [[e1 n1] r1] eqn:E.
  assert (e1 = e' /\ tr = tr' /\ r1 = MNoMemory) as (-> & -> & ->) by (repeat split; congruence). clear H.
  split; [reflexivity|]. unfold mnotify in E. cbv zeta in E.
  assert (Same : but_acks e e) by (destruct e; reflexivity).
  destruct (_ <- assert_ m _ ;; _) as [t|x|x]; [|discriminate..].
  destruct (attempts mem 1 n) as [n2 ok]. destruct ok; [|injection E as <- _; auto].
  destruct t.
  all: try (destruct (attempts mem 1 n2) as [n3 ok]; destruct ok;
    [destruct (notify m e p); discriminate | injection E as <- _; auto]; fail).
  destruct (attempts mem (256 * length p) n2) as [n3 ok]. destruct ok; [destruct (notify m e p); discriminate|].
  injection E as <- _. split; [reflexivity | right; reflexivity].
Qed.
Print Assumptions C96_ack.

(** A datum for which the sender could not even store the source: nothing was handed out, the window has
    lost its oldest source if it was full, and every later datum (the same again, or
    another) is treated as if the failed call had not taken place. *)
Theorem C96_retry :
  forall h mem m e d tr n e' tr' n', mstep h mem m e (EData d) tr n = (e', tr', n', MNoMemory) -> mem n = true ->
  tr' = tr
  /\ e_sources e' = (if N.of_nat (length (e_sources e)) =? e_window_size e then tl (e_sources e) else e_sources e)
  /\ forall h2 mem2 d2 tr2 n2 e1 tr1 n1 r1, mstep h2 mem2 m e' (EData d2) tr2 n2 = (e1, tr1, n1, r1) ->
     exists e2, mstep h2 mem2 m e (EData d2) tr2 n2 = (e2, tr1, n1, r1)
       /\ ((forall x, r1 <> MRes (HFault x)) -> e1 = e2).
Proof.
  intros h mem m e d tr n e' tr' n' H Hn. cbn [mstep] in H |- *. unfold mdata in H.
  destruct (bind _ _); [|discriminate..]. unfold mcommit in H.
  destruct (push_source e _) as [l|x|x] eqn:Ep; [|discriminate..]. cbn [attempts] in H. rewrite Hn in H.
  injection H as <- <- _. split; [reflexivity|]. split; [reflexivity|]. intros h2 mem2 d2 tr2 n2 e1 tr1 n1 r1.
  unfold mdata. change (e_field (with_sources e (make_room e))) with (e_field e).
  assert (Nt : forall b c x, (_ <- assert_ m b ;; assert_ m c) <> Throw x).
  { intros b c x. destruct m, b, c; discriminate. }
  destruct (bind _ _) as [u|x|x] eqn:Eb; [|exfalso; exact (Nt _ _ _ Eb)|].
  - intros H. exists e1. split; [|reflexivity]. rewrite <- H. unfold mcommit.
    change (e_source_id (with_sources e (make_room e))) with (e_source_id e).
    rewrite (push_after_room e _ _ l Ep).
    destruct (push_source e {| es_id := e_source_id e; es_data := d2 |}) as [l2|x|x] eqn:E2.
    + destruct (attempts mem2 1 n2) as [n3 ok]. destruct ok; [reflexivity|].
      unfold make_room. cbn [with_sources e_sources e_window_size].
      destruct (N.of_nat (length (e_sources e)) =? e_window_size e) eqn:E; [|rewrite E; reflexivity].
      unfold push_source in Ep. rewrite E in Ep. destruct (e_sources e) as [|s0 l0] eqn:Es; [discriminate|].
      apply N.eqb_eq in E. cbn [length tl] in *.
      replace (N.of_nat (length l0) =? e_window_size e) with false; [reflexivity|].
      symmetry. apply N.eqb_neq. lia.
    + exfalso. unfold push_source in E2. destruct (_ =? _); [destruct (e_sources e)|]; discriminate.
    + exfalso. unfold push_source in Ep, E2. destruct (_ =? _); [destruct (e_sources e)|]; discriminate.
  - intros H. exists e. assert (r1 = MRes (HFault x)) by congruence. split; [congruence|]. intros X. exfalso. eapply X; eassumption.
Qed.
Print Assumptions C96_retry.

(** A datum that was stored before memory ran out stays in the window, and the next datum will
    get the same identifier. *)
Theorem C96_failed_datum :
  forall h mem m e d tr n e' tr' n', mstep h mem m e (EData d) tr n = (e', tr', n', MNoMemory) -> mem n = false ->
  e_source_id e' = e_source_id e
  /\ exists l, e_sources e' = l ++ [{| es_id := e_source_id e; es_data := d |}].
Proof.
  intros h mem m e d tr n e' tr' n' H Hn. cbn [mstep] in H. unfold mdata in H.
  destruct (bind _ _); [|discriminate..]. unfold mcommit in H.
  destruct (push_source e _) as [l|x|x] eqn:Ep; [|discriminate..]. cbn [attempts] in H. rewrite Hn in H.
  assert (El : exists l', l = l' ++ [{| es_id := e_source_id e; es_data := d |}]).
  { unfold push_source in Ep. destruct (_ =? _); [destruct (e_sources e) as [|s0 l0]; [discriminate|]|];
      (injection Ep as <-; eexists; reflexivity). }
  destruct (msend _ _ _ _ _ _ _) as [[[e1 tr1] n1] r1] eqn:Es.
  assert (S1 : e_source_id e1 = e_source_id e /\ e_sources e1 = l).
  { unfold msend in Es. destruct (e_systematic _) eqn:Ey.
    - unfold hsend in Es. rewrite Ey in Es. destruct (feed h tr _). injection Es as <- _ _ _. auto.
    - apply mrepair_keeps in Es. exact Es. }
  destruct S1 as (S1 & S2). rewrite <- S1 in El |- *. rewrite <- S2 in El.
  destruct r1 as [[| |x|x]|]; try discriminate; [|injection H as <- _ _; auto].
  destruct (e_rate e1 =? 0); [discriminate|]. destruct (_ =? 0); [|discriminate].
  destruct (mrepair _ _ _ _ _ _) as [[[e2 tr2] n2] r2] eqn:E2. apply mrepair_keeps in E2. destruct E2 as (E2 & E3).
  destruct r2 as [[| |x|x]|]; try discriminate. injection H as <- _ _. rewrite E2, E3. auto.
Qed.
Print Assumptions C96_failed_datum.

(** So it is not enough to give a refused datum again: here the memory for the repair that follows the first datum is
    missing, the user gives the same datum again, and a receiver that gets the next repair only is
    handed an empty datum. *)
Theorem C96_retry_always_refuted :
  exists h mem m d ops e rs, mrun h mem m (new_encoder W8) [] 0 ops = (e, rs)
  /\ ops = [ESetRate 1; EData d; EData d; ERepair]
  /\ map snd rs = [MRes HDone; MNoMemory; MRes HDone; MRes HDone]
  /\ exists p d' out, fst (gather [] (fst (nth 3 rs ([], MNoMemory)))) = [p]
     /\ drun m still (new_dec still W8 false) [DPacket p] = Ok (d', out)
     /\ exists x, In x (to_user out) /\ x <> d.
Proof.
  exists silent, (failing [1%nat]), Debug, [1; 2; 3]. do 3 eexists. split; [|split; [reflexivity|]].
  - vm_compute. reflexivity.
  - split; [reflexivity|]. do 3 eexists. split; [vm_compute; reflexivity|]. split; [vm_compute; reflexivity|].
    exists []. split; [vm_compute; auto | discriminate].
Qed.
Print Assumptions C96_retry_always_refuted.

(** Nor is a refused datum without effect: with a window of one source it empties the window, and [generate_repair],
    which a user may call after the first datum as no ack was received, then violates its assertion. *)
Theorem C96_refused_harmless_refuted :
  exists h mem ops e rs, mrun h mem Debug (new_encoder W8) [] 0 ops = (e, rs)
  /\ (forall p, ~ In (EPacket p) ops)
  /\ map snd rs = [MRes HDone; MRes HDone; MNoMemory; MRes (HFault AssertFailure)]
  /\ exists e2 out, erun Debug (new_encoder W8) [ESetWindow 1; EData [1; 2]; ERepair] = Ok (e2, out)
  /\ ops = [ESetWindow 1; EData [1; 2]; EData [3; 4]; ERepair].
Proof.
  exists silent, (failing [1%nat]). do 3 eexists. split; [|split; [|split; [|do 2 eexists; split; [vm_compute; reflexivity | reflexivity]]]].
  - vm_compute. reflexivity.
  - intros p [H|[H|[H|[H|[]]]]]; discriminate.
  - reflexivity.
Qed.
Print Assumptions C96_refused_harmless_refuted.

(** ** Cases *)

(** The first repair lacks memory for its symbol, the second one for its list of identifiers. *)
Example C96_repair_case :
  let run mem := snd (mrun silent mem Debug (new_encoder W8) [] 0 [EData [1; 2]; EData [3; 4]; ERepair; ERepair]) in
  map snd (run (failing [2; 10])%nat) = [MRes HDone; MRes HDone; MNoMemory; MNoMemory]
  /\ map (fun x => length (fst x)) (run (failing [2; 10])%nat) = [5; 5; 0; 4]%nat.
Proof. split; vm_compute; reflexivity. Qed.

Definition small_ack : packet := [0; 0; 1; 0; 1; 0; 0; 0; 0].

Example C96_ack_case :
  let run mem := mrun silent mem Debug (new_encoder W8) [] 0 [EData [1; 2]; EPacket small_ack] in
  map snd (snd (run (failing []))) = [MRes HDone; MRes HDone]
  /\ window (fst (run (failing []))) = 0
  /\ map snd (snd (run (failing [5%nat]))) = [MRes HDone; MNoMemory]
  /\ window (fst (run (failing [5%nat]))) = 1.
Proof. repeat split; vm_compute; reflexivity. Qed.

(** A window of two sources is full; the third datum is refused, given again, and accepted. *)
Example C96_retry_case :
  let run mem := mrun silent mem Debug (new_encoder W8) [] 0
    [ESetWindow 2; EData [1; 2]; EData [3; 4]; EData [5; 6]; EData [5; 6]] in
  map snd (snd (run (failing [2%nat]))) = [MRes HDone; MRes HDone; MRes HDone; MNoMemory; MRes HDone]
  /\ map es_id (e_sources (fst (run (failing [2%nat])))) = [1; 2].
Proof. split; vm_compute; reflexivity. Qed.

(** Without systematic packets the datum is stored, and the repair for it is missing. *)
Example C96_failed_datum_case :
  map snd (snd (mrun silent (failing [1%nat]) Debug (new_encoder W8) [] 0 [ESetCode false; EData [1; 2]])) =
  [MRes HDone; MNoMemory].
Proof. vm_compute. reflexivity. Qed.

Example C96_enough_case : enough (failing []).
Proof. intros n. reflexivity. Qed.
