(** * The packet handler of the sender

    C53: the protocol of its calls. C54: what its exceptions do. *)
From Coq Require Import ZArith NArith PeanoNat List Bool Lia.
From Verif Require Import Outcome GF Containers Packetizer
  DetailDecoder Decoder PropsDecoder Encoder EncoderRun EncoderHistory Handlers.
Import ListNotations.
Open Scope N_scope.
Open Scope outcome_scope.

(** ** Vocabulary *)

(** What a handler that gathers the pieces has seen: whole packets and the
    beginning of the next one. *)
Fixpoint gather (cur : list N) (calls : list hcall) : list packet * list N :=
  match calls with
  | [] => ([], cur)
  | HBytes b :: l => gather (cur ++ b) l
  | HEnd :: l => let '(ps, rest) := gather [] l in (cur :: ps, rest)
  end.

(** The pieces of a packet: the first is its type (a repair or a source). Where
    assertions are on, no piece is empty. *)
Definition well_cut (m : mode) (w : list (list N)) : Prop :=
  (exists t rest, w = [t] :: rest /\ (t = 1 \/ t = 2))
  /\ (m = Debug -> Forall (fun b => b <> []) w).

(** The handler threw during calls of [generate_repair] only. *)
Definition throws_in_repairs_only (ops : list eop) (rs : list (list hcall * hres)) : Prop :=
  forall i op calls, nth_error ops i = Some op -> nth_error rs i = Some (calls, HThrew) -> op = ERepair.

Definition never_throws (rs : list (list hcall * hres)) : Prop :=
  forall calls r, In (calls, r) rs -> r <> HThrew.

Definition faulted (rs : list (list hcall * hres)) : option fault :=
  match last rs ([], HDone) with (_, HFault x) => Some x | _ => None end.

(** ** Lemmas *)

Lemma gather_pieces w : forall cur l, gather cur (map HBytes w ++ HEnd :: l) =
  let '(ps, rest) := gather [] l in ((cur ++ concat w) :: ps, rest).
Proof.
  induction w as [|b w IH]; intros cur l; cbn [map app gather concat].
  - rewrite app_nil_r. reflexivity.
  - rewrite IH, app_assoc. reflexivity.
Qed.

Lemma gather_packets ws : gather [] (concat (map packet_calls ws)) = (map (@concat N) ws, []).
Proof.
  induction ws as [|w ws IH]; cbn [map concat]; [reflexivity|].
  unfold packet_calls at 1. rewrite <- app_assoc. cbn [app]. rewrite gather_pieces, IH. reflexivity.
Qed.

Lemma feed_ok h calls : forall tr tr' r, feed h tr calls = (tr', r) ->
  (r = HDone /\ tr' = tr ++ calls) \/ (r = HThrew /\ exists pre c post, calls = pre ++ c :: post /\ tr' = tr ++ pre).
Proof.
  induction calls as [|c calls IH]; intros tr tr' r H; cbn [feed] in H.
  - injection H as <- <-. left. rewrite app_nil_r. auto.
  - destruct (h tr c).
    + injection H as <- <-. right. split; [reflexivity|]. exists [], c, calls. rewrite app_nil_r. auto.
    + apply IH in H. destruct H as [[-> ->]|(-> & pre & c' & post & -> & ->)].
      * left. rewrite <- app_assoc. auto.
      * right. split; [reflexivity|]. exists (c :: pre), c', post. rewrite <- app_assoc. auto.
Qed.

Lemma prepare_generate m e : generate_repair m e = ('(e', w) <- prepare_repair m e ;; Ok (e', [concat w])).
Proof.
  unfold generate_repair, prepare_repair. destruct (assert_ _ _); cbn [bind]; try reflexivity.
  destruct (encode _ _ _ _); cbn [bind]; try reflexivity. destruct (write_repair _ _); reflexivity.
Qed.

(** The ways a call can end: as without handler; or interrupted within a packet. *)
Definition ends (m : mode) (tr : list hcall) (model : outcome (enc * list packet))
  (x : enc * list hcall * hres) : Prop :=
  let '(e', tr', r) := x in
  match r with
  | HDone => exists ws, model = Ok (e', map (@concat N) ws) /\ tr' = tr ++ concat (map packet_calls ws)
      /\ Forall (well_cut m) ws
  | HThrew => True
  | HError y => model = Throw y /\ tr' = tr
  | HFault y => model = Fault y
  end.

Lemma be_nonempty n x : be (S n) x <> [].
Proof. unfold be. destruct n; cbn; try discriminate. intros H. apply app_eq_nil in H. destruct H; discriminate. Qed.

Lemma write_ids_pieces ids : Forall (fun b => b <> []) (write_ids ids).
Proof.
  unfold write_ids. destruct ids as [|x l]; [constructor; [apply be_nonempty | constructor]|].
  constructor; [apply be_nonempty|]. constructor; [apply be_nonempty|].
  induction (rle (differences x l)) as [|rv l' IH]; cbn [flat_map app]; [constructor|].
  constructor; [apply be_nonempty|]. constructor; [apply be_nonempty | exact IH].
Qed.

Lemma write_repair_cut m r w : write_repair m r = Ok w -> well_cut m w.
Proof.
  unfold write_repair. intros H. apply bind_ok in H. destruct H as ([] & Ha & H). cbv zeta in H.
  assert (Ew : w = [be 1 1; be 4 (er_id r); be 2 (N.of_nat (length (er_sym r))); er_sym r] ++ write_ids (er_ids r)
    ++ [be 2 (er_enc r); be 2 (N.of_nat (length (er_sym r))); er_sym r]) by congruence. clear H. subst w.
  split; [exists 1; eexists; split; [reflexivity | auto]|].
  intros ->. assert (Hs : er_sym r <> []).
  { cbn [assert_] in Ha. destruct (er_sym r); [discriminate Ha | discriminate]. }
  apply Forall_app. split; [repeat (constructor; [apply be_nonempty || exact Hs|]); constructor|].
  apply Forall_app. split; [apply write_ids_pieces|]. repeat (constructor; [apply be_nonempty || exact Hs|]); constructor.
Qed.

Lemma write_source_cut m s : (m = Debug -> es_data s <> []) -> well_cut m (write_source s).
Proof.
  intros Hs. split; [exists 2; eexists; split; [reflexivity | auto]|]. intros Hm.
  repeat (constructor; [apply be_nonempty || exact (Hs Hm)|]); constructor.
Qed.

Lemma hrepair_ends h m e tr : ends m tr (generate_repair m e) (hrepair h m e tr).
Proof.
  unfold hrepair. rewrite prepare_generate. destruct (prepare_repair m e) as [[e' w]|x|x] eqn:Ep; cbn [bind ends]; auto.
  destruct (feed h tr (packet_calls w)) as [tr' r] eqn:E. apply feed_ok in E.
  destruct E as [[-> ->]|(-> & _)]; [|exact I]. exists [w]. cbn [map concat]. rewrite app_nil_r.
  split; [reflexivity|]. split; [reflexivity|]. constructor; [|constructor].
  unfold prepare_repair in Ep. apply bind_ok in Ep. destruct Ep as (_ & _ & Ep). apply bind_ok in Ep. destruct Ep as (rp & _ & Ep).
  apply bind_ok in Ep. destruct Ep as (w' & Ew & Ep). assert (w' = w) by congruence. subst w'. eapply write_repair_cut, Ew.
Qed.

Lemma hsend_ends h m e s tr : (m = Debug -> es_data s <> []) -> ends m tr (send_source m e s) (hsend h m e s tr).
Proof.
  intros Hs. unfold hsend, send_source. destruct (e_systematic e) eqn:Es; [|apply hrepair_ends].
  destruct (feed h tr _) as [tr' r] eqn:E. apply feed_ok in E. cbn [ends].
  destruct E as [[-> ->]|(-> & _)]; [|exact I]. exists [write_source s]. cbn [map concat]. rewrite app_nil_r.
  split; [reflexivity|]. split; [reflexivity|]. constructor; [apply write_source_cut, Hs | constructor].
Qed.

Lemma hcommit_ends h m e d tr : (m = Debug -> d <> []) -> ends m tr (commit m e d) (hcommit h m e d tr).
Proof.
  intros Hd. unfold hcommit, commit. destruct (push_source e _) as [l|x|x]; cbn [bind ends]; auto.
  pose proof (hsend_ends h m (with_sources e l) {| es_id := e_source_id e; es_data := d |} tr Hd) as H1.
  destruct (hsend _ _ _ _ _) as [[e1 tr1] [| |x|x]]; cbn [ends] in H1.
  - destruct H1 as (ws & E1 & -> & C1). rewrite E1. cbn [bind]. destruct (e_rate e1 =? 0); [reflexivity|].
    destruct (u32 (e_source_id e1 + 1) mod e_rate e1 =? 0); cbn [bind].
    + pose proof (hrepair_ends h m e1 (tr ++ concat (map packet_calls ws))) as H2.
      destruct (hrepair _ _ _ _) as [[e2 tr2] [| |x|x]]; cbn [ends] in H2 |- *; auto.
      * destruct H2 as (ws2 & E2 & -> & C2). rewrite E2. cbn [bind]. exists (ws ++ ws2).
        rewrite !map_app, concat_app, app_assoc. split; [reflexivity|]. split; [reflexivity|]. apply Forall_app; auto.
      * destruct H2 as (E2 & _). now apply generate_repair_no_throw in E2.
      * rewrite H2. reflexivity.
    + cbn [ends]. exists ws. rewrite app_nil_r. auto.
  - exact I.
  - destruct H1 as (E1 & ->). rewrite E1. cbn. auto.
  - rewrite H1. reflexivity.
Qed.

Lemma hdata_ends h m e d tr : ends m tr (enc_data m e d) (hdata h m e d tr).
Proof.
  unfold hdata, enc_data. destruct (assert_ m (Nat.ltb 0 (length d))) as [[]|x|x] eqn:Ea; cbn [bind ends]; auto.
  destruct (assert_ m _) as [[]|x|x] at 1 2; cbn [bind ends]; auto.
  apply hcommit_ends. intros ->. cbn [assert_] in Ea. destruct d; [discriminate Ea | discriminate].
Qed.

Definition extends (tr : list hcall) (x : enc * list hcall * hres) : Prop :=
  let '(_, tr', _) := x in exists calls, tr' = tr ++ calls.

Lemma hrepair_trace h m e tr : extends tr (hrepair h m e tr).
Proof.
  unfold hrepair, extends. destruct (prepare_repair m e) as [[e' w]|x|x]; [|exists []; rewrite app_nil_r; reflexivity..].
  destruct (feed h tr _) as [tr' r] eqn:E. apply feed_ok in E. destruct E as [[_ ->]|(_ & pre & c & post & _ & ->)]; eauto.
Qed.

Lemma hsend_trace h m e s tr : extends tr (hsend h m e s tr).
Proof.
  unfold hsend. destruct (e_systematic e); [|apply hrepair_trace]. unfold extends.
  destruct (feed h tr _) as [tr' r] eqn:E. apply feed_ok in E. destruct E as [[_ ->]|(_ & pre & c & post & _ & ->)]; eauto.
Qed.

Lemma hdata_trace h m e d tr : extends tr (hdata h m e d tr).
Proof.
  assert (Refl : forall e r, extends tr (e, tr, r)) by (intros; exists []; rewrite app_nil_r; reflexivity).
  unfold hdata. destruct (bind _ _); [|apply Refl..]. unfold hcommit.
  destruct (push_source _ _) as [l|x|x]; [|apply Refl..].
  pose proof (hsend_trace h m (with_sources e l) {| es_id := e_source_id e; es_data := d |} tr) as H1.
  destruct (hsend _ _ _ _ _) as [[e1 tr1] [| |x|x]]; try exact H1.
  destruct (e_rate e1 =? 0); [exact H1|]. destruct H1 as (c1 & ->).
  destruct (_ =? 0); [|eexists; reflexivity].
  pose proof (hrepair_trace h m e1 (tr ++ c1)) as H2. destruct (hrepair _ _ _ _) as [[e2 tr2] r].
  destruct H2 as (c2 & ->). rewrite <- app_assoc. destruct r; eexists; reflexivity.
Qed.

(** What the library does is what [estep] says, and the calls of the handler cut
    the packets in pieces. *)
Lemma hstep_ends h m e op tr e' tr' r : hstep h m e op tr = (e', tr', r) ->
  (exists calls, tr' = tr ++ calls) /\
  match r with
  | HDone => exists ws, estep m e op = (e', Ok (map (@concat N) ws)) /\ tr' = tr ++ concat (map packet_calls ws)
      /\ Forall (well_cut m) ws
  | HThrew => op = ERepair \/ exists d, op = EData d
  | HError y => estep m e op = (e', Throw y) /\ tr' = tr
  | HFault y => exists e'', estep m e op = (e'', Fault y)
  end.
Proof.
  assert (Others : match estep m e op with
      | (e, Ok _) => (e, tr, HDone)
      | (e, Throw x) => (e, tr, HError x)
      | (e, Fault x) => (e, tr, HFault x)
      end = (e', tr', r) -> (forall o, snd (estep m e op) = Ok o -> o = []) ->
    (exists calls, tr' = tr ++ calls) /\
    match r with
    | HDone => exists ws, estep m e op = (e', Ok (map (@concat N) ws)) /\ tr' = tr ++ concat (map packet_calls ws)
        /\ Forall (well_cut m) ws
    | HThrew => op = ERepair \/ exists d, op = EData d
    | HError y => estep m e op = (e', Throw y) /\ tr' = tr
    | HFault y => exists e'', estep m e op = (e'', Fault y)
    end).
  { intros H Hn. destruct (estep m e op) as [e1 [o|x|x]]; injection H as <- <- <-.
    - rewrite (Hn o eq_refl). split; [exists []; rewrite app_nil_r; reflexivity|].
      exists []. cbn. rewrite app_nil_r. auto.
    - split; [exists []; rewrite app_nil_r; reflexivity | auto].
    - split; [exists []; rewrite app_nil_r; reflexivity | eauto]. }
  destruct op as [d|p| |b|k|n|b]; cbn [hstep]; intros H.
  - pose proof (hdata_ends h m e d tr) as X. pose proof (hdata_trace h m e d tr) as T. rewrite H in X, T.
    split; [exact T|]. cbn [estep]. destruct r as [| |y|y]; cbn [ends] in X.
    + destruct X as (ws & -> & R). eauto.
    + right. eauto.
    + exfalso. destruct X as (X & _). now apply enc_data_no_throw in X.
    + rewrite X. eauto.
  - apply Others; [exact H|]. cbn [estep]. intros o. destruct (notify m e p) as [e1 [k|x|x]]; cbn; congruence.
  - pose proof (hrepair_ends h m e tr) as X. pose proof (hrepair_trace h m e tr) as T. rewrite H in X, T.
    split; [exact T|]. cbn [estep]. destruct r as [| |y|y]; cbn [ends] in X.
    + destruct X as (ws & -> & R). eauto.
    + auto.
    + exfalso. destruct X as (X & _). now apply generate_repair_no_throw in X.
    + rewrite X. eauto.
  - apply Others; [exact H|]. cbn. congruence.
  - apply Others; [exact H|]. cbn [estep]. intros o. destruct (set_rate m e k); cbn; congruence.
  - apply Others; [exact H|]. cbn [estep]. intros o. destruct (set_window_size m e n); cbn; congruence.
  - apply Others; [exact H|]. cbn. congruence.
Qed.

(** A throw in an explicit repair leaves the state that a success would leave. *)
Lemma hrepair_threw h m e tr e' tr' : hrepair h m e tr = (e', tr', HThrew) ->
  exists w pre c post, generate_repair m e = Ok (e', [concat w]) /\ packet_calls w = pre ++ c :: post /\ tr' = tr ++ pre.
Proof.
  unfold hrepair. rewrite prepare_generate. destruct (prepare_repair m e) as [[e1 w]|x|x]; intros H; try discriminate.
  destruct (feed h tr (packet_calls w)) as [tr1 r] eqn:E. injection H as <- <- ->. apply feed_ok in E.
  destruct E as [[X _]|(_ & pre & c & post & Ec & Et)]; [discriminate|]. exists w, pre, c, post. auto.
Qed.

Lemma gather_prefix w pre c post : packet_calls w = pre ++ c :: post ->
  exists rest more, gather [] pre = ([], rest) /\ concat w = rest ++ more.
Proof.
  unfold packet_calls.
  assert (G : forall w pre cur, map HBytes w ++ [HEnd] = pre ++ c :: post ->
    exists rest more, gather cur pre = ([], rest) /\ cur ++ concat w = rest ++ more).
  { clear. induction w as [|b w IH]; intros pre cur H; destruct pre as [|a pre].
    - exists cur, []. cbn. rewrite !app_nil_r. auto.
    - cbn in H. injection H as <- H. destruct pre; discriminate.
    - exists cur, (concat (b :: w)). auto.
    - cbn [map app] in H. injection H as <- H. cbn [gather].
      destruct (IH pre (cur ++ b) H) as (rest & more & E1 & E2). exists rest, more. split; [exact E1|].
      cbn [concat]. rewrite app_assoc. exact E2. }
  intros H. apply (G w pre [] H).
Qed.

(** What the handler has seen of the packets [o] that a call of the user makes. *)
Definition seen (m : mode) (r : list hcall * hres) (o : list packet) : Prop :=
  match snd r with
  | HDone => exists ws, fst r = concat (map packet_calls ws) /\ o = map (@concat N) ws /\ Forall (well_cut m) ws
  | HThrew => exists p rest more, o = [p] /\ gather [] (fst r) = ([], rest) /\ p = rest ++ more
  | _ => fst r = [] /\ o = []
  end.

Lemma hrun_ends h m : forall ops e tr e' rs, hrun h m e tr ops = (e', rs) -> throws_in_repairs_only ops rs ->
  match erun m e ops with
  | Ok (e'', out) => e'' = e' /\ faulted rs = None /\ length rs = length ops
      /\ exists outs, out = concat outs /\ Forall2 (seen m) rs outs
  | Throw _ => False
  | Fault x => faulted rs = Some x
  end.
Proof.
  induction ops as [|op ops IH]; intros e tr e' rs H A; cbn [hrun erun] in *.
  - injection H as <- <-. split; [reflexivity|]. split; [reflexivity|]. split; [reflexivity|]. exists []. auto.
  - destruct (hstep h m e op tr) as [[e1 tr1] r] eqn:E. pose proof E as E0. apply hstep_ends in E. destruct E as ((calls & Et) & E).
    assert (Sk : skipn (length tr) tr1 = calls) by (rewrite Et, skipn_app, skipn_all, Nat.sub_diag; reflexivity).
    rewrite Sk in H.
    assert (Go : forall e2 rs2, hrun h m e1 tr1 ops = (e2, rs2) -> (e2, (calls, r) :: rs2) = (e', rs) ->
       match erun m e1 ops with
       | Ok (e'', out) => e'' = e' /\ faulted rs2 = None /\ length rs2 = length ops
           /\ exists outs, out = concat outs /\ Forall2 (seen m) rs2 outs
       | Throw _ => False
       | Fault x => faulted rs2 = Some x
       end /\ rs = (calls, r) :: rs2).
    { intros e2 rs2 H1 H2. injection H2 as <- <-. split; [|reflexivity]. apply (IH _ _ _ _ H1).
      intros i o c Hi Hr. apply (A (S i) o c); assumption. }
    assert (Fin : forall rs2, (forall y, r <> HFault y) -> faulted ((calls, r) :: rs2) = faulted rs2).
    { intros rs2 Hr. unfold faulted. destruct rs2; [|reflexivity]. cbn. destruct r; congruence. }
    assert (Step : forall o, (forall y, r <> HFault y) -> seen m (calls, r) o ->
       (let '(e2, rs2) := hrun h m e1 tr1 ops in (e2, (calls, r) :: rs2)) = (e', rs) ->
       match ('(e'', out') <- erun m e1 ops ;; Ok (e'', o ++ out')) with
       | Ok (e'', out) => e'' = e' /\ faulted rs = None /\ length rs = S (length ops)
           /\ exists outs, out = concat outs /\ Forall2 (seen m) rs outs
       | Throw _ => False
       | Fault x => faulted rs = Some x
       end).
    { intros o Hf Ho H1. destruct (hrun h m e1 tr1 ops) as [e2 rs2] eqn:E2. destruct (Go e2 rs2 eq_refl H1) as (G & ->).
      rewrite (Fin rs2 Hf). destruct (erun m e1 ops) as [[e3 out]|x|x]; cbn [bind]; [|contradiction | exact G].
      destruct G as (-> & Hn & Hl & outs & -> & F2). split; [reflexivity|]. split; [exact Hn|]. split; [cbn [length]; lia|].
      exists (o :: outs). split; [reflexivity|]. constructor; assumption. }
    destruct r as [| |y|y].
    + destruct E as (ws & -> & Ew & C). apply (Step (map (@concat N) ws)); [congruence| |exact H].
      cbn [seen fst snd]. exists ws. rewrite Et in Ew. apply app_inv_head in Ew. auto.
    + assert (op = ERepair).
      { destruct (hrun h m e1 tr1 ops) as [e2 rs2]. injection H as <- <-. apply (A O op calls); reflexivity. }
      subst op. cbn [hstep] in E0. apply hrepair_threw in E0. destruct E0 as (w & pre & c & post & Eg & Ep & Et2).
      cbn [estep]. rewrite Eg. rewrite Et in Et2. apply app_inv_head in Et2. subst pre.
      apply gather_prefix in Ep. destruct Ep as (rest & more & Eg2 & Ec).
      apply (Step [concat w]); [congruence | | exact H].
      cbn [seen fst snd]. exists (concat w), rest, more. auto.
    + destruct E as (-> & Ew). rewrite Ew in Et. rewrite <- (app_nil_r tr) in Et at 1. apply app_inv_head in Et. subst calls.
      specialize (Step []). cbn [app] in Step.
      assert (X : match erun m e1 ops with Ok (e'', out) => Ok (e'', out) | Throw x => Throw x | Fault x => Fault x end = erun m e1 ops)
        by (destruct (erun m e1 ops) as [[]| |]; reflexivity).
      assert (X' : ('(e'', out') <- erun m e1 ops ;; Ok (e'', out')) = erun m e1 ops)
        by (destruct (erun m e1 ops) as [[]| |]; reflexivity).
      rewrite X' in Step. apply Step; [congruence | split; reflexivity | exact H].
    + destruct E as (e2 & ->). injection H as <- <-. reflexivity.
Qed.

(** ** C53: the protocol of the calls *)

Lemma seen_quiet m : forall rs outs, never_throws rs -> Forall2 (seen m) rs outs ->
  exists ws, concat (map fst rs) = concat (map packet_calls ws) /\ concat outs = map (@concat N) ws /\ Forall (well_cut m) ws.
Proof.
  intros rs outs Hn F. induction F as [|[calls r] o rs outs Hr _ IH]; [exists []; auto|].
  destruct IH as (ws & E1 & E2 & C); [intros c r' Hi; apply (Hn c r'); right; exact Hi|].
  cbn [map concat fst]. rewrite E1, E2. unfold seen in Hr. cbn [fst snd] in Hr.
  assert (Hq := Hn calls r (or_introl eq_refl)).
  destruct r; [destruct Hr as (ws' & -> & -> & C') | congruence | destruct Hr as (-> & ->); exists ws; auto..].
  exists (ws' ++ ws). rewrite !map_app, concat_app. split; [reflexivity|]. split; [reflexivity|]. apply Forall_app; auto.
Qed.

(** Any calls of the user with a handler that does not throw. A handler that
    gathers the pieces up to each call without arguments gets exactly the packets
    of the model [erun], and the calls are cut at the packets' borders. *)
Theorem C53_handler_protocol :
  forall h m e tr ops e' rs, hrun h m e tr ops = (e', rs) -> never_throws rs ->
  match erun m e ops with
  | Ok (e'', out) => e'' = e' /\ faulted rs = None
      /\ gather [] (concat (map fst rs)) = (out, [])
      /\ exists ws, concat (map fst rs) = concat (map packet_calls ws) /\ out = map (@concat N) ws /\ Forall (well_cut m) ws
  | Throw _ => False
  | Fault x => faulted rs = Some x
  end.
Proof.
  intros h m e tr ops e' rs H Hn. assert (A : throws_in_repairs_only ops rs).
  { intros i op calls _ Hr. exfalso. apply nth_error_In in Hr. exact (Hn _ _ Hr eq_refl). }
  pose proof (hrun_ends h m ops e tr e' rs H A) as R.
  destruct (erun m e ops) as [[e'' out]|x|x]; [|exact R | exact R].
  destruct R as (R1 & R2 & _ & outs & -> & F). split; [exact R1|]. split; [exact R2|].
  destruct (seen_quiet m rs outs Hn F) as (ws & E1 & E2 & C). rewrite E1, E2. split; [apply gather_packets|].
  exists ws. auto.
Qed.
Print Assumptions C53_handler_protocol.

Definition silent : handler := fun _ _ => false.

Example C53_case :
  let rs := snd (hrun silent Debug (new_encoder W8) [] [EData [1; 2]; EPacket [9]; ERepair]) in
  rs = [([HBytes [2]; HBytes [0; 0; 0; 0]; HBytes [0; 2]; HBytes [1; 2]; HEnd], HDone);
        ([], HError PacketTypeError);
        ([HBytes [1]; HBytes [0; 0; 0; 0]; HBytes [0; 2]; HBytes [3; 6];
          HBytes [0; 1]; HBytes [0; 0; 0; 0]; HBytes [0; 6]; HBytes [0; 2]; HBytes [3; 6]; HEnd], HDone)]
  /\ never_throws rs.
Proof.
  cbv zeta. set (rs := snd _). vm_compute in rs. split; [reflexivity|].
  intros calls r [H|[H|[H|[]]]]; injection H as <- <-; discriminate.
Qed.

(** Without assertions an empty datum gives an empty piece. *)
Example C53_empty_piece :
  hrun silent Release (new_encoder W8) [] [EData []] =
  (fst (hrun silent Release (new_encoder W8) [] [EData []]),
   [([HBytes [2]; HBytes [0; 0; 0; 0]; HBytes [0; 0]; HBytes []; HEnd], HDone)]).
Proof. vm_compute. reflexivity. Qed.

(** ** C54: exceptions of the handler *)

(** If the handler throws in calls of [generate_repair] only, the sender goes on
    as if it had not thrown: the states and the packets of all other calls are
    those of the run without exceptions. So the only effect is the loss of the
    interrupted repairs. *)
Theorem C54_failed_repair_is_a_loss :
  forall h m e tr ops e' rs, hrun h m e tr ops = (e', rs) -> throws_in_repairs_only ops rs ->
  match erun m e ops with
  | Ok (e'', out) => e'' = e' /\ faulted rs = None /\ length rs = length ops
      /\ exists outs, out = concat outs
         /\ Forall2 (fun r o =>
              match snd r with
              | HDone => gather [] (fst r) = (o, [])
              | HThrew => exists p rest more, o = [p] /\ gather [] (fst r) = ([], rest) /\ p = rest ++ more
              | _ => fst r = [] /\ o = []
              end) rs outs
  | Throw _ => False
  | Fault x => faulted rs = Some x
  end.
Proof.
  intros h m e tr ops e' rs H A. pose proof (hrun_ends h m ops e tr e' rs H A) as R.
  destruct (erun m e ops) as [[e'' out]|x|x]; [|exact R | exact R].
  destruct R as (R1 & R2 & R3 & outs & -> & F). split; [exact R1|]. split; [exact R2|]. split; [exact R3|].
  exists outs. split; [reflexivity|]. clear -F. induction F as [|[calls r] o rs outs Hr _ IH]; constructor; [|exact IH].
  unfold seen in Hr. cbn [fst snd] in *. destruct r; auto. destruct Hr as (ws & -> & -> & _). apply gather_packets.
Qed.
Print Assumptions C54_failed_repair_is_a_loss.

(** If the handler throws while a datum is given, the datum stays in the window
    under an identifier that the next datum will get too. *)
Theorem C54_failed_datum :
  forall h m e d tr e' tr', hdata h m e d tr = (e', tr', HThrew) ->
  e_source_id e' = e_source_id e
  /\ exists l, e_sources e' = l ++ [{| es_id := e_source_id e; es_data := d |}].
Proof.
  intros h m e d tr e' tr'. unfold hdata. destruct (bind _ _); [|discriminate..]. unfold hcommit.
  destruct (push_source _ _) as [l|x|x] eqn:Ep; [|discriminate..].
  assert (El : exists l', l = l' ++ [{| es_id := e_source_id e; es_data := d |}]).
  { unfold push_source in Ep. destruct (_ =? _); [destruct (e_sources e) as [|s0 l0]; [discriminate|]|];
      (injection Ep as <-; eexists; reflexivity). }
  assert (Rep : forall e0 t0 e1 t1 r1, hrepair h m e0 t0 = (e1, t1, r1) ->
    e_source_id e1 = e_source_id e0 /\ e_sources e1 = e_sources e0).
  { intros e0 t0 e1 t1 r1. unfold hrepair. destruct (prepare_repair m e0) as [[e2 w]|x|x] eqn:E2; intros H.
    - unfold prepare_repair in E2. apply bind_ok in E2. destruct E2 as (_ & _ & E2). apply bind_ok in E2.
      destruct E2 as (rp & _ & E2). apply bind_ok in E2. destruct E2 as (w' & _ & E2).
      destruct (feed h t0 _). injection H as <- _ _. injection E2 as <- _. auto.
    - injection H as <- _ _. auto.
    - injection H as <- _ _. auto. }
  destruct (hsend _ _ _ _ _) as [[e1 tr1] r1] eqn:Es.
  assert (S1 : e_source_id e1 = e_source_id e /\ e_sources e1 = l).
  { unfold hsend in Es. destruct (e_systematic _).
    - destruct (feed h tr _). injection Es as <- _ _. auto.
    - apply Rep in Es. exact Es. }
  destruct S1 as (S1 & S2). intros H. rewrite <- S1 in El |- *. rewrite <- S2 in El.
  destruct r1; try (injection H as <- _; auto; fail); try discriminate.
  destruct (e_rate e1 =? 0); [discriminate|]. destruct (_ =? 0); [|discriminate].
  destruct (hrepair _ _ _ _) as [[e2 tr2] r2] eqn:E2. apply Rep in E2. destruct E2 as (E2 & E3).
  destruct r2; try discriminate. injection H as <- _. rewrite E2, E3. auto.
Qed.
Print Assumptions C54_failed_datum.

(** A handler that fails once, when it should send the first packet. *)
Definition once : handler := fun tr c => match c with HEnd => Nat.eqb (length tr) 4 | _ => false end.

(** So a caller that survives the exception breaks the code: a repair sent after
    the next datum makes the receiver deliver bytes that nobody sent. *)
Theorem C54_exceptions_harmless_refuted :
  exists h m ops e rs, hrun h m (new_encoder W8) [] ops = (e, rs)
  /\ faulted rs = None
  /\ exists p d out, In p (fst (gather [] (concat (map fst (tl rs)))))
     /\ drun m still (new_dec still W8 false) [DPacket p] = Ok (d, out)
     /\ exists x, In x (to_user out) /\ ~ In (EData x) ops.
Proof.
  exists once, Debug, [EData [1; 2; 3; 4; 5; 6; 7]; EData [11; 12; 13; 14]; ERepair].
  eexists. eexists. split; [vm_compute; reflexivity|]. split; [reflexivity|].
  eexists. eexists. eexists. split; [vm_compute; right; left; reflexivity|]. split; [vm_compute; reflexivity|].
  exists [10; 14; 14]. split; [vm_compute; auto|]. intros [H|[H|[H|[]]]]; discriminate.
Qed.
Print Assumptions C54_exceptions_harmless_refuted.

(** A handler that fails in the middle of the explicit repair. *)
Definition drop_repair : handler := fun tr c => match c with HBytes [1] => true | _ => false end.

Example C54_case :
  let ops := [EData [1; 2]; ERepair; EData [3; 4]; ERepair] in
  let rs := snd (hrun drop_repair Debug (new_encoder W8) [] ops) in
  map snd rs = [HDone; HThrew; HDone; HThrew] /\ throws_in_repairs_only ops rs.
Proof.
  cbv zeta. set (rs := snd _). vm_compute in rs. split; [reflexivity|].
  intros i op calls Ho Hr. do 4 (destruct i as [|i]; [cbn in Ho, Hr; congruence|]). destruct i; discriminate.
Qed.

Example C54_datum_case :
  snd (hdata once Debug (new_encoder W8) [1; 2; 3] []) = HThrew.
Proof. vm_compute. reflexivity. Qed.
