(** * C81: what a packet handler may do with its sender *)
From Coq Require Import NArith PeanoNat List Bool Lia.
From Verif Require Import Outcome GF Containers Packetizer Encoder EncoderRun EncoderFacts EncoderHistory EncoderSafe
  PropsEncoder Handlers PropsHandlers ReentrantSender.
Import ListNotations.
Open Scope N_scope.
Open Scope outcome_scope.

(** ** Vocabulary *)

(** A handler that makes calls as the documentation asks, gives no data, and, while a
    packet is handed over in pieces, only changes settings. At the end of a packet it
    also gives packets (acks) and asks for repairs. *)
Definition careful (f : field) (h : caller) : Prop :=
  forall tr c op, In op (h tr c) ->
  legal_op f op /\ (forall d, op <> EData d) /\ (c <> HEnd -> setting op = true).

(** ** Lemmas *)

Lemma erun_seq m a : forall e b, erun m e (a ++ b) =
  match erun m e a with
  | Ok (e1, o1) => match erun m e1 b with Ok (e2, o2) => Ok (e2, o1 ++ o2) | Throw x => Throw x | Fault x => Fault x end
  | Throw x => Throw x
  | Fault x => Fault x
  end.
Proof.
  induction a as [|op a IH]; intros e b.
  - cbn [app erun]. destruct (erun m e b) as [[? ?]| |]; reflexivity.
  - cbn [app]. rewrite !erun_cons. destruct (estep m e op) as [e1 [o|x|x]]; [|apply IH | reflexivity].
    rewrite IH. destruct (erun m e1 a) as [[e2 o2]|x|x]; cbn [bind]; try reflexivity.
    destruct (erun m e2 b) as [[e3 o3]|x|x]; cbn [bind]; try reflexivity. now rewrite app_assoc.
Qed.

Lemma setting_output m e op e' r : setting op = true -> estep m e op = (e', Ok r) -> r = [].
Proof.
  destruct op; cbn [setting estep]; intros S E; try discriminate; try congruence.
  - destruct (set_rate m e rate); cbn [bind] in E; congruence.
  - destruct (set_window_size m e size); cbn [bind] in E; congruence.
Qed.

(** The number of the next source plays no role in the other calls. *)
Definition no_data (op : eop) : Prop := forall d, op <> EData d.

Lemma estep_shift m e i op : no_data op ->
  estep m (with_source_id e i) op = (with_source_id (fst (estep m e op)) i, snd (estep m e op)).
Proof.
  intros Hn. destruct op as [d|p| |b|k|n|b]; cbn [estep]; try reflexivity.
  - destruct (Hn d eq_refl).
  - unfold notify. destruct (_ <- assert_ m _ ;; _) as [[]|x|x]; try reflexivity.
    destruct (read_ack m p) as [[a n]|x|x]; try reflexivity. unfold apply_ack.
    cbn [with_ack with_source_id e_adaptive e_nb_sent_packets e_rate].
    destruct (if e_adaptive e then _ else _) as [r|x|x]; reflexivity.
  - unfold generate_repair. cbn [with_source_id e_sources e_field e_repair_id].
    destruct (assert_ m _) as [[]|x|x]; cbn [bind]; try reflexivity.
    destruct (encode _ _ _ _) as [r|x|x]; cbn [bind]; try reflexivity.
    destruct (write_repair m r) as [w|x|x]; reflexivity.
  - unfold set_rate. destruct (assert_ m _) as [[]|x|x]; reflexivity.
  - unfold set_window_size. destruct (assert_ m _) as [[]|x|x]; reflexivity.
Qed.

Lemma erun_shift m i ops : Forall no_data ops -> forall e,
  erun m (with_source_id e i) ops =
  match erun m e ops with Ok (e', out) => Ok (with_source_id e' i, out) | Throw x => Throw x | Fault x => Fault x end.
Proof.
  induction 1 as [|op ops H _ IH]; intros e; [reflexivity|]. rewrite !erun_cons, estep_shift by exact H.
  destruct (estep m e op) as [e1 [o|x|x]]; cbn [fst snd]; rewrite ?IH; try reflexivity.
  destruct (erun m e1 ops) as [[e2 o2]|x|x]; reflexivity.
Qed.

Lemma with_same_id e : with_source_id e (e_source_id e) = e.
Proof. destruct e; reflexivity. Qed.

Lemma erun_same_id m ops e e' out : Forall no_data ops -> erun m e ops = Ok (e', out) -> e_source_id e' = e_source_id e.
Proof.
  intros H E. pose proof (erun_shift m (e_source_id e) ops H e) as X. rewrite with_same_id, E in X.
  assert (Y : e' = with_source_id e' (e_source_id e)) by congruence. rewrite Y. reflexivity.
Qed.

Lemma no_datas ops : datas ops = [] -> Forall no_data ops.
Proof.
  induction ops as [|op ops IH]; intros H; constructor.
  - intros d ->. discriminate H.
  - apply IH. destruct op; cbn in H; try discriminate; exact H.
Qed.

Lemma packet_calls_nil ws : concat (map packet_calls ws) = [] -> ws = [].
Proof.
  destruct ws as [|w ws]; [reflexivity|]. cbn [map concat]. unfold packet_calls. intros H.
  apply app_eq_nil in H. destruct H as [H _]. apply app_eq_nil in H. destruct H. discriminate.
Qed.

(** The trace of settings. *)
Lemma sseq_settings nested h m ops : forallb setting ops = true -> forall e tr e' tr',
  sseq nested h m e tr ops = Ok (e', tr') -> tr' = tr.
Proof.
  induction ops as [|op ops IH]; intros S e tr e' tr' E; cbn [sseq] in E; [congruence|].
  cbn [forallb] in S. apply andb_true_iff in S. destruct S as [S1 S2].
  destruct op; try discriminate S1; cbn [sstep] in E; destruct (estep m e _) as [e1 [o|x|x]]; cbn [bind] in E;
    try discriminate; eapply IH; eassumption.
Qed.

Lemma sops_settings depth h m ops e tr e' tr' : forallb setting ops = true -> sops depth h m e tr ops = Ok (e', tr') -> tr' = tr.
Proof.
  intros S E. destruct depth; cbn [sops] in E.
  - destruct ops; [congruence | discriminate].
  - eapply sseq_settings; eassumption.
Qed.

Section Flat.
Variables (m : mode) (f : field) (h : caller).
Variable ok : eop -> Prop.
Hypothesis ok_legal : forall op, ok op -> legal_op f op.
Hypothesis ok_repair : ok ERepair.
Hypothesis ok_rate : forall k, 0 < k -> ok (ESetRate k).
Hypothesis ok_handler : forall tr c op, In op (h tr c) -> ok op.
Hypothesis Hcareful : careful f h.

(** The outcome is one of calls whose handler makes no calls. *)
Definition plainly (e : enc) (tr : list hcall) (data : list (list N)) (r : outcome (enc * list hcall)) : Prop :=
  match r with
  | Ok (e', tr') => exists ops ws, Forall ok ops /\ datas ops = data
      /\ erun m e ops = Ok (e', map (@concat N) ws) /\ tr' = tr ++ concat (map packet_calls ws)
      /\ safe f e' /\ e_source_id e' = e_source_id e + N.of_nat (length data)
  | Throw _ => False
  | Fault OutOfFuel => True
  | Fault x => exists ops rest, Forall ok ops /\ data = datas ops ++ rest /\ erun m e ops = Fault x
  end.

Lemma plainly_nil e tr : safe f e -> plainly e tr [] (Ok (e, tr)).
Proof.
  intros S. exists [], []. cbn [map concat]. rewrite app_nil_r. split; [constructor|]. do 3 (split; [reflexivity|]).
  split; [exact S|]. cbn [length]. lia.
Qed.

Lemma plainly_trans e tr data1 e1 tr1 data2 r : plainly e tr data1 (Ok (e1, tr1)) -> plainly e1 tr1 data2 r ->
  plainly e tr (data1 ++ data2) r.
Proof.
  intros (ops1 & ws1 & O1 & D1 & E1 & -> & _ & I1) H2. destruct r as [[e2 tr2]|x|x].
  - destruct H2 as (ops2 & ws2 & O2 & D2 & E2 & -> & S2 & I2). exists (ops1 ++ ops2), (ws1 ++ ws2).
    split; [apply Forall_app; auto|]. split; [rewrite datas_app; congruence|].
    rewrite erun_seq, E1, E2, !map_app, concat_app, app_assoc, app_length. do 2 (split; [reflexivity|]). split; [exact S2|]. lia.
  - exact H2.
  - assert (X : x = OutOfFuel \/ exists ops rest, Forall ok ops /\ data2 = datas ops ++ rest /\ erun m e1 ops = Fault x)
      by (destruct x; auto). destruct X as [->|(ops2 & rest & O2 & D2 & E2)]; [exact I|].
    assert (Y : exists ops rest, Forall ok ops /\ data1 ++ data2 = datas ops ++ rest /\ erun m e ops = Fault x).
    { exists (ops1 ++ ops2), rest. split; [apply Forall_app; auto|]. rewrite datas_app, erun_seq, E1, E2, D1, D2, app_assoc. auto. }
    destruct x; auto.
Qed.

Lemma plainly_shift e tr r j : plainly e tr [] r ->
  match r with
  | Ok (e', tr') => exists ops ws, Forall ok ops /\ datas ops = []
      /\ erun m (with_source_id e j) ops = Ok (with_source_id e' j, map (@concat N) ws)
      /\ tr' = tr ++ concat (map packet_calls ws)
  | Throw _ => False
  | Fault OutOfFuel => True
  | Fault x => exists ops, Forall ok ops /\ datas ops = [] /\ erun m (with_source_id e j) ops = Fault x
  end.
Proof.
  destruct r as [[e' tr']|x|x]; cbn [plainly]; [| auto |].
  - intros (ops & ws & O & D & E & -> & _). exists ops, ws. split; [exact O|]. split; [exact D|].
    rewrite erun_shift, E by (apply no_datas, D). auto.
  - intros H.
    assert (X : x = OutOfFuel \/ exists ops rest, Forall ok ops /\ [] = datas ops ++ rest /\ erun m e ops = Fault x) by (destruct x; auto).
    destruct X as [->|(ops & rest & O & D & E)]; [exact I|]. symmetry in D. apply app_eq_nil in D. destruct D as [D _].
    assert (Y : exists ops, Forall ok ops /\ datas ops = [] /\ erun m (with_source_id e j) ops = Fault x).
    { exists ops. rewrite erun_shift, E by (apply no_datas, D). auto. }
    destruct x; auto.
Qed.

Variable nested : enc -> list hcall -> list eop -> outcome (enc * list hcall).
Hypothesis nested_plain : forall e tr ops, safe f e -> e_source_id e < 2 ^ 32 ->
  (forall op, In op ops -> ok op /\ no_data op) -> plainly e tr [] (nested e tr ops).
Hypothesis nested_settings : forall e tr ops e' tr', forallb setting ops = true -> nested e tr ops = Ok (e', tr') -> tr' = tr.

Lemma handler_ops tr c op : In op (h tr c) -> ok op /\ no_data op.
Proof. intros H. split; [eapply ok_handler, H|]. intros d. apply (Hcareful _ _ _ H). Qed.

Lemma sfeed_plain w : forall e tr, safe f e -> e_source_id e < 2 ^ 32 ->
  plainly e (tr ++ packet_calls w) [] (sfeed nested h e tr (packet_calls w)).
Proof.
  induction w as [|b w IH]; intros e tr S Hi; unfold packet_calls; cbn [map app sfeed at_end negb andb].
  - pose proof (nested_plain e (tr ++ [HEnd]) (h tr HEnd) S Hi (handler_ops tr HEnd)) as N.
    destruct (nested e (tr ++ [HEnd]) (h tr HEnd)) as [[e1 tr1]|x|x]; cbn [bind]; exact N.
  - assert (F : forallb setting (h tr (HBytes b)) = true).
    { apply forallb_forall. intros op Hop. apply (Hcareful _ _ _ Hop). discriminate. }
    rewrite F. cbn [negb].
    pose proof (nested_plain e (tr ++ [HBytes b]) (h tr (HBytes b)) S Hi (handler_ops tr (HBytes b))) as N.
    destruct (nested e (tr ++ [HBytes b]) (h tr (HBytes b))) as [[e1 tr1]|x|x] eqn:En; cbn [bind].
    + apply nested_settings in En; [|exact F]. subst tr1.
      destruct N as (ops & ws & O & D & E & Et & S1 & I1).
      rewrite <- (app_nil_r (tr ++ [HBytes b])) in Et at 1. apply app_inv_head in Et. symmetry in Et. apply packet_calls_nil in Et.
      subst ws. cbn [length] in I1. rewrite N.add_0_r in I1.
      assert (P1 : plainly e (tr ++ HBytes b :: map HBytes w ++ [HEnd]) []
                     (Ok (e1, (tr ++ [HBytes b]) ++ packet_calls w))).
      { exists ops, []. cbn [map concat length]. rewrite app_nil_r, N.add_0_r. unfold packet_calls.
        split; [exact O|]. split; [exact D|]. split; [exact E|]. rewrite <- app_assoc. split; [reflexivity|]. auto. }
      specialize (IH e1 (tr ++ [HBytes b]) S1 ltac:(rewrite I1; exact Hi)).
      exact (plainly_trans _ _ [] _ _ [] _ P1 IH).
    + destruct N.
    + exact N.
Qed.

Lemma srepair_plain e tr : safe f e -> e_source_id e < 2 ^ 32 -> plainly e tr [] (srepair nested h m e tr).
Proof.
  intros S Hi. unfold srepair. pose proof (prepare_generate m e) as G.
  destruct (prepare_repair m e) as [[e1 w]|x|x]; cbn [bind] in *.
  - assert (S1 : safe f e1) by (eapply generate_safe; eassumption).
    assert (I1 : e_source_id e1 = e_source_id e)
      by (apply generate_repair_ok in G as (r & w' & _ & _ & _ & F1 & F2 & F3 & F4 & F5 & F6 & _); congruence).
    assert (P : plainly e tr [] (Ok (e1, tr ++ packet_calls w))).
    { exists [ERepair], [w]. split; [constructor; [exact ok_repair | constructor]|]. split; [reflexivity|].
      cbn [erun estep map concat length]. rewrite G, app_nil_r, N.add_0_r. cbn [bind app]. auto. }
    apply (plainly_trans _ _ [] _ _ [] _ P). apply sfeed_plain; [exact S1 | rewrite I1; exact Hi].
  - now apply generate_repair_no_throw in G.
  - assert (Y : exists ops rest, Forall ok ops /\ [] = datas ops ++ rest /\ erun m e ops = Fault x).
    { exists [ERepair], []. split; [constructor; [exact ok_repair | constructor]|]. split; [reflexivity|].
      cbn [erun estep]. rewrite G. reflexivity. }
    destruct x; auto. exact I.
Qed.

(** The packet for the new datum without the repair that may follow: as if the rate
    was high for a moment. *)
Lemma first_part e d : safe f e -> legal f d -> e_source_id e + 1 < 2 ^ 32 ->
  let s := {| es_id := e_source_id e; es_data := d |} in
  exists l e1 w, push_source e s = Ok l
  /\ (forall tr, ssend nested h m (with_sources e l) s tr = sfeed nested h e1 tr (packet_calls w))
  /\ (forall tr, sdata nested h m e d tr = scommit nested h m e d tr)
  /\ safe f e1 /\ e_source_id e1 = e_source_id e /\ e_sources e1 = l
  /\ erun m e [ESetRate (2 ^ 32); EData d; ESetRate (e_rate e)]
     = Ok (with_source_id e1 (e_source_id e + 1), [concat w]).
Proof using nested h m f.
  clear nested_plain nested_settings ok_legal ok_repair ok_rate ok_handler Hcareful.
  intros S L Hi s. destruct (push_source_total e s) as [l El]; [destruct S; lia|]. exists l.
  assert (Eu : u32 (e_source_id e + 1) = e_source_id e + 1) by (unfold u32; apply N.mod_small; exact Hi).
  assert (Er : forall k (e0 : enc), 0 < k -> set_rate m e0 k = Ok {| e_field := e_field e0; e_systematic := e_systematic e0; e_rate := k;
      e_window_size := e_window_size e0; e_adaptive := e_adaptive e0; e_source_id := e_source_id e0; e_repair_id := e_repair_id e0;
      e_sources := e_sources e0; e_nb_sent_repairs := e_nb_sent_repairs e0; e_nb_acks := e_nb_acks e0;
      e_nb_sent_sources := e_nb_sent_sources e0; e_nb_sent_packets := e_nb_sent_packets e0 |}).
  { intros k e0 Hk. unfold set_rate. replace (assert_ m (0 <? k)) with (Ok tt); [reflexivity|].
    destruct m; [|reflexivity]. unfold assert_. apply N.ltb_lt in Hk. now rewrite Hk. }
  assert (A1 : assert_ m (Nat.ltb 0 (length d)) = Ok tt).
  { destruct m; [|reflexivity]. unfold assert_. destruct L as (L & _). apply Nat.ltb_lt in L. now rewrite L. }
  assert (A2 : assert_ m (match e_field e with W16 | W32 => aligned (e_field e) (length d) | _ => true end) = Ok tt).
  { destruct m; [|reflexivity]. unfold assert_. destruct L as (_ & _ & L). rewrite (sf_field _ _ S). rewrite L. destruct f; reflexivity. }
  assert (Sl : Forall (fun s => legal f (es_data s)) l /\ l <> []).
  { apply push_source_in in El. destruct El as (Hin & Hall & _). split.
    - apply Forall_forall. intros x Hx. apply Hall in Hx. destruct Hx as [->|Hx]; [exact L|].
      destruct S as [_ S _ _ _]. rewrite Forall_forall in S. apply S, Hx.
    - intros ->. destruct Hin. }
  destruct Sl as [Sl Nl].
  set (e0 := with_sources e l). assert (S0 : safe f e0) by (destruct S; constructor; assumption).
  (* the state with a high rate *)
  set (eh := {| e_field := e_field e; e_systematic := e_systematic e; e_rate := 2 ^ 32; e_window_size := e_window_size e;
      e_adaptive := e_adaptive e; e_source_id := e_source_id e; e_repair_id := e_repair_id e; e_sources := e_sources e;
      e_nb_sent_repairs := e_nb_sent_repairs e; e_nb_acks := e_nb_acks e; e_nb_sent_sources := e_nb_sent_sources e;
      e_nb_sent_packets := e_nb_sent_packets e |}).
  assert (Run : forall e1 w, (send_source m (with_sources eh l) s) = Ok (
      {| e_field := e_field e1; e_systematic := e_systematic e1; e_rate := 2 ^ 32; e_window_size := e_window_size e1;
      e_adaptive := e_adaptive e1; e_source_id := e_source_id e1; e_repair_id := e_repair_id e1; e_sources := e_sources e1;
      e_nb_sent_repairs := e_nb_sent_repairs e1; e_nb_acks := e_nb_acks e1; e_nb_sent_sources := e_nb_sent_sources e1;
      e_nb_sent_packets := e_nb_sent_packets e1 |}, [concat w]) -> e_source_id e1 = e_source_id e -> e_rate e1 = e_rate e ->
    erun m e [ESetRate (2 ^ 32); EData d; ESetRate (e_rate e)] = Ok (with_source_id e1 (e_source_id e + 1), [concat w])).
  { intros e1 w Hs Hi1 Hr1. rewrite erun_cons. cbn [estep]. rewrite Er by reflexivity. cbn [bind]. fold eh.
    rewrite erun_cons. cbn [estep]. unfold enc_data. change (e_field eh) with (e_field e). rewrite A1, A2. cbn [bind].
    unfold commit. change (e_source_id eh) with (e_source_id e). fold s. change (push_source eh s) with (push_source e s). rewrite El. cbn [bind].
    rewrite Hs. cbn [bind e_rate e_source_id]. change (2 ^ 32 =? 0) with false. cbv iota. rewrite Hi1, Eu.
    rewrite N.mod_small by exact Hi. replace (e_source_id e + 1 =? 0) with false by (symmetry; apply N.eqb_neq; lia). cbn [bind].
    rewrite erun_cons. cbn [estep]. rewrite Er by apply S. cbn [bind erun app]. do 2 f_equal.
    unfold with_source_id. cbn. rewrite ?Hi1, ?Eu, <- Hr1. reflexivity. }
  destruct (Sumbool.sumbool_of_bool (e_systematic e)) as [Es|Es].
  - eexists. exists (write_source s). split; [exact El|]. split; [intros tr; unfold ssend; fold e0; change (e_systematic e0) with (e_systematic e); rewrite Es; reflexivity|].
    split; [intros tr; unfold sdata; rewrite A1, A2; reflexivity|].
    split; [destruct S0 as [X1 X2 X3 X4 X5]; constructor; try assumption; apply u16_lt|]. split; [reflexivity|]. split; [reflexivity|].
    apply Run; [|reflexivity | reflexivity]. unfold send_source. change (e_systematic (with_sources eh l)) with (e_systematic e). rewrite Es. reflexivity.
  - destruct (generate_repair_total m e0) as (e1 & p & G).
    { unfold legal_window. rewrite (sf_field _ _ S0). exact Sl. }
    { exact Nl. }
    pose proof (prepare_generate m e0) as P. rewrite G in P. destruct (prepare_repair m e0) as [[e1' w]|x|x] eqn:Ep; cbn [bind] in P; try discriminate.
    assert (e1' = e1) by congruence. assert (p = concat w) by congruence. subst e1' p. clear P.
    exists e1, w. split; [exact El|]. split.
    { intros tr. unfold ssend. fold e0. change (e_systematic e0) with (e_systematic e). rewrite Es. unfold srepair. rewrite Ep. reflexivity. }
    split; [intros tr; unfold sdata; rewrite A1, A2; reflexivity|].
    split; [eapply generate_safe; eassumption|].
    unfold prepare_repair in Ep. destruct (assert_ m (Nat.ltb 0 (length (e_sources e0)))) as [[]|x|x] eqn:Ea; cbn [bind] in Ep; try discriminate.
    destruct (encode (e_field e0) m (e_repair_id e0) (e_sources e0)) as [r|x|x] eqn:Ee; cbn [bind] in Ep; try discriminate.
    destruct (write_repair m r) as [w'|x|x] eqn:Ew; cbn [bind] in Ep; try discriminate.
    assert (w' = w) by congruence. subst w'. apply (f_equal (fun x => match x with Ok (a, _) => a | _ => e1 end)) in Ep. cbv beta iota in Ep.
    split; [rewrite <- Ep; reflexivity|]. split; [rewrite <- Ep; reflexivity|]. apply Run; [|rewrite <- Ep; reflexivity | rewrite <- Ep; reflexivity].
    unfold send_source. change (e_systematic (with_sources eh l)) with (e_systematic e). rewrite Es. unfold generate_repair.
    change (e_sources (with_sources eh l)) with (e_sources e0). change (e_field (with_sources eh l)) with (e_field e0).
    change (e_repair_id (with_sources eh l)) with (e_repair_id e0). rewrite Ea. cbn [bind]. rewrite Ee. cbn [bind]. rewrite Ew. cbn [bind].
    rewrite <- Ep. reflexivity.
Qed.

Lemma sdata_plain e d tr : safe f e -> ok (EData d) -> e_source_id e + 1 < 2 ^ 32 -> plainly e tr [d] (sdata nested h m e d tr).
Proof.
  intros S Okd Hi. pose proof (ok_legal _ Okd) as L. cbn [legal_op] in L.
  destruct (first_part e d S L Hi) as (l & e1 & w & El & Hs & Hd & S1 & I1 & _ & Run).
  set (j := e_source_id e + 1) in *. set (three := [ESetRate (2 ^ 32); EData d; ESetRate (e_rate e)]) in *.
  assert (O3 : Forall ok three).
  { constructor; [apply ok_rate; reflexivity|]. constructor; [exact Okd|]. constructor; [apply ok_rate, S | constructor]. }
  rewrite Hd. unfold scommit. cbv zeta. rewrite El. cbn [bind]. rewrite Hs.
  pose proof (sfeed_plain w e1 tr S1 ltac:(lia)) as P1. pose proof (plainly_shift _ _ _ j P1) as Q1.
  assert (Faults : forall x ops, Forall ok ops -> datas ops = [] -> erun m (with_source_id e1 j) ops = Fault x ->
    plainly e tr [d] (Fault x)).
  { intros x ops O D E. assert (Y : exists ops rest, Forall ok ops /\ [d] = datas ops ++ rest /\ erun m e ops = Fault x).
    { exists (three ++ ops), []. split; [apply Forall_app; auto|]. rewrite datas_app, D. split; [reflexivity|].
      rewrite erun_seq, Run, E. reflexivity. }
    destruct x; auto. exact I. }
  destruct (sfeed nested h e1 tr (packet_calls w)) as [[e2 tr2]|x|x]; cbn [bind]; [| exact P1 |].
  2:{ destruct x; try exact I; destruct Q1 as (ops & O & D & E); eapply Faults; eassumption. }
  destruct Q1 as (ops1 & ws1 & O1 & D1 & E1 & ->). destruct P1 as (_ & _ & _ & _ & _ & _ & S2 & I2). cbn [length] in I2.
  rewrite N.add_0_r in I2. assert (I2' : e_source_id e2 = e_source_id e) by congruence. rewrite I2'.
  replace (e_rate e2 =? 0) with false by (symmetry; apply N.eqb_neq; destruct S2; lia).
  assert (Eu : u32 (e_source_id e + 1) = j) by (unfold u32; apply N.mod_small; exact Hi). rewrite Eu.
  assert (Fin : forall e3 ops ws tr3, Forall ok ops -> datas ops = [] -> safe f e3 ->
    erun m (with_source_id e2 j) ops = Ok (with_source_id e3 j, map (@concat N) ws) ->
    tr3 = ((tr ++ packet_calls w) ++ concat (map packet_calls ws1)) ++ concat (map packet_calls ws) ->
    plainly e tr [d] (Ok (with_source_id e3 j, tr3))).
  { intros e3 ops ws tr3 O D S3 E ->. exists (three ++ ops1 ++ ops), (w :: ws1 ++ ws).
    split; [repeat (apply Forall_app; split); assumption|]. split; [rewrite !datas_app, D1, D; reflexivity|].
    rewrite erun_seq, Run, erun_seq, E1, E. cbn [map concat]. rewrite !map_app, concat_app. cbn [app]. split; [reflexivity|].
    rewrite !app_assoc. split; [reflexivity|]. split; [destruct S3; constructor; assumption|]. reflexivity. }
  destruct (j mod e_rate e2 =? 0).
  - pose proof (srepair_plain e2 ((tr ++ packet_calls w) ++ concat (map packet_calls ws1)) S2 ltac:(lia)) as P3.
    pose proof (plainly_shift _ _ _ j P3) as Q3.
    destruct (srepair nested h m e2 _) as [[e3 tr3]|x|x]; cbn [bind]; [| exact P3 |].
    + destruct Q3 as (ops & ws & O & D & E & Et). destruct P3 as (_ & _ & _ & _ & _ & _ & S3 & I3). cbn [length] in I3.
      rewrite N.add_0_r in I3. rewrite I3, I2', Eu. eapply Fin; eassumption.
    + destruct x; try exact I; destruct Q3 as (ops & O & D & E); apply (Faults _ (ops1 ++ ops));
        try (apply Forall_app; split; assumption); try (rewrite datas_app, D1, D; reflexivity);
        rewrite erun_seq, E1, E; reflexivity.
  - cbn [bind]. rewrite I2', Eu. apply (Fin e2 [] []); [constructor | reflexivity | exact S2 | reflexivity |].
    cbn [map concat]. now rewrite app_nil_r.
Qed.

Lemma others_plain e op tr : safe f e -> ok op -> no_data op -> op <> ERepair ->
  plainly e tr [] (sstep nested h m e op tr).
Proof.
  intros S O Hn Hr. destruct (estep_safe m f e op S (ok_legal _ O)) as (e1 & r & E & Hf & S1); [congruence|].
  assert (X : sstep nested h m e op tr = Ok (e1, tr) /\ erun m e [op] = Ok (e1, [])).
  { cbn [erun]. rewrite E.
    assert (Ho : forall o, r = Ok o -> o = []).
    { intros o ->. destruct (setting op) eqn:Es; [eapply setting_output; eassumption|].
      destruct op as [d|p| |b|k|n|b]; try discriminate Es; [destruct (Hn d eq_refl) | | congruence].
      cbn [estep] in E. destruct (notify m e p) as [e2 [n|x|x]]; cbn [bind] in E; congruence. }
    destruct r as [o|x|x].
    - rewrite (Ho o eq_refl) in *. split; [|reflexivity].
      destruct op as [d|p| |b|k|n|b]; [destruct (Hn d eq_refl) | | congruence | ..]; cbn [sstep]; rewrite E; reflexivity.
    - split; [|reflexivity].
      destruct op as [d|p| |b|k|n|b]; [destruct (Hn d eq_refl) | | congruence | ..]; cbn [sstep]; rewrite E; reflexivity.
    - destruct Hf. eexists; reflexivity. }
  destruct X as [-> X]. exists [op], []. split; [constructor; [exact O | constructor]|].
  assert (D : datas [op] = []) by (destruct op as [d|p| |b|k|n|b]; try reflexivity; destruct (Hn d eq_refl)).
  split; [exact D|]. cbn [map concat length]. rewrite X, app_nil_r, N.add_0_r. split; [reflexivity|]. split; [reflexivity|].
  split; [exact S1|]. apply (erun_same_id m [op] e e1 []); [|exact X]. constructor; [exact Hn | constructor].
Qed.

Lemma sseq_plain ops : forall e tr, safe f e -> e_source_id e < 2 ^ 32 -> Forall ok ops ->
  e_source_id e + nb_data ops < 2 ^ 32 -> plainly e tr (datas ops) (sseq nested h m e tr ops).
Proof.
  induction ops as [|op ops IH]; intros e tr S Hi O Hb; cbn [sseq]; [apply plainly_nil, S|].
  inversion O as [|? ? O1 O2]; subst.
  change (op :: ops) with ([op] ++ ops) in Hb |- *. rewrite nb_data_app in Hb. rewrite datas_app.
  assert (P : plainly e tr (datas [op]) (sstep nested h m e op tr)).
  { destruct op as [d|p| |b|k|n|b]; try (apply others_plain; [assumption | assumption | intros ? | ]; discriminate).
    - apply sdata_plain; [assumption | assumption |]. change (nb_data [EData d]) with 1 in Hb. lia.
    - apply srepair_plain; assumption. }
  destruct (sstep nested h m e op tr) as [[e1 tr1]|x|x]; cbn [bind].
  - pose proof P as (_ & _ & _ & _ & _ & _ & S1 & I1). apply (plainly_trans _ _ _ _ _ _ _ P). apply IH; [exact S1 | | exact O2 |].
    + rewrite I1. unfold nb_data in Hb. lia.
    + rewrite I1. unfold nb_data in *. lia.
  - destruct P.
  - assert (X : x = OutOfFuel \/ exists ops' rest, Forall ok ops' /\ datas [op] = datas ops' ++ rest /\ erun m e ops' = Fault x)
      by (destruct x; auto). destruct X as [->|(ops' & rest & A & B & C)]; [exact I|].
    assert (Y : exists ops' rest, Forall ok ops' /\ datas [op] ++ datas ops = datas ops' ++ rest /\ erun m e ops' = Fault x)
      by (exists ops', (rest ++ datas ops); rewrite B, app_assoc; auto). destruct x; auto.
Qed.

End Flat.

Lemma sops_plain m f h (ok : eop -> Prop) : (forall op, ok op -> legal_op f op) -> ok ERepair -> (forall k, 0 < k -> ok (ESetRate k)) ->
  (forall tr c op, In op (h tr c) -> ok op) -> careful f h ->
  forall depth ops e tr, safe f e -> e_source_id e < 2 ^ 32 -> Forall ok ops -> e_source_id e + nb_data ops < 2 ^ 32 ->
  plainly m f ok e tr (datas ops) (sops depth h m e tr ops).
Proof.
  intros H1 H2 H3 H4 H5. induction depth as [|depth IH]; intros ops e tr S Hi O Hb; cbn [sops].
  - destruct ops; [apply plainly_nil, S | exact I].
  - apply sseq_plain; auto.
    + intros e0 tr0 ops0 S0 Hi0 O0.
      assert (D : datas ops0 = []).
      { clear - O0. induction ops0 as [|op l IHl]; [reflexivity|]. change (op :: l) with ([op] ++ l). rewrite datas_app, IHl.
        - destruct (O0 op (or_introl eq_refl)) as [_ Hn]. destruct op as [d|p| |b|k|n|b]; try reflexivity. destruct (Hn d eq_refl).
        - intros op' Hop'. apply O0. right. exact Hop'. }
      rewrite <- D. apply IH; [exact S0 | exact Hi0 | apply Forall_forall; intros op Hop; apply O0, Hop |]. unfold nb_data. rewrite D. cbn [length]. lia.
    + intros e0 tr0 ops0 e' tr' F E. eapply sops_settings; eassumption.
Qed.

(** *** Handlers that ask for nothing, or for no packets *)

(** The calls a handler makes while it gets [calls]. *)
Fixpoint asked (h : caller) (tr calls : list hcall) : list eop :=
  match calls with
  | [] => []
  | c :: l => h tr c ++ asked h (tr ++ [c]) l
  end.

(** No call of the handler leads to a packet. *)
Definition sends_nothing (h : caller) : Prop := forall tr c, ~ In ERepair (h tr c).

Lemma sseq_quiet m f nested h ops : (forall op, In op ops -> legal_op f op /\ no_data op /\ op <> ERepair) ->
  forall e tr, safe f e -> exists e', sseq nested h m e tr ops = Ok (e', tr) /\ erun m e ops = Ok (e', []) /\ safe f e'.
Proof.
  induction ops as [|op ops IH]; intros H e tr S; [exists e; split; [reflexivity|]; split; [reflexivity | exact S]|].
  destruct (H op (or_introl eq_refl)) as (L & Hn & Hr).
  destruct (estep_safe m f e op S L) as (e1 & r & E & Hf & S1); [congruence|].
  assert (X : sstep nested h m e op tr = Ok (e1, tr) /\ erun m e (op :: ops) = erun m e1 ops).
  { rewrite erun_cons, E.
    assert (Ho : forall o, r = Ok o -> o = []).
    { intros o ->. destruct (setting op) eqn:Es; [eapply setting_output; eassumption|].
      destruct op as [d|p| |b|k|n|b]; try discriminate Es; [destruct (Hn d eq_refl) | | congruence].
      cbn [estep] in E. destruct (notify m e p) as [e2 [n|x|x]]; cbn [bind] in E; congruence. }
    destruct r as [o|x|x].
    - rewrite (Ho o eq_refl) in *. split; [|destruct (erun m e1 ops) as [[? ?]|?|?]; reflexivity].
      destruct op as [d|p| |b|k|n|b]; [destruct (Hn d eq_refl) | | congruence | ..]; cbn [sstep]; rewrite E; reflexivity.
    - split; [|reflexivity].
      destruct op as [d|p| |b|k|n|b]; [destruct (Hn d eq_refl) | | congruence | ..]; cbn [sstep]; rewrite E; reflexivity.
    - destruct Hf. eexists; reflexivity. }
  destruct X as [X1 X2]. cbn [sseq]. rewrite X1, X2. cbn [bind]. apply IH; [|exact S1]. intros op' Hop'. apply H. right. exact Hop'.
Qed.

Lemma sfeed_quiet m f h depth calls : careful f h -> sends_nothing h -> forall e tr, safe f e ->
  exists e', sfeed (sops (S depth) h m) h e tr calls = Ok (e', tr ++ calls) /\ erun m e (asked h tr calls) = Ok (e', []) /\ safe f e'.
Proof.
  intros C Q. induction calls as [|c calls IH]; intros e tr S; cbn [sfeed asked].
  - exists e. rewrite app_nil_r. split; [reflexivity|]. split; [reflexivity | exact S].
  - assert (F : negb (at_end c) && negb (forallb setting (h tr c)) = false).
    { destruct c; [|reflexivity]. cbn [at_end negb andb]. apply negb_false_iff, forallb_forall. intros op Hop. apply (C _ _ _ Hop). discriminate. }
    rewrite F. destruct (sseq_quiet m f (sops depth h m) h (h tr c)) with (e := e) (tr := tr ++ [c]) as (e1 & E1 & R1 & S1).
    { intros op Hop. destruct (C _ _ _ Hop) as (A & B & _). split; [exact A|]. split; [exact B|]. intros ->. exact (Q _ _ Hop). }
    { exact S. }
    change (sops (Datatypes.S depth) h m e (tr ++ [c]) (h tr c)) with (sseq (sops depth h m) h m e (tr ++ [c]) (h tr c)).
    rewrite E1. cbn [bind]. destruct (IH e1 (tr ++ [c]) S1) as (e2 & E2 & R2 & S2). exists e2.
    rewrite E2, erun_seq, R1, R2, <- app_assoc. split; [reflexivity|]. split; [reflexivity | exact S2].
Qed.

(** ** C81 *)

(** The calls a plain encoder gets: those of the user and of the handler, and
    repairs and changes of the rate. *)
Definition of_user_or_handler (ops : list eop) (h : caller) (op : eop) : Prop :=
  In op ops \/ (exists tr c, In op (h tr c)) \/ op = ERepair \/ (exists k, op = ESetRate k /\ 0 < k).

(** Whatever a careful handler asks for, to any depth: the state, the packets and the
    calls of the handler are those of an encoder that is only called from outside,
    with the same data in the same order. It only goes wrong when a repair is
    due or asked for while the window is empty. *)
Theorem C81_careful_handlers :
  forall m f h depth ops, careful f h -> Forall (legal_op f) ops -> nb_data ops < 2 ^ 32 ->
  match sops depth h m (new_encoder f) [] ops with
  | Ok (e, calls) => exists plain packets, Forall (of_user_or_handler ops h) plain /\ datas plain = datas ops
      /\ reached m f plain e packets /\ gather [] calls = (packets, [])
  | Throw _ => False
  | Fault x => x = OutOfFuel
      \/ exists plain e packets, Forall (of_user_or_handler ops h) plain /\ reached m f plain e packets /\ e_sources e = []
         /\ exists rest, datas ops = datas plain ++ rest
  end.
Proof.
  intros m f h depth ops C L Hn.
  set (ok := fun op => legal_op f op /\ of_user_or_handler ops h op).
  assert (P : plainly m f ok (new_encoder f) [] (datas ops) (sops depth h m (new_encoder f) [] ops)).
  { apply sops_plain.
    - intros op Hop. apply Hop.
    - split; [exact I|]. right. right. left. reflexivity.
    - intros k Hk. split; [exact Hk|]. right. right. right. exists k. auto.
    - intros tr c op Hop. split; [apply (C _ _ _ Hop)|]. right. left. exists tr, c. exact Hop.
    - exact C.
    - apply new_safe.
    - reflexivity.
    - rewrite Forall_forall in L |- *. intros op Hop. split; [apply L, Hop | left; exact Hop].
    - exact Hn. }
  destruct (sops depth h m (new_encoder f) [] ops) as [[e calls]|x|x]; cbn [plainly] in P; [| exact P |].
  - destruct P as (plain & ws & O & D & E & -> & _). exists plain, (map (@concat N) ws).
    split; [eapply Forall_impl; [|exact O]; intros op Hop; apply Hop|]. split; [exact D|]. split; [exact E|]. apply gather_packets.
  - assert (X : x = OutOfFuel \/ exists ops' rest, Forall ok ops' /\ datas ops = datas ops' ++ rest /\ erun m (new_encoder f) ops' = Fault x)
      by (destruct x; auto). destruct X as [->|(ops' & rest & O & D & E)]; [left; reflexivity|]. right.
    assert (L' : Forall (legal_op f) ops') by (eapply Forall_impl; [|exact O]; intros op Hop; apply Hop).
    destruct (C24_only_bad_case m f ops' L') as [(e & out & R)|(before & after & e & out & Eo & R & Hw)].
    + unfold reached in R. congruence.
    + exists before, e, out. rewrite Eo in O. apply Forall_app in O. destruct O as [O _].
      split; [eapply Forall_impl; [|exact O]; intros op Hop; apply Hop|]. split; [exact R|]. split; [exact Hw|].
      rewrite Eo, datas_app, <- app_assoc in D. eexists. exact D.
Qed.
Print Assumptions C81_careful_handlers.

(** Exactly what one datum does when the calls of the handler (settings and packets)
    lead to no packets. The packet for the datum is handed over with the calls of the
    handler made then. These change the encoder at once, but for the number of the
    next datum. Rate and window are looked at only after them: when a repair is then
    due, it covers the window left by them, and with nothing left it goes wrong. *)
Theorem C81_one_datum :
  forall m f h depth ops e packets d tr,
  careful f h -> sends_nothing h ->
  Forall (legal_op f) ops -> reached m f ops e packets -> legal f d -> nb_data ops + 1 < 2 ^ 32 ->
  exists w e1, erun m e ([ESetRate (2 ^ 32); EData d; ESetRate (e_rate e)] ++ asked h tr (packet_calls w)) = Ok (e1, [concat w])
  /\ let tr1 := tr ++ packet_calls w in
     if (nb_data ops + 1) mod e_rate e1 =? 0
     then match e_sources e1 with
          | [] => exists x, sops (2 + depth) h m e tr [EData d] = Fault x
          | _ => exists w' e2, sops (2 + depth) h m e tr [EData d] = Ok (e2, tr1 ++ packet_calls w')
                   /\ erun m e1 (ERepair :: asked h tr1 (packet_calls w')) = Ok (e2, [concat w'])
          end
     else sops (2 + depth) h m e tr [EData d] = Ok (e1, tr1).
Proof.
  intros m f h depth ops e packets d tr C Q L R Ld Hn.
  assert (S : safe f e).
  { destruct (erun_safe m f (new_encoder f) ops (new_safe f) L) as [(e' & out & E & S)|(before & after & e0 & out & Eo & E & Hw)].
    - unfold reached in R. congruence.
    - exfalso. unfold reached in R. rewrite Eo, erun_seq, E in R. rewrite erun_cons in R. cbn [estep] in R.
      destruct m; unfold generate_repair in R; rewrite Hw in R; discriminate R. }
  assert (Id : e_source_id e = nb_data ops).
  { pose proof (history_of_run m f ops e packets R) as H. rewrite (h_source_id _ _ _ _ H). unfold u32. apply N.mod_small. lia. }
  destruct (first_part m f h (sops (Datatypes.S depth) h m) e d S Ld ltac:(rewrite Id; exact Hn))
    as (l & e0 & w & El & Hs & Hd & S0 & I0 & _ & Run).
  destruct (sfeed_quiet m f h depth (packet_calls w) C Q e0 tr S0) as (e1 & F1 & R1 & S1).
  assert (No : forall tr calls, Forall no_data (asked h tr calls)).
  { intros tr0 calls. revert tr0. induction calls as [|c calls IH]; intros tr0; cbn [asked]; [constructor|]. apply Forall_app. split; [|apply IH].
    apply Forall_forall. intros op Hop d0. apply (C _ _ _ Hop). }
  assert (I1 : e_source_id e1 = e_source_id e) by (rewrite <- I0; eapply erun_same_id; [apply No | exact R1]).
  set (j := e_source_id e + 1) in *.
  exists w, (with_source_id e1 j). split.
  { rewrite erun_seq, Run, erun_shift, R1 by apply No. reflexivity. }
  cbv zeta. change (e_rate (with_source_id e1 j)) with (e_rate e1). change (e_sources (with_source_id e1 j)) with (e_sources e1).
  change (2 + depth)%nat with (Datatypes.S (Datatypes.S depth)).
  set (n := sops (Datatypes.S depth) h m) in *.
  change (sops (Datatypes.S (Datatypes.S depth)) h m e tr [EData d]) with ('(e, tr) <- sdata n h m e d tr ;; Ok (e, tr)).
  rewrite Hd. unfold scommit. cbv zeta. rewrite El. cbn [bind]. rewrite Hs, F1. cbn [bind]. rewrite I1.
  replace (e_rate e1 =? 0) with false by (symmetry; apply N.eqb_neq; destruct S1; lia).
  assert (Eu : u32 (e_source_id e + 1) = j) by (unfold u32; apply N.mod_small; unfold j; rewrite Id; exact Hn). rewrite Eu.
  replace (nb_data ops + 1) with j by (unfold j; rewrite Id; reflexivity).
  destruct (j mod e_rate e1 =? 0).
  - assert (Cases : e_sources e1 = [] \/ e_sources e1 <> []) by (destruct (e_sources e1); [left; reflexivity | right; discriminate]).
    destruct Cases as [Hw|Hw].
    + rewrite Hw. unfold srepair, prepare_repair. rewrite Hw. destruct m; eexists; reflexivity.
    + destruct (generate_repair_total m e1) as (e2 & p & G).
      { unfold legal_window. rewrite (sf_field _ _ S1). apply S1. }
      { exact Hw. }
      pose proof (prepare_generate m e1) as P. rewrite G in P. destruct (prepare_repair m e1) as [[e2' w']|x|x] eqn:Ep; cbn [bind] in P; try discriminate.
      assert (e2' = e2) by congruence. assert (p = concat w') by congruence. subst e2' p. clear P.
      assert (S2 : safe f e2) by (eapply generate_safe; eassumption).
      destruct (sfeed_quiet m f h depth (packet_calls w') C Q e2 (tr ++ packet_calls w) S2) as (e3 & F3 & R3 & S3). fold n in F3.
      assert (I3 : e_source_id e3 = e_source_id e).
      { transitivity (e_source_id e2); [eapply erun_same_id; [apply No | exact R3]|]. rewrite <- I1.
        apply generate_repair_ok in G as (? & ? & _ & _ & _ & ? & ? & ? & ? & ? & ? & _). assumption. }
      destruct (e_sources e1) as [|s0 l0] eqn:Es; [congruence|].
      exists w', (with_source_id e3 j). unfold srepair. rewrite Ep. cbn [bind]. rewrite F3. cbn [bind]. rewrite I3, Eu. split; [reflexivity|].
      rewrite erun_shift by (constructor; [intros ? ?; discriminate | apply No]). rewrite erun_cons. cbn [estep]. rewrite G, R3. reflexivity.
  - cbn [bind]. rewrite I1, Eu. reflexivity.
Qed.
Print Assumptions C81_one_datum.

Lemma prepare_fault m f e x : safe f e -> prepare_repair m e = Fault x -> x <> OutOfFuel.
Proof.
  intros S E. assert (Cases : e_sources e = [] \/ e_sources e <> []) by (destruct (e_sources e); [left; reflexivity | right; discriminate]).
  destruct Cases as [Hw|Hw].
  - unfold prepare_repair in E. rewrite Hw in E. destruct m; cbn in E; congruence.
  - exfalso. destruct (generate_repair_total m e) as (e2 & p & G); [unfold legal_window; rewrite (sf_field _ _ S); apply S | exact Hw |].
    rewrite prepare_generate, E in G. discriminate G.
Qed.

(** A handler that only changes settings and gives packets is called to depth two. *)
Theorem C81_depth :
  forall m f h depth ops, careful f h -> sends_nothing h -> Forall (legal_op f) ops -> nb_data ops < 2 ^ 32 ->
  sops (2 + depth) h m (new_encoder f) [] ops <> Fault OutOfFuel.
Proof.
  intros m f h depth ops C Q L Hn. change (2 + depth)%nat with (Datatypes.S (Datatypes.S depth)).
  assert (G : forall ops e tr, safe f e -> e_source_id e < 2 ^ 32 -> Forall (legal_op f) ops -> e_source_id e + nb_data ops < 2 ^ 32 ->
    sops (Datatypes.S (Datatypes.S depth)) h m e tr ops <> Fault OutOfFuel).
  2:{ apply G; [apply new_safe | reflexivity | exact L | exact Hn]. }
  clear ops L Hn. set (n := sops (Datatypes.S depth) h m).
  assert (Rep : forall e tr, safe f e -> srepair n h m e tr <> Fault OutOfFuel).
  { intros e tr S. unfold srepair. pose proof (prepare_fault m f e) as Pf. pose proof (prepare_generate m e) as Pg.
    destruct (prepare_repair m e) as [[e1 w]|x|x]; cbn [bind] in *.
    - destruct (sfeed_quiet m f h depth (packet_calls w) C Q e1 tr) as (e2 & F & _); [eapply generate_safe; eassumption|].
      fold n in F. rewrite F. discriminate.
    - discriminate.
    - specialize (Pf x S eq_refl). congruence. }
  induction ops as [|op ops IH]; intros e tr S Hi L Hb; [discriminate|].
  inversion L as [|? ? L1 L2]; subst. change (op :: ops) with ([op] ++ ops) in Hb. rewrite nb_data_app in Hb.
  change (sops (Datatypes.S (Datatypes.S depth)) h m e tr (op :: ops))
    with ('(e, tr) <- sstep n h m e op tr ;; sops (Datatypes.S (Datatypes.S depth)) h m e tr ops).
  assert (P : plainly m f (legal_op f) e tr (datas [op]) (sops (Datatypes.S (Datatypes.S depth)) h m e tr [op])).
  { apply sops_plain; auto.
    - exact I.
    - intros tr0 c op0 H0. apply (C _ _ _ H0).
    - lia. }
  change (sops (Datatypes.S (Datatypes.S depth)) h m e tr [op]) with ('(e, tr) <- sstep n h m e op tr ;; Ok (e, tr)) in P.
  assert (X : sstep n h m e op tr <> Fault OutOfFuel).
  { destruct op as [d|p| |b|k|i|b].
    - cbn [sstep]. change (nb_data [EData d]) with 1 in Hb.
      destruct (first_part m f h n e d S L1 ltac:(lia)) as (l & e0 & w & El & Hs & Hd & S0 & I0 & _ & _). rewrite Hd.
      destruct (sfeed_quiet m f h depth (packet_calls w) C Q e0 tr S0) as (e1 & F1 & _ & S1). fold n in F1.
      unfold scommit. cbv zeta. rewrite El. cbn [bind]. rewrite Hs, F1. cbn [bind]. destruct (e_rate e1 =? 0); [discriminate|].
      destruct (_ =? 0); cbn [bind]; [|discriminate]. specialize (Rep e1 (tr ++ packet_calls w) S1).
      destruct (srepair n h m e1 _) as [[? ?]|x|x]; cbn [bind]; congruence.
    - cbn [sstep]. destruct (estep_safe m f e (EPacket p) S L1) as (e1 & r & E & Hf & _); [discriminate|]. rewrite E.
      destruct r; try discriminate. destruct Hf. eexists; reflexivity.
    - apply Rep, S.
    - discriminate.
    - cbn [sstep]. destruct (estep_safe m f e (ESetRate k) S L1) as (e1 & r & E & Hf & _); [discriminate|]. rewrite E.
      destruct r; try discriminate. destruct Hf. eexists; reflexivity.
    - cbn [sstep]. destruct (estep_safe m f e (ESetWindow i) S L1) as (e1 & r & E & Hf & _); [discriminate|]. rewrite E.
      destruct r; try discriminate. destruct Hf. eexists; reflexivity.
    - discriminate. }
  destruct (sstep n h m e op tr) as [[e1 tr1]|x|x]; cbn [bind] in *.
  - destruct P as (_ & _ & _ & _ & _ & _ & S1 & I1). apply IH; [exact S1 | | exact L2 |]; unfold nb_data in *; rewrite I1; lia.
  - discriminate.
  - congruence.
Qed.
Print Assumptions C81_depth.

(** A handler that makes no calls: the encoder of the other properties, in all cases. *)
Theorem C81_without_calls :
  forall m depth e ops,
  match sops (S depth) (fun _ _ => []) m e [] ops with
  | Ok (e', calls) => exists packets, erun m e ops = Ok (e', packets) /\ gather [] calls = (packets, [])
  | Throw _ => False
  | Fault x => erun m e ops = Fault x
  end.
Proof.
  intros m depth. set (h := fun (_ : list hcall) (_ : hcall) => @nil eop). set (n := sops depth h m).
  assert (F : forall calls e tr, sfeed n h e tr calls = Ok (e, tr ++ calls)).
  { induction calls as [|c calls IH]; intros e tr; cbn [sfeed]; [rewrite app_nil_r; reflexivity|]. unfold h at 1.
    cbn [forallb negb]. rewrite andb_false_r.
    assert (N0 : n e (tr ++ [c]) (h tr c) = Ok (e, tr ++ [c])) by (unfold n; destruct depth; reflexivity).
    rewrite N0. cbn [bind]. rewrite IH, <- app_assoc. reflexivity. }
  set (like := fun (tr : list hcall) (model : outcome (enc * list packet)) (r : outcome (enc * list hcall)) =>
    match r with
    | Ok (e', tr') => exists ws, model = Ok (e', map (@concat N) ws) /\ tr' = tr ++ concat (map packet_calls ws)
    | Throw x => model = Throw x
    | Fault x => model = Fault x
    end).
  assert (Rep : forall e tr, like tr (generate_repair m e) (srepair n h m e tr)).
  { intros e tr. unfold srepair. rewrite prepare_generate. destruct (prepare_repair m e) as [[e1 w]|x|x]; cbn [bind]; try reflexivity.
    rewrite F. exists [w]. cbn [map concat]. rewrite app_nil_r. split; reflexivity. }
  assert (Dat : forall e d tr, like tr (enc_data m e d) (sdata n h m e d tr)).
  { intros e d tr. unfold sdata, enc_data. destruct (assert_ m _) as [[]|x|x]; cbn [bind]; try reflexivity.
    destruct (assert_ m _) as [[]|x|x]; cbn [bind]; try reflexivity. unfold scommit, commit.
    destruct (push_source e _) as [l|x|x]; cbn [bind]; try reflexivity.
    assert (Sn : like tr (send_source m (with_sources e l) {| es_id := e_source_id e; es_data := d |})
                   (ssend n h m (with_sources e l) {| es_id := e_source_id e; es_data := d |} tr)).
    { unfold ssend, send_source. destruct (e_systematic _); [|apply Rep]. cbv zeta. rewrite F.
      exists [write_source {| es_id := e_source_id e; es_data := d |}]. cbn [map concat]. rewrite app_nil_r. split; reflexivity. }
    destruct (ssend n h m _ _ tr) as [[e1 tr1]|x|x]; cbn [like] in Sn; [|rewrite Sn; reflexivity..].
    destruct Sn as (ws & -> & ->). cbn [bind]. destruct (e_rate e1 =? 0); [reflexivity|].
    destruct (u32 (e_source_id e1 + 1) mod e_rate e1 =? 0); cbn [bind].
    - specialize (Rep e1 (tr ++ concat (map packet_calls ws))). destruct (srepair n h m e1 _) as [[e2 tr2]|x|x]; cbn [like] in Rep;
        [|rewrite Rep; reflexivity..]. destruct Rep as (ws' & -> & ->). cbn [bind like]. exists (ws ++ ws').
      rewrite !map_app, concat_app, app_assoc. split; reflexivity.
    - cbn [like]. exists ws. rewrite app_nil_r. split; reflexivity. }
  assert (Run : forall ops e tr, like tr (erun m e ops) (sseq n h m e tr ops)).
  { induction ops as [|op ops IH]; intros e tr; [exists []; cbn [map concat]; rewrite app_nil_r; split; reflexivity|].
    rewrite erun_cons. cbn [sseq].
    assert (St : match sstep n h m e op tr with
                 | Ok (e', tr') => exists ws o, estep m e op = (e', o) /\ (o = Ok (map (@concat N) ws) \/ (exists x, o = Throw x) /\ ws = [])
                     /\ tr' = tr ++ concat (map packet_calls ws)
                 | Throw x => False
                 | Fault x => snd (estep m e op) = Fault x
                 end).
    { assert (Others : setting op = true \/ (exists p, op = EPacket p) ->
        sstep n h m e op tr = match estep m e op with (e, Ok _) => Ok (e, tr) | (e, Throw _) => Ok (e, tr) | (_, Fault x) => Fault x end
        /\ forall e' o, estep m e op = (e', Ok o) -> o = []).
      { intros [Hs|(p & ->)].
        - split; [destruct op; try discriminate Hs; reflexivity|]. intros e' o. apply setting_output, Hs.
        - split; [reflexivity|]. cbn [estep]. intros e' o E. destruct (notify m e p) as [e2 [i|x|x]]; cbn [bind] in E; congruence. }
      assert (K : setting op = true \/ (exists p, op = EPacket p) -> match sstep n h m e op tr with
                 | Ok (e', tr') => exists ws o, estep m e op = (e', o) /\ (o = Ok (map (@concat N) ws) \/ (exists x, o = Throw x) /\ ws = [])
                     /\ tr' = tr ++ concat (map packet_calls ws)
                 | Throw x => False
                 | Fault x => snd (estep m e op) = Fault x
                 end).
      { intros Ho. destruct (Others Ho) as [-> Hout]. destruct (estep m e op) as [e1 [o|x|x]]; [| |reflexivity].
        - rewrite (Hout _ _ eq_refl). exists [], (Ok []). cbn [map concat]. rewrite app_nil_r. auto.
        - exists [], (Throw x). cbn [map concat]. rewrite app_nil_r. split; [reflexivity|]. split; [right; split; [exists x|]; reflexivity | reflexivity]. }
      destruct op as [d|p| |b|k|i|b]; try (apply K; left; reflexivity); [| apply K; right; eexists; reflexivity |].
      - cbn [sstep estep]. specialize (Dat e d tr). pose proof (enc_data_no_throw m e d) as Nt.
        destruct (sdata n h m e d tr) as [[e1 tr1]|x|x]; cbn [like] in Dat.
        + destruct Dat as (ws & -> & ->). exists ws, (Ok (map (@concat N) ws)). auto.
        + exact (Nt x Dat).
        + rewrite Dat. reflexivity.
      - cbn [sstep estep]. specialize (Rep e tr). pose proof (generate_repair_no_throw m e) as Nt.
        destruct (srepair n h m e tr) as [[e1 tr1]|x|x]; cbn [like] in Rep.
        + destruct Rep as (ws & -> & ->). exists ws, (Ok (map (@concat N) ws)). auto.
        + exact (Nt x Rep).
        + rewrite Rep. reflexivity. }
    destruct (sstep n h m e op tr) as [[e1 tr1]|x|x]; cbn [bind like].
    - destruct St as (ws & o & -> & Ho & ->). specialize (IH e1 (tr ++ concat (map packet_calls ws))).
      destruct Ho as [->|[[x ->] ->]].
      + destruct (sseq n h m e1 _ ops) as [[e2 tr2]|x|x]; cbn [like] in *; [|rewrite IH; reflexivity..].
        destruct IH as (ws' & -> & ->). exists (ws ++ ws'). cbn [bind]. rewrite !map_app, concat_app, app_assoc. split; reflexivity.
      + cbn [map concat] in IH |- *. rewrite app_nil_r in IH |- *. exact IH.
    - destruct St.
    - destruct (estep m e op) as [e1 o]. cbn [snd] in St. rewrite St. reflexivity. }
  intros e ops. specialize (Run ops e []). change (sops (S depth) h m e [] ops) with (sseq n h m e [] ops).
  pose proof (erun_no_throw m e ops) as Nt.
  destruct (sseq n h m e [] ops) as [[e1 tr1]|x|x]; cbn [like] in Run.
  - destruct Run as (ws & -> & ->). exists (map (@concat N) ws). split; [reflexivity | apply gather_packets].
  - exact (Nt x Run).
  - exact Run.
Qed.
Print Assumptions C81_without_calls.

(** *** Cases *)

Definition packets_before (tr : list hcall) : N := N.of_nat (length (filter at_end tr)).

(** An ack for the source [k]. *)
Definition ack_for (k : N) : packet := [0; 0; 1; 0; 1; 0; 0; 0; k mod 256].

(** A handler wired to a receiver that acks each source at once. *)
Definition prompt : caller := fun tr c =>
  match c with HEnd => [EPacket (ack_for (packets_before tr))] | HBytes _ => [] end.

Lemma ack_for_legal f k : legal_op f (EPacket (ack_for k)).
Proof.
  split; [discriminate|]. repeat constructor. apply N.mod_lt. discriminate.
Qed.

Lemma prompt_careful f : careful f prompt /\ sends_nothing prompt.
Proof.
  split.
  - intros tr c op H. destruct c; [destruct H|]. destruct H as [<-|[]]. split; [apply ack_for_legal|].
    split; [discriminate|]. intros H. destruct (H eq_refl).
  - intros tr c H. destruct c; [destruct H|]. destruct H as [H|[]]. discriminate H.
Qed.

(** In each field and both builds, with the settings of a new encoder: when the acks
    come at once, the fifth datum is undefined behaviour. The same data without acks
    are sent. *)
Theorem C81_prompt_acks_refuted :
  exists h, (forall f, careful f h /\ sends_nothing h)
  /\ forall f, exists d, legal f d
     /\ (forall m depth, exists x, sops (2 + depth) h m (new_encoder f) [] (repeat (EData d) 5) = Fault x /\ x <> OutOfFuel)
     /\ (forall m depth, exists e calls, sops (2 + depth) h m (new_encoder f) [] (repeat (EData d) 4) = Ok (e, calls)).
Proof.
  exists prompt. split; [exact prompt_careful|]. intros f. exists [1; 2; 3; 4].
  split; [unfold legal; destruct f; repeat split; cbn; lia|]. split; intros m depth.
  - destruct f, m; eexists; (split; [vm_compute; reflexivity | discriminate]).
  - destruct f, m; do 2 eexists; vm_compute; reflexivity.
Qed.
Print Assumptions C81_prompt_acks_refuted.

(** A handler that asks for a repair after each packet, which is another packet. *)
Definition endless : caller := fun _ c => match c with HEnd => [ERepair] | HBytes _ => [] end.

Lemma endless_feed n w : (forall e tr, n e tr [] = Ok (e, tr)) ->
  (forall e tr, legal_window e -> e_sources e <> [] -> n e tr [ERepair] = Fault OutOfFuel) ->
  forall e tr, legal_window e -> e_sources e <> [] -> sfeed n endless e tr (packet_calls w) = Fault OutOfFuel.
Proof.
  intros N0 N1 e tr L W. revert tr. unfold packet_calls.
  induction w as [|b w IH]; intros tr; cbn [map app sfeed at_end negb andb endless forallb].
  - rewrite N1 by assumption. reflexivity.
  - rewrite N0. cbn [bind]. apply IH.
Qed.

(** It is careful, but there is no end to the calls: the model runs out of fuel at every
    depth, the program out of stack. *)
Theorem C81_endless_refuted :
  exists h, (forall f, careful f h)
  /\ forall m f d depth, legal f d -> sops depth h m (new_encoder f) [] [EData d] = Fault OutOfFuel.
Proof.
  exists endless. split.
  { intros f tr c op H. destruct c; [destruct H|]. destruct H as [<-|[]]. split; [exact I|]. split; [discriminate|]. intros X. destruct (X eq_refl). }
  intros m f d depth L.
  assert (N0 : forall depth e tr, sops depth endless m e tr [] = Ok (e, tr)) by (intros [|k]; reflexivity).
  assert (N1 : forall depth e tr, legal_window e -> e_sources e <> [] -> sops depth endless m e tr [ERepair] = Fault OutOfFuel).
  { induction depth0 as [|k IH]; intros e tr Lw W; [reflexivity|].
    change (sops (S k) endless m e tr [ERepair]) with ('(e, tr) <- srepair (sops k endless m) endless m e tr ;; Ok (e, tr)).
    unfold srepair. destruct (generate_repair_total m e Lw W) as (e1 & p & G). pose proof G as G'. rewrite prepare_generate in G'.
    destruct (prepare_repair m e) as [[e1' w]|x|x]; cbn [bind] in *; try discriminate. assert (e1' = e1) by congruence. subst e1'.
    apply generate_repair_ok in G as (r & w' & _ & _ & _ & F1 & _ & _ & _ & _ & _ & _ & F8 & _).
    rewrite (endless_feed (sops k endless m) w (N0 k) IH e1 tr); [reflexivity | | congruence].
    unfold legal_window in *. rewrite F1, F8. exact Lw. }
  destruct depth as [|k]; [reflexivity|].
  change (sops (S k) endless m (new_encoder f) [] [EData d]) with ('(e, tr) <- sdata (sops k endless m) endless m (new_encoder f) d [] ;; Ok (e, tr)).
  destruct (first_part m f endless (sops k endless m) (new_encoder f) d (new_safe f) L ltac:(reflexivity)) as (l & e1 & w & El & Hs & Hd & S1 & _ & W1 & _).
  rewrite Hd. unfold scommit. cbv zeta. rewrite El. cbn [bind]. rewrite Hs.
  rewrite (endless_feed (sops k endless m) w (N0 k) (N1 k) e1 []); [reflexivity | |].
  - unfold legal_window. rewrite (sf_field _ _ S1). apply S1.
  - rewrite W1. apply push_source_in in El. apply El.
Qed.
Print Assumptions C81_endless_refuted.

(** A handler that gives a datum at the end of the first packet. *)
Definition chatty (d : list N) : caller := fun tr c =>
  match c with HEnd => if packets_before tr =? 0 then [EData d] else [] | HBytes _ => [] end.

(** Data given by the handler: two different data go out under the same identifier,
    and the identifier after it is not used. *)
Theorem C81_data_inside_refuted :
  forall m f, exists h d d' ops e calls p p' ps,
  (forall tr c op, In op (h tr c) -> legal_op f op /\ c = HEnd) /\ Forall (legal_op f) ops
  /\ sops 2 h m (new_encoder f) [] ops = Ok (e, calls)
  /\ gather [] calls = (p :: p' :: ps, [])
  /\ d <> d'
  /\ (exists s n, read_source m p = Ok (s, n) /\ ds_id s = 0 /\ ds_data s = d)
  /\ (exists s n, read_source m p' = Ok (s, n) /\ ds_id s = 0 /\ ds_data s = d')
  /\ e_source_id e = 2.
Proof.
  intros m f. exists (chatty [5; 6; 7; 8]), [1; 2; 3; 4], [5; 6; 7; 8], [EData [1; 2; 3; 4]].
  assert (L : forall d, length d = 4%nat -> legal f d) by (intros d E; unfold legal; rewrite E; destruct f; repeat split; cbn; lia).
  destruct f, m; do 5 eexists;
    (split; [intros tr c op H; destruct c; [destruct H|]; unfold chatty in H; destruct (packets_before tr =? 0);
             [destruct H as [<-|[]]; split; [apply L; reflexivity | reflexivity] | destruct H]|]);
    (split; [constructor; [apply L; reflexivity | constructor]|]);
    (split; [vm_compute; reflexivity|]); (split; [vm_compute; reflexivity|]); (split; [discriminate|]);
    (split; [do 2 eexists; split; [vm_compute; reflexivity | split; reflexivity]|]);
    (split; [do 2 eexists; split; [vm_compute; reflexivity | split; reflexivity]|]); reflexivity.
Qed.
Print Assumptions C81_data_inside_refuted.

(** The hypotheses are met by a handler that changes the rate in the middle of packets,
    gives acks, and asks for a repair after the second packet. *)
Definition busy : caller := fun tr c =>
  match c with
  | HBytes [2] => [ESetAdaptive false; ESetRate 2]
  | HBytes _ => []
  | HEnd => if packets_before tr =? 1 then [EPacket (ack_for 0); ERepair] else []
  end.

Example C81_hyps : forall f, careful f busy.
Proof.
  intros f tr c op H. destruct c as [b|]; cbn [busy] in H.
  - assert (op = ESetAdaptive false \/ op = ESetRate 2) as [->| ->].
    { destruct b as [|x [|y b]]; try (destruct x as [|[x|x|]]; try destruct x); cbn in H; try contradiction; intuition congruence. }
    + split; [exact I|]. split; [discriminate | reflexivity].
    + split; [reflexivity|]. split; [discriminate | reflexivity].
  - destruct (packets_before tr =? 1); [|destruct H].
    assert (N0 : (HEnd <> HEnd) -> setting op = true) by (intros X; destruct (X eq_refl)).
    destruct H as [<-|[<-|[]]].
    + split; [apply ack_for_legal|]. split; [discriminate | exact N0].
    + split; [exact I|]. split; [discriminate | exact N0].
Qed.

(** Two data, then the repair asked for, then the one due at rate 2: both over source 1. *)
Example C81_busy_run :
  match sops 3 busy Debug (new_encoder W8) [] [EData [10]; EData [20]] with
  | Ok (e, calls) => map (hd 9) (fst (gather [] calls)) = [2; 2; 1; 1] /\ map es_id (e_sources e) = [1] /\ e_rate e = 2
  | _ => False
  end.
Proof. vm_compute. repeat split. Qed.

(** With less depth the model runs out of fuel. *)
Example C81_busy_depth : sops 1 busy Debug (new_encoder W8) [] [EData [10]; EData [20]] = Fault OutOfFuel
  /\ sops 1 prompt Debug (new_encoder W8) [] [EData [10]] = Fault OutOfFuel.
Proof. split; vm_compute; reflexivity. Qed.

(** A datum after which a repair is due and something is left in the window: source 1,
    of which the ack comes too late. *)
Definition first_only : caller := fun tr c =>
  match c with HEnd => if packets_before tr =? 0 then [EPacket (ack_for 0)] else [] | HBytes _ => [] end.

Example C81_one_datum_hyps : careful W8 first_only /\ sends_nothing first_only
  /\ exists e packets, reached Debug W8 [ESetAdaptive false; ESetRate 2; EData [10]] e packets /\ nb_data [ESetAdaptive false; ESetRate 2; EData [10]] + 1 < 2 ^ 32.
Proof.
  split; [|split].
  - intros tr c op H. destruct c; [destruct H|]. unfold first_only in H. destruct (packets_before tr =? 0); [|destruct H].
    destruct H as [<-|[]]. split; [apply ack_for_legal|]. split; [discriminate|]. intros X. destruct (X eq_refl).
  - intros tr c H. destruct c; [destruct H|]. unfold first_only in H. destruct (packets_before tr =? 0); [|destruct H]. destruct H as [H|[]]. discriminate H.
  - do 2 eexists. split; [vm_compute; reflexivity | reflexivity].
Qed.
