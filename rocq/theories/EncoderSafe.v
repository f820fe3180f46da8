(** * Legal histories of an encoder do not fault; the shape of the window *)
From Coq Require Import NArith List Bool Lia Arith.
From Verif Require Import Outcome GF GFProofs GFField GFRegion Linear RegionFacts
  Containers ContainersFacts Packetizer PacketizerFacts Rate RateFacts Encoder EncoderRun EncoderFacts
  EncoderHistory.
Import ListNotations.
Open Scope N_scope.

(** What the documentation asks of the caller; packets are arbitrary bytes. *)
Definition legal_op (f : field) (op : eop) : Prop :=
  match op with
  | EData d => legal f d
  | EPacket p => p <> [] /\ bytes p
  | ERepair => True
  | ESetCode _ => True
  | ESetRate k => 0 < k
  | ESetWindow n => 0 < n
  | ESetAdaptive _ => True
  end.

Record safe (f : field) (e : enc) : Prop := {
  sf_field : e_field e = f;
  sf_window : Forall (fun s => legal f (es_data s)) (e_sources e);
  sf_rate : 0 < e_rate e;
  sf_size : 0 < e_window_size e;
  sf_sent : e_nb_sent_packets e < 65536
}.

Lemma new_safe f : safe f (new_encoder f).
Proof. constructor; try reflexivity. constructor. Qed.

Lemma u16_lt x : u16 x < 65536.
Proof. unfold u16. apply N.mod_lt. discriminate. Qed.

Lemma after_data_safe m f e d e' out : safe f e -> legal f d -> after_data m e d e' out -> safe f e'.
Proof.
  intros S L A. destruct S, A. constructor; try congruence.
  - apply push_source_in in ad_push as (_ & Hin & _). rewrite Forall_forall in *.
    intros x Hx. apply Hin in Hx as [->|Hx]; auto.
  - rewrite ad_nb_packets. apply u16_lt.
Qed.

Lemma generate_safe m f e e' out : safe f e -> generate_repair m e = Ok (e', out) -> safe f e'.
Proof.
  intros S G. apply generate_repair_ok in G as (r & w & Er & Ew & -> & F1 & F2 & F3 & F4 & F5 & F6 & F7
        & F8 & F9 & F10 & F11 & F12). destruct S. constructor; try congruence.
  rewrite F12. apply u16_lt.
Qed.

Lemma notify_total m f e p : safe f e -> p <> [] -> bytes p ->
  exists e' r, notify m e p = (e', r) /\ ~ is_fault r /\ safe f e'.
Proof.
  intros S Hp Hb. unfold notify. destruct p as [|b q]; [congruence|].
  replace (_ <- assert_ m (Nat.ltb 0 (length (b :: q))) ;; get_packet_type (b :: q))
    with (get_packet_type (b :: q)) by now destruct m.
  cbn [get_packet_type]. destruct S.
  assert (K : forall x, exists e' r, (e, @Throw nat x) = (e', r) /\ ~ is_fault r /\ safe f e').
  { intros x. do 2 eexists. split; [reflexivity|]. split; [intros [y E]; discriminate|].
    constructor; assumption. }
  destruct (N.eqb_spec b 0) as [->|Hb0].
  - assert (NF : ~ is_fault (read_ack m (0 :: q))) by now apply read_ack_no_fault.
    destruct (read_ack m (0 :: q)) as [[a n]|x|x] eqn:E.
    + unfold apply_ack. cbn [with_ack e_adaptive e_nb_sent_packets e_rate].
      assert (Er : exists rate, (if e_adaptive e then adapted_rate (e_nb_sent_packets e) (a_nb a)
          else Ok (e_rate e)) = Ok rate /\ 0 < rate).
      { destruct (e_adaptive e); [|eauto].
        destruct (adapted_rate_bounds (e_nb_sent_packets e) (a_nb a)) as (r & Hr & Hr');
          [assumption|eapply read_ack_nb; eassumption|].
        exists r. split; [assumption|lia]. }
      destruct Er as (rate & -> & Hr). cbn [bind]. do 2 eexists. split; [reflexivity|].
      split; [intros [y K']; discriminate|]. constructor; cbn; try assumption; try reflexivity.
      rewrite Forall_forall in *. intros s Hs. apply erase_incl in Hs. auto.
    + do 2 eexists. split; [reflexivity|]. split; [intros [y K']; discriminate|].
      constructor; assumption.
    + destruct NF. eexists; reflexivity.
  - destruct (b =? 1); [apply K|]. destruct (b =? 2); apply K.
Qed.

(** A legal call succeeds, or forces a repair on an empty window. *)
Lemma estep_safe m f e op : safe f e -> legal_op f op -> (op = ERepair -> e_sources e <> []) ->
  exists e' r, estep m e op = (e', r) /\ ~ is_fault r /\ safe f e'.
Proof.
  intros S L Hr. pose proof S as S0. destruct S. destruct op as [d|p| |b|k|n|b]; cbn [estep legal_op] in *.
  - destruct (enc_data_total m e d) as (e' & out & E).
    + now rewrite sf_field0.
    + unfold legal_window. now rewrite sf_field0.
    + lia.
    + lia.
    + rewrite E. do 2 eexists. split; [reflexivity|]. split; [intros [y K]; discriminate|].
      apply enc_data_spec in E. eapply after_data_safe; eassumption.
  - destruct L as [L1 L2]. destruct (notify_total m f e p S0 L1 L2) as (e' & r & E & Hf & S').
    rewrite E. do 2 eexists. split; [reflexivity|]. split; [|assumption].
    intros [y K]. destruct r; try discriminate. injection K as ->. apply Hf. eexists; reflexivity.
  - destruct (generate_repair_total m e) as (e' & p & E).
    + unfold legal_window. now rewrite sf_field0.
    + now apply Hr.
    + rewrite E. do 2 eexists. split; [reflexivity|]. split; [intros [y K]; discriminate|].
      eapply generate_safe; eassumption.
  - do 2 eexists. split; [reflexivity|]. split; [intros [y K]; discriminate|].
    constructor; assumption.
  - unfold set_rate. replace (assert_ m (0 <? k)) with (Ok tt).
    2: { destruct m; [|reflexivity]. unfold assert_. apply N.ltb_lt in L. now rewrite L. }
    cbn [bind]. do 2 eexists. split; [reflexivity|]. split; [intros [y K]; discriminate|].
    constructor; assumption.
  - unfold set_window_size. replace (assert_ m (0 <? n)) with (Ok tt).
    2: { destruct m; [|reflexivity]. unfold assert_. apply N.ltb_lt in L. now rewrite L. }
    cbn [bind]. do 2 eexists. split; [reflexivity|]. split; [intros [y K]; discriminate|].
    constructor; assumption.
  - do 2 eexists. split; [reflexivity|]. split; [intros [y K]; discriminate|].
    constructor; assumption.
Qed.

Lemma erun_cons m e op ops : erun m e (op :: ops)
  = match estep m e op with
    | (e', Ok out) => '(e'', out') <- erun m e' ops ;; Ok (e'', out ++ out')
    | (e', Throw _) => erun m e' ops
    | (_, Fault x) => Fault x
    end.
Proof. reflexivity. Qed.

Lemma erun_no_throw m e ops x : erun m e ops <> Throw x.
Proof.
  revert e x. induction ops as [|op ops IH]; intros e x; [discriminate|]. rewrite erun_cons.
  destruct (estep m e op) as [e' [o|y|y]]; [|apply IH|discriminate].
  destruct (erun m e' ops) as [[? ?]|y|y] eqn:E; try discriminate. now apply IH in E.
Qed.

Lemma erun_safe m f e ops : safe f e -> Forall (legal_op f) ops ->
  (exists e' out, erun m e ops = Ok (e', out) /\ safe f e')
  \/ exists before after e0 out, ops = before ++ ERepair :: after
     /\ erun m e before = Ok (e0, out) /\ e_sources e0 = [].
Proof.
  revert e. induction ops as [|op ops IH]; intros e S L.
  - left. exists e, []. split; [reflexivity|assumption].
  - apply Forall_cons_iff in L as [L1 L2].
    assert (D : (op = ERepair /\ e_sources e = []) \/ (op = ERepair -> e_sources e <> [])).
    { destruct op; try (right; discriminate). destruct (e_sources e); [left; now split|right; discriminate]. }
    destruct D as [[-> E]|D].
    + right. exists [], ops, e, []. repeat split; assumption.
    + destruct (estep_safe m f e op S L1 D) as (e1 & r & E1 & Hf & S1).
      destruct (IH e1 S1 L2) as [(e' & out & E' & S')|(before & after & e0 & out & -> & E0 & W)].
      * left. rewrite erun_cons, E1. destruct r as [o|x|x].
        -- rewrite E'. cbn [bind]. eauto.
        -- eauto.
        -- destruct Hf. eexists; reflexivity.
      * right. destruct r as [o|x|x].
        -- exists (op :: before), after, e0, (o ++ out). split; [reflexivity|]. split; [|assumption].
           rewrite erun_cons, E1, E0. reflexivity.
        -- exists (op :: before), after, e0, out. split; [reflexivity|]. split; [|assumption].
           rewrite erun_cons, E1. exact E0.
        -- destruct Hf. eexists; reflexivity.
Qed.

(** ** The setters and the packets leave most things alone *)

Definition config (e : enc) : bool * bool * N := (e_systematic e, e_adaptive e, e_window_size e).

Lemma estep_setters m e op e' r : estep m e op = (e', r) -> ~ is_fault r ->
  match op with EData _ | EPacket _ | ERepair => False | _ => True end ->
  r = Ok [] /\ e_sources e' = e_sources e /\ e_source_id e' = e_source_id e
  /\ (e_rate e' = match op with ESetRate k => k | _ => e_rate e end)
  /\ (e_systematic e' = match op with ESetCode b => b | _ => e_systematic e end)
  /\ (e_adaptive e' = match op with ESetAdaptive b => b | _ => e_adaptive e end)
  /\ (e_window_size e' = match op with ESetWindow n => n | _ => e_window_size e end).
Proof.
  intros E Hf Hop. destruct op as [d|p| |b|k|n|b]; try contradiction; cbn [estep] in E.
  - injection E as <- <-. repeat split.
  - unfold set_rate in E. destruct (assert_ m (0 <? k)) as [u|x|x] eqn:Ea; cbn [bind] in E;
      injection E as <- <-.
    + repeat split.
    + destruct m; unfold assert_ in Ea; [destruct (0 <? k)|]; discriminate.
    + destruct Hf. eexists; reflexivity.
  - unfold set_window_size in E. destruct (assert_ m (0 <? n)) as [u|x|x] eqn:Ea; cbn [bind] in E;
      injection E as <- <-.
    + repeat split.
    + destruct m; unfold assert_ in Ea; [destruct (0 <? n)|]; discriminate.
    + destruct Hf. eexists; reflexivity.
  - injection E as <- <-. repeat split.
Qed.

Lemma estep_data m e d e' r : estep m e (EData d) = (e', r) -> ~ is_fault r ->
  exists out, r = Ok out /\ after_data m e d e' out.
Proof.
  cbn [estep]. intros E Hf. destruct (enc_data m e d) as [[e1 o]|x|x] eqn:Ed.
  - injection E as <- <-. exists o. split; [reflexivity|]. now apply enc_data_spec.
  - now apply enc_data_no_throw in Ed.
  - injection E as <- <-. destruct Hf. eexists; reflexivity.
Qed.

Lemma estep_packet m e p e' r : estep m e (EPacket p) = (e', r) -> ~ is_fault r ->
  exists q, notify m e p = (e', q) /\ ~ is_fault q /\ after_packet m e p e' q /\ emitted r = [].
Proof.
  cbn [estep]. intros E Hf. destruct (notify m e p) as [e1 q] eqn:En. injection E as <- <-.
  assert (Hq : ~ is_fault q) by (intros [x ->]; apply Hf; eexists; reflexivity).
  exists q. split; [reflexivity|]. split; [assumption|]. split; [now apply notify_spec|].
  now destruct q.
Qed.

Lemma estep_repair m e e' r : estep m e ERepair = (e', r) -> ~ is_fault r ->
  exists out, r = Ok out /\ generate_repair m e = Ok (e', out).
Proof.
  cbn [estep]. intros E Hf. destruct (generate_repair m e) as [[e1 o]|x|x] eqn:Ed.
  - injection E as <- <-. eauto.
  - now apply generate_repair_no_throw in Ed.
  - injection E as <- <-. destruct Hf. eexists; reflexivity.
Qed.
