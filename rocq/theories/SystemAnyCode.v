(** * The closed system over a channel that loses nothing, with any code *)
From Coq Require Import ZArith NArith Arith List Bool Lia Sorted.
From Verif Require Import Outcome GF Containers ContainersFacts Packetizer PacketizerFacts PropsPacketizer
  Encoder EncoderRun EncoderFacts EncoderHistory EncoderSafe DetailDecoder Decoder DecoderAlgebra DecoderInv
  DecoderStep DecoderRecover DecoderFacts DecoderOuter DecoderThrow DecoderHeld DecoderProgress DecoderPrompt Genuine
  System SystemInv SystemRun SystemArrive SystemFifo SystemLossless.
Import ListNotations.
Open Scope N_scope.
Open Scope outcome_scope.

(** ** The decoder *)

(** [c] data were received or decoded, in order, [k] of them decoded. *)
Record tidy (d : ddec) (c : nat) (k : N) : Prop := {
  ti_missing : d_missing d = [];
  ti_repairs : d_repairs d = [];
  ti_ordered : d_ordered d = [];
  ti_first : d_in_order d = true -> d_first d = N.of_nat c;
  ti_handed : handed d = upto c;
  ti_keys : forall x, In x (mkeys (d_sources d)) <-> x < N.of_nat c /\ not_outdated d x = true;
  ti_last : not_outdated d (N.of_nat c) = true;
  ti_decoded : d_decoded d = k;
  ti_failed : d_failed d = 0
}.

Lemma tidy_add m d c k data d' : tidy d c k -> N.of_nat c < LIM ->
  add_source (enough d) m d (N.of_nat c) data = Ok d' -> tidy d' (Datatypes.S c) k.
Proof.
  intros [A1 A2 A3 A4 A5 A6 A7 A8 A9] Hc H.
  assert (Hu : u32 (N.of_nat c + 1) = N.of_nat (Datatypes.S c)).
  { unfold u32, LIM in *. rewrite N.mod_small by lia. lia. }
  unfold enough in H. cbn [add_source] in H.
  apply bind_ok in H. destruct H as (d1 & E1 & H).
  assert (X1 : exists fi, d1 = with_first (callback d (N.of_nat c) data) fi
     /\ (d_in_order d = true -> fi = N.of_nat (Datatypes.S c)) /\ (d_in_order d = false -> fi = d_first d)).
  { unfold announce in E1. destruct (d_in_order d) eqn:Hi; cbn [negb] in E1.
    - rewrite (A4 eq_refl), N.eqb_refl in E1. cbn [callback d_first] in E1. rewrite (A4 eq_refl), Hu in E1.
      unfold flush in E1. cbn [with_first callback d_first d_ordered] in E1. rewrite A3 in E1. cbn [smem existsb] in E1.
      exists (N.of_nat (Datatypes.S c)). split; [congruence|]. split; [reflexivity | discriminate].
    - exists (d_first d). split; [|split; [discriminate | reflexivity]].
      assert (E : d1 = callback d (N.of_nat c) data) by congruence. rewrite E. reflexivity. }
  destruct X1 as (fi & -> & F1 & F2).
  unfold no_longer_missing in H. cbn [with_first callback d_missing] in H. rewrite A1 in H. cbn [mfind bind] in H.
  cbn [with_first callback d_missing] in H. rewrite ?A1 in H. cbn [mkeys map scan bind] in H.
  unfold store in H. apply bind_ok in H. destruct H as (u & _ & H). clear u.
  cbv zeta in H. cbn [with_sources with_first callback d_in_order d_first d_sources d_ordered] in H.
  assert (Eb : d_in_order d && (fi <? N.of_nat c) = false).
  { destruct (d_in_order d) eqn:Hi; [|reflexivity]. rewrite (F1 eq_refl). apply N.ltb_ge. lia. }
  rewrite Eb in H.
  match type of H with Ok ?e = _ => assert (Ed : d' = e) by congruence end. clear H.
  assert (Es : d_sources d' = mput (N.of_nat c) data (d_sources d)) by (rewrite Ed; reflexivity).
  assert (El : d_last d' = d_last d) by (rewrite Ed; reflexivity).
  assert (En : forall x, not_outdated d' x = not_outdated d x) by (intros x; unfold not_outdated; rewrite El; reflexivity).
  constructor.
  - rewrite Ed. exact A1.
  - rewrite Ed. exact A2.
  - rewrite Ed. exact A3.
  - intros Hi. rewrite Ed in Hi |- *. exact (F1 Hi).
  - rewrite upto_snoc, <- A5, Ed. unfold handed. cbn [with_sources with_first callback d_log]. rewrite map_app. reflexivity.
  - intros x. rewrite Es, mput_keys, A6, En. split.
    + intros [->|[X Y]]; [split; [lia | exact A7] | split; [lia | exact Y]].
    + intros [X Y]. destruct (N.eq_dec x (N.of_nat c)); [left; assumption | right; split; [lia | exact Y]].
  - rewrite En. eapply not_outdated_up; [reflexivity | exact A7 | lia].
  - rewrite Ed. exact A8.
  - rewrite Ed. exact A9.
Qed.

Lemma tidy_source m d c k data d' : tidy d c k -> N.of_nat c < LIM ->
  recv_source m d (N.of_nat c) data = Ok d' -> tidy d' (Datatypes.S c) k.
Proof.
  intros T Hc H. pose proof T as [A1 A2 A3 A4 A5 A6 A7 A8 A9].
  unfold recv_source, outdated in H. rewrite A7 in H. cbn [negb] in H.
  assert (Hk : ~ In (N.of_nat c) (mkeys (d_sources d))) by (intros X; apply A6 in X; lia).
  rewrite (proj2 (mmem_false _ _) Hk) in H. apply bind_ok in H. destruct H as (d5 & H & Hat).
  pose proof (tidy_add m d c k data d5 T Hc H) as T5.
  rewrite attempt_less in Hat by (left; apply (ti_repairs _ _ _ T5)). assert (d' = d5) by congruence. subst d'. exact T5.
Qed.

Section Tidy.
Variable f : field.
Variable S : N -> list N.
Variable m : mode.
Variable lim : N.
Hypothesis Hlim0 : lim <= LIM.
Hypothesis HS : forall x, good_data f (S x).

Notation inv := (inv f S lim).

(** Dropping what is older than the first source of a repair. *)
Lemma tidy_drop d c k first d0 : tidy d c k -> not_outdated d first = true -> first <= N.of_nat c ->
  drop_outdated m d first = Ok d0 -> tidy d0 c k /\ d_sources d0 = mfrom first (d_sources d) /\ d_last d0 = Some first.
Proof.
  intros [A1 A2 A3 A4 A5 A6 A7 A8 A9] Hfirst Hfc E0.
  unfold drop_outdated in E0. cbn [with_last d_repairs] in E0. rewrite A2 in E0. cbn [drop_repairs bind] in E0.
  set (d1 := with_last d (Some first)) in E0.
  assert (Ed : (if d_in_order d1
      then d2 <- deliver_outdated (before first (d_ordered d1)) d1 ;;
           flush m (if d_first d2 <? first then with_first d2 first else d2)
      else Ok d1) = Ok d1).
  { change (d_in_order d1) with (d_in_order d). destruct (d_in_order d) eqn:Hi; [|reflexivity].
    change (d_ordered d1) with (d_ordered d). rewrite A3. cbn [before filter deliver_outdated bind].
    change (d_first d1) with (d_first d). rewrite (A4 eq_refl).
    replace (N.of_nat c <? first) with false by (symmetry; apply N.ltb_ge; lia).
    unfold flush. change (d_ordered d1) with (d_ordered d). rewrite A3. reflexivity. }
  rewrite Ed in E0. cbn [bind] in E0. clear Ed.
  match type of E0 with Ok ?e = _ => assert (Ed0 : d0 = e) by congruence end. clear E0.
  assert (En : forall x, not_outdated d0 x = (first <=? x)) by (intros x; rewrite Ed0; reflexivity).
  assert (Es0 : d_sources d0 = mfrom first (d_sources d)) by (rewrite Ed0; reflexivity).
  split; [|split; [exact Es0 | rewrite Ed0; reflexivity]].
  constructor.
  - rewrite Ed0. change (mfrom first (d_missing d) = []). rewrite A1. reflexivity.
  - rewrite Ed0. exact A2.
  - rewrite Ed0. exact A3.
  - rewrite Ed0. exact A4.
  - rewrite Ed0. exact A5.
  - intros x. rewrite En, N.leb_le, Es0, mfrom_keys, A6. split.
    + intros [[X Y] Z]. auto.
    + intros [X Z]. split; [split; [exact X|] | exact Z]. eapply not_outdated_up; [reflexivity | exact Hfirst | exact Z].
  - rewrite En. apply N.leb_le. lia.
  - rewrite Ed0. exact A8.
  - rewrite Ed0. exact A9.
Qed.

Lemma tidy_same d d' c k k' : tidy d c k -> d_missing d' = [] -> d_repairs d' = [] -> d_ordered d' = d_ordered d ->
  d_in_order d' = d_in_order d -> d_first d' = d_first d -> d_log d' = d_log d -> d_sources d' = d_sources d ->
  d_last d' = d_last d -> d_decoded d' = k' -> d_failed d' = d_failed d -> tidy d' c k'.
Proof.
  intros [A1 A2 A3 A4 A5 A6 A7 A8 A9] E1 E2 E3 E4 E5 E6 E7 E8 E9 E10.
  assert (En : forall x, not_outdated d' x = not_outdated d x) by (intros x; unfold not_outdated; rewrite E8; reflexivity).
  constructor.
  - exact E1.
  - exact E2.
  - congruence.
  - rewrite E4, E5. exact A4.
  - unfold handed. rewrite E6. exact A5.
  - intros x. rewrite E7, En. apply A6.
  - rewrite En. exact A7.
  - exact E9.
  - congruence.
Qed.

(** A repair about the data so far changes nothing; one with the next datum gives it. *)
Lemma tidy_repair d c k r d' : tidy d c k -> inv d -> acceptable f S lim d r ->
  (forall x, In x (dr_ids r) -> x <= N.of_nat c) -> recv_repair m d r = Ok d' ->
  (~ In (N.of_nat c) (dr_ids r) -> tidy d' c k)
  /\ (In (N.of_nat c) (dr_ids r) -> tidy d' (Datatypes.S c) (k + 1)).
Proof.
  intros T I A Hle H. pose proof I as [C G L Id]. pose proof A as [B1 B2 B3 B4 B5].
  pose proof (g_sorted _ _ _ B1) as Hs.
  unfold recv_repair in H. apply bind_ok in H. destruct H as (u & _ & H). clear u.
  destruct (dr_ids r) as [|first ids] eqn:Eids; [discriminate|]. rewrite <- Eids in *.
  assert (Efirst : hd 0 (dr_ids r) = first) by (rewrite Eids; reflexivity).
  assert (Hfc : first <= N.of_nat c) by (apply Hle; rewrite Eids; left; reflexivity).
  assert (Hlast : In (N.of_nat c) (dr_ids r) -> outdated d (last (dr_ids r) 0) = false).
  { intros Hin. pose proof (sorted_last_max _ _ Hs Hin) as Hl. unfold outdated. apply negb_false_iff.
    eapply not_outdated_up; [reflexivity | apply (ti_last _ _ _ T) | exact Hl]. }
  destruct (outdated d (last (dr_ids r) 0)) eqn:Eo.
  { assert (d' = d) by congruence. subst d'. split; [intros _; exact T | intros Hin; discriminate (Hlast Hin)]. }
  rewrite (ti_repairs _ _ _ T) in H. cbn [mmem mfind] in H.
  apply bind_ok in H. destruct H as (d0 & E0 & H).
  rewrite Efirst in B2.
  destruct (tidy_drop d c k first d0 T B2 Hfc E0) as (T0 & Es0 & El0).
  assert (Hfl : first < lim) by (apply B5; rewrite Eids; left; reflexivity).
  pose proof (drop_outdated_spec f S m lim Hlim0 d _ d0 C G L B2 Hfl E0) as D.
  assert (D' : dropped f S lim d d0 (hd 0 (dr_ids r))) by (rewrite Efirst; exact D).
  pose proof (acceptable_dropped f S lim d d0 r A D') as A'.
  assert (Known : forall x, In x (dr_ids r) -> x <> N.of_nat c -> In x (mkeys (d_sources d0))).
  { intros x Hx Hne. rewrite Es0. apply mfrom_keys. pose proof (sorted_hd _ _ Hs Hx) as Hge. rewrite Efirst in Hge.
    split; [|exact Hge]. apply (ti_keys _ _ _ T). split; [specialize (Hle x Hx); lia|].
    eapply not_outdated_up; [reflexivity | exact B2 | exact Hge]. }
  assert (New : ~ In (N.of_nat c) (mkeys (d_sources d0))).
  { intros X. apply (ti_keys _ _ _ T0) in X. lia. }
  split; intros Hin.
  - assert (Hall : forallb (fun id => mmem id (d_sources d0)) (dr_ids r) = true).
    { apply forallb_forall. intros x Hx. apply mmem_spec, Known; [exact Hx|]. intros ->. contradiction. }
    rewrite Hall in H. assert (Ed' : d' = with_useless d0 (d_useless d0 + 1)) by congruence.
    pose proof T0 as [A1 A2 A3 A4 A5 A6 A7 A8 A9].
    apply tidy_same with (1 := T0); rewrite Ed'; try reflexivity; assumption.
  - assert (Hall : forallb (fun id => mmem id (d_sources d0)) (dr_ids r) = false).
    { destruct (forallb (fun id => mmem id (d_sources d0)) (dr_ids r)) eqn:Ef; [|reflexivity].
      exfalso. rewrite forallb_forall in Ef. apply New, mmem_spec, Ef, Hin. }
    rewrite Hall in H. apply bind_ok in H. destruct H as (u & _ & H). clear u.
    apply bind_ok in H. destruct H as ([d1' r1] & El & H).
    apply (link_spec f S m lim) in El; try assumption.
    2: { apply (p_core _ _ _ _ _ _ D). }
    2: { apply (p_ge _ _ _ _ _ _ D). }
    2: { intros x Hx. unfold miss in Hx. rewrite (ti_missing _ _ _ T0) in Hx. destruct Hx. }
    2: { rewrite (ti_repairs _ _ _ T0). intros []. }
    cbv zeta in H. set (d1 := with_repairs d1' _) in *.
    destruct El as [C1 G1 (R & M & E1) Hr1 Hreps Hid1 Gn1 Hids Hm1].
    assert (E : dr_ids r1 = [N.of_nat c]).
    { apply ssorted_ext; [apply Gn1 | apply ssorted_cons; [apply ssorted_nil | intros ? []]|]. intros z. rewrite Hids. split.
      - intros [X1 X2]. left. destruct (N.eq_dec z (N.of_nat c)) as [->|Hne]; [reflexivity|].
        exfalso. apply X2. left. apply Known; assumption.
      - intros [<-|[]]. split; [exact Hin|]. intros [X|[]]. apply New, X. }
    apply bind_ok in H. destruct H as (u & _ & H). clear u.
    rewrite E in H. cbn [length Nat.eqb] in H.
    rewrite (c_field _ _ _ _ C1), (create_source_spec f S m r1 _ Gn1 E) in H.
    cbn [bind] in H. set (d2 := with_repairs (with_missing _ _) _) in H.
    assert (Em : mkeys (d_missing d1) = [N.of_nat c]).
    { apply ssorted_ext; [apply C1 | apply ssorted_cons; [apply ssorted_nil | intros ? []]|]. intros z.
      change (In z (mkeys (d_missing d1))) with (miss d1 z). rewrite Hm1, E. unfold miss at 1.
      rewrite (ti_missing _ _ _ T0). cbn. tauto. }
    assert (Em2 : d_missing d2 = []).
    { change (d_missing d2) with (merase (N.of_nat c) (d_missing d1)).
      destruct (d_missing d1) as [|[x l] [|? ?]]; cbn in Em; try discriminate.
      injection Em as ->. cbn [merase]. rewrite N.eqb_refl. reflexivity. }
    assert (Er2 : d_repairs d2 = []).
    { change (d_repairs d2) with (merase (dr_id r1) (d_repairs d1)). rewrite Hreps, (ti_repairs _ _ _ T0), Hid1.
      cbn [mset merase]. rewrite N.eqb_refl. reflexivity. }
    apply tidy_add with (3 := H); [|specialize (B5 _ Hin); lia].
    apply tidy_same with (1 := T0); try assumption.
    + unfold d2. rewrite E1. reflexivity.
    + unfold d2. rewrite E1. reflexivity.
    + unfold d2. rewrite E1. reflexivity.
    + unfold d2. rewrite E1. reflexivity.
    + unfold d2. rewrite E1. reflexivity.
    + unfold d2. rewrite E1. reflexivity.
    + unfold d2. rewrite E1. change (d_decoded d0 + 1 = k + 1). rewrite (ti_decoded _ _ _ T0). reflexivity.
    + unfold d2. rewrite E1. reflexivity.
Qed.
End Tidy.

(** ** The sender *)

(** What a call of the sender emits, with any code. *)
Inductive sends (m : mode) (w : world) (new : list packet) (w' : world) : Prop :=
| Sends_none : new = [] -> w_sent w' = w_sent w -> sends m w new w'
| Sends_repair p : new = [p] -> type_of p = 1 -> w_sent w' = w_sent w -> sends m w new w'
| Sends_data d p rest : new = p :: rest -> w_sent w' = w_sent w ++ [d] ->
    In (e_source_id (w_enc w)) (window w') ->
    p = concat (write_source {| es_id := e_source_id (w_enc w); es_data := d |})
    \/ repair_of m (Encoder.e_field (w_enc w)) (e_repair_id (w_enc w)) (e_sources (w_enc w')) p
       /\ In (window w') (w_lists w') ->
    (forall q, In q rest -> type_of q = 1) -> sends m w new w'.

Lemma sends_any m clk w a w' new : wstep m clk w a = Ok w' -> w_out w' = w_out w ++ new -> sends m w new w'.
Proof.
  intros H Hn.
  assert (Snd : forall op data, sender m w op data = Ok w' -> exists e r, estep m (w_enc w) op = (e, r)
    /\ ~ is_fault r /\ emitted r = new /\ w_sent w' = w_sent w ++ data /\ w_enc w' = e
    /\ w_lists w' = w_lists w ++ map (fun _ => map es_id (e_sources e)) (of_type 1 new)).
  { intros op data E. unfold sender in E. destruct (estep m (w_enc w) op) as [e r]. exists e, r. split; [reflexivity|].
    apply bind_ok in E. destruct E as (out & Eo & E). apply survive_ok in Eo. destruct Eo as [Hf Hr]. split; [exact Hf|].
    match type of E with Ok ?x = _ => assert (Ew : w' = x) by congruence end.
    assert (Eq : w_out w' = w_out w ++ out) by (rewrite Ew; reflexivity).
    rewrite Hn in Eq. apply app_inv_head in Eq. subst out.
    split; [destruct Hr as [->|[-> [x ->]]]; reflexivity|]. rewrite Ew. repeat split. }
  assert (Rcv : w_out w' = w_out w -> new = []).
  { intros E. rewrite E in Hn. rewrite <- (app_nil_r (w_out w)) in Hn at 1. apply app_inv_head in Hn. congruence. }
  assert (Recv : forall op k, receiver m clk w op k = Ok w' -> sends m w new w').
  { intros op k E. apply receiver_extends in E. destruct E as (_ & E2 & E3 & _ & E4).
    apply Sends_none; [apply Rcv; assumption | assumption]. }
  assert (Idle : w' = w -> sends m w new w').
  { intros ->. apply Sends_none; [apply Rcv; reflexivity | reflexivity]. }
  assert (Setter : forall op, sender m w op [] = Ok w' -> match op with EData _ | EPacket _ | ERepair => False | _ => True end ->
    sends m w new w').
  { intros op E Hop. destruct (Snd _ _ E) as (e & r & Ee & Hf & Hr & E1 & E2 & _).
    apply estep_setters in Ee; [|exact Hf | exact Hop]. destruct Ee as (Er & _).
    apply Sends_none; [rewrite <- Hr, Er; reflexivity | rewrite app_nil_r in E1; exact E1]. }
  destruct a; cbn [wstep] in H; try (eapply Recv; exact H); try (eapply Setter; [exact H | exact I]).
  - destruct (Snd _ _ H) as (e & r & E & Hf & Hr & E1 & E2 & E3). apply estep_data in E; [|exact Hf].
    destruct E as (out & Er & A). destruct A. destruct ad_out as (first & rest & Eo & O1 & O2 & O3 & O4).
    assert (Hn' : new = first :: rest) by (rewrite <- Hr, Er; exact Eo).
    apply (Sends_data m w new w' d first rest Hn' E1).
    + unfold window. rewrite E2. apply push_source_in in ad_push. apply in_map_iff.
      eexists. split; [|apply ad_push; right; reflexivity]. reflexivity.
    + destruct (e_systematic (w_enc w)) eqn:Es; [left; apply O1; reflexivity|]. right. rewrite E2.
      split; [apply O2; reflexivity|]. rewrite E3. apply in_app_iff. right. unfold window. rewrite E2, Hn'.
      apply in_map_iff. exists first. split; [reflexivity|]. unfold of_type. apply filter_In.
      split; [left; reflexivity|]. rewrite (repair_of_type _ _ _ _ _ (O2 eq_refl)). reflexivity.
    + intros q Hq. destruct (N.eq_dec (u32 (e_source_id (w_enc w) + 1) mod e_rate (w_enc w)) 0) as [Hz|Hz].
      * destruct (O3 Hz) as (q' & -> & Rq). destruct Hq as [<-|[]]. eapply repair_of_type, Rq.
      * rewrite (O4 Hz) in Hq. destruct Hq.
  - destruct (Snd _ _ H) as (e & r & E & Hf & Hr & E1 & E2 & _). apply estep_repair in E; [|exact Hf].
    destruct E as (out & Er & A). pose proof A as A'. apply generate_repair_ok in A. destruct A as (r0 & w0 & G1 & G2 & Eo & _ & Ee & _).
    assert (Hn' : new = [concat w0]) by (rewrite <- Hr, Er; exact Eo).
    apply (Sends_repair m w new w' (concat w0) Hn').
    + eapply repair_of_type. exists r0, w0. split; [exact G1 | split; [exact G2 | reflexivity]].
    + rewrite app_nil_r in E1. exact E1.
  - destruct (nth_error (w_out w) k); [eapply Recv; exact H | apply Idle; congruence].
  - destruct (nth_error (w_acks w) j) eqn:Ej; [|apply Idle; congruence].
    destruct (Snd _ _ H) as (e & r & E & Hf & Hr & E1 & E2 & _). apply estep_packet in E; [|exact Hf].
    destruct E as (q & _ & _ & Ap & Er). apply Sends_none; [congruence | rewrite app_nil_r in E1; exact E1].
Qed.

(** ** Runs *)

(** The number of data a packet, or some packets, reach. *)
Definition top (g : what) : nat :=
  match g with
  | GSource x => Datatypes.S (N.to_nat x)
  | GRepair W _ => Datatypes.S (N.to_nat (last W 0))
  end.

Fixpoint reached (gs : list what) : nat :=
  match gs with [] => 0%nat | g :: gs' => Nat.max (top g) (reached gs') end.

Lemma reached_app gs gs' : reached (gs ++ gs') = Nat.max (reached gs) (reached gs').
Proof. induction gs as [|g gs IH]; cbn [reached app]; [reflexivity|]. rewrite IH. lia. Qed.

Lemma reached_in gs i g : nth_error gs i = Some g -> (top g <= reached gs)%nat.
Proof.
  revert i. induction gs as [|h gs IH]; intros [|i] H; try discriminate; cbn [nth_error] in H; cbn [reached].
  - injection H as ->. lia.
  - specialize (IH i H). lia.
Qed.

Lemma reached_next gs i g : nth_error gs i = Some g -> reached (firstn (Datatypes.S i) gs) = Nat.max (reached (firstn i gs)) (top g).
Proof.
  intros H. assert (E : firstn (Datatypes.S i) gs = firstn i gs ++ [g]).
  { revert i H. induction gs as [|h gs IH]; intros [|i] H; try discriminate; cbn [nth_error] in H; cbn [firstn app].
    - injection H as ->. reflexivity.
    - f_equal. apply IH, H. }
  rewrite E, reached_app. cbn [reached]. lia.
Qed.

(** Every packet reaches at most one datum more than those before it, a source
    exactly one. *)
Definition steady (gs : list what) : Prop :=
  forall i g, nth_error gs i = Some g ->
  match g with
  | GSource x => N.to_nat x = reached (firstn i gs)
  | GRepair W _ => W <> [] /\ ssorted W /\ (N.to_nat (last W 0%N) <= reached (firstn i gs))%nat
  end.

Lemma steady_snoc gs g : steady gs ->
  match g with
  | GSource x => N.to_nat x = reached gs
  | GRepair W _ => W <> [] /\ ssorted W /\ (N.to_nat (last W 0%N) <= reached gs)%nat
  end -> steady (gs ++ [g]).
Proof.
  intros H Hg i h E. destruct (Nat.lt_ge_cases i (length gs)) as [L|L].
  - rewrite nth_error_app1 in E by exact L. rewrite firstn_app. replace (i - length gs)%nat with 0%nat by lia.
    cbn [firstn]. rewrite app_nil_r. apply H, E.
  - rewrite nth_error_app2 in E by exact L. destruct (i - length gs)%nat eqn:Ed; [|destruct n; discriminate].
    cbn [nth_error] in E. injection E as <-. assert (i = length gs) by lia. subst i.
    rewrite firstn_app, Nat.sub_diag, firstn_all. cbn [firstn]. rewrite app_nil_r. exact Hg.
Qed.

Section AnyCode.
Variable m : mode.
Variable clk : clock.
Variable f : field.
Variable o : bool.

Lemma is_unique all p W n W' n' : is all m f p (GRepair W n) -> is all m f p (GRepair W' n') -> W = W'.
Proof.
  intros (_ & _ & _ & _ & _ & r & k & R & _ & E) (_ & _ & _ & _ & _ & r' & k' & R' & _ & E'). congruence.
Qed.

Lemma is_list all p W n : is all m f p (GRepair W n) -> W <> [] /\ ssorted W /\ (forall x, In x W -> x < n) /\ last W 0 < n.
Proof.
  intros (_ & Hne & Hs & Hlt & _). repeat split; try assumption. apply Hlt.
  destruct (exists_last Hne) as (l & a & ->). rewrite last_last. apply in_app_iff. right. left. reflexivity.
Qed.

Lemma old_repairs all ps gs c n gs0 : Forall2 (is all m f) ps gs -> (forall p, In p ps -> type_of p = 1) ->
  (forall W n', In (GRepair W n') gs -> n' <= n) -> n = N.of_nat c -> (1 <= c)%nat -> reached gs0 = c -> steady gs0 ->
  steady (gs0 ++ gs) /\ reached (gs0 ++ gs) = c.
Proof.
  intros F Ht Hn En Hc. revert gs0. induction F as [|p g ps gs Is F IH]; intros gs0 Hr St.
  - rewrite app_nil_r. auto.
  - replace (gs0 ++ g :: gs) with ((gs0 ++ [g]) ++ gs) by (rewrite <- app_assoc; reflexivity).
    pose proof (is_type m f all p g Is) as Ty. rewrite (Ht p (or_introl eq_refl)) in Ty.
    destruct g as [x|W n']; [discriminate|].
    destruct (is_list _ _ _ _ Is) as (L1 & L2 & _ & L4). pose proof (Hn W n' (or_introl eq_refl)) as Hle.
    apply IH.
    + intros q Hq. apply Ht. right. exact Hq.
    + intros W1 n1 H1. apply (Hn W1 n1). right. exact H1.
    + rewrite reached_app. cbn [reached top]. lia.
    + apply steady_snoc; [exact St|]. split; [exact L1|]. split; [exact L2|]. lia.
Qed.

Lemma steady_step all gs gs' w a w' : lim all <= LIM -> wok all m f o gs w -> wok all m f o (gs ++ gs') w' ->
  sizes_whole all m f (w_out w') -> Forall wire_ok (w_lists w') ->
  wstep m clk w a = Ok w' -> reached gs = length (w_sent w) -> steady gs ->
  steady (gs ++ gs') /\ reached (gs ++ gs') = length (w_sent w').
Proof.
  intros Hl B B' Hz Hw E Hr St.
  pose proof (ok_chan _ _ _ _ _ _ B) as C. pose proof (ok_chan _ _ _ _ _ _ B') as C'.
  destruct (x_out _ _ (wstep_extends _ _ _ _ _ E)) as [new Hnew].
  pose proof (sends_any m clk w a w' new E Hnew) as Em.
  assert (F : Forall2 (is all m f) new gs').
  { pose proof (ch_is _ _ _ _ _ _ _ _ C') as F. rewrite Hnew in F. apply Forall2_app_inv_l in F.
    destruct F as (l1 & l2 & F1 & F2 & El).
    pose proof (same_length _ _ _ (ch_is _ _ _ _ _ _ _ _ C)) as H1. pose proof (same_length _ _ _ F1) as H2.
    assert (l1 = gs /\ l2 = gs') as [-> ->].
    { clear -El H1 H2. assert (length l1 = length gs) by congruence. clear H1 H2. revert gs El H.
      induction l1 as [|a l IH]; intros [|b gs] El H; try discriminate; cbn in *; [auto|].
      injection El as -> El. injection H as H. destruct (IH gs El H) as [-> ->]. auto. }
    exact F2. }
  assert (Hle : forall W n', In (GRepair W n') gs' -> n' <= nsent w').
  { intros W n' Hin. apply In_nth_error in Hin. destruct Hin as [j Hj].
    apply (ch_new _ _ _ _ _ _ _ _ C' (length gs + j) W n'). rewrite nth_error_app2 by lia.
    replace (length gs + j - length gs)%nat with j by lia. exact Hj. }
  assert (Hsent : nsent w < 2 ^ 32).
  { destruct (ok_sent _ _ _ _ _ _ B) as [rest Er]. unfold lim in Hl. rewrite Er, app_length in Hl. unfold nsent.
    unfold LIM in Hl. change (2 ^ 32) with 4294967296. lia. }
  pose proof (eo_source_id _ _ _ _ (ok_enc _ _ _ _ _ _ B)) as Eid.
  destruct Em as [-> Es|p -> Tp Es|d p rest -> Es Win Ep Tr].
  - inversion F; subst. rewrite app_nil_r, Es. auto.
  - destruct (Nat.eq_dec (length (w_sent w')) 0) as [Z|Z].
    + exfalso. inversion F as [|p' g ps gs1 Is F' X0 X1]; subst p' ps gs'.
      pose proof (is_type m f all p g Is) as Ty. rewrite Tp in Ty. destruct g as [x|W n']; [discriminate|].
      destruct (is_list _ _ _ _ Is) as (_ & _ & _ & L4). specialize (Hle W n' (or_introl eq_refl)).
      unfold nsent in Hle. rewrite Z in Hle. lia.
    + apply old_repairs with (all := all) (ps := [p]) (n := nsent w'); try assumption.
      * intros q [<-|[]]. exact Tp.
      * reflexivity.
      * lia.
      * rewrite Es. exact Hr.
  - inversion F as [|p' g ps gs1 Is F' X0 X1]; subst p' ps gs'.
    replace (gs ++ g :: gs1) with ((gs ++ [g]) ++ gs1) by (rewrite <- app_assoc; reflexivity).
    assert (El : length (w_sent w') = Datatypes.S (length (w_sent w))) by (rewrite Es, app_length; cbn [length]; lia).
    assert (X : steady (gs ++ [g]) /\ reached (gs ++ [g]) = length (w_sent w')).
    { destruct Ep as [Ep|[Ep Hin]].
      - pose proof (is_type m f all p g Is) as Ty. rewrite Ep in Ty. destruct g as [x|W n']; [|discriminate].
        assert (Hx : x = nsent w).
        { rewrite Eid in Ep. apply (source_id m f all p x d (nsent w) Is Hsent Ep). }
        subst x. unfold nsent in *. split.
        + apply steady_snoc; [exact St|]. rewrite Nat2N.id. congruence.
        + rewrite reached_app. cbn [reached top]. rewrite Nat2N.id. lia.
      - pose proof (ok_enc _ _ _ _ _ _ B') as O'.
        rewrite (eo_field _ _ _ _ (ok_enc _ _ _ _ _ _ B)) in Ep.
        assert (Is' : is all m f p (GRepair (window w') (nsent w'))).
        { apply (is_repair all m f Hl m (w_enc w') (nsent w') (e_repair_id (w_enc w)) p eq_refl O').
          - destruct (ok_sent _ _ _ _ _ _ B') as [rst Er]. unfold lim, nsent. rewrite Er, app_length. lia.
          - exact Ep.
          - apply (eo_repair_id _ _ _ _ (ok_enc _ _ _ _ _ _ B)).
          - rewrite Forall_forall in Hw. apply Hw, Hin.
          - intros p0 r k x [<-|[]]. apply Hz. rewrite Hnew. apply in_app_iff. right. left. reflexivity. }
        pose proof (is_type m f all p g Is) as Ty. rewrite (repair_of_type _ _ _ _ _ Ep) in Ty.
        destruct g as [x|W n']; [discriminate|]. rewrite (is_unique _ _ _ _ _ _ Is Is') in *.
        destruct (is_list _ _ _ _ Is') as (L1 & L2 & L3 & L4).
        assert (Elast : last (window w') 0 = nsent w).
        { rewrite Eid in Win. pose proof (DecoderRecover.sorted_last_max _ _ L2 Win). unfold nsent in *. rewrite El in L4. lia. }
        split.
        + apply steady_snoc; [exact St|]. split; [exact L1|]. split; [exact L2|]. rewrite Elast. unfold nsent. lia.
        + rewrite reached_app. cbn [reached top]. rewrite Elast. unfold nsent. lia. }
    destruct X as [X1 X2].
    apply old_repairs with (all := all) (ps := rest) (n := nsent w'); try assumption.
    + intros W n' Hin. apply (Hle W n'). right. exact Hin.
    + reflexivity.
    + lia.
Qed.

(** The first packets arrived, in order: the receiver has what they reach. *)
Theorem run_any l w' : forall w, wrun m clk (start clk f o) l = Ok w -> extends w w' -> within_limits f w' -> lossless w ->
  exists gs k, wok (w_sent w') m f o gs w /\ steady gs /\ reached gs = length (w_sent w)
  /\ tidy (core_of w) (reached (firstn (length (w_arrived w)) gs)) k
  /\ N.of_nat (reached (firstn (length (w_arrived w)) gs)) = k + N.of_nat (srcs (firstn (length (w_arrived w)) (w_out w))).
Proof.
  induction l as [|a l IH] using rev_ind; intros w1 E X L Hlo.
  - cbn [wrun] in E. assert (w1 = start clk f o) by congruence. subst w1. exists [], 0.
    split; [apply wok_start; eapply lim_bound, L|]. split; [intros i g Hg; destruct i; discriminate|].
    split; [reflexivity|]. split; [|reflexivity]. constructor; try reflexivity.
    intros x. split; [intros [] | cbn; lia].
  - rewrite wrun_app in E. apply bind_ok in E. destruct E as (w & E0 & E). cbn [wrun] in E.
    apply bind_ok in E. destruct E as (w1' & E & Eq). assert (w1' = w1) by congruence. subst w1'. clear Eq.
    pose proof (wstep_extends _ _ _ _ _ E) as X1.
    assert (Hlo0 : lossless w /\ (forall k p, a = Arrive k -> nth_error (w_out w) k = Some p -> k = length (w_arrived w)
        /\ w_arrived w1 = w_arrived w ++ [k])).
    { assert (Arr : w_arrived w1 = w_arrived w \/ exists k p, a = Arrive k /\ nth_error (w_out w) k = Some p
          /\ w_arrived w1 = w_arrived w ++ [k]).
      { destruct a; cbn [wstep] in E; try (apply sender_extends in E; left; apply E);
          try (apply receiver_extends in E; left; rewrite <- app_nil_r; apply E).
        - destruct (nth_error (w_out w) k) as [p|] eqn:Ek.
          + right. exists k, p. split; [reflexivity|]. split; [exact Ek|]. apply receiver_extends in E. apply E.
          + left. congruence.
        - destruct (nth_error (w_acks w) j); [apply sender_extends in E; left; apply E | left; congruence]. }
      destruct Arr as [Ea|(k & p & -> & Ek & Ea)].
      - split; [unfold lossless in *; rewrite <- Ea; exact Hlo|]. intros k p -> Ek. exfalso.
        cbn [wstep] in E. rewrite Ek in E. apply receiver_extends in E. destruct E as (_ & _ & _ & E & _). rewrite Ea in E.
        rewrite <- (app_nil_r (w_arrived w)) in E at 1. apply app_inv_head in E. discriminate.
      - destruct (lossless_last w w1 k Ea Hlo) as [A1 A2]. split; [exact A1|]. intros k' p' Eq Ek'.
        assert (k' = k) by congruence. subst k'. auto. }
    destruct Hlo0 as [Hlo0 Hk].
    destruct (IH w E0) as (gs & kd & B & St & Re & Ti & Ct); try assumption.
    { eapply extends_trans; eassumption. }
    assert (R : reach m clk f o w) by (exists l; exact E0).
    assert (Hz : sizes_whole (w_sent w') m f (w_out w1)) by (apply whole_sizes; assumption).
    pose proof (wl_lists _ _ (limits_before _ _ _ X L)) as Wl.
    destruct (wstep_wok m clk f o (w_sent w') gs w a w1 (data_ok _ _ L) (lim_bound _ _ L) B E
        (fifo_repairs _ (lossless_fifo _ Hlo))) as (new & E1 & _ & H).
    { destruct (x_sent _ _ X) as [rest Er]. exists rest. exact Er. }
    { exact Hz. }
    destruct H as [gs' B'].
    { pose proof Wl as W. rewrite E1 in W. apply Forall_app in W. apply W. }
    destruct (steady_step (w_sent w') gs gs' w a w1 (lim_bound _ _ L) B B' Hz Wl E Re St) as (N1 & N2).
    assert (Hlen : length (w_out w) = length gs).
    { apply (same_length _ _ _ (ch_is _ _ _ _ _ _ _ _ (ok_chan _ _ _ _ _ _ B))). }
    assert (Hout : exists nw, w_out w1 = w_out w ++ nw) by (apply (x_out _ _ X1)).
    assert (Hfew : (length (w_arrived w) <= length (w_out w))%nat).
    { destruct (length (w_arrived w)) as [|n] eqn:En; [lia|].
      assert (Hin : In n (w_arrived w)).
      { unfold lossless in Hlo0. rewrite En in Hlo0. rewrite Hlo0. apply in_seq. lia. }
      pose proof (arrived_emitted m clk f o w R) as Y. rewrite Forall_forall in Y. specialize (Y n Hin). cbn in Y. lia. }
    assert (Efirst : forall n, (n <= length (w_out w))%nat -> firstn n (w_out w1) = firstn n (w_out w)
        /\ firstn n (gs ++ gs') = firstn n gs).
    { intros n Hn. destruct Hout as [nw ->]. rewrite !firstn_app.
      replace (n - length (w_out w))%nat with 0%nat by lia. replace (n - length gs)%nat with 0%nat by lia.
      cbn [firstn]. rewrite !app_nil_r. auto. }
    assert (Other : core_of w1 = core_of w -> w_arrived w1 = w_arrived w ->
       exists gs k, wok (w_sent w') m f o gs w1 /\ steady gs /\ reached gs = length (w_sent w1)
       /\ tidy (core_of w1) (reached (firstn (length (w_arrived w1)) gs)) k
       /\ N.of_nat (reached (firstn (length (w_arrived w1)) gs)) = k + N.of_nat (srcs (firstn (length (w_arrived w1)) (w_out w1)))).
    { intros Ec Ea. exists (gs ++ gs'), kd. split; [exact B'|]. split; [exact N1|]. split; [exact N2|].
      destruct (Efirst _ Hfew) as [F1 F2]. rewrite Ec, Ea, F1, F2. auto. }
    assert (Quiet : (forall k, a <> Arrive k) ->
       exists gs k, wok (w_sent w') m f o gs w1 /\ steady gs /\ reached gs = length (w_sent w1)
       /\ tidy (core_of w1) (reached (firstn (length (w_arrived w1)) gs)) k
       /\ N.of_nat (reached (firstn (length (w_arrived w1)) gs)) = k + N.of_nat (srcs (firstn (length (w_arrived w1)) (w_out w1)))).
    { intros Hna. apply Other; [apply (dec_kept m clk w a w1 E Hna)|].
      destruct a; cbn [wstep] in E; try (apply sender_extends in E; apply E);
          try (apply receiver_extends in E; rewrite <- app_nil_r; apply E).
      - destruct (Hna k eq_refl).
      - destruct (nth_error (w_acks w) j); [apply sender_extends in E; apply E | congruence]. }
    destruct a; try (apply Quiet; discriminate). clear Quiet.
    destruct (nth_error (w_out w) k) as [p|] eqn:Ek.
    2: { cbn [wstep] in E. rewrite Ek in E. assert (w1 = w) by congruence. subst w1. apply Other; reflexivity. }
    destruct (Hk k p eq_refl Ek) as [Ekk Ea]. clear Hk Other.
    destruct (arrive_core m clk f o w k w1 p R E (fifo_repairs _ (lossless_fifo _ Hlo)) (limits_before _ _ _ X L) Ek)
      as (gs2 & B2 & A).
    destruct (forall2_nth _ _ _ (ch_is _ _ _ _ _ _ _ _ (ok_chan _ _ _ _ _ _ B)) k p Ek) as (g & Hg & Is).
    pose proof (is_type m f _ _ _ Is) as Ty. pose proof (St k g Hg) as Nk.
    assert (Eo : w_out w1 = w_out w) by (cbn [wstep] in E; rewrite Ek in E; apply receiver_extends in E; apply E).
    assert (Hk1 : (Datatypes.S k <= length (w_out w))%nat).
    { apply nth_error_Some. rewrite Ek. discriminate. }
    destruct (Efirst _ Hk1) as [F1 F2].
    assert (Ean : length (w_arrived w1) = Datatypes.S k) by (rewrite Ea, app_length; cbn [length]; lia).
    rewrite Ean, F1. rewrite <- Ekk in Ti, Ct.
    assert (Rn : reached (firstn (Datatypes.S k) (gs ++ gs')) = Nat.max (reached (firstn k gs)) (top g)).
    { rewrite F2. apply reached_next, Hg. }
    rewrite (srcs_next _ _ _ Ek), Ty. set (c := reached (firstn k gs)) in *.
    assert (Hcl : (c <= length (w_sent w))%nat).
    { unfold c. rewrite <- Re. rewrite <- (firstn_skipn k gs) at 2. rewrite reached_app. lia. }
    assert (Hsn : (length (w_sent w) <= length (w_sent w'))%nat).
    { destruct (x_sent _ _ (extends_trans _ _ _ X1 X)) as [rst Er]. rewrite Er, app_length. lia. }
    pose proof (lim_bound _ _ L) as Hlim. unfold lim in Hlim.
    assert (Fin : forall k', tidy (core_of w1) (Nat.max c (top g)) k' ->
        N.of_nat (Nat.max c (top g)) = k' + N.of_nat (srcs (firstn k (w_out w)) + (if (match g with GSource _ => 2 | GRepair _ _ => 1 end =? 2)%N then 1 else 0))%nat ->
        exists gs k0, wok (w_sent w') m f o gs w1 /\ steady gs /\ reached gs = length (w_sent w1)
        /\ tidy (core_of w1) (reached (firstn (Datatypes.S k) gs)) k0
        /\ N.of_nat (reached (firstn (Datatypes.S k) gs)) = k0 + N.of_nat (srcs (firstn k (w_out w)) + (if (match g with GSource _ => 2 | GRepair _ _ => 1 end =? 2)%N then 1 else 0))%nat).
    { intros k' F3 F4. exists (gs ++ gs'), k'. rewrite Rn. auto 10. }
    destruct g as [x|W n].
    + destruct Is as (Hx & Ht & s & q & R1 & R2 & R3).
      destruct A as [(s' & q' & _ & Rs & _ & A)|(r & q' & Ht' & _)]; [|congruence].
      assert (s' = s) by congruence. subst s'. rewrite R2 in A. cbn beta iota in Nk.
      assert (Ex : x = N.of_nat c) by lia.
      apply (Fin kd).
      * cbn [top]. replace (Nat.max c (Datatypes.S (N.to_nat x))) with (Datatypes.S c) by lia.
        rewrite Ex in A. eapply tidy_source; [exact Ti | | exact A]. unfold lim in Hx. lia.
      * cbn [top N.eqb Pos.eqb]. lia.
    + pose proof (is_list _ _ _ _ Is) as (L1 & L2 & L3 & L4).
      destruct Is as (Ht & Hne & Hs & Hlt & Hn & r & q & R1 & R2 & R3).
      destruct A as [(s' & q' & Ht' & _)|(r' & q' & _ & Rr & Ac & A)]; [congruence|].
      assert (r' = r) by congruence. subst r'. destruct Nk as (_ & _ & Nk).
      assert (Hle : forall x, In x (dr_ids r) -> x <= N.of_nat c).
      { intros x Hx. rewrite R3 in Hx. pose proof (DecoderRecover.sorted_last_max _ _ L2 Hx). lia. }
      pose proof (do_inv _ _ _ _ (ok_dec _ _ _ _ _ _ B2)) as I2.
      destruct (tidy_repair f _ m _ (lim_bound f w1 (limits_before _ _ _ X L)) (core_of w) c kd r (core_of w1) Ti I2 Ac Hle A) as [K1 K2].
      destruct (in_dec N.eq_dec (N.of_nat c) (dr_ids r)) as [Hin|Hin].
      * assert (Et : N.to_nat (last W 0) = c).
        { rewrite R3 in Hin. pose proof (DecoderRecover.sorted_last_max _ _ L2 Hin). lia. }
        apply (Fin (kd + 1)).
        -- cbn [top]. replace (Nat.max c (Datatypes.S (N.to_nat (last W 0)))) with (Datatypes.S c) by lia. apply K2, Hin.
        -- cbn [top N.eqb Pos.eqb]. lia.
      * assert (Et : (N.to_nat (last W 0%N) < c)%nat).
        { assert (N.to_nat (last W 0) <> c); [|lia]. intros Y. apply Hin. rewrite R3, <- Y, N2Nat.id.
          destruct (exists_last L1) as (l' & a & ->). rewrite last_last. apply in_app_iff. right. left. reflexivity. }
        apply (Fin kd).
        -- cbn [top]. replace (Nat.max c (Datatypes.S (N.to_nat (last W 0)))) with c by lia. apply K1, Hin.
        -- cbn [top N.eqb Pos.eqb]. lia.
Qed.

End AnyCode.
