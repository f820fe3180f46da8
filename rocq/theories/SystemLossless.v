(** * The closed system over a channel that loses nothing *)
From Coq Require Import ZArith NArith Arith List Bool Lia Sorted.
From Verif Require Import Outcome GF Containers ContainersFacts Packetizer PacketizerFacts PropsPacketizer
  Encoder EncoderRun EncoderFacts EncoderHistory EncoderSafe DetailDecoder Decoder DecoderAlgebra DecoderInv
  DecoderStep DecoderFacts DecoderOuter DecoderThrow DecoderHeld DecoderProgress DecoderPrompt Genuine
  System SystemInv SystemRun SystemArrive SystemFifo.
Import ListNotations.
Open Scope N_scope.
Open Scope outcome_scope.

(** ** The decoder *)

Definition upto (c : nat) : list N := map N.of_nat (seq 0 c).

(** [c] sources have arrived, in order, and all repairs were about them. *)
Record clean (d : ddec) (c : nat) : Prop := {
  cl_missing : d_missing d = [];
  cl_repairs : d_repairs d = [];
  cl_ordered : d_ordered d = [];
  cl_first : d_in_order d = true -> d_first d = N.of_nat c;
  cl_handed : handed d = upto c;
  cl_keys : forall x, In x (mkeys (d_sources d)) <-> x < N.of_nat c /\ not_outdated d x = true;
  cl_last : not_outdated d (N.of_nat c) = true;
  cl_decoded : d_decoded d = 0;
  cl_failed : d_failed d = 0
}.

Lemma upto_snoc c : upto (Datatypes.S c) = upto c ++ [N.of_nat c].
Proof. unfold upto. rewrite seq_S, map_app. reflexivity. Qed.

Lemma clean_source m d c data d' : clean d c -> N.of_nat c < LIM ->
  recv_source m d (N.of_nat c) data = Ok d' -> clean d' (Datatypes.S c).
Proof.
  intros [A1 A2 A3 A4 A5 A6 A7 A8 A9] Hc H. unfold recv_source, outdated in H. rewrite A7 in H. cbn [negb] in H.
  assert (Hk : ~ In (N.of_nat c) (mkeys (d_sources d))) by (intros X; apply A6 in X; lia).
  rewrite (proj2 (mmem_false _ _) Hk) in H.
  assert (Hu : u32 (N.of_nat c + 1) = N.of_nat (Datatypes.S c)).
  { unfold u32, LIM in *. rewrite N.mod_small by lia. lia. }
  unfold enough in H. cbn [add_source] in H.
  apply bind_ok in H. destruct H as (d5 & H & Hat).
  apply bind_ok in H. destruct H as (d1 & E1 & H).
  assert (X1 : exists fi, d1 = with_first (callback d (N.of_nat c) data) fi
     /\ (d_in_order d = true -> fi = N.of_nat (Datatypes.S c)) /\ (d_in_order d = false -> fi = d_first d)).
  { unfold announce in E1. destruct (d_in_order d) eqn:Hi; cbn [negb] in E1.
    - rewrite (A4 eq_refl), N.eqb_refl in E1. cbn [callback d_first] in E1. rewrite (A4 eq_refl), Hu in E1.
      unfold flush in E1. cbn [with_first callback d_first d_ordered] in E1. rewrite A3 in E1. cbn [smem existsb] in E1.
      exists (N.of_nat (Datatypes.S c)). split; [congruence|]. split; [reflexivity | discriminate].
    - exists (d_first d). split; [|split; [discriminate | reflexivity]].
      assert (E : d1 = callback d (N.of_nat c) data) by congruence. rewrite E. reflexivity. }
  destruct X1 as (fi & -> & F1 & F2).
  unfold no_longer_missing in H. cbn [with_first callback d_missing] in H. rewrite A1 in H. cbn [mfind bind] in H.
  cbn [with_first callback d_missing] in H. rewrite ?A1 in H. cbn [mkeys map scan bind] in H.
  unfold store in H. apply bind_ok in H. destruct H as (u & _ & H). clear u.
  cbv zeta in H. cbn [with_sources with_first callback d_in_order d_first d_sources d_ordered] in H.
  assert (Eb : d_in_order d && (fi <? N.of_nat c) = false).
  { destruct (d_in_order d) eqn:Hi; [|reflexivity]. rewrite (F1 eq_refl). apply N.ltb_ge. lia. }
  rewrite Eb in H.
  match type of H with Ok ?e = _ => assert (Ed : d5 = e) by congruence end. clear H.
  assert (Er : d_repairs d5 = []) by (rewrite Ed; exact A2).
  rewrite attempt_less in Hat by (left; exact Er). assert (d' = d5) by congruence. subst d'. clear Hat.
  assert (Es : d_sources d5 = mput (N.of_nat c) data (d_sources d)) by (rewrite Ed; reflexivity).
  assert (El : d_last d5 = d_last d) by (rewrite Ed; reflexivity).
  assert (En : forall x, not_outdated d5 x = not_outdated d x) by (intros x; unfold not_outdated; rewrite El; reflexivity).
  constructor.
  - rewrite Ed. exact A1.
  - exact Er.
  - rewrite Ed. exact A3.
  - intros Hi. rewrite Ed in Hi |- *. exact (F1 Hi).
  - rewrite upto_snoc, <- A5, Ed. unfold handed. cbn [with_sources with_first callback d_log]. rewrite map_app. reflexivity.
  - intros x. rewrite Es, mput_keys, A6, En. split.
    + intros [->|[X Y]]; [split; [lia | exact A7] | split; [lia | exact Y]].
    + intros [X Y]. destruct (N.eq_dec x (N.of_nat c)); [left; assumption | right; split; [lia | exact Y]].
  - rewrite En. eapply not_outdated_up; [reflexivity | exact A7 | lia].
  - rewrite Ed. exact A8.
  - rewrite Ed. exact A9.
Qed.

Lemma clean_repair m d c r d' : clean d c -> ssorted (dr_ids r) -> (forall x, In x (dr_ids r) -> x < N.of_nat c) ->
  not_outdated d (hd 0 (dr_ids r)) = true -> recv_repair m d r = Ok d' -> clean d' c.
Proof.
  intros Cl Hs Hlt Hfirst H. pose proof Cl as [A1 A2 A3 A4 A5 A6 A7 A8 A9]. unfold recv_repair in H.
  apply bind_ok in H. destruct H as (u & _ & H). clear u.
  destruct (dr_ids r) as [|first ids] eqn:Eids; [discriminate|]. rewrite <- Eids in *.
  assert (Efirst : hd 0 (dr_ids r) = first) by (rewrite Eids; reflexivity). rewrite Efirst in Hfirst.
  assert (Hfc : first < N.of_nat c) by (apply Hlt; rewrite Eids; left; reflexivity).
  destruct (outdated d (last (dr_ids r) 0)); [assert (d' = d) by congruence; subst; exact Cl|].
  rewrite A2 in H. cbn [mmem mfind] in H.
  apply bind_ok in H. destruct H as (d0 & E0 & H).
  unfold drop_outdated in E0. cbn [with_last d_repairs] in E0. rewrite A2 in E0. cbn [drop_repairs bind] in E0.
  set (d1 := with_last d (Some first)) in E0.
  assert (Ed : (if d_in_order d1
      then d2 <- deliver_outdated (before first (d_ordered d1)) d1 ;;
           flush m (if d_first d2 <? first then with_first d2 first else d2)
      else Ok d1) = Ok d1).
  { change (d_in_order d1) with (d_in_order d). destruct (d_in_order d) eqn:Hi; [|reflexivity].
    change (d_ordered d1) with (d_ordered d). rewrite A3. cbn [before filter deliver_outdated bind].
    change (d_first d1) with (d_first d). rewrite (A4 eq_refl).
    replace (N.of_nat c <? first) with false by (symmetry; apply N.ltb_ge; lia).
    unfold flush. change (d_ordered d1) with (d_ordered d). rewrite A3. reflexivity. }
  rewrite Ed in E0. cbn [bind] in E0. clear Ed.
  match type of E0 with Ok ?e = _ => assert (Ed0 : d0 = e) by congruence end. clear E0.
  assert (Es0 : d_sources d0 = mfrom first (d_sources d)) by (rewrite Ed0; reflexivity).
  assert (Hall : forallb (fun id => mmem id (d_sources d0)) (dr_ids r) = true).
  { apply forallb_forall. intros x Hx. apply mmem_spec. rewrite Es0. apply mfrom_keys.
    pose proof (sorted_hd _ _ Hs Hx) as Hge. rewrite Efirst in Hge.
    split; [|exact Hge]. apply A6. split; [apply Hlt, Hx|]. eapply not_outdated_up; [reflexivity | exact Hfirst | exact Hge]. }
  rewrite Hall in H. assert (Ed' : d' = with_useless d0 (d_useless d0 + 1)) by congruence.
  assert (En : forall x, not_outdated d' x = (first <=? x)).
  { intros x. rewrite Ed', Ed0. reflexivity. }
  constructor.
  - rewrite Ed', Ed0. cbn [with_useless with_missing d_missing]. change (mfrom first (d_missing d) = []). rewrite A1. reflexivity.
  - rewrite Ed', Ed0. exact A2.
  - rewrite Ed', Ed0. exact A3.
  - rewrite Ed', Ed0. exact A4.
  - rewrite Ed', Ed0. exact A5.
  - intros x. rewrite En, N.leb_le. rewrite Ed'. change (d_sources (with_useless d0 (d_useless d0 + 1))) with (d_sources d0).
    rewrite Es0, mfrom_keys, A6. split.
    + intros [[X Y] Z]. auto.
    + intros [X Z]. split; [split; [exact X|] | exact Z]. eapply not_outdated_up; [reflexivity | exact Hfirst | exact Z].
  - rewrite En. apply N.leb_le. lia.
  - rewrite Ed', Ed0. exact A8.
  - rewrite Ed', Ed0. exact A9.
Qed.

(** ** The sender *)

(** The number of sources among some packets. *)
Definition srcs (l : list packet) : nat := length (filter (fun p => type_of p =? 2) l).

Lemma srcs_app l l' : srcs (l ++ l') = (srcs l + srcs l')%nat.
Proof. unfold srcs. rewrite filter_app, app_length. reflexivity. Qed.

Lemma srcs_none l : (forall p, In p l -> type_of p = 1) -> srcs l = 0%nat.
Proof.
  induction l as [|p l IH]; intros H; [reflexivity|]. unfold srcs in *. cbn [filter].
  rewrite (H p (or_introl eq_refl)). cbn [N.eqb Pos.eqb]. apply IH. intros q Hq. apply H. right. exact Hq.
Qed.

Inductive emission (w : world) (new : list packet) (w' : world) : Prop :=
| Emission_none : new = [] -> w_sent w' = w_sent w -> emission w new w'
| Emission_repair p : new = [p] -> type_of p = 1 -> w_sent w' = w_sent w -> emission w new w'
| Emission_data d p rest : new = p :: rest -> w_sent w' = w_sent w ++ [d] ->
    p = concat (write_source {| es_id := e_source_id (w_enc w); es_data := d |}) ->
    (forall q, In q rest -> type_of q = 1) -> emission w new w'.

Lemma emits m clk w a w' new : wstep m clk w a = Ok w' -> w_out w' = w_out w ++ new ->
  e_systematic (w_enc w) = true -> a <> SetCode false ->
  emission w new w' /\ e_systematic (w_enc w') = true.
Proof.
  intros H Hn Hs Ha.
  assert (Snd : forall op data, sender m w op data = Ok w' -> exists e r, estep m (w_enc w) op = (e, r)
    /\ ~ is_fault r /\ emitted r = new /\ w_sent w' = w_sent w ++ data /\ w_enc w' = e).
  { intros op data E. unfold sender in E. destruct (estep m (w_enc w) op) as [e r]. exists e, r. split; [reflexivity|].
    apply bind_ok in E. destruct E as (out & Eo & E). apply survive_ok in Eo. destruct Eo as [Hf Hr]. split; [exact Hf|].
    match type of E with Ok ?x = _ => assert (Ew : w' = x) by congruence end.
    assert (Eq : w_out w' = w_out w ++ out) by (rewrite Ew; reflexivity).
    rewrite Hn in Eq. apply app_inv_head in Eq. subst out.
    split; [destruct Hr as [->|[-> [x ->]]]; reflexivity|]. rewrite Ew. split; reflexivity. }
  assert (Rcv : w_out w' = w_out w -> new = []).
  { intros E. rewrite E in Hn. rewrite <- (app_nil_r (w_out w)) in Hn at 1. apply app_inv_head in Hn. congruence. }
  assert (Recv : forall op k, receiver m clk w op k = Ok w' -> emission w new w' /\ e_systematic (w_enc w') = true).
  { intros op k E. apply receiver_extends in E. destruct E as (_ & E2 & E3 & _ & E4).
    split; [apply Emission_none; [apply Rcv; assumption | assumption]|]. congruence. }
  assert (Idle : w' = w -> emission w new w' /\ e_systematic (w_enc w') = true).
  { intros ->. split; [apply Emission_none; [apply Rcv; reflexivity | reflexivity] | exact Hs]. }
  assert (Setter : forall op, sender m w op [] = Ok w' -> match op with EData _ | EPacket _ | ERepair => False | _ => True end ->
    (op <> ESetCode false) -> emission w new w' /\ e_systematic (w_enc w') = true).
  { intros op E Hop Hne. destruct (Snd _ _ E) as (e & r & Ee & Hf & Hr & E1 & E2).
    apply estep_setters in Ee; [|exact Hf | exact Hop]. destruct Ee as (Er & _ & _ & _ & Esy & _).
    split.
    - apply Emission_none; [rewrite <- Hr, Er; reflexivity | rewrite app_nil_r in E1; exact E1].
    - rewrite E2, Esy. destruct op; try contradiction; try assumption. destruct systematic; [reflexivity | congruence]. }
  destruct a; cbn [wstep] in H; try (eapply Recv; exact H); try (eapply Setter; [exact H | exact I | congruence]).
  - destruct (Snd _ _ H) as (e & r & E & Hf & Hr & E1 & E2). apply estep_data in E; [|exact Hf].
    destruct E as (out & Er & A). destruct A. destruct ad_out as (first & rest & Eo & O1 & O2 & O3 & O4).
    assert (Hn' : new = first :: rest) by (rewrite <- Hr, Er; exact Eo).
    split; [|congruence]. apply (Emission_data w new w' d first rest Hn' E1 (O1 Hs)).
    intros q Hq. destruct (N.eq_dec (u32 (e_source_id (w_enc w) + 1) mod e_rate (w_enc w)) 0) as [Hz|Hz].
    + destruct (O3 Hz) as (q' & -> & Rq). destruct Hq as [<-|[]]. eapply repair_of_type, Rq.
    + rewrite (O4 Hz) in Hq. destruct Hq.
  - destruct (Snd _ _ H) as (e & r & E & Hf & Hr & E1 & E2). apply estep_repair in E; [|exact Hf].
    destruct E as (out & Er & A). pose proof A as A'. apply generate_repair_ok in A. destruct A as (r0 & w0 & G1 & G2 & Eo & _ & Ee & _).
    assert (Hn' : new = [concat w0]) by (rewrite <- Hr, Er; exact Eo).
    split.
    + apply (Emission_repair w new w' (concat w0) Hn').
      * eapply repair_of_type. exists r0, w0. split; [exact G1 | split; [exact G2 | reflexivity]].
      * rewrite app_nil_r in E1. exact E1.
    + rewrite E2, Ee. exact Hs.
  - destruct (nth_error (w_out w) k); [eapply Recv; exact H | apply Idle; congruence].
  - destruct (nth_error (w_acks w) j) eqn:Ej; [|apply Idle; congruence].
    destruct (Snd _ _ H) as (e & r & E & Hf & Hr & E1 & E2). apply estep_packet in E; [|exact Hf].
    destruct E as (q & _ & _ & Ap & Er). split.
    + apply Emission_none; [congruence | rewrite app_nil_r in E1; exact E1].
    + rewrite E2, (ap_systematic _ _ _ _ _ Ap). exact Hs.
Qed.

(** ** Runs *)

(** Identifiers count the sources before; a repair only covers these. *)
Definition numbered (out : list packet) (gs : list what) : Prop :=
  forall i g, nth_error gs i = Some g ->
  match g with
  | GSource x => x = N.of_nat (srcs (firstn i out))
  | GRepair _ n => n <= N.of_nat (srcs (firstn i out))
  end.

Section Lossless.
Variable m : mode.
Variable clk : clock.
Variable f : field.
Variable o : bool.

Lemma source_id all p x d id : is all m f p (GSource x) -> id < 2 ^ 32 ->
  p = concat (write_source {| es_id := id; es_data := d |}) -> x = id.
Proof.
  intros (_ & _ & s & q & R1 & R2 & _) Hid E.
  destruct (C01_any_source m id d Hid) as (s' & R1' & R2' & _). unfold on_wire in R1'. rewrite <- E, R1 in R1'.
  assert (s = s') by congruence. subst s'. congruence.
Qed.

Lemma firstn_out (l new : list packet) i : (length l <= i)%nat -> firstn i (l ++ new) = l ++ firstn (i - length l) new.
Proof. intros H. rewrite firstn_app, firstn_all2 by lia. reflexivity. Qed.

Lemma is_type all p g : is all m f p g -> type_of p = match g with GSource _ => 2 | GRepair _ _ => 1 end.
Proof.
  destruct g; intros H; cbn [is] in H.
  - apply type_2, H.
  - destruct H as [H _]. pose proof (type_byte p) as T. rewrite H in T. unfold has_type in T. destruct p; [discriminate|].
    apply N.eqb_eq in T. exact T.
Qed.

Lemma numbered_step all gs gs' w a w' : lim all <= LIM -> wok all m f o gs w -> wok all m f o (gs ++ gs') w' ->
  wstep m clk w a = Ok w' -> e_systematic (w_enc w) = true -> a <> SetCode false ->
  length (w_sent w) = srcs (w_out w) -> numbered (w_out w) gs ->
  numbered (w_out w') (gs ++ gs') /\ length (w_sent w') = srcs (w_out w') /\ e_systematic (w_enc w') = true.
Proof.
  intros Hl B B' E Hs Ha Hn H.
  pose proof (ok_chan _ _ _ _ _ _ B) as C. pose proof (ok_chan _ _ _ _ _ _ B') as C'.
  pose proof (same_length _ _ _ (ch_is _ _ _ _ _ _ _ _ C)) as Hlen.
  pose proof (same_length _ _ _ (ch_is _ _ _ _ _ _ _ _ C')) as Hlen'. rewrite app_length in Hlen'.
  destruct (x_out _ _ (wstep_extends _ _ _ _ _ E)) as [new Hnew].
  destruct (emits m clk w a w' new E Hnew Hs Ha) as [Em Hs'].
  assert (Hsent : nsent w < 2 ^ 32).
  { destruct (ok_sent _ _ _ _ _ _ B) as [rest Er]. unfold lim in Hl. rewrite Er, app_length in Hl. unfold nsent.
    unfold LIM in Hl. change (2 ^ 32) with 4294967296. lia. }
  assert (Hcount : length (w_sent w') = srcs (w_out w')).
  { rewrite Hnew, srcs_app. destruct Em as [-> Es|p -> Tp Es|d p rest -> Es Ep Tr].
    - rewrite Es, Hn. cbn. lia.
    - rewrite Es, Hn, (srcs_none [p]); [lia|]. intros q [<-|[]]. exact Tp.
    - rewrite Es, app_length, Hn. cbn [length]. change (p :: rest) with ([p] ++ rest).
      rewrite srcs_app, (srcs_none rest Tr).
      assert (Tp : type_of p = 2) by (rewrite Ep; reflexivity).
      unfold srcs at 3. cbn [filter]. rewrite Tp. cbn [N.eqb Pos.eqb length]. lia. }
  split; [|split; [exact Hcount | exact Hs']].
  intros i g Hg. destruct (Nat.lt_ge_cases i (length gs)) as [L|L].
  - rewrite nth_error_app1 in Hg by exact L. specialize (H i g Hg). rewrite Hnew, firstn_app.
    replace (i - length (w_out w))%nat with 0%nat by lia. cbn [firstn]. rewrite app_nil_r. exact H.
  - assert (Hp : exists p, nth_error (w_out w') i = Some p /\ is all m f p g).
    { destruct (nth_error (w_out w') i) as [p|] eqn:Ep.
      - destruct (forall2_nth _ _ _ (ch_is _ _ _ _ _ _ _ _ C') i p Ep) as (g' & Hg' & Is). exists p. split; [reflexivity|].
        assert (g' = g) by congruence. subst g'. exact Is.
      - apply nth_error_None in Ep. assert (nth_error (gs ++ gs') i = None).
        { apply nth_error_None. rewrite app_length. lia. }
        congruence. }
    destruct Hp as (p & Ep & Is). rewrite Hnew, nth_error_app2 in Ep by lia.
    rewrite Hnew, firstn_out by lia. rewrite srcs_app, <- Hn.
    set (j := (i - length (w_out w))%nat) in *.
    assert (Hle : match g with GRepair _ n => n <= nsent w' | _ => True end).
    { destruct g as [x|W n]; [exact I|]. apply (ch_new _ _ _ _ _ _ _ _ C' i W n Hg). }
    pose proof (is_type _ _ _ Is) as Ty.
    destruct Em as [-> Es|p0 -> Tp Es|d p0 rest -> Es Ep0 Tr].
    + destruct j; discriminate.
    + destruct j as [|j']; [|destruct j'; discriminate]. cbn [nth_error] in Ep. assert (p0 = p) by congruence. subst p0.
      destruct g as [x|W n]; [congruence|]. unfold nsent in Hle. rewrite Es in Hle. cbn. lia.
    + destruct j as [|j'].
      * cbn [nth_error] in Ep. injection Ep as Ep. rewrite Ep in Ep0.
        destruct g as [x|W n].
        -- cbn [firstn]. unfold srcs. cbn [filter length]. rewrite Nat.add_0_r.
           rewrite (eo_source_id _ _ _ _ (ok_enc _ _ _ _ _ _ B)) in Ep0.
           apply (source_id all p x d (nsent w) Is Hsent Ep0).
        -- rewrite Ep0 in Ty. cbn in Ty. discriminate.
      * cbn [nth_error] in Ep. destruct g as [x|W n].
        -- apply nth_error_In in Ep. apply Tr in Ep. congruence.
        -- cbn [firstn]. change (p0 :: firstn j' rest) with ([p0] ++ firstn j' rest). rewrite srcs_app.
           assert (Tp : type_of p0 = 2) by (rewrite Ep0; reflexivity).
           assert (E1 : srcs [p0] = 1%nat) by (unfold srcs; cbn [filter]; rewrite Tp; reflexivity).
           rewrite E1. unfold nsent in Hle. rewrite Es, app_length in Hle. cbn [length] in Hle. lia.
Qed.

(** The first packets have arrived. *)
Definition lossless (w : world) : Prop := w_arrived w = seq 0 (length (w_arrived w)).

Lemma seq_fifo a n : StronglySorted le (seq a n).
Proof.
  revert a. induction n as [|n IH]; intros a; cbn [seq]; constructor; [apply IH|].
  apply Forall_forall. intros x Hx. apply in_seq in Hx. lia.
Qed.

Lemma lossless_fifo w : lossless w -> fifo w.
Proof. unfold fifo. intros ->. apply seq_fifo. Qed.

Lemma lossless_last w w' k : w_arrived w' = w_arrived w ++ [k] -> lossless w' -> lossless w /\ k = length (w_arrived w).
Proof.
  unfold lossless. intros E H. rewrite E in H. rewrite app_length in H. cbn [length] in H.
  rewrite Nat.add_1_r, seq_S in H. apply app_inj_tail in H. cbn [plus] in H. exact H.
Qed.

Lemma srcs_next out k p : nth_error out k = Some p ->
  srcs (firstn (Datatypes.S k) out) = (srcs (firstn k out) + (if (type_of p =? 2)%N then 1 else 0))%nat.
Proof.
  revert k. induction out as [|q out IH]; intros k Hk; [destruct k; discriminate|].
  destruct k as [|k].
  - cbn [nth_error] in Hk. assert (q = p) by congruence. subst q. cbn [firstn]. unfold srcs. cbn [filter].
    destruct (type_of p =? 2); reflexivity.
  - cbn [nth_error] in Hk. specialize (IH k Hk). cbn [firstn] in *. unfold srcs in *. cbn [filter].
    destruct (type_of q =? 2); cbn [length]; lia.
Qed.

Theorem run_lossless l w' : forall w, wrun m clk (start clk f o) l = Ok w -> extends w w' -> within_limits f w' ->
  lossless w -> ~ In (SetCode false) l ->
  exists gs, wok (w_sent w') m f o gs w /\ numbered (w_out w) gs /\ length (w_sent w) = srcs (w_out w)
  /\ e_systematic (w_enc w) = true /\ clean (core_of w) (srcs (firstn (length (w_arrived w)) (w_out w))).
Proof.
  induction l as [|a l IH] using rev_ind; intros w1 E X L Hlo Hc.
  - cbn [wrun] in E. assert (w1 = start clk f o) by congruence. subst w1. exists [].
    split; [apply wok_start; eapply lim_bound, L|]. split; [intros i g Hg; destruct i; discriminate|].
    split; [reflexivity|]. split; [reflexivity|]. constructor; try reflexivity.
    + intros x. split; [intros [] | cbn; lia].
  - rewrite wrun_app in E. apply bind_ok in E. destruct E as (w & E0 & E). cbn [wrun] in E.
    apply bind_ok in E. destruct E as (w1' & E & Eq). assert (w1' = w1) by congruence. subst w1'. clear Eq.
    pose proof (wstep_extends _ _ _ _ _ E) as X1.
    assert (Hlo0 : lossless w /\ (forall k p, a = Arrive k -> nth_error (w_out w) k = Some p -> k = length (w_arrived w)
        /\ w_arrived w1 = w_arrived w ++ [k])).
    { assert (Arr : w_arrived w1 = w_arrived w \/ exists k p, a = Arrive k /\ nth_error (w_out w) k = Some p
          /\ w_arrived w1 = w_arrived w ++ [k]).
      { destruct a; cbn [wstep] in E; try (apply sender_extends in E; left; apply E);
          try (apply receiver_extends in E; left; rewrite <- app_nil_r; apply E).
        - destruct (nth_error (w_out w) k) as [p|] eqn:Ek.
          + right. exists k, p. split; [reflexivity|]. split; [exact Ek|]. apply receiver_extends in E. apply E.
          + left. congruence.
        - destruct (nth_error (w_acks w) j); [apply sender_extends in E; left; apply E | left; congruence]. }
      destruct Arr as [Ea|(k & p & -> & Ek & Ea)].
      - split; [unfold lossless in *; rewrite <- Ea; exact Hlo|]. intros k p -> Ek. exfalso.
        cbn [wstep] in E. rewrite Ek in E. apply receiver_extends in E. destruct E as (_ & _ & _ & E & _). rewrite Ea in E.
        rewrite <- (app_nil_r (w_arrived w)) in E at 1. apply app_inv_head in E. discriminate.
      - destruct (lossless_last w w1 k Ea Hlo) as [A1 A2]. split; [exact A1|]. intros k' p' Eq Ek'.
        assert (k' = k) by congruence. subst k'. auto. }
    destruct Hlo0 as [Hlo0 Hk].
    assert (Hc0 : ~ In (SetCode false) l) by (intros Y; apply Hc, in_app_iff; left; exact Y).
    assert (Ha : a <> SetCode false) by (intros ->; apply Hc, in_app_iff; right; left; reflexivity).
    destruct (IH w E0) as (gs & B & Nu & Co & Sy & Cl); try assumption.
    { eapply extends_trans; eassumption. }
    assert (R : reach m clk f o w) by (exists l; exact E0).
    destruct (wstep_wok m clk f o (w_sent w') gs w a w1 (data_ok _ _ L) (lim_bound _ _ L) B E
        (fifo_repairs _ (lossless_fifo _ Hlo))) as (new & E1 & _ & H).
    { destruct (x_sent _ _ X) as [rest Er]. exists rest. exact Er. }
    { apply whole_sizes; assumption. }
    destruct H as [gs' B'].
    { pose proof (wl_lists _ _ (limits_before _ _ _ X L)) as W. rewrite E1 in W. apply Forall_app in W. apply W. }
    exists (gs ++ gs'). split; [exact B'|].
    destruct (numbered_step (w_sent w') gs gs' w a w1 (lim_bound _ _ L) B B' E Sy Ha Co Nu) as (N1 & N2 & N3).
    split; [exact N1|]. split; [exact N2|]. split; [exact N3|].
    assert (Hout : exists nw, w_out w1 = w_out w ++ nw) by (apply (x_out _ _ X1)).
    assert (Hfew : (length (w_arrived w) <= length (w_out w))%nat).
    { destruct (length (w_arrived w)) as [|n] eqn:En; [lia|].
      assert (Hin : In n (w_arrived w)).
      { unfold lossless in Hlo0. rewrite En in Hlo0. rewrite Hlo0. apply in_seq. lia. }
      pose proof (arrived_emitted m clk f o w R) as Y. rewrite Forall_forall in Y. specialize (Y n Hin). cbn in Y. lia. }
    assert (Other : core_of w1 = core_of w -> w_arrived w1 = w_arrived w ->
       clean (core_of w1) (srcs (firstn (length (w_arrived w1)) (w_out w1)))).
    { intros Ec Ea. rewrite Ec, Ea. destruct Hout as [nw ->]. rewrite firstn_app.
      replace (length (w_arrived w) - length (w_out w))%nat with 0%nat by lia. cbn [firstn]. rewrite app_nil_r. exact Cl. }
    assert (Quiet : (forall k, a <> Arrive k) -> clean (core_of w1) (srcs (firstn (length (w_arrived w1)) (w_out w1)))).
    { intros Hna. apply Other; [apply (dec_kept m clk w a w1 E Hna)|].
      destruct a; cbn [wstep] in E; try (apply sender_extends in E; apply E);
          try (apply receiver_extends in E; rewrite <- app_nil_r; apply E).
      - destruct (Hna k eq_refl).
      - destruct (nth_error (w_acks w) j); [apply sender_extends in E; apply E | congruence]. }
    destruct a; try (apply Quiet; discriminate). clear Quiet.
    destruct (nth_error (w_out w) k) as [p|] eqn:Ek.
    2: { cbn [wstep] in E. rewrite Ek in E. assert (w1 = w) by congruence. subst w1. apply Other; reflexivity. }
    destruct (Hk k p eq_refl Ek) as [Ekk Ea]. clear Hk Other.
    destruct (arrive_core m clk f o w k w1 p R E (fifo_repairs _ (lossless_fifo _ Hlo)) (limits_before _ _ _ X L) Ek)
      as (gs2 & B2 & A).
    destruct (forall2_nth _ _ _ (ch_is _ _ _ _ _ _ _ _ (ok_chan _ _ _ _ _ _ B)) k p Ek) as (g & Hg & Is).
    pose proof (is_type _ _ _ Is) as Ty. pose proof (Nu k g Hg) as Nk.
    assert (Eo : w_out w1 = w_out w) by (cbn [wstep] in E; rewrite Ek in E; apply receiver_extends in E; apply E).
    assert (En : srcs (firstn (length (w_arrived w1)) (w_out w1))
        = (srcs (firstn (length (w_arrived w)) (w_out w)) + (if (type_of p =? 2)%N then 1 else 0))%nat).
    { rewrite Ea, app_length, Eo. cbn [length]. rewrite Nat.add_1_r. apply srcs_next. rewrite <- Ekk. exact Ek. }
    rewrite En, Ty. rewrite Ekk in Nk. set (c := srcs (firstn (length (w_arrived w)) (w_out w))) in *.
    destruct g as [x|W n].
    + destruct Is as (Hx & Ht & s & q & R1 & R2 & R3).
      destruct A as [(s' & q' & _ & Rs & _ & A)|(r & q' & Ht' & _)]; [|congruence].
      assert (s' = s) by congruence. subst s'. rewrite R2 in A. cbn beta iota in Nk. rewrite Nk in A, Hx.
      cbn [N.eqb Pos.eqb]. rewrite Nat.add_1_r. eapply clean_source; [exact Cl | | exact A].
      pose proof (lim_bound _ _ L). lia.
    + destruct Is as (Ht & Hne & Hs & Hlt & _ & r & q & R1 & R2 & R3).
      destruct A as [(s' & q' & Ht' & _)|(r' & q' & _ & Rr & Ac & A)]; [congruence|].
      assert (r' = r) by congruence. subst r'.
      cbn [N.eqb Pos.eqb]. rewrite Nat.add_0_r. eapply clean_repair; [exact Cl | | | | exact A].
      * rewrite R3. exact Hs.
      * intros x Hx. rewrite R3 in Hx. specialize (Hlt x Hx). cbn beta iota in Nk. lia.
      * apply (b_first _ _ _ _ _ Ac).
Qed.

End Lossless.
