(** * Groups of packets that end with a repair: what a repair covers, and that one
    loss in a group is made good. Used by PropsGroups.v. *)
From Coq Require Import ZArith NArith Arith List Bool Lia Sorted.
From Verif Require Import Outcome GF Containers ContainersFacts Packetizer PropsPacketizer
  Encoder EncoderFacts EncoderRun EncoderHistory EncoderSafe DetailDecoder Decoder DecoderInv DecoderStep DecoderFacts
  DecoderHeld DecoderProgress DecoderRecover DecoderPrompt System SystemInv SystemRun SystemArrive SystemFifo SystemLossless PropsSystem PropsRecover PropsFifo.
Import ListNotations.
Open Scope N_scope.

(** ** The sender *)

(** A repair covers the window that the call leaves. *)
Lemma emits_window m clk w a w' new p : wstep m clk w a = Ok w' -> w_out w' = w_out w ++ new -> In p new -> type_of p = 1 ->
  e_systematic (w_enc w) = true ->
  repair_of m (Encoder.e_field (w_enc w)) (e_repair_id (w_enc w)) (e_sources (w_enc w')) p /\ In (window w') (w_lists w').
Proof.
  intros H Hn Hp Ht Hs.
  assert (Snd : forall op data, sender m w op data = Ok w' -> exists e r, estep m (w_enc w) op = (e, r)
    /\ ~ is_fault r /\ emitted r = new /\ w_enc w' = e
    /\ w_lists w' = w_lists w ++ map (fun _ => window w') (of_type 1 new)).
  { intros op data E. unfold sender in E. destruct (estep m (w_enc w) op) as [e r]. exists e, r. split; [reflexivity|].
    apply bind_ok in E. destruct E as (out & Eo & E). apply survive_ok in Eo. destruct Eo as [Hf Hr]. split; [exact Hf|].
    match type of E with Ok ?x = _ => assert (Ew : w' = x) by congruence end.
    assert (Eq : w_out w' = w_out w ++ out) by (rewrite Ew; reflexivity).
    rewrite Hn in Eq. apply app_inv_head in Eq. subst out.
    split; [destruct Hr as [->|[-> [x ->]]]; reflexivity|]. rewrite Ew. split; reflexivity. }
  assert (Hl : In p (of_type 1 new)) by (apply filter_In; split; [exact Hp | rewrite Ht; reflexivity]).
  assert (Lists : w_lists w' = w_lists w ++ map (fun _ => window w') (of_type 1 new) -> In (window w') (w_lists w')).
  { intros ->. apply in_app_iff. right. apply in_map_iff. exists p. auto. }
  assert (Rcv : w_out w' = w_out w -> False).
  { intros E. rewrite E in Hn. rewrite <- (app_nil_r (w_out w)) in Hn at 1. apply app_inv_head in Hn. subst new. destruct Hp. }
  assert (Setter : forall op, sender m w op [] = Ok w' -> match op with EData _ | EPacket _ | ERepair => False | _ => True end -> False).
  { intros op E Hop. destruct (Snd _ _ E) as (e & r & Ee & Hf & Hr & _).
    apply estep_setters in Ee; [|exact Hf | exact Hop]. destruct Ee as (Er & _). subst r. cbn in Hr. subst new. destruct Hp. }
  destruct a; cbn [wstep] in H; try (exfalso; apply Rcv, (receiver_extends _ _ _ _ _ _ H));
    try (exfalso; eapply Setter; [exact H | exact I]).
  - destruct (Snd _ _ H) as (e & r & E & Hf & Hr & E2 & El). apply estep_data in E; [|exact Hf].
    destruct E as (out & Er & A). split; [|apply Lists, El]. destruct A. destruct ad_out as (first & rest & Eo & O1 & O2 & O3 & O4).
    assert (Hn' : new = first :: rest) by (rewrite <- Hr, Er; exact Eo). rewrite E2.
    rewrite Hn' in Hp. destruct Hp as [<-|Hp]; [rewrite (O1 Hs) in Ht; discriminate|].
    destruct (N.eq_dec (u32 (e_source_id (w_enc w) + 1) mod e_rate (w_enc w)) 0) as [Hz|Hz].
    + destruct (O3 Hz) as (q' & -> & Rq). destruct Hp as [<-|[]]. rewrite Hs in Rq. exact Rq.
    + rewrite (O4 Hz) in Hp. destruct Hp.
  - destruct (Snd _ _ H) as (e & r & E & Hf & Hr & E2 & El). apply estep_repair in E; [|exact Hf].
    destruct E as (out & Er & A). split; [|apply Lists, El]. apply generate_repair_ok in A.
    destruct A as (r0 & w0 & G1 & G2 & Eo & _ & _ & _ & _ & _ & _ & _ & Es & _).
    assert (Hn' : new = [concat w0]) by (rewrite <- Hr, Er; exact Eo). rewrite Hn' in Hp. destruct Hp as [<-|[]].
    rewrite E2, Es. exists r0, w0. auto.
  - destruct (nth_error (w_out w) k); [exfalso; apply Rcv, (receiver_extends _ _ _ _ _ _ H) | exfalso; apply Rcv; congruence].
  - destruct (nth_error (w_acks w) j) eqn:Ej; [|exfalso; apply Rcv; congruence].
    destruct (Snd _ _ H) as (e & r & E & Hf & Hr & _). apply estep_packet in E; [|exact Hf].
    destruct E as (q & _ & _ & _ & Er). exfalso. rewrite Er in Hr. subst new. destruct Hp.
Qed.

(** A source near the end of the strictly increasing window is not the one dropped. *)
Lemma sorted_span l b : ssorted l -> (forall x, In x l -> x < b) -> forall x t, l = x :: t -> x + N.of_nat (length l) <= b.
Proof.
  revert b. induction l as [|y l IH]; intros b Hs Hb x t E; [discriminate|]. injection E as <- <-.
  apply ssorted_cons_inv in Hs. destruct Hs as [Hs Hlow]. destruct l as [|z l].
  - cbn [length]. specialize (Hb y (or_introl eq_refl)). lia.
  - specialize (IH b Hs (fun x Hx => Hb x (or_intror Hx)) z l eq_refl). specialize (Hlow z (or_introl eq_refl)).
    cbn [length] in *. lia.
Qed.

Section Groups.
Variable m : mode.
Variable clk : clock.
Variable f : field.
Variable o : bool.
Variable n : N.

Record covers (gs : list what) (w : world) : Prop := {
  cv_systematic : e_systematic (w_enc w) = true;
  cv_window : e_window_size (w_enc w) = n;
  cv_numbered : numbered (w_out w) gs;
  cv_count : length (w_sent w) = srcs (w_out w);
  cv_now : forall x, x < nsent w -> nsent w <= x + n -> In x (window w) \/ kept_id (core_of w) x;
  cv_past : forall i W n' x, nth_error gs i = Some (GRepair W n') ->
    x < N.of_nat (srcs (firstn i (w_out w))) -> N.of_nat (srcs (firstn i (w_out w))) <= x + n ->
    In x W \/ kept_id (core_of w) x
}.

Definition usual (a : action) : Prop := a <> SetCode false /\ forall s, a <> SetWindow s.

Lemma window_step all gs w a w' : Forall (ok_datum f) all -> lim all <= LIM -> wok all m f o gs w ->
  (exists rest, all = w_sent w' ++ rest) ->
  wstep m clk w a = Ok w' -> usual a -> e_window_size (w_enc w) = n ->
  e_window_size (w_enc w') = n
  /\ ((w_sent w' = w_sent w /\ forall x, In x (window w) -> In x (window w') \/ kept_id (core_of w) x)
      \/ (nsent w' = nsent w + 1 /\ In (nsent w) (window w')
          /\ forall x, In x (window w) -> In x (window w') \/ x + n <= nsent w)).
Proof.
  intros Hall Hlim B [rest Hrest] H [Ha1 Ha2] Hw.
  assert (Snd : forall op data, sender m w op data = Ok w' -> exists e r, estep m (w_enc w) op = (e, r)
    /\ ~ is_fault r /\ w_enc w' = e /\ w_sent w' = w_sent w ++ data).
  { intros op data E. unfold sender in E. destruct (estep m (w_enc w) op) as [e r]. exists e, r. split; [reflexivity|].
    apply bind_ok in E. destruct E as (out & Eo & E). apply survive_ok in Eo. destruct Eo as [Hff _]. split; [exact Hff|].
    match type of E with Ok ?x = _ => assert (Ew : w' = x) by congruence end. rewrite Ew. split; reflexivity. }
  assert (Same : w_enc w' = w_enc w -> w_sent w' = w_sent w -> e_window_size (w_enc w') = n
     /\ ((w_sent w' = w_sent w /\ forall x, In x (window w) -> In x (window w') \/ kept_id (core_of w) x)
      \/ (nsent w' = nsent w + 1 /\ In (nsent w) (window w')
          /\ forall x, In x (window w) -> In x (window w') \/ x + n <= nsent w))).
  { intros E1 E2. rewrite E1. split; [exact Hw|]. left. split; [exact E2|]. intros x Hx. left. unfold window. rewrite E1. exact Hx. }
  assert (Recv : forall op k, receiver m clk w op k = Ok w' -> w_enc w' = w_enc w /\ w_sent w' = w_sent w).
  { intros op k E. apply receiver_extends in E. destruct E as (_ & E2 & _ & _ & E4). auto. }
  assert (Setter : forall op, sender m w op [] = Ok w' ->
    match op with EData _ | EPacket _ | ERepair | ESetWindow _ => False | _ => True end -> e_window_size (w_enc w') = n
     /\ ((w_sent w' = w_sent w /\ forall x, In x (window w) -> In x (window w') \/ kept_id (core_of w) x)
      \/ (nsent w' = nsent w + 1 /\ In (nsent w) (window w')
          /\ forall x, In x (window w) -> In x (window w') \/ x + n <= nsent w))).
  { intros op E Hop. destruct (Snd _ _ E) as (e & r & Ee & Hff & E1 & E2).
    apply estep_setters in Ee; [|exact Hff | destruct op; tauto]. destruct Ee as (_ & Es & _ & _ & _ & _ & Ewin).
    rewrite app_nil_r in E2. split.
    - rewrite E1, Ewin. destruct op; tauto.
    - left. split; [exact E2|]. intros x Hx. left. unfold window. rewrite E1, Es. exact Hx. }
  destruct a; cbn [wstep] in H; try (apply Same; apply (Recv _ _ H)); try (apply (Setter _ H); exact I);
    try (exfalso; eapply Ha2; reflexivity).
  - destruct (Snd _ _ H) as (e & r & E & Hff & E1 & E2). apply estep_data in E; [|exact Hff]. destruct E as (out & Er & A).
    assert (Hn' : nsent w' = nsent w + 1) by (unfold nsent; rewrite E2, app_length; cbn [length]; lia).
    pose proof (ok_enc _ _ _ _ _ _ B) as Eo. pose proof (eo_source_id _ _ _ _ Eo) as Eid.
    split; [rewrite E1, (ad_window _ _ _ _ _ A); exact Hw|]. right. split; [exact Hn'|].
    pose proof (ad_push _ _ _ _ _ A) as P. apply push_source_ok in P. unfold window in *. rewrite E1.
    destruct P as [(Hlen & y & t & Es & El)|(_ & El)]; rewrite El, map_app; cbn [map es_id]; rewrite Eid; split;
      try (apply in_app_iff; right; left; reflexivity).
    + intros x Hx. pose proof (eo_sorted _ _ _ _ Eo) as So. pose proof (eo_below _ _ _ _ Eo) as Be.
      rewrite Es in *. cbn [map] in *. destruct Hx as [Hx|Hx]; [|left; apply in_app_iff; left; exact Hx]. right.
      pose proof (sorted_span _ _ So Be _ _ eq_refl) as Sp. rewrite Hw in Hlen. cbn [length] in *. rewrite map_length in Sp. lia.
    + intros x Hx. left. apply in_app_iff. left. exact Hx.
  - destruct (Snd _ _ H) as (e & r & E & Hff & E1 & E2). apply estep_repair in E; [|exact Hff]. destruct E as (out & Er & A).
    apply generate_repair_ok in A. destruct A as (r0 & w0 & _ & _ & _ & _ & _ & _ & Ewin & _ & _ & _ & Es & _).
    rewrite app_nil_r in E2. split; [rewrite E1, Ewin; exact Hw|]. left. split; [exact E2|]. intros x Hx. left.
    unfold window. rewrite E1, Es. exact Hx.
  - destruct (nth_error (w_out w) k); [apply Same; apply (Recv _ _ H)|].
    assert (w' = w) by congruence. subst w'. apply Same; reflexivity.
  - destruct (nth_error (w_acks w) j) as [p|] eqn:Ej; [|assert (w' = w) by congruence; subst w'; apply Same; reflexivity].
    destruct (Snd _ _ H) as (e & r & E & Hff & E1 & E2). rewrite app_nil_r in E2.
    pose proof (ok_acks _ _ _ _ _ _ B) as Ak. rewrite Forall_forall in Ak.
    apply nth_error_In in Ej. specialize (Ak p Ej).
    assert (Hnot : exists q, notify m (w_enc w) p = (e, q) /\ ~ is_fault q).
    { apply estep_packet in E; [|exact Hff]. destruct E as (q & Eq & Hq & _). eauto. }
    destruct Hnot as (q & Eq & Hq).
    destruct (ack_erases all m f _ _ _ _ _ _ (ok_enc _ _ _ _ _ _ B) Ak Eq Hq) as (_ & _ & Er).
    apply estep_packet in E; [|exact Hff]. destruct E as (q' & _ & _ & Ap & _).
    split; [rewrite E1, (ap_window _ _ _ _ _ Ap); exact Hw|]. left. split; [exact E2|]. intros x Hx.
    destruct (in_dec N.eq_dec x (window w')) as [Y|Y]; [left; exact Y|]. right. apply Er; [exact Hx|].
    unfold window in Y. rewrite E1 in Y. exact Y.
Qed.

Lemma covers_step all gs gs' w a w' : Forall (ok_datum f) all -> lim all <= LIM ->
  wok all m f o gs w -> wok all m f o (gs ++ gs') w' -> (exists rest, all = w_sent w' ++ rest) ->
  repairs_in_order w' -> Forall wire_ok (w_lists w') ->
  sizes_whole all m f (w_out w') -> wstep m clk w a = Ok w' -> usual a -> covers gs w -> covers (gs ++ gs') w'.
Proof.
  intros Hall Hlim B B' Hrest Ho Hwire Hz E Ha [C1 C2 C3 C4 C5 C6].
  destruct (numbered_step m clk f o all gs gs' w a w' Hlim B B' E C1 (proj1 Ha) C4 C3) as (N1 & N2 & N3).
  destruct (window_step all gs w a w' Hall Hlim B Hrest E Ha C2) as [Ew Wi].
  pose proof (fun x => wstep_kept m clk f o all gs w a w' x Hall Hlim B E Ho) as Kp.
  destruct (x_out _ _ (wstep_extends _ _ _ _ _ E)) as [new Hnew].
  pose proof (same_length _ _ _ (ch_is _ _ _ _ _ _ _ _ (ok_chan _ _ _ _ _ _ B))) as Hlen.
  assert (Now : forall x, x < nsent w' -> nsent w' <= x + n -> In x (window w') \/ kept_id (core_of w') x).
  { intros x Hx Hn. destruct Wi as [[Es Wi]|(Es & Wn & Wi)].
    - assert (En : nsent w' = nsent w) by (unfold nsent; rewrite Es; reflexivity). rewrite En in *.
      destruct (C5 x Hx Hn) as [Y|Y]; [|right; apply Kp, Y].
      destruct (Wi x Y) as [Z|Z]; [left; exact Z | right; apply Kp, Z].
    - destruct (N.eq_dec x (nsent w)) as [->|Ne]; [left; exact Wn|].
      destruct (C5 x) as [Y|Y]; [lia | lia | | right; apply Kp, Y].
      destruct (Wi x Y) as [Z|Z]; [left; exact Z | lia]. }
  constructor; try assumption.
  intros i W n' x Hg Hx Hn. destruct (Nat.lt_ge_cases i (length gs)) as [L|L].
  - rewrite nth_error_app1 in Hg by exact L.
    assert (Ef : firstn i (w_out w') = firstn i (w_out w)).
    { rewrite Hnew, firstn_app. replace (i - length (w_out w))%nat with 0%nat by lia. cbn [firstn]. apply app_nil_r. }
    rewrite Ef in *. destruct (C6 _ _ _ _ Hg Hx Hn) as [Y|Y]; [left; exact Y | right; apply Kp, Y].
  - destruct (nth_error (w_out w') i) as [p|] eqn:Ep.
    2: { apply nth_error_None in Ep. rewrite (same_length _ _ _ (ch_is _ _ _ _ _ _ _ _ (ok_chan _ _ _ _ _ _ B'))) in Ep.
         apply nth_error_None in Ep. congruence. }
    destruct (forall2_nth _ _ _ (ch_is _ _ _ _ _ _ _ _ (ok_chan _ _ _ _ _ _ B')) i p Ep) as (g & Hg' & Is).
    assert (g = GRepair W n') by congruence. subst g. pose proof (is_type m f _ _ _ Is) as Ty. cbn in Ty.
    assert (Hp : In p new).
    { rewrite Hnew, nth_error_app2 in Ep by lia. eapply nth_error_In, Ep. }
    destruct (emits_window m clk w a w' new p E Hnew Hp Ty C1) as [Rp Hl].
    assert (EW : W = window w').
    { rewrite (eo_field _ _ _ _ (ok_enc _ _ _ _ _ _ B)) in Rp.
      assert (Is' : is all m f p (GRepair (window w') (nsent w'))).
      { apply (is_repair all m f Hlim m (w_enc w') (nsent w') (e_repair_id (w_enc w)) p eq_refl (ok_enc _ _ _ _ _ _ B')).
        - destruct Hrest as [rest ->]. unfold lim, nsent. rewrite app_length. lia.
        - exact Rp.
        - apply (eo_repair_id _ _ _ _ (ok_enc _ _ _ _ _ _ B)).
        - rewrite Forall_forall in Hwire. apply Hwire, Hl.
        - intros q r k y [<-|[]]. apply Hz. rewrite Hnew. apply in_app_iff. right. exact Hp. }
      destruct Is as (_ & _ & _ & _ & _ & r1 & k1 & R1 & _ & I1).
      destruct Is' as (_ & _ & _ & _ & _ & r2 & k2 & R2 & _ & I2). congruence. }
    assert (Ec : N.of_nat (srcs (firstn i (w_out w'))) = nsent w').
    { assert (Hle : (srcs (firstn i (w_out w')) <= srcs (w_out w'))%nat).
      { rewrite <- (firstn_skipn i (w_out w')) at 2. rewrite srcs_app. lia. }
      assert (Hge : srcs (skipn i (w_out w')) = 0%nat).
      { apply srcs_none. intros q Hq. rewrite Hnew, skipn_app, skipn_all2 in Hq by lia. cbn [app] in Hq.
        rewrite Hnew, nth_error_app2 in Ep by lia. rewrite <- Hlen in L.
        destruct (emits m clk w a w' new E Hnew C1 (proj1 Ha)) as [Em _].
        destruct Em as [En _|q0 En Tq _|d q0 rest En _ Ed Tr].
        - subst new. destruct Hp.
        - subst new. destruct (i - length (w_out w))%nat as [|j']; [|destruct j'; discriminate]. cbn [skipn] in Hq.
          destruct Hq as [<-|[]]. exact Tq.
        - subst new. destruct (i - length (w_out w))%nat as [|j'].
          + cbn [nth_error] in Ep. assert (Eq : q0 = p) by congruence. rewrite Eq in Ed. rewrite Ed in Ty. discriminate.
          + cbn [skipn] in Hq. apply Tr. rewrite <- (firstn_skipn j' rest). apply in_app_iff. right. exact Hq. }
      unfold nsent. rewrite N2. rewrite <- (firstn_skipn i (w_out w')) at 2. rewrite srcs_app. lia. }
    rewrite Ec in *. subst W. apply Now; assumption.
Qed.

(** ** The receiver *)

Definition had (w : world) (x : N) : Prop := held w x \/ In x (handed (core_of w)).
Definition good (w : world) (x : N) : Prop := kept_id (core_of w) x /\ had w x.

Lemma had_step w a w1 x : reach m clk f o w -> wstep m clk w a = Ok w1 -> fifo w1 -> within_limits f w1 -> had w x -> had w1 x.
Proof.
  intros R E1 Fi1 L1 H0. unfold had in *.
  pose proof (wstep_extends _ _ _ _ _ E1) as X0. pose proof (fifo_before _ _ X0 Fi1) as Fi0.
  destruct (run_fifo m clk f o w w1 R X0 L1 Fi0) as (gs & B & Lt & Q & P).
  assert (Other : (forall k, a <> Arrive k) -> held w1 x \/ In x (handed (core_of w1))).
  { intros Ha. unfold held in *. fold (core_of w1). fold (core_of w) in H0. rewrite (dec_kept m clk w a w1 E1 Ha). exact H0. }
  destruct a; try (apply Other; discriminate).
  destruct (nth_error (w_out w) k) as [p|] eqn:Ek.
  2: { cbn [wstep] in E1. rewrite Ek in E1. assert (w1 = w) by congruence. subst. exact H0. }
  assert (Hle : forall i, In i (w_arrived w) -> (i <= k)%nat).
  { apply fifo_last with w1; [exact Fi1|]. cbn [wstep] in E1. rewrite Ek in E1. apply receiver_extends in E1. apply E1. }
  destruct (arrival_step m clk f o (w_sent w1) gs w k p w1 (data_ok _ _ L1) (lim_bound _ _ L1) B Lt Q P Hle Ek E1)
    as (_ & _ & Ko & Kp).
  pose proof (do_order _ _ _ _ (ok_dec _ _ _ _ _ _ B)) as Io.
  destruct (Bool.bool_dec o true) as [Eo|Eo].
  - destruct (Kp (eq_trans Io Eo)) as (K1 & K2 & _). destruct H0 as [H|H]; [apply K1, H | right; apply K2, H].
  - right. apply not_true_is_false in Eo. rewrite Eo in Io. assert (H : In x (handed (core_of w))).
    { destruct H0 as [H|H]; [|exact H]. apply (do_held _ _ _ _ (ok_dec _ _ _ _ _ _ B)); assumption. }
    destruct (arrive_core m clk f o w k w1 p R E1 (fifo_repairs _ Fi1) L1 Ek) as (gs1 & B1 & A).
    assert (Elog : exists new, d_log (core_of w1) = d_log (core_of w) ++ new).
    { pose proof (do_inv _ _ _ _ (ok_dec _ _ _ _ _ _ B1)) as I1.
      destruct A as [(s & q & _ & _ & Hs & A)|(r & q & _ & _ & Ac & A)].
      - apply (recv_source_spec f _ m _ (lim_bound f w1 L1) (HS _ f (data_ok f w1 L1))) in A; [|exact I1 | exact Hs].
        destruct A as (_ & V & _). apply (e_log _ _ _ _ V).
      - apply (recv_repair_spec f _ m _ (lim_bound f w1 L1) (HS _ f (data_ok f w1 L1))) in A; [|exact I1 | exact Ac].
        destruct A as (_ & V & _). apply (e_log _ _ _ _ V). }
    destruct Elog as [new Elog]. unfold handed in *. rewrite Elog, map_app. apply in_app_iff. left. exact H.
Qed.

Lemma held_good all gs w x : wok all m f o gs w -> held w x -> good w x.
Proof.
  intros B H. split; [|left; exact H]. split; [left; left; exact H|]. intros Io.
  apply (do_held _ _ _ _ (ok_dec _ _ _ _ _ _ B)); assumption.
Qed.

(** A source is not obsolete while only repairs from before it have arrived. *)
Lemma source_fresh all gs w j x : wok all m f o gs w -> later gs -> nth_error gs j = Some (GSource x) ->
  (forall i W n', In i (w_arrived w) -> nth_error gs i = Some (GRepair W n') -> (i < j)%nat) -> ~ obsolete w x.
Proof.
  intros B Lt Hg Hle Ob. unfold obsolete, outdated in Ob. fold (core_of w) in Ob. apply negb_true_iff in Ob.
  destruct (ok_last _ _ _ _ _ _ B) as [[El _]|(i & W & n' & Ei & Hi & El & _)]; unfold not_outdated in Ob; rewrite El in Ob; [discriminate|].
  apply N.leb_gt in Ob. pose proof (Lt i j W n' x (Hle _ _ _ Hi Ei) Ei Hg) as Hx.
  assert (Hh : hd 0 W < n').
  { destruct (nth_error (w_out w) i) as [p|] eqn:Ep.
    - destruct (forall2_nth _ _ _ (ch_is _ _ _ _ _ _ _ _ (ok_chan _ _ _ _ _ _ B)) i p Ep) as (g & Hg' & Is).
      assert (g = GRepair W n') by congruence. subst g. destruct Is as (_ & Hne & _ & Hlt & _). apply Hlt.
      destruct W; [congruence | left; reflexivity].
    - apply nth_error_None in Ep. rewrite (same_length _ _ _ (ch_is _ _ _ _ _ _ _ _ (ok_chan _ _ _ _ _ _ B))) in Ep.
      apply nth_error_None in Ep. congruence. }
  lia.
Qed.

(** What a repair covers is not obsolete before a later repair arrives. *)
Lemma covered_fresh all gs w j W n1 x : wok all m f o gs w -> nth_error gs j = Some (GRepair W n1) -> In x W ->
  (forall i W' n', In i (w_arrived w) -> nth_error gs i = Some (GRepair W' n') -> (i <= j)%nat) -> ~ obsolete w x.
Proof.
  intros B Hg HW Hle Ob. unfold obsolete, outdated in Ob. fold (core_of w) in Ob. apply negb_true_iff in Ob.
  destruct (ok_last _ _ _ _ _ _ B) as [[El _]|(i & W' & n' & Ei & Hi & El & _)]; unfold not_outdated in Ob; rewrite El in Ob; [discriminate|].
  apply N.leb_gt in Ob.
  destruct (ch_chain _ _ _ _ _ _ _ _ (ok_chan _ _ _ _ _ _ B) i j _ _ _ _ (Hle _ _ _ Hi Ei) Ei Hg) as [_ Hc].
  destruct (nth_error (w_out w) i) as [p|] eqn:Ep.
  2: { apply nth_error_None in Ep. rewrite (same_length _ _ _ (ch_is _ _ _ _ _ _ _ _ (ok_chan _ _ _ _ _ _ B))) in Ep.
       apply nth_error_None in Ep. congruence. }
  destruct (forall2_nth _ _ _ (ch_is _ _ _ _ _ _ _ _ (ok_chan _ _ _ _ _ _ B)) i p Ep) as (g & Hg' & Is).
  assert (g = GRepair W' n') by congruence. subst g. destruct Is as (_ & Hne & Hs & Hlt & _).
  destruct (Hc x HW) as [Y|Y].
  - pose proof (sorted_hd _ _ Hs Y). lia.
  - assert (hd 0 W' < n') by (apply Hlt; destruct W'; [congruence | left; reflexivity]). lia.
Qed.

(** ** Counting *)

Lemma srcs_mono out i j : (i <= j)%nat -> (srcs (firstn i out) <= srcs (firstn j out) <= srcs (firstn i out) + (j - i))%nat.
Proof.
  intros H. replace j with (i + (j - i))%nat by lia. generalize (j - i)%nat as k. clear H. intros k.
  replace (i + k - i)%nat with k by lia. induction k as [|k IH]; [rewrite Nat.add_0_r; lia|].
  replace (i + Datatypes.S k)%nat with (Datatypes.S (i + k)) by lia.
  destruct (nth_error out (i + k)) as [p|] eqn:E.
  - rewrite (srcs_next _ _ _ E). destruct (type_of p =? 2); lia.
  - apply nth_error_None in E. rewrite (firstn_all2 (n := Datatypes.S (i + k)) out) by lia.
    rewrite (firstn_all2 (n := (i + k)%nat) out) in IH by lia. lia.
Qed.

Lemma srcs_at out r x : (x < srcs (firstn r out))%nat ->
  exists j p, (j < r)%nat /\ nth_error out j = Some p /\ type_of p = 2 /\ srcs (firstn j out) = x.
Proof.
  induction r as [|r IH]; intros H; [cbn in H; lia|].
  destruct (nth_error out r) as [p|] eqn:E.
  - rewrite (srcs_next _ _ _ E) in H. destruct (N.eqb_spec (type_of p) 2) as [T|T].
    + destruct (Nat.eq_dec x (srcs (firstn r out))) as [->|Ne].
      * exists r, p. repeat split; [lia | exact E | exact T].
      * destruct IH as (j & q & A & B); [lia|]. exists j, q. split; [lia | exact B].
    + destruct IH as (j & q & A & B); [lia|]. exists j, q. split; [lia | exact B].
  - apply nth_error_None in E. rewrite (firstn_all2 (n := Datatypes.S r) out) in H by lia. rewrite (firstn_all2 (n := r) out) in IH by lia.
    destruct (IH H) as (j & q & A & B). exists j, q. split; [lia | exact B].
Qed.

(** The last repair before a position. *)
Lemma last_repair w r : (exists c, (c < r)%nat /\ repair_at w c = true /\ forall j, (c < j < r)%nat -> repair_at w j = false)
  \/ forall j, (j < r)%nat -> repair_at w j = false.
Proof.
  induction r as [|r IH]; [right; lia|]. destruct (repair_at w r) eqn:E.
  - left. exists r. split; [lia|]. split; [exact E|]. lia.
  - destruct IH as [(c & A & B & C)|A].
    + left. exists c. split; [lia|]. split; [exact B|]. intros j Hj. destruct (Nat.eq_dec j r) as [->|Ne]; [exact E | apply C; lia].
    + right. intros j Hj. destruct (Nat.eq_dec j r) as [->|Ne]; [exact E | apply A; lia].
Qed.

(** ** One loss in a group *)

Definition lost (w : world) (j : nat) : Prop := ~ In j (w_arrived w).

(** Up to packet number [r]: between two losses is a repair, and at most [n]
    sources follow each other. *)
Definition light (w : world) (r : nat) : Prop :=
  (forall i j, (i < j <= r)%nat -> lost w i -> lost w j -> exists c, (i <= c < j)%nat /\ repair_at w c = true)
  /\ (forall i j, (i < j <= r)%nat -> (forall c, (i <= c < j)%nat -> repair_at w c = false) -> N.of_nat (j - i) <= n).

Definition count_at (w : world) (r : nat) : N := N.of_nat (srcs (firstn r (w_out w))).

Definition arrived_good (gs : list what) (w : world) : Prop :=
  forall j x, In j (w_arrived w) -> nth_error gs j = Some (GSource x) -> good w x.
Definition repairs_good (w : world) : Prop :=
  forall r x, In r (w_arrived w) -> repair_at w r = true -> light w r -> x < count_at w r -> good w x.

Lemma gs_at all gs w j p : wok all m f o gs w -> nth_error (w_out w) j = Some p ->
  exists g, nth_error gs j = Some g /\ is all m f p g.
Proof. intros B Ep. apply (forall2_nth _ _ _ (ch_is _ _ _ _ _ _ _ _ (ok_chan _ _ _ _ _ _ B)) j p Ep). Qed.

Lemma out_at all gs w j g : wok all m f o gs w -> nth_error gs j = Some g ->
  exists p, nth_error (w_out w) j = Some p /\ is all m f p g.
Proof.
  intros B Eg. destruct (nth_error (w_out w) j) as [p|] eqn:Ep.
  - exists p. split; [reflexivity|]. destruct (gs_at _ _ _ _ _ B Ep) as (g' & E & Is). congruence.
  - apply nth_error_None in Ep. rewrite (same_length _ _ _ (ch_is _ _ _ _ _ _ _ _ (ok_chan _ _ _ _ _ _ B))) in Ep.
    apply nth_error_None in Ep. congruence.
Qed.

Lemma repair_at_spec all gs w j : wok all m f o gs w ->
  repair_at w j = true <-> exists W n', nth_error gs j = Some (GRepair W n').
Proof.
  intros B. unfold repair_at. split.
  - destruct (nth_error (w_out w) j) as [p|] eqn:Ep; [|discriminate]. intros T. apply N.eqb_eq in T.
    destruct (gs_at _ _ _ _ _ B Ep) as (g & Eg & Is). pose proof (is_type m f _ _ _ Is) as Ty.
    destruct g as [x|W n']; [congruence | eauto].
  - intros (W & n' & Eg). destruct (out_at _ _ _ _ _ B Eg) as (p & -> & Is). pose proof (is_type m f _ _ _ Is) as Ty.
    rewrite Ty. reflexivity.
Qed.

(** The datum number [x] among those before packet [r] is a source before [r]. *)
Lemma source_at all gs w r x : wok all m f o gs w -> numbered (w_out w) gs -> x < count_at w r ->
  exists j, (j < r)%nat /\ nth_error gs j = Some (GSource x) /\ count_at w j = x.
Proof.
  intros B Nu Hx. unfold count_at in *. destruct (srcs_at (w_out w) r (N.to_nat x)) as (j & p & Hj & Ep & Ty & Ec); [lia|].
  exists j. split; [exact Hj|]. destruct (gs_at _ _ _ _ _ B Ep) as (g & Eg & Is). pose proof (is_type m f _ _ _ Is) as T.
  destruct g as [y|W n']; [|congruence]. pose proof (Nu j _ Eg) as E. cbn in E. rewrite Ec in E.
  split; [|lia]. rewrite Eg. f_equal. f_equal. lia.
Qed.

Lemma all_repairs_good all gs w : wok all m f o gs w -> numbered (w_out w) gs -> arrived_good gs w -> repairs_good w ->
  forall r x, repair_at w r = true -> light w r -> x < count_at w r -> good w x.
Proof.
  intros B Nu Ag Rg r. induction r as [r IH] using lt_wf_ind. intros x Hr [Hl Hw] Hx.
  destruct (in_dec Nat.eq_dec r (w_arrived w)) as [Y|Y]; [apply (Rg r); [exact Y | exact Hr | split; assumption | exact Hx]|].
  destruct (source_at _ _ _ _ _ B Nu Hx) as (j & Hj & Ej & Ec).
  destruct (in_dec Nat.eq_dec j (w_arrived w)) as [Z|Z]; [apply (Ag j x Z Ej)|].
  destruct (Hl j r) as (c & Hc & Rc); [lia | exact Z | exact Y|].
  apply (IH c); [lia | exact Rc | |].
  - split; [intros i k Hik; apply Hl; lia | intros i k Hik; apply Hw; lia].
  - assert (j <> c) by (intros ->; apply (repair_at_spec _ _ _ _ B) in Rc; destruct Rc as (W & n' & Rc); congruence).
    destruct (out_at _ _ _ _ _ B Ej) as (p & Ep & Is). pose proof (is_type m f _ _ _ Is) as Ty. cbn in Ty.
    unfold count_at in *. pose proof (srcs_next _ _ _ Ep) as Sn. rewrite Ty in Sn. cbn [N.eqb Pos.eqb] in Sn.
    pose proof (srcs_mono (w_out w) (Datatypes.S j) c). lia.
Qed.

Lemma settled_held w x : settled [] (core_of w) x -> ~ obsolete w x -> held w x.
Proof. intros [[Y|[]]|Y] No; [exact Y|]. exfalso. apply No, Y. Qed.

Lemma repair_arrives all gs gs1 w k w1 : Forall (ok_datum f) all -> lim all <= LIM -> reach m clk f o w -> wstep m clk w (Arrive k) = Ok w1 -> fifo w1 -> within_limits f w1 ->
  wok all m f o gs w -> wok all m f o gs1 w1 -> later gs -> covers gs w -> arrived_good gs w -> repairs_good w ->
  repair_at w k = true -> lost w k -> light w1 k -> forall x, x < count_at w k -> good w1 x.
Proof.
  intros Hall Hlim R E Fi1 L1 B B1 Lt Cv Ag Rg Hk Hlost Li x Hx.
  pose proof (wstep_extends _ _ _ _ _ E) as X0. pose proof (fifo_before _ _ X0 Fi1) as Fi.
  assert (Nm : normal m clk f o w1).
  { split; [eapply reach_step; eassumption|]. split; [apply fifo_repairs, Fi1 | exact L1]. }
  destruct (proj1 (repair_at_spec _ _ _ _ B) Hk) as (W & n' & Ek).
  destruct (out_at _ _ _ _ _ B Ek) as (p & Ep & Is).
  assert (Ea : w_arrived w1 = w_arrived w ++ [k] /\ w_out w1 = w_out w).
  { cbn [wstep] in E. rewrite Ep in E. apply receiver_extends in E. split; apply E. }
  destruct Ea as [Ea Eo].
  assert (Hle : forall i, In i (w_arrived w) -> (i < k)%nat).
  { intros i Hi. pose proof (fifo_last w w1 k Fi1 Ea i Hi). destruct (Nat.eq_dec i k) as [->|]; [contradiction | lia]. }
  assert (Mono : forall y, good w y -> good w1 y).
  { intros y [K H]. split; [|eapply had_step; eassumption].
    eapply (wstep_kept m clk f o all gs w (Arrive k) w1 y); try eassumption. apply fifo_repairs, Fi1. }
  assert (Ls : forall i, i <> k -> lost w i -> lost w1 i).
  { intros i Hi Hl Y. rewrite Ea in Y. apply in_app_iff in Y. destruct Y as [Y|[Y|[]]]; [apply Hl, Y | congruence]. }
  assert (Er : forall i, repair_at w1 i = repair_at w i) by (intros i; unfold repair_at; rewrite Eo; reflexivity).
  destruct Li as [Li1 Li2].
  assert (Li : forall c, (c < k)%nat -> light w c).
  { intros c Hc. split.
    - intros i j Hij I1 I2. destruct (Li1 i j) as (d & Hd & Rd); [lia | apply Ls; [lia | exact I1] | apply Ls; [lia | exact I2]|].
      exists d. rewrite <- Er. auto.
    - intros i j Hij Hno. apply Li2; [lia|]. intros d Hd. rewrite Er. apply Hno, Hd. }
  pose proof (cv_numbered _ _ Cv) as Nu.
  assert (Before : forall c y, (c < k)%nat -> repair_at w c = true -> y < count_at w c -> good w y).
  { intros c y Hc Rc Hy. apply (all_repairs_good _ _ _ B Nu Ag Rg c y Rc (Li c Hc) Hy). }
  assert (Pos : forall j y c, nth_error gs j = Some (GSource y) -> (j <= c)%nat -> repair_at w c = true -> y < count_at w c).
  { intros j y c Ej Hjc Rc.
    assert (j <> c) by (intros ->; apply (repair_at_spec _ _ _ _ B) in Rc; destruct Rc as (W' & n1 & Rc); congruence).
    destruct (out_at _ _ _ _ _ B Ej) as (q & Eq & Iq). pose proof (is_type m f _ _ _ Iq) as Ty. cbn in Ty.
    pose proof (Nu j _ Ej) as Ey. cbn in Ey.
    unfold count_at in *. pose proof (srcs_next _ _ _ Eq) as Sn. rewrite Ty in Sn. cbn [N.eqb Pos.eqb] in Sn.
    pose proof (srcs_mono (w_out w) (Datatypes.S j) c). lia. }
  destruct (source_at _ _ _ _ _ B Nu Hx) as (j & Hj & Ej & Ec).
  destruct (in_dec Nat.eq_dec j (w_arrived w)) as [Z|Z]; [apply Mono, (Ag j x Z Ej)|].
  assert (Cases : (exists c, (j <= c < k)%nat /\ repair_at w c = true) \/ forall c, (j <= c < k)%nat -> repair_at w c = false).
  { destruct (last_repair w k) as [(c & A1 & A2 & A3)|A].
    - destruct (Nat.le_gt_cases j c) as [Q|Q]; [left; exists c; split; [lia | exact A2] | right; intros d Hd; apply A3; lia].
    - right. intros d Hd. apply A. lia. }
  destruct Cases as [(c & Hc & Rc)|None].
  { apply Mono, (Before c); [lia | exact Rc | apply (Pos j); [exact Ej | lia | exact Rc]]. }
  destruct (in_dec N.eq_dec x (mkeys (d_sources (dc_core (w_dec w))))) as [Hh|Hh].
  { apply Mono, (held_good _ _ _ _ B Hh). }
  assert (Early : forall i W' n1, In i (w_arrived w) -> nth_error gs i = Some (GRepair W' n1) -> (i < j)%nat).
  { intros i W' n1 Hi Ei. destruct (Nat.lt_ge_cases i j) as [Q|Q]; [exact Q|]. exfalso.
    assert (repair_at w i = true) by (apply (repair_at_spec _ _ _ _ B); eauto).
    rewrite None in H; [discriminate|]. split; [exact Q | apply Hle, Hi]. }
  assert (No : ~ obsolete w x) by (eapply source_fresh; eassumption).
  assert (HW : In x W).
  { destruct (cv_past _ _ Cv k W n' x Ek Hx) as [Y|[Y _]]; [|exact Y | exfalso; apply Hh, settled_held; assumption].
    assert (Hn : N.of_nat (k - j) <= n) by (apply Li2; [lia|]; intros c Hc; rewrite Er; apply None; lia).
    unfold count_at in *. pose proof (srcs_mono (w_out w) j k). lia. }
  assert (Hmiss : forall y, ~ miss (core_of w) y).
  { intros y Hy. pose proof (do_inv _ _ _ _ (ok_dec _ _ _ _ _ _ B)) as [C Ge _ _].
    destruct (ok_last _ _ _ _ _ _ B) as [[_ Em]|(i & W' & n1 & Ei & Hi & _ & Hlt & _)].
    - unfold miss in Hy. rewrite Em in Hy. destruct Hy.
    - pose proof (Hlt y Hy) as Hyn. pose proof (Nu i _ Ei) as Hn1. cbn in Hn1.
      assert (Gy : good w y).
      { apply (Before i); [apply Hle, Hi | apply (repair_at_spec _ _ _ _ B); eauto|]. unfold count_at. lia. }
      destruct Gy as [[[Y|Y] _] _]; [apply (c_disj _ _ _ _ C y Hy Y)|].
      destruct (Ge y (or_intror Hy)) as [Y' _]. apply outdated_true in Y. unfold core_of in *. congruence. }
  assert (Hpend : pending w = []).
  { destruct (run_fifo m clk f o w w1 R X0 L1 Fi) as (gs0 & B0 & _ & Q & _).
    destruct (do_inv _ _ _ _ (ok_dec _ _ _ _ _ _ B0)) as [C _ _ _].
    assert (Em : d_missing (core_of w) = []).
    { destruct (d_missing (core_of w)) as [|[y v] t] eqn:Em; [reflexivity|]. exfalso. apply (Hmiss y).
      unfold miss. rewrite Em. left. reflexivity. }
    unfold pending, equations. change (dc_core (w_dec w)) with (core_of w) in *.
    destruct (calm_fewer _ _ 0 (N.le_0_l _) _ _ C Q) as [Y|Y]; [rewrite Y; reflexivity|].
    rewrite Em in Y. cbn [length] in Y. lia. }
  destruct Is as (Ht & _ & _ & Hlt & _ & r & q & Rr & _ & Ir).
  assert (Rc : recovers o w w1 x).
  { apply (C33_single_loss m clk f o w k w1 (dr_id r) W x R E Nm).
    - exists p, r, q. auto.
    - rewrite Hpend. intros [].
    - exact HW.
    - exact Hh.
    - exact No.
    - intros y Hy Hne. apply settled_held.
      2: { eapply covered_fresh; try eassumption. intros i W' n1 Hi Ei. apply Nat.lt_le_incl, Hle, Hi. }
      assert (Hyc : y < count_at w k).
      { pose proof (Hlt y Hy). pose proof (Nu k _ Ek) as Hn1. cbn in Hn1. unfold count_at. lia. }
      destruct (source_at _ _ _ _ _ B Nu Hyc) as (i & Hi & Ei & _).
      assert (Hij : i <> j) by congruence.
      destruct (in_dec Nat.eq_dec i (w_arrived w)) as [Zi|Zi]; [apply (Ag i y Zi Ei)|].
      assert (Li' : lost w1 i) by (apply Ls; [lia | exact Zi]).
      assert (Lj' : lost w1 j) by (apply Ls; [lia | exact Z]).
      destruct (Nat.lt_ge_cases i j) as [Q|Q].
      + destruct (Li1 i j) as (c & Hc & Rc); [lia | exact Li' | exact Lj'|]. rewrite Er in Rc.
        apply (Before c); [lia | exact Rc | apply (Pos i); [exact Ei | lia | exact Rc]].
      + destruct (Li1 j i) as (c & Hc & Rc); [lia | exact Lj' | exact Li'|]. rewrite Er, None in Rc by lia. discriminate. }
  destruct Rc as [Rc _]. apply (held_good _ _ _ _ B1). apply mfind_keys. eauto.
Qed.

Lemma arrivals_of w a w1 : wstep m clk w a = Ok w1 ->
  (w_arrived w1 = w_arrived w /\ ((forall k, a <> Arrive k) \/ w1 = w))
  \/ exists k p, a = Arrive k /\ nth_error (w_out w) k = Some p /\ w_arrived w1 = w_arrived w ++ [k] /\ w_out w1 = w_out w.
Proof.
  intros E. destruct a; cbn [wstep] in E;
    try (left; split; [apply (sender_extends _ _ _ _ _ E) | left; discriminate]);
    try (left; split; [rewrite <- (app_nil_r (w_arrived w)); apply (receiver_extends _ _ _ _ _ _ E) | left; discriminate]).
  - destruct (nth_error (w_out w) k) as [p|] eqn:Ek.
    + right. exists k, p. split; [reflexivity|]. split; [exact Ek|]. apply receiver_extends in E. split; apply E.
    + left. assert (w1 = w) by congruence. split; [congruence | right; assumption].
  - destruct (nth_error (w_acks w) j); [|left; assert (w1 = w) by congruence; split; [congruence | right; assumption]].
    left. split; [apply (sender_extends _ _ _ _ _ E) | left; discriminate].
Qed.

Theorem run_groups l w' : forall w, wrun m clk (start clk f o) (SetWindow n :: l) = Ok w -> extends w w' -> within_limits f w' ->
  fifo w -> Forall usual l ->
  exists gs, wok (w_sent w') m f o gs w /\ later gs /\ covers gs w /\ arrived_good gs w /\ repairs_good w.
Proof.
  induction l as [|a l IH] using rev_ind; intros w1 E X L Fi1 Hl.
  - cbn [wrun] in E. apply bind_ok in E. destruct E as (w0 & E & Eq). assert (w0 = w1) by congruence. subst w0. clear Eq.
    pose proof (wstep_extends _ _ _ _ _ E) as X1.
    destruct (wstep_wok m clk f o (w_sent w') [] (start clk f o) (SetWindow n) w1 (data_ok _ _ L) (lim_bound _ _ L)
        (wok_start (w_sent w') m f o (lim_bound _ _ L) clk) E (fifo_repairs _ Fi1)) as (new & E1 & _ & H).
    { destruct (x_sent _ _ X) as [rest Er]. exists rest. exact Er. }
    { apply whole_sizes; assumption. }
    destruct H as [gs B].
    { pose proof (wl_lists _ _ (limits_before _ _ _ X L)) as W. rewrite E1 in W. apply Forall_app in W. apply W. }
    cbn [app] in B. exists gs. split; [exact B|].
    assert (Eq : exists e, sender m (start clk f o) (ESetWindow n) [] = Ok w1 /\ estep m (w_enc (start clk f o)) (ESetWindow n) = (e, Ok [])
       /\ w_enc w1 = e /\ w_out w1 = [] /\ w_sent w1 = [] /\ w_arrived w1 = []).
    { cbn [wstep] in E. pose proof E as E'. unfold sender in E'.
      destruct (estep m (w_enc (start clk f o)) (ESetWindow n)) as [e r] eqn:Ee. exists e. split; [exact E|].
      apply bind_ok in E'. destruct E' as (out & Eo & E'). apply survive_ok in Eo. destruct Eo as [Hff Hr].
      apply estep_setters in Ee; [|exact Hff | exact I]. destruct Ee as (Er & _).
      assert (out = []) by (destruct Hr as [Hr|[Hr _]]; congruence). subst out r.
      match type of E' with Ok ?x = _ => assert (Ew : w1 = x) by congruence end. rewrite Ew. repeat split; reflexivity. }
    destruct Eq as (e & Es & Ee & E2 & Eo & En & Ear).
    apply estep_setters in Ee; [|intros [y Hy]; discriminate | exact I]. destruct Ee as (_ & Ee1 & Ee2 & _ & Ee4 & _ & Ee6).
    pose proof (same_length _ _ _ (ch_is _ _ _ _ _ _ _ _ (ok_chan _ _ _ _ _ _ B))) as Hlen. rewrite Eo in Hlen.
    destruct gs; [|discriminate].
    split; [intros i j W n' x _ Hg; destruct i; discriminate|]. split; [|split].
    + constructor.
      * rewrite E2, Ee4. reflexivity.
      * rewrite E2. exact Ee6.
      * intros i g Hg. destruct i; discriminate.
      * rewrite En, Eo. reflexivity.
      * intros x Hx. unfold nsent in Hx. rewrite En in Hx. cbn in Hx. lia.
      * intros i W n' x Hg. destruct i; discriminate.
    + intros j x Hj. rewrite Ear in Hj. destruct Hj.
    + intros r x Hj. rewrite Ear in Hj. destruct Hj.
  - rewrite app_comm_cons, wrun_app in E. apply bind_ok in E. destruct E as (w & E0 & E). cbn [wrun] in E.
    apply bind_ok in E. destruct E as (w1' & E & Eq). assert (w1' = w1) by congruence. subst w1'. clear Eq.
    pose proof (wstep_extends _ _ _ _ _ E) as X1. pose proof (fifo_before _ _ X1 Fi1) as Fi.
    apply Forall_app in Hl. destruct Hl as [Hl Ha]. inversion Ha as [|? ? Ha1 _]; subst. clear Ha.
    destruct (IH w E0) as (gs & B & Lt & Cv & Ag & Rg); try assumption.
    { eapply extends_trans; eassumption. }
    assert (R : reach m clk f o w) by (exists (SetWindow n :: l); exact E0).
    pose proof (limits_before _ _ _ X L) as L1.
    pose proof (data_ok _ _ L) as Hall. pose proof (lim_bound _ _ L) as Hlim.
    assert (Hrest : exists rest, w_sent w' = w_sent w1 ++ rest).
    { destruct (x_sent _ _ X) as [rest Er]. exists rest. exact Er. }
    destruct (wstep_wok m clk f o (w_sent w') gs w a w1 Hall Hlim B E (fifo_repairs _ Fi1) Hrest
        (whole_sizes m f w1 w' X L)) as (new & E1 & _ & H).
    destruct H as [gs' B'].
    { pose proof (wl_lists _ _ L1) as W. rewrite E1 in W. apply Forall_app in W. apply W. }
    exists (gs ++ gs'). split; [exact B'|].
    split; [exact (step_later m clk f o (w_sent w') gs gs' w a w1 Hlim B B' E Lt)|].
    assert (Cv' : covers (gs ++ gs') w1).
    { eapply covers_step; try eassumption; [apply fifo_repairs, Fi1 | apply (wl_lists _ _ L1) | apply whole_sizes; assumption]. }
    split; [exact Cv'|].
    assert (Mono : forall y, good w y -> good w1 y).
    { intros y [K Hy]. split; [|eapply had_step; eassumption].
      eapply (wstep_kept m clk f o (w_sent w') gs w a w1 y); try eassumption. apply fifo_repairs, Fi1. }
    pose proof (same_length _ _ _ (ch_is _ _ _ _ _ _ _ _ (ok_chan _ _ _ _ _ _ B))) as Hlen.
    pose proof (arrived_emitted m clk f o w R) as Em. rewrite Forall_forall in Em.
    destruct (x_out _ _ X1) as [nw Hnw].
    assert (Old : forall j, (j < length (w_out w))%nat -> nth_error (gs ++ gs') j = nth_error gs j
       /\ repair_at w1 j = repair_at w j /\ count_at w1 j = count_at w j).
    { intros j Hj. rewrite nth_error_app1 by lia. split; [reflexivity|]. unfold repair_at, count_at. rewrite Hnw.
      rewrite nth_error_app1 by lia. split; [reflexivity|]. rewrite firstn_app.
      replace (j - length (w_out w))%nat with 0%nat by lia. cbn [firstn]. rewrite app_nil_r. reflexivity. }
    assert (Lgt : forall r, (r < length (w_out w))%nat -> (forall i, (i <= r)%nat -> In i (w_arrived w1) -> In i (w_arrived w)) ->
       light w1 r -> light w r).
    { intros r Hr Har [A1 A2]. split.
      - intros i j Hij I1 I2. destruct (A1 i j Hij) as (c & Hc & Rc); [intros Y; apply I1, Har; [lia | exact Y]
          | intros Y; apply I2, Har; [lia | exact Y] |]. exists c. split; [exact Hc|]. rewrite <- (proj1 (proj2 (Old c ltac:(lia)))). exact Rc.
      - intros i j Hij Hno. apply A2; [exact Hij|]. intros c Hc. rewrite (proj1 (proj2 (Old c ltac:(lia)))). apply Hno, Hc. }
    destruct (arrivals_of w a w1 E) as [[Ea _]|(k & p & -> & Ek & Ea & Eo)].
    + split.
      * intros j x Hj Hg. rewrite Ea in Hj. rewrite (proj1 (Old j (Em j Hj))) in Hg. apply Mono, (Ag j x Hj Hg).
      * intros r x Hr Rr Li Hx. rewrite Ea in Hr. destruct (Old r (Em r Hr)) as (_ & O2 & O3).
        apply Mono, (Rg r); [exact Hr | congruence | | congruence].
        apply Lgt; [apply Em, Hr | intros i _; rewrite Ea; auto | exact Li].
    + assert (Hk : (k < length (w_out w))%nat) by (apply nth_error_Some; congruence).
      pose proof (fifo_last w w1 k Fi1 Ea) as Hle.
      assert (gs' = []).
      { pose proof (same_length _ _ _ (ch_is _ _ _ _ _ _ _ _ (ok_chan _ _ _ _ _ _ B'))) as Hl'. rewrite Eo, app_length in Hl'.
        destruct gs'; [reflexivity | cbn [length] in Hl'; lia]. }
      subst gs'. rewrite app_nil_r in *.
      assert (Nm : normal m clk f o w1).
      { split; [eapply reach_step; eassumption|]. split; [apply fifo_repairs, Fi1 | exact L1]. }
      assert (Es : w_sent w1 = w_sent w) by (cbn [wstep] in E; rewrite Ek in E; apply (receiver_extends _ _ _ _ _ _ E)).
      split.
      * intros j x Hj Hg. rewrite Ea in Hj. apply in_app_iff in Hj. destruct Hj as [Hj|[<-|[]]]; [apply Mono, (Ag j x Hj Hg)|].
        apply (held_good _ _ _ _ B').
        destruct (out_at _ _ _ _ _ B Hg) as (p' & Ep' & Is). assert (p' = p) by congruence. subst p'.
        destruct Is as (_ & Ht & s & q & Rs & Ids & _).
        destruct (C37_received_is_held m clk f o w k x w1 R) as [Y|Y]; [exists p, s, q; auto | exact E | exact Nm | exact Y|].
        exfalso. revert Y. apply (source_fresh _ _ _ _ _ B Lt Hg). intros i W n' Hi Ei. specialize (Hle i Hi).
        destruct (Nat.eq_dec i k) as [->|]; [congruence | lia].
      * intros r x Hr Rr Li Hx.
        destruct (in_dec Nat.eq_dec r (w_arrived w)) as [Z|Z].
        { destruct (Old r (Em r Z)) as (_ & O2 & O3). apply Mono, (Rg r); [exact Z | congruence | | congruence].
          apply Lgt; [apply Em, Z | | exact Li]. intros i Hi Y. rewrite Ea in Y. apply in_app_iff in Y.
          destruct Y as [Y|[<-|[]]]; [exact Y|]. specialize (Hle r Z). replace k with r by lia. exact Z. }
        rewrite Ea in Hr. apply in_app_iff in Hr. destruct Hr as [Hr|[<-|[]]]; [contradiction|].
        destruct (Old k Hk) as (_ & O2 & O3). rewrite O2 in Rr. rewrite O3 in Hx.
        apply (repair_arrives (w_sent w') gs gs w k w1 Hall Hlim R E Fi1 L1 B B' Lt Cv Ag Rg Rr Z Li x Hx).
Qed.

End Groups.
