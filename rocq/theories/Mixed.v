(** * Sender and receiver with different fields

    Nothing in the packets tells the field (packetizer.hh); encoder.hh 48-75 and decoder.hh 50-75 take it from the
    user. *)
From Coq Require Import ZArith NArith Arith List Bool Lia Sorted.
From Verif Require Import Outcome GF Containers ContainersFacts Packetizer PacketizerFacts PropsPacketizer
  Encoder EncoderRun EncoderFacts EncoderHistory EncoderSafe DetailDecoder Decoder DecoderAlgebra DecoderInv
  DecoderStep DecoderFacts DecoderOuter DecoderThrow DecoderHeld DecoderProgress DecoderPrompt Genuine
  System SystemInv SystemRun SystemArrive SystemFifo SystemLossless.
Import ListNotations.
Open Scope N_scope.
Open Scope outcome_scope.

(** A sender with the field [f] and a receiver with the field [g]. *)
Definition start_mixed (clk : clock) (f g : field) (in_order : bool) : world := {|
  w_enc := new_encoder f;
  w_dec := new_dec clk g in_order;
  w_sent := []; w_out := []; w_arrived := []; w_got := []; w_acks := []; w_lists := [] |}.

(** The same receiver with another field. *)
Definition refield (g : field) (d : ddec) : ddec :=
  {| d_field := g; d_in_order := d_in_order d; d_first := d_first d; d_ordered := d_ordered d; d_repairs := d_repairs d;
     d_sources := d_sources d; d_last := d_last d; d_missing := d_missing d; d_useless := d_useless d; d_failed := d_failed d;
     d_decoded := d_decoded d; d_log := d_log d |}.

Definition refield_dec (g : field) (d : dec) : dec := with_core d (refield g (dc_core d)).

Definition refield_world (g : field) (w : world) : world := {|
  w_enc := w_enc w; w_dec := refield_dec g (w_dec w);
  w_sent := w_sent w; w_out := w_out w; w_arrived := w_arrived w; w_got := w_got w; w_acks := w_acks w;
  w_lists := w_lists w |}.

(** ** The core *)

Lemma refield_same d : refield (d_field d) d = d.
Proof. destruct d. reflexivity. Qed.

Lemma source_form m d c data : clean d c -> N.of_nat c < LIM ->
  exists x, forall g, recv_source m (refield g d) (N.of_nat c) data = Ok (refield g x).
Proof.
  intros [A1 A2 A3 A4 A5 A6 A7 A8 A9] Hc.
  assert (Hk : ~ In (N.of_nat c) (mkeys (d_sources d))) by (intros X; apply A6 in X; lia).
  assert (Hu : u32 (N.of_nat c + 1) = N.of_nat (Datatypes.S c)).
  { unfold u32, LIM in *. rewrite N.mod_small by lia. lia. }
  pose (fi := if d_in_order d then N.of_nat (Datatypes.S c) else d_first d).
  exists (with_sources (with_first (callback d (N.of_nat c) data) fi) (mput (N.of_nat c) data (d_sources d))).
  intros g. unfold recv_source, outdated. change (not_outdated (refield g d)) with (not_outdated d). rewrite A7. cbn [negb].
  change (d_sources (refield g d)) with (d_sources d). rewrite (proj2 (mmem_false _ _) Hk).
  unfold enough. cbn [add_source].
  assert (E1 : announce m (refield g d) (N.of_nat c) data = Ok (refield g (with_first (callback d (N.of_nat c) data) fi))).
  { unfold announce, fi. change (d_in_order (refield g d)) with (d_in_order d). destruct (d_in_order d) eqn:Hi; cbn [negb].
    - change (d_first (refield g d)) with (d_first d). rewrite (A4 eq_refl), N.eqb_refl. cbn [callback d_first refield].
      rewrite (A4 eq_refl), Hu. unfold flush. cbn [with_first callback d_first d_ordered refield]. rewrite A3. reflexivity.
    - reflexivity. }
  rewrite E1. cbn [bind]. unfold no_longer_missing. cbn [with_first callback refield d_missing]. rewrite A1. cbn [mfind bind].
  cbn [with_first callback refield d_missing]. rewrite ?A1. cbn [mkeys map scan bind].
  unfold store. cbn [with_first callback refield d_sources d_in_order d_first d_ordered]. rewrite (proj2 (mmem_false _ _) Hk).
  assert (Eb : d_in_order d && (fi <? N.of_nat c) = false).
  { unfold fi. destruct (d_in_order d) eqn:Hi; [|reflexivity]. apply N.ltb_ge. lia. }
  replace (assert_ m (negb false)) with (Ok tt) by (destruct m; reflexivity). cbn [bind]. cbv zeta.
  cbn [with_sources with_first callback refield d_in_order d_first]. rewrite Eb. cbn [bind].
  rewrite attempt_less by (left; exact A2). reflexivity.
Qed.

Lemma repair_form m d c r : clean d c -> ssorted (dr_ids r) -> (forall x, In x (dr_ids r) -> x < N.of_nat c) ->
  dr_ids r <> [] -> not_outdated d (hd 0 (dr_ids r)) = true ->
  exists x, forall g, recv_repair m (refield g d) r = Ok (refield g x).
Proof.
  intros [A1 A2 A3 A4 A5 A6 A7 A8 A9] Hs Hlt Hne Hfirst. unfold recv_repair.
  replace (assert_ m (negb (Nat.eqb (length (dr_ids r)) 0))) with (Ok tt)
    by (destruct (dr_ids r); [contradiction | destruct m; reflexivity]). cbn [bind].
  destruct (dr_ids r) as [|first ids] eqn:Eids; [contradiction|]. rewrite <- Eids in *.
  assert (Efirst : hd 0 (dr_ids r) = first) by (rewrite Eids; reflexivity). rewrite Efirst in Hfirst.
  assert (Hfc : first < N.of_nat c) by (apply Hlt; rewrite Eids; left; reflexivity).
  destruct (outdated d (last (dr_ids r) 0)) eqn:Eo.
  { exists d. intros g. change (outdated (refield g d)) with (outdated d). rewrite Eo. reflexivity. }
  pose (d0 := with_missing (with_sources (with_last d (Some first)) (mfrom first (d_sources d))) (mfrom first (d_missing d))).
  exists (with_useless d0 (d_useless d + 1)). intros g.
  change (outdated (refield g d)) with (outdated d). rewrite Eo.
  change (d_repairs (refield g d)) with (d_repairs d). rewrite A2. cbn [mmem mfind].
  assert (E0 : drop_outdated m (refield g d) first = Ok (refield g d0)).
  { unfold drop_outdated. cbn [with_last refield d_repairs]. rewrite A2. cbn [drop_repairs bind with_last refield d_in_order].
    destruct (d_in_order d) eqn:Hi.
    - cbn [with_last refield d_ordered]. rewrite A3. cbn [before filter deliver_outdated bind with_last refield d_first].
      rewrite (A4 eq_refl). replace (N.of_nat c <? first) with false by (symmetry; apply N.ltb_ge; lia).
      unfold flush. cbn [with_last refield d_ordered]. rewrite A3. cbn. unfold d0, refield. cbn. rewrite ?Hi, ?A2, ?A3, ?(A4 eq_refl). reflexivity.
    - cbn. unfold d0, refield. cbn. rewrite ?Hi, ?A2. reflexivity. }
  rewrite E0. cbn [bind].
  assert (Hall : forallb (fun id => mmem id (d_sources d0)) (dr_ids r) = true).
  { apply forallb_forall. intros x Hx. apply mmem_spec. change (d_sources d0) with (mfrom first (d_sources d)). apply mfrom_keys.
    pose proof (sorted_hd _ _ Hs Hx) as Hge. rewrite Efirst in Hge.
    split; [|exact Hge]. apply A6. split; [apply Hlt, Hx|]. eapply not_outdated_up; [reflexivity | exact Hfirst | exact Hge]. }
  change (d_sources (refield g d0)) with (d_sources d0). rewrite Hall. reflexivity.
Qed.

Lemma source_refield g m d c data d' : clean d c -> N.of_nat c < LIM ->
  recv_source m d (N.of_nat c) data = Ok d' -> recv_source m (refield g d) (N.of_nat c) data = Ok (refield g d').
Proof.
  intros Cl Hc H. destruct (source_form m d c data Cl Hc) as [x F]. rewrite (F g).
  rewrite <- (refield_same d), F in H. assert (d' = refield (d_field d) x) by congruence. subst d'. reflexivity.
Qed.

Lemma repair_refield g m d c r d' : clean d c -> ssorted (dr_ids r) -> (forall x, In x (dr_ids r) -> x < N.of_nat c) ->
  dr_ids r <> [] -> not_outdated d (hd 0 (dr_ids r)) = true ->
  recv_repair m d r = Ok d' -> recv_repair m (refield g d) r = Ok (refield g d').
Proof.
  intros Cl Hs Hlt Hne Hf H. destruct (repair_form m d c r Cl Hs Hlt Hne Hf) as [x F]. rewrite (F g).
  rewrite <- (refield_same d), F in H. assert (d' = refield (d_field d) x) by congruence. subst d'. reflexivity.
Qed.

(** ** The outer class *)

Lemma maybe_refield g clk known d :
  maybe_ack_of clk known (refield_dec g d) = (refield_dec g (fst (maybe_ack_of clk known d)), snd (maybe_ack_of clk known d)).
Proof.
  unfold maybe_ack_of. change (dc_ack_nb (refield_dec g d)) with (dc_ack_nb d). change (dc_ack (refield_dec g d)) with (dc_ack d).
  change (dc_period (refield_dec g d)) with (dc_period d). change (dc_reads (refield_dec g d)) with (dc_reads d).
  change (dc_last_date (refield_dec g d)) with (dc_last_date d).
  destruct (dc_ack_nb d <=? a_nb (dc_ack d)); [reflexivity|]. destruct (dc_period d =? 0)%Z; [reflexivity|].
  destruct (dc_period d * 1000000 <=? clk (dc_reads d) - dc_last_date d)%Z; reflexivity.
Qed.

Lemma handle_refield g clk l : forall d,
  handle_sources clk (refield_dec g d) l = (refield_dec g (fst (handle_sources clk d l)), snd (handle_sources clk d l)).
Proof.
  induction l as [|v l IH]; intros d; [reflexivity|]. cbn [handle_sources]. unfold handle_source.
  rewrite maybe_refield. destruct (maybe_ack_of clk (v_known v) d) as [d1 o1]. cbn [fst snd]. rewrite IH.
  destruct (handle_sources clk d1 l) as [d2 o2]. reflexivity.
Qed.

Lemma call_refield g clk d run d' out : (forall c, run (dc_core d) = Ok c -> run (refield g (dc_core d)) = Ok (refield g c)) ->
  call_core clk d run = Ok (d', out) -> call_core clk (refield_dec g d) run = Ok (refield_dec g d', out).
Proof.
  intros F H. unfold call_core in *. apply bind_ok in H. destruct H as (c & E & H).
  change (dc_core (refield_dec g d)) with (refield g (dc_core d)). rewrite (F c E). cbn [bind].
  change (d_log (refield g (dc_core d))) with (d_log (dc_core d)). change (d_log (refield g c)) with (d_log c).
  change (with_core (refield_dec g d) (refield g c)) with (refield_dec g (with_core d c)).
  rewrite handle_refield. destruct (handle_sources clk (with_core d c) _) as [d1 o1]. cbn [fst snd].
  assert (d1 = d' /\ o1 = out) as (-> & ->) by (split; congruence). reflexivity.
Qed.

(** ** The system *)

Lemma step_refield g m clk w a w' : wstep m clk w a = Ok w' ->
  (forall k p, a = Arrive k -> nth_error (w_out w) k = Some p ->
     (forall s q c, get_packet_type p = Ok TSource -> read_source m p = Ok (s, q) ->
        recv_source m (core_of w) (ds_id s) (ds_data s) = Ok c ->
        recv_source m (refield g (core_of w)) (ds_id s) (ds_data s) = Ok (refield g c))
     /\ (forall r q c, get_packet_type p = Ok TRepair -> read_repair m p = Ok (r, q) ->
        recv_repair m (core_of w) r = Ok c -> recv_repair m (refield g (core_of w)) r = Ok (refield g c))
     /\ forall d e, dec_packet m clk (w_dec w) p <> (d, Throw e)) ->
  wstep m clk (refield_world g w) a = Ok (refield_world g w').
Proof.
  intros E F.
  assert (Snd : forall op data, sender m w op data = Ok w' -> sender m (refield_world g w) op data = Ok (refield_world g w')).
  { intros op data Y. unfold sender in *. cbn [refield_world w_enc]. destruct (estep m (w_enc w) op) as [e r].
    destruct (survive r) as [out|x|x]; try discriminate. cbn [bind] in *.
    match type of Y with Ok ?t = _ => assert (w' = t) by congruence end. subst w'. reflexivity. }
  assert (Rcv : forall op arr d r, dstep m clk (w_dec w) op = (d, r) ->
      dstep m clk (refield_dec g (w_dec w)) op = (refield_dec g d, r) -> receiver m clk w op arr = Ok w' ->
      receiver m clk (refield_world g w) op arr = Ok (refield_world g w')).
  { intros op arr d r Y1 Y2 Y. unfold receiver in *. cbn [refield_world w_dec]. rewrite Y1 in Y. rewrite Y2.
    destruct (survive r) as [out|x|x]; try discriminate. cbn [bind] in *.
    match type of Y with Ok ?t = _ => assert (w' = t) by congruence end. subst w'. reflexivity. }
  destruct a; cbn [wstep] in E |- *; try (apply Snd; exact E).
  - eapply Rcv; [reflexivity | | exact E]. reflexivity.
  - assert (Y := maybe_refield g clk (mkeys (d_sources (dc_core (w_dec w)))) (w_dec w)).
    destruct (maybe_ack clk (w_dec w)) as [d out] eqn:Em. unfold maybe_ack in Em. rewrite Em in Y. cbn [fst snd] in Y.
    eapply Rcv; [cbn [dstep]; unfold maybe_ack; rewrite Em; reflexivity | | exact E].
    cbn [dstep]. unfold maybe_ack. change (d_sources (dc_core (refield_dec g (w_dec w)))) with (d_sources (dc_core (w_dec w))).
    rewrite Y. reflexivity.
  - eapply Rcv; [reflexivity | | exact E]. reflexivity.
  - destruct (dstep m clk (w_dec w) (DSetNb nb)) as [d r] eqn:Ed. eapply Rcv; [exact Ed | | exact E].
    cbn [dstep] in Ed |- *. unfold set_ack_nb_packets in *. destruct (assert_ m (0 <? nb)); cbn [bind finish] in *;
      injection Ed as <- <-; reflexivity.
  - cbn [refield_world w_out]. destruct (nth_error (w_out w) k) as [p|] eqn:Ek; [|congruence].
    destruct (F k p eq_refl Ek) as (F1 & F2 & F3).
    destruct (dec_packet m clk (w_dec w) p) as [d r] eqn:Ed.
    eapply Rcv; [cbn [dstep]; rewrite Ed; reflexivity | | exact E]. cbn [dstep].
    assert (Y : r = Fault OutOfFuel \/ dec_packet m clk (refield_dec g (w_dec w)) p = (refield_dec g d, r)).
    { destruct r as [[out q]|e|e]; [|destruct (F3 d e eq_refl)|].
      2: { exfalso. unfold receiver in E. cbn [dstep] in E. rewrite Ed in E. discriminate. }
      right. unfold dec_packet in *.
      destruct (bind (assert_ m (Nat.ltb 0 (length p))) (fun _ => get_packet_type p)) as [t|e|e] eqn:Et;
        try discriminate.
      apply bind_ok in Et. destruct Et as (u & _ & Et).
      destruct t; try discriminate.
      - destruct (read_repair m p) as [[r0 q0]|e|e] eqn:Er; try discriminate. cbn [bind] in Ed |- *.
        destruct (call_core clk (count_packet (w_dec w) 1 0) _) as [[d1 o1]|e|e] eqn:Ec; try discriminate. cbn [bind finish] in Ed.
        assert (d1 = d /\ o1 = out /\ q0 = q) as (-> & -> & ->) by (repeat split; congruence).
        change (count_packet (refield_dec g (w_dec w)) 1 0) with (refield_dec g (count_packet (w_dec w) 1 0)).
        rewrite (call_refield g _ _ _ _ _ (fun c Hc => F2 r0 q c Et eq_refl Hc) Ec). reflexivity.
      - destruct (read_source m p) as [[r0 q0]|e|e] eqn:Er; try discriminate. cbn [bind] in Ed |- *.
        destruct (call_core clk (count_packet (w_dec w) 0 1) _) as [[d1 o1]|e|e] eqn:Ec; try discriminate. cbn [bind finish] in Ed.
        assert (d1 = d /\ o1 = out /\ q0 = q) as (-> & -> & ->) by (repeat split; congruence).
        change (count_packet (refield_dec g (w_dec w)) 0 1) with (refield_dec g (count_packet (w_dec w) 0 1)).
        rewrite (call_refield g _ _ _ _ _ (fun c Hc => F1 r0 q c Et eq_refl Hc) Ec). reflexivity. }
    destruct Y as [->|Y]; [exfalso; unfold receiver in E; cbn [dstep] in E; rewrite Ed in E; discriminate|].
    rewrite Y. reflexivity.
  - cbn [refield_world w_acks]. destruct (nth_error (w_acks w) j) as [p|]; [apply Snd; exact E | congruence].
Qed.

Theorem run_refield g m clk f o l : forall w w', wrun m clk (start clk f o) l = Ok w -> extends w w' -> within_limits f w' ->
  lossless w -> ~ In (SetCode false) l -> wrun m clk (start_mixed clk f g o) l = Ok (refield_world g w).
Proof.
  induction l as [|a l IH] using rev_ind; intros w1 w' E X L Hlo Hc.
  - cbn [wrun] in E. assert (w1 = start clk f o) by congruence. subst w1. reflexivity.
  - rewrite wrun_app in E |- *. apply bind_ok in E. destruct E as (w & E0 & E). cbn [wrun] in E.
    apply bind_ok in E. destruct E as (w1' & E & Eq). assert (w1' = w1) by congruence. subst w1'. clear Eq.
    pose proof (wstep_extends _ _ _ _ _ E) as X1.
    assert (Hlo0 : lossless w /\ (forall k p, a = Arrive k -> nth_error (w_out w) k = Some p -> k = length (w_arrived w))).
    { assert (Arr : w_arrived w1 = w_arrived w \/ exists k p, a = Arrive k /\ nth_error (w_out w) k = Some p
          /\ w_arrived w1 = w_arrived w ++ [k]).
      { destruct a; cbn [wstep] in E; try (apply sender_extends in E; left; apply E);
          try (apply receiver_extends in E; left; rewrite <- app_nil_r; apply E).
        - destruct (nth_error (w_out w) k) as [p|] eqn:Ek.
          + right. exists k, p. split; [reflexivity|]. split; [exact Ek|]. apply receiver_extends in E. apply E.
          + left. congruence.
        - destruct (nth_error (w_acks w) j); [apply sender_extends in E; left; apply E | left; congruence]. }
      destruct Arr as [Ea|(k & p & -> & Ek & Ea)].
      - split; [unfold lossless in *; rewrite <- Ea; exact Hlo|]. intros k p -> Ek. exfalso.
        cbn [wstep] in E. rewrite Ek in E. apply receiver_extends in E. destruct E as (_ & _ & _ & E & _). rewrite Ea in E.
        rewrite <- (app_nil_r (w_arrived w)) in E at 1. apply app_inv_head in E. discriminate.
      - destruct (lossless_last w w1 k Ea Hlo) as [A1 A2]. split; [exact A1|]. intros k' p' Eq Ek'.
        assert (k' = k) by congruence. subst k'. auto. }
    destruct Hlo0 as [Hlo0 Hk].
    assert (Hc0 : ~ In (SetCode false) l) by (intros Y; apply Hc, in_app_iff; left; exact Y).
    assert (X0 : extends w w') by (eapply extends_trans; eassumption).
    rewrite (IH w w' E0 X0 L Hlo0 Hc0). cbn [bind wrun].
    rewrite (step_refield g m clk w a w1 E); [reflexivity|].
    intros k p -> Ek. specialize (Hk k p eq_refl Ek).
    destruct (run_lossless m clk f o l w' w E0 X0 L Hlo0 Hc0) as (gs & B & Nu & Co & Sy & Cl).
    assert (R : reach m clk f o w) by (exists l; exact E0).
    destruct (arrive_core m clk f o w k w1 p R E (fifo_repairs _ (lossless_fifo _ Hlo)) (limits_before _ _ _ X L) Ek)
      as (gs2 & B2 & A).
    destruct (forall2_nth _ _ _ (ch_is _ _ _ _ _ _ _ _ (ok_chan _ _ _ _ _ _ B)) k p Ek) as (v & Hg & Is).
    pose proof (Nu k v Hg) as Nk. rewrite Hk in Nk. set (c := srcs (firstn (length (w_arrived w)) (w_out w))) in *.
    split; [|split].
    + intros s q d Ht Rs H. destruct v as [x|W n]; [|destruct Is as (Ht' & _); congruence].
      destruct Is as (Hx & _ & s' & q' & R1 & R2 & R3). assert (s' = s) by congruence. subst s'.
      cbn beta iota in Nk. rewrite R2, Nk in *. apply source_refield; [exact Cl | | exact H].
      pose proof (lim_bound _ _ L). lia.
    + intros r q d Ht Rr H. destruct v as [x|W n]; [destruct Is as (_ & Ht' & _); congruence|].
      destruct Is as (_ & Hne & Hs & Hlt & _ & r' & q' & R1 & R2 & R3). assert (r' = r) by congruence. subst r'.
      destruct A as [(s' & q2 & Ht' & _)|(r2 & q2 & _ & Rr2 & Ac & _)]; [congruence|].
      assert (r2 = r) by congruence. subst r2.
      eapply repair_refield; [exact Cl | | | | | exact H].
      * rewrite R3. exact Hs.
      * intros x Hx. rewrite R3 in Hx. specialize (Hlt x Hx). cbn beta iota in Nk. lia.
      * rewrite R3. exact Hne.
      * apply (b_first _ _ _ _ _ Ac).
    + intros d e Ed. apply dec_packet_exception in Ed. destruct v as [x|W n].
      * destruct Is as (_ & Y & s & q & Z & _). destruct Ed as [[Ed|Ed]|[[_ Ed]|[Ed _]]]; congruence.
      * destruct Is as (Y & _ & _ & _ & _ & r0 & q & Z & _). destruct Ed as [[Ed|Ed]|[[Ed _]|[_ Ed]]]; congruence.
Qed.
