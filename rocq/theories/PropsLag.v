(** * C94: without acks a loss holds up the ordered delivery only while the window reaches back to it *)
From Coq Require Import ZArith NArith List Bool Lia Sorted.
From Verif Require Import Outcome GF Containers ContainersFacts Packetizer PropsPacketizer
  Encoder EncoderFacts EncoderRun EncoderHistory EncoderSafe PropsEncoder DetailDecoder Decoder DecoderInv DecoderStep DecoderFacts DecoderHeld
  DecoderProgress DecoderPrompt DecoderRecover System SystemInv SystemRun SystemArrive SystemFifo
  PropsSystem PropsRecover PropsFifo PropsWide PropsBlind PropsTwins PropsTwo.
Import ListNotations.
Open Scope N_scope.

(** ** The claim *)

(** The window size is set first and never again, and no ack reaches the sender. *)
Definition one_way (n : N) (l : list action) : Prop :=
  exists rest, l = SetWindow n :: rest
  /\ forall a, In a rest -> match a with SetWindow _ | AckArrive _ => False | _ => True end.

(** ** The window *)

Definition newest (n : N) (s : nat) : list N := map N.of_nat (seq (s - N.to_nat n) (s - (s - N.to_nat n))).

Lemma in_newest n s x : In x (newest n s) <-> x < N.of_nat s /\ N.of_nat s <= x + n.
Proof.
  unfold newest. rewrite in_map_iff. split.
  - intros (k & <- & Hk). apply in_seq in Hk. lia.
  - intros [H1 H2]. exists (N.to_nat x). split; [lia|]. apply in_seq. lia.
Qed.

Lemma newest_push n s l l' e d : map es_id (e_sources e) = newest n s -> e_window_size e = n -> e_source_id e = N.of_nat s ->
  l = e_sources e -> push_source e {| es_id := e_source_id e; es_data := d |} = Ok l' -> map es_id l' = newest n (Datatypes.S s).
Proof.
  intros H W Id -> P. assert (Len : length (e_sources e) = (s - (s - N.to_nat n))%nat).
  { rewrite <- (map_length es_id), H. unfold newest. rewrite map_length, seq_length. reflexivity. }
  apply push_source_ok in P. destruct P as [(Ln & x & t & Ex & ->)|(Nn & ->)]; rewrite map_app; cbn [map es_id]; rewrite Id.
  - rewrite W, Len in Ln. rewrite Ex in *. cbn [map length] in *. unfold newest in *.
    replace (s - (s - N.to_nat n))%nat with (Datatypes.S (length t)) in H by lia. cbn [seq map] in H.
    assert (Ht : map es_id t = map N.of_nat (seq (Datatypes.S (s - N.to_nat n)) (length t))) by congruence. rewrite Ht.
    replace (Datatypes.S s - N.to_nat n)%nat with (Datatypes.S (s - N.to_nat n))%nat by lia.
    replace (Datatypes.S s - Datatypes.S (s - N.to_nat n))%nat with (length t + 1)%nat by lia.
    rewrite seq_app, map_app. cbn [seq map]. do 3 f_equal. lia.
  - rewrite H. unfold newest. rewrite W, Len in Nn.
    replace (Datatypes.S s - N.to_nat n)%nat with (s - N.to_nat n)%nat by lia.
    replace (Datatypes.S s - (s - N.to_nat n))%nat with ((s - (s - N.to_nat n)) + 1)%nat by lia.
    rewrite seq_app, map_app. cbn [seq map]. do 3 f_equal. lia.
Qed.

Section Step.
Variable m : mode.
Variable clk : clock.
Variable f : field.
Variable o : bool.

(** A repair that a step emits covers the window after the step. *)
Lemma new_repair w0 a w p : reach m clk f o w0 -> wstep m clk w0 a = Ok w -> within_limits f w -> fifo w ->
  In p (w_out w) -> get_packet_type p = Ok TRepair ->
  In p (w_out w0) \/ exists r q, read_repair m p = Ok (r, q) /\ dr_ids r = SystemInv.window w.
Proof.
  intros R0 E L Fi Hp Ht. pose proof (reach_step _ _ _ _ _ _ _ R0 E) as R.
  destruct (run_fifo m clk f o w w R (extends_refl w) L Fi) as (gs & B & _).
  pose proof (reach_step _ _ _ _ _ _ _ R0 E) as _.
  assert (Hist : exists ops, reached m f ops (w_enc w0) (w_out w0)) by (destruct (world_sender _ _ _ _ _ R0) as (ops & Ro & _); eauto).
  destruct Hist as [ops Ro]. pose proof (history_of_run _ _ _ _ _ Ro) as Hs. pose proof (h_repair_id _ _ _ _ Hs) as Hid.
  pose proof (h_field _ _ _ _ Hs) as Hfd.
  assert (Made : forall new, w_out w = w_out w0 ++ new -> w_lists w = w_lists w0 ++ map (fun _ => SystemInv.window w) (of_type 1 new) ->
    In p new -> forall id, repair_of m f (u32 id) (e_sources (w_enc w)) p ->
    exists r q, read_repair m p = Ok (r, q) /\ dr_ids r = SystemInv.window w).
  { intros new Eo El Hin id Hr.
    assert (Hl : u32 id < 2 ^ 32) by (unfold u32; apply N.mod_lt; discriminate).
    assert (Hw : wire_ok (SystemInv.window w)).
    { pose proof (wl_lists _ _ L) as W. rewrite El in W. apply Forall_app in W. destruct W as [_ W]. rewrite Forall_forall in W.
      apply W. apply in_map_iff. exists p. split; [reflexivity|]. apply filter_In. split; [exact Hin|].
      rewrite (SystemInv.type_of_repair p Ht). reflexivity. }
    assert (Hz : sizes_whole (w_sent w) m f [p]).
    { intros q r k x [<-|[]]. apply (whole_sizes m f w w (extends_refl w) L). exact Hp. }
    destruct (is_repair (w_sent w) m f (lim_bound _ _ L) m (w_enc w) (nsent w) (u32 id) p eq_refl (ok_enc _ _ _ _ _ _ B)
      (N.le_refl _) Hr Hl Hw Hz) as (_ & _ & _ & _ & _ & r & q & R1 & _ & R2). exists r, q. auto. }
  assert (Rcv : forall op arr, receiver m clk w0 op arr = Ok w -> In p (w_out w0)).
  { intros op arr Er. apply receiver_extends in Er. destruct Er as (_ & _ & Eo & _). rewrite <- Eo. exact Hp. }
  assert (Snd : forall op data, sender m w0 op data = Ok w ->
    In p (w_out w0) \/ exists r q, read_repair m p = Ok (r, q) /\ dr_ids r = SystemInv.window w).
  { intros op data Es. unfold sender in Es. destruct (estep m (w_enc w0) op) as [e r] eqn:Ee.
    apply bind_ok in Es. destruct Es as (out & Eo & Es). apply survive_ok in Eo. destruct Eo as [Nf Hr].
    match type of Es with Ok ?x = _ => assert (Ew : w = x) by congruence end. clear Es.
    assert (Eout : w_out w = w_out w0 ++ out) by (rewrite Ew; reflexivity).
    assert (Elist : w_lists w = w_lists w0 ++ map (fun _ => SystemInv.window w) (of_type 1 out)) by (rewrite Ew; reflexivity).
    assert (Een : w_enc w = e) by (rewrite Ew; reflexivity).
    rewrite Eout in Hp. apply in_app_iff in Hp. destruct Hp as [Hp'|Hp']; [left; exact Hp'|].
    assert (Hsome : r = Ok out) by (destruct Hr as [Hr|[-> _]]; [exact Hr | destruct Hp']).
    right. pose proof (SystemInv.type_of_repair p Ht) as Hty.
    destruct op as [d|q| |b|k|n0|b].
    - destruct (estep_data _ _ _ _ _ Ee Nf) as (out' & Er & A). assert (out' = out) by congruence. subst out'.
      destruct (ad_out _ _ _ _ _ A) as (first & rest & Ef & A1 & A2 & A3 & A4). rewrite Hid, Hfd in *.
      rewrite Ef in Hp'. destruct Hp' as [<-|Hp'].
      + destruct (e_systematic (w_enc w0)) eqn:Sy.
        { exfalso. rewrite (A1 eq_refl), source_type in Hty. discriminate. }
        apply (Made out Eout Elist) with (count 1 (w_out w0)); [rewrite Ef; left; reflexivity|]. rewrite Een. apply A2. reflexivity.
      + destruct (N.eq_dec (u32 (e_source_id (w_enc w0) + 1) mod e_rate (w_enc w0)) 0) as [Z|Z]; [|rewrite (A4 Z) in Hp'; destruct Hp'].
        destruct (A3 Z) as (p' & Erest & Rp). rewrite Erest in Hp'. destruct Hp' as [<-|[]].
        assert (Hin : In p' out) by (rewrite Ef, Erest; right; left; reflexivity).
        destruct (e_systematic (w_enc w0)) eqn:Sy.
        * apply (Made out Eout Elist Hin (count 1 (w_out w0))). rewrite Een. exact Rp.
        * rewrite EncoderHistory.u32_add in Rp. apply (Made out Eout Elist Hin (count 1 (w_out w0) + 1)). rewrite Een. exact Rp.
    - destruct (estep_packet _ _ _ _ _ Ee Nf) as (q' & _ & _ & _ & Eq). rewrite Hsome in Eq. cbn [emitted] in Eq. subst out. destruct Hp'.
    - destruct (estep_repair _ _ _ _ Ee Nf) as (out' & Er & G). assert (out' = out) by congruence. subst out'.
      apply generate_repair_ok in G. destruct G as (r0 & ww & Er0 & Eww & Ep & _ & _ & _ & _ & _ & _ & _ & Es & _).
      rewrite Ep in Hp'. destruct Hp' as [<-|[]].
      apply (Made out Eout Elist) with (count 1 (w_out w0)); [rewrite Ep; left; reflexivity|].
      rewrite Een, Es, <- Hid, <- Hfd. exists r0, ww. auto.
    - destruct (estep_setters _ _ _ _ _ Ee Nf I) as [Er _]. assert (out = []) by congruence. subst out. destruct Hp'.
    - destruct (estep_setters _ _ _ _ _ Ee Nf I) as [Er _]. assert (out = []) by congruence. subst out. destruct Hp'.
    - destruct (estep_setters _ _ _ _ _ Ee Nf I) as [Er _]. assert (out = []) by congruence. subst out. destruct Hp'.
    - destruct (estep_setters _ _ _ _ _ Ee Nf I) as [Er _]. assert (out = []) by congruence. subst out. destruct Hp'. }
  destruct a; cbn [wstep] in E; try (eapply Snd; exact E); try (left; eapply Rcv; exact E).
  - left. destruct (nth_error (w_out w0) k); [eapply Rcv; exact E|]. assert (w = w0) by congruence. subst w. exact Hp.
  - destruct (nth_error (w_acks w0) j); [eapply Snd; exact E|]. left. assert (w = w0) by congruence. subst w. exact Hp.
Qed.

(** Without acks the window is that of the newest data, and so is what repairs cover. *)
Lemma one_way_run n rest : (forall a, In a rest -> match a with SetWindow _ | AckArrive _ => False | _ => True end) ->
  forall w, wrun m clk (start clk f o) (SetWindow n :: rest) = Ok w -> within_limits f w -> fifo w ->
  e_window_size (w_enc w) = n /\ SystemInv.window w = newest n (length (w_sent w))
  /\ forall p r q, In p (w_out w) -> get_packet_type p = Ok TRepair -> read_repair m p = Ok (r, q) ->
     exists s, (s <= length (w_sent w))%nat /\ dr_ids r = newest n s.
Proof.
  induction rest as [|a rest IH] using rev_ind; intros Hr w E L Fi.
  - cbn [wrun] in E. apply bind_ok in E. destruct E as (w1 & E & E'). assert (w1 = w) by congruence. subst w1.
    cbn [wstep] in E. pose proof (sender_extends _ _ _ _ _ E) as (_ & En & _). unfold sender in E.
    destruct (estep m (w_enc (start clk f o)) (ESetWindow n)) as [e r] eqn:Ee.
    apply bind_ok in E. destruct E as (out & Eo & E). apply survive_ok in Eo. destruct Eo as [Nf Hrr].
    destruct (estep_setters _ _ _ _ _ Ee Nf I) as (Er & S & _ & _ & _ & _ & Wz).
    assert (out = []) by (destruct Hrr as [Hrr|[Hrr _]]; congruence). subst out.
    match type of E with Ok ?x = _ => assert (Ew : w = x) by congruence end. rewrite Ew. unfold SystemInv.window. cbn [w_enc w_out w_sent].
    rewrite S, Wz. split; [reflexivity|]. split; [reflexivity|].
    intros p r1 q [].
  - change (SetWindow n :: rest ++ [a]) with ((SetWindow n :: rest) ++ [a]) in E.
    destruct (wrun_snoc _ _ _ _ _ _ E) as (w0 & E0 & E1). pose proof (wstep_extends _ _ _ _ _ E1) as X0.
    assert (R0 : reach m clk f o w0) by (eexists; exact E0).
    assert (L0 : within_limits f w0) by (eapply limits_before; eassumption).
    pose proof (fifo_before _ _ X0 Fi) as Fi0.
    destruct (IH (fun b Hb => Hr b (in_or_app _ _ _ (or_introl Hb))) w0 E0 L0 Fi0) as (W & Wi & Reps).
    assert (Hra : In a (rest ++ [a])) by (apply in_app_iff; right; left; reflexivity). specialize (Hr a Hra). clear Hra.
    destruct (run_fifo m clk f o w0 w R0 X0 L Fi0) as (gs & B & _).
    destruct (x_sent _ _ X0) as [more Em].
    assert (Win : e_window_size (w_enc w) = n /\ SystemInv.window w = newest n (length (w_sent w))).
    { assert (Rcv : forall op arr, receiver m clk w0 op arr = Ok w ->
        e_window_size (w_enc w) = n /\ SystemInv.window w = newest n (length (w_sent w))).
      { intros op arr Er. apply receiver_extends in Er. destruct Er as (_ & Es & _ & _ & Ee).
        unfold SystemInv.window. rewrite Es, Ee. auto. }
      assert (Set_ : forall op, sender m w0 op [] = Ok w -> match op with EData _ | EPacket _ | ESetWindow _ => False | _ => True end ->
        e_window_size (w_enc w) = n /\ SystemInv.window w = newest n (length (w_sent w))).
      { intros op Es Hop. pose proof (sender_extends _ _ _ _ _ Es) as (_ & En & _). rewrite app_nil_r in En.
        unfold sender in Es. destruct (estep m (w_enc w0) op) as [e r] eqn:Ee.
        apply bind_ok in Es. destruct Es as (out & Eo & Es). apply survive_ok in Eo. destruct Eo as [Nf _].
        assert (Ew : w_enc w = e) by (apply (f_equal (fun r => match r with Ok y => w_enc y | _ => e end)) in Es; symmetry; exact Es).
        unfold SystemInv.window. rewrite Ew, En.
        destruct op as [d|q| |b|k|n0|b]; try (destruct Hop; fail).
        - destruct (estep_repair _ _ _ _ Ee Nf) as (out' & _ & G). apply generate_repair_ok in G.
          destruct G as (rr & ww & _ & _ & _ & _ & _ & _ & Wz & _ & _ & _ & Sz & _). rewrite Wz, Sz. auto.
        - destruct (estep_setters _ _ _ _ _ Ee Nf I) as (_ & S & _ & _ & _ & _ & Wz). cbn in Wz. rewrite Wz, S. auto.
        - destruct (estep_setters _ _ _ _ _ Ee Nf I) as (_ & S & _ & _ & _ & _ & Wz). cbn in Wz. rewrite Wz, S. auto.
        - destruct (estep_setters _ _ _ _ _ Ee Nf I) as (_ & S & _ & _ & _ & _ & Wz). cbn in Wz. rewrite Wz, S. auto. }
      destruct a; cbn [wstep] in E1; try (destruct Hr; fail); try (eapply Rcv; exact E1); try (eapply Set_; [exact E1 | exact I]).
      - pose proof (sender_extends _ _ _ _ _ E1) as (_ & En & _).
        unfold sender in E1. destruct (estep m (w_enc w0) (EData d)) as [e r] eqn:Ee.
        apply bind_ok in E1. destruct E1 as (out & Eo & Es). apply survive_ok in Eo. destruct Eo as [Nf _].
        assert (Ew : w_enc w = e) by (apply (f_equal (fun r => match r with Ok y => w_enc y | _ => e end)) in Es; symmetry; exact Es).
        destruct (estep_data _ _ _ _ _ Ee Nf) as (out' & _ & A).
        unfold SystemInv.window. rewrite Ew, En, app_length. cbn [length].
        split; [rewrite (ad_window _ _ _ _ _ A); exact W|].
        replace (length (w_sent w0) + 1)%nat with (Datatypes.S (length (w_sent w0))) by lia.
        apply (newest_push n (length (w_sent w0)) (e_sources (w_enc w0)) _ (w_enc w0) d Wi W); [|reflexivity|apply (ad_push _ _ _ _ _ A)].
        apply (eo_source_id _ _ _ _ (ok_enc _ _ _ _ _ _ B)).
      - destruct (nth_error (w_out w0) k); [eapply Rcv; exact E1|]. assert (w = w0) by congruence. subst w. auto. }
    destruct Win as [W1 Wi1]. split; [exact W1|]. split; [exact Wi1|].
    intros p r q Hp Ht Hrd. destruct (new_repair w0 a w p R0 E1 L Fi Hp Ht) as [Old|(r' & q' & Hr' & Ids)].
    + destruct (Reps p r q Old Ht Hrd) as (s & Hs & Ids). exists s. split; [rewrite Em, app_length; lia | exact Ids].
    + exists (length (w_sent w)). split; [apply le_n|]. assert (r' = r) by congruence. subst r'. rewrite Ids. exact Wi1.
Qed.

Lemma firstn_filter_lt {A} (b : A -> bool) l : forall i j a, (i < j)%nat -> nth_error l i = Some a -> b a = true ->
  (length (filter b (firstn i l)) < length (filter b (firstn j l)))%nat.
Proof.
  induction l as [|x l IH]; intros [|i] [|j] a H E Hb; cbn [firstn filter length nth_error] in *; try lia; try discriminate.
  - assert (x = a) by congruence. subst x. rewrite Hb. cbn [length]. lia.
  - specialize (IH i j a ltac:(lia) E Hb). destruct (b x); cbn [length]; lia.
Qed.

Lemma same_position w i k p q : reach m clk f o w -> count 1 (w_out w) <= 2 ^ 32 -> (i <= k)%nat ->
  nth_error (w_out w) i = Some p -> nth_error (w_out w) k = Some q -> type_of p = 1 -> type_of q = 1 ->
  id_of p = id_of q -> i = k.
Proof.
  intros R Hc Hik Hp Hq Tp Tq E. destruct (world_sender _ _ _ _ _ R) as (ops & Ro & _).
  pose proof (history_of_run _ _ _ _ _ Ro) as Hs. pose proof (h_repair_ids _ _ _ _ Hs) as Hi.
  assert (X : forall i p, nth_error (w_out w) i = Some p -> type_of p = 1 ->
    id_of p = N.of_nat (length (of_type 1 (firstn i (w_out w))))).
  { intros i' p' H T. assert (Hb : (type_of p' =? 1) = true) by (apply N.eqb_eq, T).
    pose proof (nth_filter (fun p => type_of p =? 1) _ _ _ H Hb) as F. rewrite (Hi _ _ F).
    apply N.mod_small. assert (length (filter (fun p => (type_of p =? 1)%N) (firstn i' (w_out w))) < length (of_type 1 (w_out w)))%nat.
    { apply nth_error_Some. unfold of_type. rewrite F. discriminate. }
    change (count 1 (w_out w)) with (N.of_nat (length (of_type 1 (w_out w)))) in Hc.
    change (2 ^ 32) with 4294967296 in *. unfold of_type at 1. lia. }
  rewrite (X i p Hp Tp), (X k q Hq Tq) in E. destruct (Nat.eq_dec i k) as [|Ne]; [assumption|]. exfalso.
  assert (Hb : (type_of p =? 1) = true) by (apply N.eqb_eq, Tp).
  pose proof (firstn_filter_lt (fun p => type_of p =? 1) (w_out w) i k p ltac:(lia) Hp Hb). unfold of_type in E. lia.
Qed.

(** Everything older than what an arrived repair covers is outdated. *)
Lemma before_repair w : reach m clk f o w -> within_limits f w -> fifo w -> count 1 (w_out w) <= 2 ^ 32 ->
  forall k number covered y, In k (w_arrived w) -> repair_packet_at m w k number covered -> y < hd 0 covered -> obsolete w y.
Proof.
  intros R. revert w R.
  apply (reach_ind m clk f o (fun w => within_limits f w -> fifo w -> count 1 (w_out w) <= 2 ^ 32 ->
    forall k number covered y, In k (w_arrived w) -> repair_packet_at m w k number covered -> y < hd 0 covered -> obsolete w y)).
  { intros _ _ _ k number covered y []. }
  intros w a w1 R IH E L Fi Hc k0 number covered y Hk0 Hp Hy. pose proof (wstep_extends _ _ _ _ _ E) as X.
  assert (L0 : within_limits f w) by (eapply limits_before; eassumption).
  assert (Fi0 : fifo w) by (eapply fifo_before; eassumption).
  destruct (x_out _ _ X) as [newp Xo].
  assert (Hc0 : count 1 (w_out w) <= 2 ^ 32) by (rewrite Xo, count_app in Hc; lia).
  specialize (IH L0 Fi0 Hc0).
  assert (Before : In k0 (w_arrived w) -> obsolete w y).
  { intros Hin. apply (IH k0 number covered y Hin); [|exact Hy].
    destruct Hp as (p & r & q & P1 & P2). exists p, r, q. split; [|exact P2].
    assert (Hlt : (k0 < length (w_out w))%nat) by (pose proof (arrived_emitted _ _ _ _ _ R) as Z; rewrite Forall_forall in Z; apply Z, Hin).
    rewrite Xo, nth_error_app1 in P1; assumption. }
  assert (Keep : core_of w1 = core_of w -> w_arrived w1 = w_arrived w -> obsolete w1 y).
  { intros Ec Ea. unfold obsolete in *. change (dc_core (w_dec w1)) with (core_of w1). rewrite Ec. rewrite Ea in Hk0. apply Before, Hk0. }
  assert (Dec : (exists k, a = Arrive k) \/ forall k, a <> Arrive k).
  { destruct a; try (right; discriminate). left. eexists. reflexivity. }
  destruct Dec as [[k ->]|Ha].
  2:{ apply Keep; [apply (dec_kept m clk w a w1 E Ha) | apply (arrived_kept m clk w a w1 E Ha)]. }
  destruct (nth_error (w_out w) k) as [p|] eqn:Hk.
  2:{ cbn [wstep] in E. rewrite Hk in E. assert (w1 = w) by congruence. subst. apply Keep; reflexivity. }
  destruct (run_fifo m clk f o w w1 R X L Fi0) as (gs & B & Lt & Q & P).
  assert (Ea : w_arrived w1 = w_arrived w ++ [k] /\ w_out w1 = w_out w).
  { cbn [wstep] in E. rewrite Hk in E. apply receiver_extends in E. split; apply E. }
  destruct Ea as [Ea Eo].
  assert (Hle : forall i, In i (w_arrived w) -> (i <= k)%nat) by (apply (fifo_last w w1); assumption).
  destruct (arrival_of m f o (w_sent w1) gs w k p (data_ok _ _ L) (lim_bound _ _ L) B Lt Hle Hk) as (g & Hg & A).
  destruct (arrive_core m clk f o w k w1 p R E (fifo_repairs _ Fi) L Hk) as (gs' & B' & Ar).
  pose proof (do_inv _ _ _ _ (ok_dec _ _ _ _ _ _ B)) as I.
  rewrite Ea in Hk0. apply in_app_iff in Hk0.
  destruct Ar as [(s & q & Et & Er & Hs & Ec)|(r & q & Et & Er & Acc & Ec)].
  - destruct A as [s' q' x Eg R1 Ht R2 R3 Hx Hm|r' q' W n Eg R1 Ht R2 Hne Acc]; [|congruence].
    assert (s' = s) by congruence. subst s' x.
    destruct (recv_source_spec f (S (w_sent w1)) m (lim (w_sent w1)) (lim_bound _ _ L) (HS _ f (data_ok f w1 L))
      (core_of w) (ds_id s) (core_of w1) I Hx) as (_ & _ & _ & El & _); [congruence|].
    destruct Hk0 as [Hin|[<-|[]]].
    + specialize (Before Hin). unfold obsolete in *. change (dc_core (w_dec w1)) with (core_of w1). unfold outdated, not_outdated in *. rewrite El. exact Before.
    + exfalso. destruct Hp as (p' & r' & q'' & P1 & P2 & _). rewrite Eo in P1. congruence.
  - destruct (recv_repair_spec f (S (w_sent w1)) m (lim (w_sent w1)) (lim_bound _ _ L) (HS _ f (data_ok f w1 L))
      (core_of w) r (core_of w1) I Acc Ec) as (_ & _ & X1 & X2).
    pose proof (b_first _ _ _ _ _ Acc) as Fst. pose proof (DecoderAlgebra.g_sorted _ _ _ (b_genuine _ _ _ _ _ Acc)) as Sr.
    assert (Hne : dr_ids r <> []).
    { destruct A as [s' q' x Eg R1 Ht R2 R3 Hx Hm|r' q' W n Eg R1 Ht R2 Hne _]; [congruence|]. assert (r' = r) by congruence. subst r'. rewrite R2. exact Hne. }
    assert (Eo' : outdated (core_of w) (last (dr_ids r) 0) = false).
    { apply outdated_false. assert (Hh : In (hd 0 (dr_ids r)) (dr_ids r)) by (destruct (dr_ids r); [congruence | left; reflexivity]).
      pose proof (sorted_last_max _ _ Sr Hh). unfold not_outdated in *. destruct (d_last (core_of w)); [|reflexivity].
      apply N.leb_le in Fst. apply N.leb_le. lia. }
    destruct (in_dec N.eq_dec (dr_id r) (mkeys (d_repairs (core_of w)))) as [Hin|Hin].
    + assert (Hk1 : In k (w_arrived w)).
      { destruct (reach_arrived m clk f o w R L0 Fi0 Hc0 (dr_id r) Hin) as (i & p' & A1 & A2 & A3 & A4).
        assert (i = k) as <-; [|exact A1].
        apply (same_position w i k p' p R Hc0 (Hle i A1) A2 Hk A3 (type_of_repair p Et)).
        rewrite A4. apply (read_repair_id _ _ _ _ Er). }
      assert (Hk0' : In k0 (w_arrived w)) by (destruct Hk0 as [Z|[<-|[]]]; assumption).
      specialize (Before Hk0'). unfold obsolete in *. change (dc_core (w_dec w1)) with (core_of w1). rewrite (X1 (or_intror Hin)). exact Before.
    + destruct (X2 Eo' Hin) as (_ & El & _). unfold obsolete. change (dc_core (w_dec w1)) with (core_of w1).
      apply outdated_true. unfold not_outdated. rewrite El. apply N.leb_gt. destruct Hk0 as [Z|[<-|[]]].
      * specialize (Before Z). unfold obsolete in Before. apply outdated_true in Before. change (dc_core (w_dec w)) with (core_of w) in Before.
        unfold not_outdated in *. destruct (d_last (core_of w)); [|discriminate]. apply N.leb_gt in Before. apply N.leb_le in Fst. lia.
      * destruct Hp as (p' & r' & q'' & P1 & P2 & P3 & _ & <-). rewrite Eo in P1. assert (r' = r) by congruence. subst r'. exact Hy.
Qed.
End Step.

(** ** C94 *)

(** The repairs cover exactly the [n] newest data of the time at which they were made. *)
Theorem C94_window :
  forall m clk f o n l w, one_way n l -> wrun m clk (start clk f o) l = Ok w -> fifo w -> within_limits f w ->
  forall k number covered, repair_packet_at m w k number covered ->
  exists s, s <= N.of_nat (length (w_sent w)) /\ forall x, In x covered <-> x < s /\ s <= x + n.
Proof.
  intros m clk f o n l w (rest & -> & Hr) E Fi L k number covered (p & r & q & P1 & P2 & P3 & _ & <-).
  destruct (one_way_run m clk f o n rest Hr w E L Fi) as (_ & _ & Reps).
  destruct (Reps p r q (nth_error_In _ _ P1) P2 P3) as (s & Hs & ->). exists (N.of_nat s). split; [lia|]. intros x. apply in_newest.
Qed.
Print Assumptions C94_window.

(** A datum that the receiver holds is delivered as soon as a repair has arrived that covers
    some datum [z], if the receiver also holds the data before it that are fewer than [n]
    older than [z]. What was lost earlier does not matter. *)
Theorem C94_not_held_up :
  forall m clk f n l w, one_way n l -> wrun m clk (start clk f true) l = Ok w -> fifo w -> within_limits f w ->
  count 1 (w_out w) <= 2 ^ 32 ->
  forall k number covered z x, In k (w_arrived w) -> repair_packet_at m w k number covered -> In z covered ->
  held w x -> (forall y, y < x -> z < y + n -> held w y) ->
  exists which, StronglySorted lt which /\ w_got w = map (datum w) which /\ In (N.to_nat x) which.
Proof.
  intros m clk f n l w Ow E Fi L Hc k number covered z x Hk Hp Hz Hx Hy.
  assert (R : reach m clk f true w) by (eexists; exact E).
  destruct (C37_nothing_withheld m clk f w) as (which & W1 & W2 & W3 & _); [split; [exact R|]; split; assumption|].
  exists which. split; [exact W1|]. split; [exact W2|]. apply W3; [exact Hx|]. intros y Lt.
  destruct (N.lt_ge_cases z (y + n)) as [C|C]; [left; apply Hy; assumption|]. right.
  apply (before_repair m clk f true w R L Fi Hc k number covered y Hk Hp).
  destruct (C94_window m clk f true n l w Ow E Fi L k number covered Hp) as (s & _ & Iff).
  assert (Hh : In (hd 0 covered) covered) by (destruct covered; [destruct Hz | left; reflexivity]).
  apply Iff in Hh, Hz. lia.
Qed.
Print Assumptions C94_not_held_up.

(** In particular, when everything is held that an arrived repair covers, all of it is
    delivered, whatever was lost before. *)
Theorem C94_resumes :
  forall m clk f n l w, one_way n l -> wrun m clk (start clk f true) l = Ok w -> fifo w -> within_limits f w ->
  count 1 (w_out w) <= 2 ^ 32 ->
  forall k number covered, In k (w_arrived w) -> repair_packet_at m w k number covered ->
  (forall x, In x covered -> held w x) ->
  exists which, StronglySorted lt which /\ w_got w = map (datum w) which /\ forall x, In x covered -> In (N.to_nat x) which.
Proof.
  intros m clk f n l w Ow E Fi L Hc k number covered Hk Hp Hh.
  assert (R : reach m clk f true w) by (eexists; exact E).
  destruct (C37_nothing_withheld m clk f w) as (which & W1 & W2 & W3 & _); [split; [exact R|]; split; assumption|].
  exists which. split; [exact W1|]. split; [exact W2|]. intros x Hx. apply W3; [apply Hh, Hx|]. intros y Lt.
  destruct (C94_window m clk f true n l w Ow E Fi L k number covered Hp) as (s & _ & Iff).
  destruct (in_dec N.eq_dec y covered) as [Y|Y]; [left; apply Hh, Y|]. right.
  apply (before_repair m clk f true w R L Fi Hc k number covered y Hk Hp).
  assert (H0 : In (hd 0 covered) covered) by (destruct covered; [destruct Hx | left; reflexivity]).
  apply Iff in H0, Hx. destruct (N.lt_ge_cases y (hd 0 covered)) as [C|C]; [exact C|]. destruct Y. apply Iff. lia.
Qed.
Print Assumptions C94_resumes.

(** *** A case *)

Definition ordered_checks (l : list action) (check : world -> bool) : bool :=
  match wrun Debug still (start still W8 true) l with
  | Ok w => sortedb (w_arrived w) && smallb W8 w && check w
  | _ => false
  end.

Lemma ordered_checks_spec l check : ordered_checks l check = true ->
  exists w, wrun Debug still (start still W8 true) l = Ok w /\ lossy_fifo Debug still W8 true w /\ check w = true.
Proof.
  unfold ordered_checks. destruct (wrun Debug still (start still W8 true) l) as [w| |] eqn:E; try discriminate.
  intros H. apply andb_true_iff in H. destruct H as [H1 H2]. exists w. split; [reflexivity|]. split; [|exact H2].
  apply run_lossy with l; [discriminate | exact E | exact H1].
Qed.

Definition covers (w : world) (k : nat) (number : N) (covered : list N) : bool :=
  match nth_error (w_out w) k with
  | Some p => match get_packet_type p, read_repair Debug p with
    | Ok TRepair, Ok (r, _) => (dr_id r =? number) && equal N.eq_dec (dr_ids r) covered
    | _, _ => false
    end
  | None => false
  end.

Lemma covers_spec w k number covered : covers w k number covered = true -> repair_packet_at Debug w k number covered.
Proof.
  unfold covers. destruct (nth_error (w_out w) k) as [p|] eqn:E; [|discriminate].
  destruct (get_packet_type p) as [[]| |] eqn:Et; try discriminate. destruct (read_repair Debug p) as [[r q]| |] eqn:Er; try discriminate.
  intros H. apply andb_true_iff in H. destruct H as [H1 H2]. apply N.eqb_eq in H1. apply equal_spec in H2. exists p, r, q. auto.
Qed.

(** Window of two. Data 0 is lost and holds up data 1 and 2, until the repair over data 2 and 3 arrives. *)
Definition five : list action :=
  [SetWindow 2; SetRate 100; Data [7]; Data [8]; Data [9]; Data [10]; Repair; Arrive 1; Arrive 2].

Example C94_case :
  (exists w, wrun Debug still (start still W8 true) five = Ok w /\ w_got w = [])
  /\ exists w, one_way 2 (five ++ [Arrive 4]) /\ wrun Debug still (start still W8 true) (five ++ [Arrive 4]) = Ok w
  /\ lossy_fifo Debug still W8 true w /\ count 1 (w_out w) <= 2 ^ 32
  /\ In 4%nat (w_arrived w) /\ repair_packet_at Debug w 4 0 [2; 3] /\ (forall x, In x [2; 3] -> held w x)
  /\ held w 2 /\ w_got w = [[8]; [9]; [10]].
Proof.
  assert (C0 : ordered_checks five (fun w => equal (list_eq_dec N.eq_dec) (w_got w) []) = true) by (vm_compute; reflexivity).
  assert (C : ordered_checks (five ++ [Arrive 4]) (fun w => equal (list_eq_dec N.eq_dec) (w_got w) [[8]; [9]; [10]]
     && equal Nat.eq_dec (w_arrived w) [1; 2; 4]%nat && covers w 4 0 [2; 3] && equal N.eq_dec (mkeys (d_sources (core_of w))) [2; 3]
     && (count 1 (w_out w) <=? 2 ^ 32)) = true) by (vm_compute; reflexivity).
  apply ordered_checks_spec in C0, C. destruct C0 as (w0 & E0 & _ & C0). destruct C as (w & E & Lf & C).
  apply equal_spec in C0. split; [exists w0; auto|].
  do 4 (apply andb_true_iff in C; let K := fresh "K" in destruct C as [C K]).
  apply equal_spec in C, K0, K2. apply covers_spec in K1. apply N.leb_le in K. exists w.
  split. { exists (tl (five ++ [Arrive 4])). split; [reflexivity|]. intros a Ha. cbn in Ha. intuition (subst; exact I). }
  split; [exact E|]. split; [exact Lf|]. split; [exact K|]. split; [rewrite K2; right; right; left; reflexivity|]. split; [exact K1|].
  assert (H : forall x, In x [2; 3] -> held w x) by (intros x Hx; unfold held; change (dc_core (w_dec w)) with (core_of w); rewrite K0; exact Hx).
  split; [exact H|]. split; [apply H; left; reflexivity | exact C].
Qed.

(** With acks it is false: they keep data in the window beyond [n] newer ones. *)
Definition acked : list action :=
  [SetWindow 2; SetRate 100; Data [7]; Data [8]; Arrive 1; Ack; AckArrive 0; Data [9]; Arrive 2; Ack; AckArrive 1;
   Data [10]; Arrive 3; Ack; AckArrive 2; Data [11]; Repair; Arrive 5].

Theorem C94_with_acks_refuted :
  exists w, lossy_fifo Debug still W8 true w /\ wrun Debug still (start still W8 true) acked = Ok w
  /\ In 5%nat (w_arrived w) /\ repair_packet_at Debug w 5 0 [0; 4] /\ held w 3 /\ (forall y, y < 3 -> 4 < y + 2 -> held w y)
  /\ w_got w = [].
Proof.
  assert (C : ordered_checks acked (fun w => equal (list_eq_dec N.eq_dec) (w_got w) []
     && equal Nat.eq_dec (w_arrived w) [1; 2; 3; 5]%nat && covers w 5 0 [0; 4] && equal N.eq_dec (mkeys (d_sources (core_of w))) [1; 2; 3])
     = true) by (vm_compute; reflexivity).
  apply ordered_checks_spec in C. destruct C as (w & E & Lf & C).
  do 3 (apply andb_true_iff in C; let K := fresh "K" in destruct C as [C K]).
  apply equal_spec in C, K, K1. apply covers_spec in K0. exists w. split; [exact Lf|]. split; [exact E|].
  split; [rewrite K1; cbn [In]; auto 10|]. split; [exact K0|].
  split; [unfold held; change (dc_core (w_dec w)) with (core_of w); rewrite K; cbn [In]; auto|]. split; [intros y A B; lia | exact C].
Qed.
Print Assumptions C94_with_acks_refuted.
