(** * Properties of the closed system over a channel on which nothing overtakes:
    C30, C37, C42, C43 *)
From Coq Require Import ZArith NArith Arith List Bool Lia Sorted.
From Verif Require Import Outcome GF Containers ContainersFacts Packetizer PropsPacketizer
  Encoder EncoderRun EncoderHistory DetailDecoder Decoder DecoderInv DecoderStep DecoderFacts DecoderHeld DecoderPrompt
  System SystemInv SystemRun SystemArrive SystemFifo SystemLossless PropsSystem PropsRecover.
Import ListNotations.
Open Scope N_scope.

(** A world that the system can reach over a channel that loses packets, repeats
    them in place, and never lets a packet arrive after a newer one. Acks are lost,
    repeated and reordered arbitrarily. *)
Definition lossy_fifo (m : mode) (clk : clock) (f : field) (o : bool) (w : world) : Prop :=
  reach m clk f o w /\ fifo w /\ within_limits f w.

Lemma lossy_normal m clk f o w : lossy_fifo m clk f o w -> normal m clk f o w.
Proof. intros (B & C & D). split; [exact B|]. split; [apply fifo_repairs, C | exact D]. Qed.

(** ** C30: no failure *)

(** Whatever was lost before, the receiver's call for the next packet, or for the
    last one again, returns without exception. *)
Theorem C30_fifo_arrival :
  forall m clk f o w, lossy_fifo m clk f o w ->
  forall k p, nth_error (w_out w) k = Some p -> (forall i, In i (w_arrived w) -> (i <= k)%nat) ->
  (exists d out n, dec_packet m clk (w_dec w) p = (d, Ok (out, n)))
  /\ exists w', wstep m clk w (Arrive k) = Ok w'.
Proof.
  intros m clk f o w (R & Fi & L) k p Hk Hle. split.
  - eapply arrival_returns; eassumption.
  - eapply arrival_progress; eassumption.
Qed.
Print Assumptions C30_fifo_arrival.

(** Whole runs with data that respect the contracts: no fault at all, in both
    builds, except for a repair requested from an empty window (C24). *)
Theorem C30_fifo_runs :
  forall m clk f o l, sizes_fit_during m clk f o l -> Forall (legal_action f) l -> N.of_nat (length (given l)) <= 65535 ->
  StronglySorted le (arrivals l) ->
  (exists w, wrun m clk (start clk f o) l = Ok w)
  \/ exists before after w, l = before ++ Repair :: after
     /\ wrun m clk (start clk f o) before = Ok w /\ e_sources (w_enc w) = [].
Proof.
  intros m clk f o l Hz Hl Hn Hs. destruct (run_total m clk f o l Hl Hn Hs Hz) as [(w & E & _)|H]; eauto.
Qed.
Print Assumptions C30_fifo_runs.

(** *** Examples *)

(** Thirteen data, six of the source packets lost, a repair repeated, repairs instead of
    sources for two data, acks repeated. *)
Definition tale : list action :=
  [SetRate 3; SetWindow 5; SetNb 4; Data (sample 0); Data (sample 1); Data (sample 2); Arrive 0; Arrive 2; Arrive 3; Arrive 3;
   Data (sample 3); Data (sample 4); Data (sample 5); Arrive 5; Arrive 7; AckArrive 0; AckArrive 0;
   Data (sample 6); Repair; Data (sample 7); Data (sample 8); Repair; Arrive 9; Arrive 12; Arrive 13;
   SetCode false; Data (sample 9); Data (sample 10); SetCode true; Data (sample 11); Data (sample 12); Repair;
   Arrive 14; Arrive 15; Arrive 17; Arrive 18; Arrive 19].

Lemma run_lossy m clk f o l w : f <> W32 -> wrun m clk (start clk f o) l = Ok w ->
  sortedb (w_arrived w) && smallb f w = true -> lossy_fifo m clk f o w.
Proof.
  intros Hf H E. apply andb_true_iff in E. destruct E as [E1 E2].
  assert (R : reach m clk f o w) by (exists l; exact H).
  assert (Ho : fifo w) by (apply sortedb_spec, E1).
  apply smallb_spec in E2. destruct E2 as [A B].
  split; [exact R|]. split; [exact Ho|]. eapply short_runs; try eassumption; [apply fifo_repairs, Ho | apply sizes_fit_other, Hf].
Qed.

Example C30_lossy_case : forall o, lossy_fifo Debug still W8 o (ending Debug W8 o tale)
  /\ (13 <= length (w_arrived (ending Debug W8 o tale)))%nat.
Proof.
  intros o. split.
  - apply run_lossy with tale; [discriminate | |]; destruct o; vm_compute; reflexivity.
  - destruct o; vm_compute; repeat constructor.
Qed.

Definition legalb (f : field) (a : action) : bool :=
  match a with
  | Data d => Nat.ltb 0 (length d) && (N.of_nat (length d) <? 65536) && aligned f (length d)
              && forallb (fun b => b <? 256) d
  | SetRate k | SetWindow k | SetNb k => 0 <? k
  | _ => true
  end.

Lemma legalb_spec f l : forallb (legalb f) l = true -> Forall (legal_action f) l.
Proof.
  intros H. rewrite forallb_forall in H. apply Forall_forall. intros a Ha. specialize (H a Ha).
  destruct a; cbn [legalb legal_action] in *; try exact I; try (apply N.ltb_lt, H).
  rewrite !andb_true_iff in H. destruct H as (((A & B) & C) & D).
  split; [apply Nat.ltb_lt, A|]. split; [apply N.ltb_lt, B|]. split; [exact C|].
  apply Forall_forall. intros b Hb. rewrite forallb_forall in D. apply N.ltb_lt, D, Hb.
Qed.

Example C30_C43_case : Forall (legal_action W8) tale /\ N.of_nat (length (given tale)) <= 65535
  /\ StronglySorted le (arrivals tale).
Proof.
  split; [apply legalb_spec; vm_compute; reflexivity|]. split; [vm_compute; discriminate|].
  apply sortedb_spec. vm_compute. reflexivity.
Qed.

(** ** C37: ordered delivery withholds nothing *)

Lemma fifo_state m clk f o w : lossy_fifo m clk f o w ->
  exists gs, wok (w_sent w) m f o gs w /\ prompt (lim (w_sent w)) (core_of w)
  /\ w_got w = map (datum w) (map N.to_nat (handed (core_of w))).
Proof.
  intros Lf. pose proof Lf as (R & Fi & L).
  destruct (run_fifo m clk f o w w R (extends_refl w) L Fi) as (gs & B & _ & _ & P). exists gs.
  split; [exact B|]. split; [exact P|].
  destruct (delivered _ _ _ _ _ (lossy_normal _ _ _ _ _ Lf)) as (_ & _ & E & _). exact E.
Qed.

Lemma in_handed w x : In (N.to_nat x) (map N.to_nat (handed (core_of w))) <-> In x (handed (core_of w)).
Proof.
  split; [|apply in_map]. intros H. apply in_map_iff in H. destruct H as (y & E & H). apply N2Nat.inj in E. congruence.
Qed.

(** A datum that the receiver holds has been delivered, unless an older datum,
    which is neither held nor outdated, precedes it. A datum is skipped only if it
    is outdated. *)
Theorem C37_nothing_withheld :
  forall m clk f w, lossy_fifo m clk f true w ->
  exists which, StronglySorted lt which /\ w_got w = map (datum w) which
  /\ (forall x, held w x -> (forall y, y < x -> held w y \/ obsolete w y) -> In (N.to_nat x) which)
  /\ (forall x y, In x which -> (y < x)%nat -> ~ In y which -> obsolete w (N.of_nat y)).
Proof.
  intros m clk f w Lf. destruct (delivered _ _ _ _ _ (lossy_normal _ _ _ _ _ Lf)) as (gs & B & E & _ & _ & So).
  destruct (fifo_state _ _ _ _ _ Lf) as (_ & _ & P & _).
  exists (map N.to_nat (handed (core_of w))). split; [apply So; reflexivity|]. split; [exact E|].
  destruct (ok_dec _ _ _ _ _ _ B) as [_ _ _ I Io _].
  destruct (P Io) as [[Rd Nx] No]. pose proof (l_order _ _ _ _ _ (i_logs _ _ _ _ I) Io) as O. split.
  - intros x Hx Hy. apply in_handed. destruct (N.lt_ge_cases x (d_first (core_of w))) as [Lt|Ge].
    + apply (y_old _ _ Rd); assumption.
    + exfalso. assert (F : held w (d_first (core_of w))).
      { destruct (N.eq_dec x (d_first (core_of w))) as [<-|Ne]; [exact Hx|].
        destruct (Hy (d_first (core_of w))) as [H|H]; [lia | exact H|].
        unfold obsolete, outdated in H. fold (core_of w) in H. rewrite No in H. discriminate. }
      apply Nx, (y_wait _ _ Rd); [exact F | lia].
  - intros x y Hx Hlt Hy. apply in_map_iff in Hx. destruct Hx as (x' & <- & Hx).
    unfold handed in Hx. apply in_map_iff in Hx. destruct Hx as (v & <- & Hv). apply (o_log_lt _ _ _ _ O) in Hv.
    fold (core_of w) in O, Hv.
    unfold obsolete, outdated. fold (core_of w). destruct (not_outdated (core_of w) (N.of_nat y)) eqn:Ny; [|reflexivity].
    exfalso. apply Hy. rewrite <- (Nat2N.id y). apply in_handed. apply (y_old _ _ Rd); [|lia].
    destruct (o_gap _ _ _ _ O (N.of_nat y) Ny) as [K|[]]; [lia | exact K].
Qed.
Print Assumptions C37_nothing_withheld.

(** What is held or delivered stays so. *)
Lemma held_or_handed m clk f o w l w' x : reach m clk f o w -> wrun m clk w l = Ok w' -> lossy_fifo m clk f o w' ->
  held w x \/ In x (handed (core_of w)) -> held w' x \/ In x (handed (core_of w')).
Proof.
  intros R E (R' & Fi & L) H0. revert w E R H0. induction l as [|a l IH]; intros w E R H0; cbn [wrun] in E.
  - assert (w' = w) by congruence. subst. exact H0.
  - apply bind_ok in E. destruct E as (w1 & E1 & E). pose proof (reach_step _ _ _ _ _ _ _ R E1) as R1.
    apply (IH w1 E R1). clear IH.
    pose proof (wrun_extends _ _ _ _ _ E) as X1. pose proof (wstep_extends _ _ _ _ _ E1) as X0.
    pose proof (fifo_before _ _ X1 Fi) as Fi1. pose proof (fifo_before _ _ X0 Fi1) as Fi0.
    destruct (run_fifo m clk f o w w' R (extends_trans _ _ _ X0 X1) L Fi0) as (gs & B & Lt & Q & P).
    assert (Other : (forall k, a <> Arrive k) -> held w1 x \/ In x (handed (core_of w1))).
    { intros Ha. unfold held in *. fold (core_of w1). fold (core_of w) in H0. rewrite (dec_kept m clk w a w1 E1 Ha). exact H0. }
    destruct a; try (apply Other; discriminate).
    destruct (nth_error (w_out w) k) as [p|] eqn:Ek.
    2: { cbn [wstep] in E1. rewrite Ek in E1. assert (w1 = w) by congruence. subst. exact H0. }
    assert (Hle : forall i, In i (w_arrived w) -> (i <= k)%nat).
    { apply fifo_last with w1; [exact Fi1|]. cbn [wstep] in E1. rewrite Ek in E1. apply receiver_extends in E1. apply E1. }
    destruct (arrival_step m clk f o (w_sent w') gs w k p w1 (data_ok _ _ L) (lim_bound _ _ L) B Lt Q P Hle Ek E1)
      as (_ & _ & Ko & Kp).
    pose proof (do_order _ _ _ _ (ok_dec _ _ _ _ _ _ B)) as Io.
    destruct o.
    + destruct (Kp Io) as (K1 & K2 & _). destruct H0 as [H|H]; [apply K1, H | right; apply K2, H].
    + right. assert (H : In x (handed (core_of w))).
      { destruct H0 as [H|H]; [|exact H]. apply (do_held _ _ _ _ (ok_dec _ _ _ _ _ _ B)); assumption. }
      destruct (arrive_core m clk f false w k w1 p R E1) as (gs1 & B1 & A).
      { apply fifo_repairs, Fi1. }
      { eapply limits_before; eassumption. }
      { exact Ek. }
      pose proof (limits_before _ _ _ X1 L) as L1.
      assert (Elog : exists new, d_log (core_of w1) = d_log (core_of w) ++ new).
      { pose proof (do_inv _ _ _ _ (ok_dec _ _ _ _ _ _ B1)) as I1.
        destruct A as [(s & q & _ & _ & Hs & A)|(r & q & _ & _ & Ac & A)].
        - apply (recv_source_spec f _ m _ (lim_bound f w1 L1) (HS _ f (data_ok f w1 L1))) in A; [|exact I1 | exact Hs].
          destruct A as (_ & V & _). apply (e_log _ _ _ _ V).
        - apply (recv_repair_spec f _ m _ (lim_bound f w1 L1) (HS _ f (data_ok f w1 L1))) in A; [|exact I1 | exact Ac].
          destruct A as (_ & V & _). apply (e_log _ _ _ _ V). }
      destruct Elog as [new Elog]. unfold handed in *. rewrite Elog, map_app. apply in_app_iff. left. exact H.
Qed.

(** What the receiver holds is not forgotten before it has been delivered, in
    both delivery modes. *)
Theorem C37_held_until_delivered :
  forall m clk f o w l w' x, reach m clk f o w -> held w x ->
  wrun m clk w l = Ok w' -> lossy_fifo m clk f o w' ->
  exists which, NoDup which /\ w_got w' = map (datum w') which /\ (held w' x \/ In (N.to_nat x) which).
Proof.
  intros m clk f o w l w' x R Hx E Lf. pose proof Lf as (R' & Fi & L).
  destruct (delivered _ _ _ _ _ (lossy_normal _ _ _ _ _ Lf)) as (gs' & B' & Eg & _ & Nd & _).
  exists (map N.to_nat (handed (core_of w'))). split; [exact Nd|]. split; [exact Eg|].
  assert (Goal : held w' x \/ In x (handed (core_of w'))).
  2: { destruct Goal as [G|G]; [left; exact G | right; apply in_handed, G]. }
  apply (held_or_handed m clk f o w l w' x R E Lf). left. exact Hx.
Qed.
Print Assumptions C37_held_until_delivered.

(** A source that arrives is held from then on, or was outdated. *)
Theorem C37_received_is_held :
  forall m clk f o w k x w', reach m clk f o w -> source_packet_at m w k x ->
  wstep m clk w (Arrive k) = Ok w' -> normal m clk f o w' -> held w' x \/ obsolete w x.
Proof.
  intros m clk f o w k x w' R (p & s & q & Ek & Ht & Er & <-) E (R' & Ho & L).
  destruct (arrive_core m clk f o w k w' p R E Ho L Ek) as (gs & B & A).
  destruct A as [(s' & q' & _ & Er' & Hs & A)|(r & q' & Ht' & _)]; [|congruence].
  assert (s' = s) by congruence. subst s'.
  apply (recv_source_spec f _ m _ (lim_bound f w' L) (HS _ f (data_ok f w' L))) in A;
    [|apply (do_inv _ _ _ _ (ok_dec _ _ _ _ _ _ B)) | exact Hs].
  destruct A as (_ & _ & [[K|[]]|K] & El & _); [left; exact K|]. right. unfold obsolete, outdated, not_outdated in *.
  fold (core_of w). rewrite <- El. exact K.
Qed.
Print Assumptions C37_received_is_held.

(** In [tale], 12 is held and waits for 8, which is neither held nor outdated. *)
Example C37_case : let w := ending Debug W8 true tale in
  w_got w = map sample [0; 1; 2; 4] /\ held w 12 /\ ~ held w 8 /\ ~ obsolete w 8 /\ obsolete w 3
  /\ held (ending Debug W8 true (firstn 11 tale)) 2.
Proof.
  cbv zeta. unfold held, obsolete. split; [vm_compute; reflexivity|].
  split; [vm_compute; auto|]. split; [vm_compute; intros [H|[]]; discriminate|].
  split; [vm_compute; discriminate|]. split; [vm_compute; reflexivity|]. vm_compute. auto.
Qed.

(** One source that arrives after a repair covering it, and is the next to be
    delivered, completes the decoding of the following datum; both are held, the
    second is never handed out. *)
Theorem C37_late_source_refuted :
  exists l w, (forall m, wrun m still (start still W8 true) l = Ok w)
  /\ normal Debug still W8 true w /\ ~ fifo w
  /\ length (w_arrived w) = 2%nat /\ w_sent w = map sample [0; 1]
  /\ held w 0 /\ held w 1 /\ w_got w = map sample [0].
Proof.
  pose (l := [Data (sample 0); Data (sample 1); Repair; Arrive 2; Arrive 1]).
  exists l, (ending Debug W8 true l). split; [intros m; destruct m; vm_compute; reflexivity|].
  split; [apply run_normal with l; [discriminate | |]; vm_compute; reflexivity|].
  split; [intros X; apply sortedb_spec in X; vm_compute in X; discriminate|].
  split; [vm_compute; reflexivity|]. split; [vm_compute; reflexivity|].
  split; [vm_compute; auto|]. split; [vm_compute; auto | vm_compute; reflexivity].
Qed.
Print Assumptions C37_late_source_refuted.

(** ** C42: nothing lost *)

(** The first [n] packets have arrived, each once, in order. *)
Definition first_arrived (w : world) (n : nat) : Prop := w_arrived w = seq 0 n.

(** A systematic sender and the first [n] packets: the data delivered are the first
    ones sent, as many as there are source packets among these [n]. Nothing is
    missing, nothing is decoded. *)
Theorem C42_lossless :
  forall m clk f o l w n, wrun m clk (start clk f o) l = Ok w -> within_limits f w ->
  ~ In (SetCode false) l -> first_arrived w n ->
  w_got w = firstn (length (filter (fun p => type_of p =? 2) (firstn n (w_out w)))) (w_sent w)
  /\ (forall x, ~ missing w x) /\ pending w = [] /\ d_decoded (dc_core (w_dec w)) = 0
  /\ d_failed (dc_core (w_dec w)) = 0.
Proof.
  intros m clk f o l w n E L Hc Ha.
  assert (En : length (w_arrived w) = n) by (rewrite Ha; apply seq_length).
  assert (Lo : lossless w) by (unfold lossless; rewrite En; exact Ha).
  destruct (run_lossless m clk f o l w w E (extends_refl w) L Lo Hc) as (gs & B & _ & Co & _ & Cl).
  rewrite En in Cl. destruct Cl as [A1 A2 A3 A4 A5 A6 A7 A8 A9].
  assert (Nm : normal m clk f o w).
  { split; [exists l; exact E|]. split; [apply fifo_repairs, lossless_fifo, Lo | exact L]. }
  destruct (delivered _ _ _ _ _ Nm) as (_ & _ & Eg & _).
  split; [|split; [|split; [|split]]].
  - rewrite Eg, A5. fold (srcs (firstn n (w_out w))). 
    assert (Eu : forall c, map N.to_nat (upto c) = seq 0 c).
    { intros c. unfold upto. rewrite map_map. erewrite map_ext; [apply map_id|]. intros a. apply Nat2N.id. }
    rewrite Eu. clear Eu.
    assert (Hle : (srcs (firstn n (w_out w)) <= length (w_sent w))%nat).
    { rewrite Co. rewrite <- (firstn_skipn n (w_out w)) at 2. rewrite srcs_app. lia. }
    revert Hle. generalize (srcs (firstn n (w_out w))). intros c Hc'. unfold datum. revert c Hc'. clear. induction (w_sent w) as [|d s IH]; intros c Hc'.
    + destruct c; [reflexivity | cbn [length] in Hc'; lia].
    + destruct c as [|c]; [reflexivity|]. cbn [length] in Hc'. cbn [seq map firstn nth]. f_equal.
      rewrite <- seq_shift, map_map. apply IH. lia.
  - intros x Hx. unfold missing in Hx. fold (core_of w) in Hx. rewrite A1 in Hx. exact Hx.
  - unfold pending. fold (core_of w). rewrite A2. reflexivity.
  - exact A8.
  - exact A9.
Qed.
Print Assumptions C42_lossless.

(** All packets arrived: all data are delivered. *)
Theorem C42_all_delivered :
  forall m clk f o l w, wrun m clk (start clk f o) l = Ok w -> within_limits f w ->
  ~ In (SetCode false) l -> first_arrived w (length (w_out w)) -> w_got w = w_sent w.
Proof.
  intros m clk f o l w E L Hc Ha.
  destruct (C42_lossless m clk f o l w _ E L Hc Ha) as [Eg _].
  assert (En : length (w_arrived w) = length (w_out w)) by (rewrite Ha; apply seq_length).
  assert (Lo : lossless w) by (unfold lossless; rewrite En; exact Ha).
  destruct (run_lossless m clk f o l w w E (extends_refl w) L Lo Hc) as (gs & B & _ & Co & _).
  rewrite Eg, firstn_all. fold (srcs (w_out w)). rewrite <- Co. apply firstn_all.
Qed.
Print Assumptions C42_all_delivered.

(** Immediately: the arrival of a source delivers its datum, the arrival of a
    repair delivers nothing. *)
Theorem C42_immediate :
  forall m clk f o l w k w', wrun m clk (start clk f o) l = Ok w ->
  wstep m clk w (Arrive k) = Ok w' -> within_limits f w' -> ~ In (SetCode false) l -> first_arrived w' (k + 1) ->
  (forall x, source_packet_at m w k x -> w_got w' = w_got w ++ [datum w (N.to_nat x)])
  /\ (forall number covered, repair_packet_at m w k number covered -> w_got w' = w_got w).
Proof.
  intros m clk f o l w k w' E E1 L Hc Ha. pose proof (wstep_extends _ _ _ _ _ E1) as X.
  assert (E' : wrun m clk (start clk f o) (l ++ [Arrive k]) = Ok w').
  { rewrite wrun_app, E. cbn [bind wrun]. rewrite E1. reflexivity. }
  assert (Hc' : ~ In (SetCode false) (l ++ [Arrive k])).
  { intros Y. apply in_app_iff in Y. destruct Y as [Y|[Y|[]]]; [apply Hc, Y | discriminate]. }
  pose proof (limits_before _ _ _ X L) as L0.
  destruct (nth_error (w_out w) k) as [p|] eqn:Ek.
  2: { split; intros ? H; [destruct H as (p & s & q & H & _) | intros H0; destruct H0 as (p & s & q & H0 & _)]; congruence. }
  assert (Ea : w_arrived w' = w_arrived w ++ [k] /\ w_sent w' = w_sent w /\ w_out w' = w_out w).
  { cbn [wstep] in E1. rewrite Ek in E1. apply receiver_extends in E1. repeat split; apply E1. }
  destruct Ea as (Ea & Es & Eo).
  assert (Ha0 : first_arrived w k).
  { unfold first_arrived in *. rewrite Ha, Nat.add_1_r, seq_S in Ea. apply app_inj_tail in Ea. symmetry. apply Ea. }
  destruct (C42_lossless m clk f o l w k E L0 Hc Ha0) as [Eg _].
  destruct (C42_lossless m clk f o _ w' (k + 1) E' L Hc' Ha) as [Eg' _].
  assert (En : length (w_arrived w) = k) by (rewrite Ha0; apply seq_length).
  assert (Lo : lossless w) by (unfold lossless; rewrite En; exact Ha0).
  destruct (run_lossless m clk f o l w w E (extends_refl w) L0 Lo Hc) as (gs & B & Nu & Co & _).
  destruct (forall2_nth _ _ _ (ch_is _ _ _ _ _ _ _ _ (ok_chan _ _ _ _ _ _ B)) k p Ek) as (g & Hg & Is).
  pose proof (is_type m f _ _ _ Is) as Ty. specialize (Nu k g Hg).
  rewrite Eo, Es, Nat.add_1_r in Eg'. fold (srcs (firstn (Datatypes.S k) (w_out w))) in Eg'.
  fold (srcs (firstn k (w_out w))) in Eg. rewrite (srcs_next _ _ _ Ek), Ty in Eg'.
  split.
  - intros x (p' & s & q & Ep & Ht & Er & <-). assert (p' = p) by congruence. subst p'.
    destruct g as [x|W n]; [|destruct Is as [Is _]; congruence].
    destruct Is as (Hx & _ & s' & q' & Er' & Eid & _). assert (s' = s) by congruence. subst s'. rewrite Eid, Nu, Nat2N.id.
    rewrite Eg, Eg'. cbn [N.eqb Pos.eqb]. rewrite Nat.add_1_r. unfold datum.
    assert (Hlt : (srcs (firstn k (w_out w)) < length (w_sent w))%nat) by (unfold lim in Hx; cbn in Nu; lia).
    revert Hlt. generalize (srcs (firstn k (w_out w))). clear. induction (w_sent w) as [|d s IH]; intros c Hc; cbn [length] in Hc; [lia|].
    destruct c as [|c]; [reflexivity|]. cbn [firstn nth app]. f_equal. apply IH. lia.
  - intros number covered (p' & r & q & Ep & Ht & _). assert (p' = p) by congruence. subst p'.
    destruct g as [x|W n]; [destruct Is as (_ & Is & _); congruence|].
    rewrite Eg, Eg'. cbn [N.eqb Pos.eqb]. rewrite Nat.add_0_r. reflexivity.
Qed.
Print Assumptions C42_immediate.

(** Eight data with three repairs, acks in between, everything in order. *)
Definition calmly : list action :=
  [SetRate 3; SetNb 2; Data (sample 0); Data (sample 1); Arrive 0; Data (sample 2); Arrive 1; Arrive 2; Arrive 3;
   AckArrive 0; Repair; Data (sample 3); Arrive 4; SetWindow 2; Data (sample 4); Data (sample 5); Arrive 5; Arrive 6;
   AckArrive 1; AckArrive 0; Arrive 7; Arrive 8; Data (sample 6); Ack; AckArrive 2; Data (sample 7); Arrive 9; Arrive 10].

Example C42_case : forall o, let w := ending Debug W8 o calmly in
  wrun Debug still (start still W8 o) calmly = Ok w /\ within_limits W8 w /\ ~ In (SetCode false) calmly
  /\ first_arrived w (length (w_out w)) /\ map (hd 0) (w_out w) = [2; 2; 2; 1; 1; 2; 2; 2; 1; 2; 2]
  /\ w_got w = map sample [0; 1; 2; 3; 4; 5; 6; 7] /\ (2 <= length (w_acks w))%nat.
Proof.
  intros o. cbv zeta. split; [destruct o; vm_compute; reflexivity|]. split.
  - apply (run_lossy Debug still W8 o calmly); [discriminate | |]; destruct o; vm_compute; reflexivity.
  - split; [intros H; repeat (destruct H as [H|H]; [discriminate|]); destruct H|].
    split; [destruct o; vm_compute; reflexivity|]. split; [destruct o; vm_compute; reflexivity|].
    split; [destruct o; vm_compute; reflexivity | destruct o; vm_compute; repeat constructor].
Qed.

(** ** C43: end to end *)

(** Any legal use of sender and receiver, any losses and repetitions, any acks:
    the run ends, nothing goes wrong, and the receiver hands out some of the data,
    each at most once and, if asked to, in order. *)
Theorem C43_end_to_end :
  forall m clk f o l, sizes_fit_during m clk f o l -> Forall (legal_action f) l -> N.of_nat (length (given l)) <= 65535 ->
  StronglySorted le (arrivals l) ->
  (forall before after w, l = before ++ Repair :: after -> wrun m clk (start clk f o) before = Ok w ->
     e_sources (w_enc w) <> []) ->
  exists w which, wrun m clk (start clk f o) l = Ok w
  /\ w_got w = map (fun i => nth i (given l) []) which
  /\ NoDup which /\ (forall i, In i which -> (i < length (given l))%nat)
  /\ (o = true -> StronglySorted lt which).
Proof.
  intros m clk f o l Hz Hl Hn Hs Hr.
  destruct (run_total m clk f o l Hl Hn Hs Hz) as [(w & E & Sd)|(b & a & w & El & E & Ew)].
  2: { destruct (Hr b a w El E Ew). }
  pose proof (sound_limits m clk f o l w Sd Hl Hn (Hz l [] w (eq_sym (app_nil_r l)) E)) as L.
  assert (Lf : lossy_fifo m clk f o w).
  { split; [apply (sd_reach _ _ _ _ _ _ Sd)|]. split; [apply (sd_fifo _ _ _ _ _ _ Sd) | exact L]. }
  destruct (delivered _ _ _ _ _ (lossy_normal _ _ _ _ _ Lf)) as (gs & _ & Eg & Hb & Nd & So).
  exists w, (map N.to_nat (handed (core_of w))). rewrite <- (sd_sent _ _ _ _ _ _ Sd). auto.
Qed.
Print Assumptions C43_end_to_end.

(** No repair of [tale] is requested from an empty window. *)
Example C43_repairs_case : forall o before after w, tale = before ++ Repair :: after ->
  wrun Debug still (start still W8 o) before = Ok w -> e_sources (w_enc w) <> [].
Proof.
  intros o before after w E R.
  assert (Hb : before = firstn (length before) tale).
  { rewrite E, firstn_app, firstn_all2, Nat.sub_diag by lia. cbn. rewrite app_nil_r. reflexivity. }
  assert (Hn : nth (length before) tale Ack = Repair) by (rewrite E, app_nth2, Nat.sub_diag by lia; reflexivity).
  assert (Hl : (length before < length tale)%nat) by (rewrite E, app_length; cbn [length]; lia).
  revert R. rewrite Hb. revert Hn Hl. generalize (length before). clear. intros n Hn Hl R.
  do 37 (destruct n as [|n]; [first [discriminate Hn |
     destruct o; vm_compute in R; injection R as <-; discriminate]|]).
  cbn in Hl. lia.
Qed.
