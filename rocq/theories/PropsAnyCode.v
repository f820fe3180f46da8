(** * Properties of the closed system: nothing lost, with any code (C89) *)
From Coq Require Import ZArith NArith Arith List Bool Lia Sorted.
From Verif Require Import Outcome GF Containers ContainersFacts Packetizer PropsPacketizer
  Encoder EncoderRun EncoderHistory DetailDecoder Decoder DecoderInv DecoderStep DecoderRecover DecoderFacts DecoderHeld
  System SystemInv SystemRun SystemArrive SystemFifo SystemLossless SystemAnyCode PropsSystem PropsRecover PropsFifo.
Import ListNotations.
Open Scope N_scope.
Open Scope outcome_scope.

(** Packet number [k] is about datum [x]: it is its source, or a repair that covers it. *)
Definition carries (m : mode) (w : world) (k : nat) (x : N) : Prop :=
  source_packet_at m w k x \/ exists number covered, repair_packet_at m w k number covered /\ In x covered.

(** The number of source packets among some packets. *)
Definition sources_among (l : list packet) : nat := length (filter (fun p => type_of p =? 2) l).

Lemma carries_is m f o all gs w k x : wok all m f o gs w ->
  (carries m w k x <-> exists g, nth_error gs k = Some g
     /\ match g with GSource y => x = y | GRepair W _ => In x W end).
Proof.
  intros B. pose proof (ch_is _ _ _ _ _ _ _ _ (ok_chan _ _ _ _ _ _ B)) as F. split.
  - intros [(p & s & q & Ek & Ht & Er & Ei)|(number & covered & (p & r & q & Ek & Ht & Er & En & Ec) & Hin)].
    + destruct (forall2_nth _ _ _ F k p Ek) as (g & Hg & Is). exists g. split; [exact Hg|].
      destruct g as [y|W n]; [|destruct Is as [Is _]; congruence].
      destruct Is as (_ & _ & s' & q' & R1 & R2 & _). congruence.
    + destruct (forall2_nth _ _ _ F k p Ek) as (g & Hg & Is). exists g. split; [exact Hg|].
      destruct g as [y|W n]; [destruct Is as (_ & Is & _); congruence|].
      destruct Is as (_ & _ & _ & _ & _ & r' & q' & R1 & _ & R2). assert (r' = r) by congruence. subst r'. congruence.
  - intros (g & Hg & Hx).
    assert (Hp : exists p, nth_error (w_out w) k = Some p).
    { destruct (nth_error (w_out w) k) as [p|] eqn:Ep; [eauto|]. apply nth_error_None in Ep.
      rewrite (same_length _ _ _ F) in Ep. apply nth_error_None in Ep. congruence. }
    destruct Hp as [p Ep]. destruct (forall2_nth _ _ _ F k p Ep) as (g' & Hg' & Is).
    assert (g' = g) by congruence. subst g'. destruct g as [y|W n].
    + left. destruct Is as (_ & Ht & s & q & R1 & R2 & _). exists p, s, q. subst. auto.
    + right. destruct Is as (Ht & _ & _ & _ & _ & r & q & R1 & _ & R2). exists (dr_id r), W.
      split; [|exact Hx]. exists p, r, q. auto 10.
Qed.

Lemma reached_iff gs n x : steady gs -> (n <= length gs)%nat ->
  ((N.to_nat x < reached (firstn n gs))%nat <-> exists k g, (k < n)%nat /\ nth_error gs k = Some g
     /\ match g with GSource y => x = y | GRepair W _ => In x W end).
Proof.
  intros St. induction n as [|n IH]; intros Hn.
  - cbn [firstn reached]. split; [lia|]. intros (k & g & Hk & _). lia.
  - destruct (nth_error gs n) as [g|] eqn:Eg.
    2: { apply nth_error_None in Eg. lia. }
    rewrite (reached_next _ _ _ Eg). pose proof (St n g Eg) as Sg. split.
    + intros H. destruct (Nat.lt_ge_cases (N.to_nat x) (reached (firstn n gs))) as [L|L].
      * apply IH in L; [|lia]. destruct L as (k & g' & A & B & C). exists k, g'. split; [lia|]. auto.
      * exists n, g. split; [lia|]. split; [exact Eg|]. destruct g as [y|W n']; cbn [top] in H; [lia|].
        destruct Sg as (S1 & S2 & S3). assert (x = last W 0) by lia. subst x.
        destruct (exists_last S1) as (l & a & ->). rewrite last_last. apply in_app_iff. right. left. reflexivity.
    + intros (k & g' & A & B & C). destruct (Nat.eq_dec k n) as [->|Hne].
      * assert (g' = g) by congruence. subst g'. destruct g as [y|W n']; cbn [top]; [subst; lia|].
        destruct Sg as (S1 & S2 & S3). pose proof (sorted_last_max _ _ S2 C). lia.
      * assert (X : (N.to_nat x < reached (firstn n gs))%nat); [|lia].
        apply IH; [lia|]. exists k, g'. split; [lia|]. auto.
Qed.

Lemma firstn_datum (s : list (list N)) c : (c <= length s)%nat -> map (fun i => nth i s []) (seq 0 c) = firstn c s.
Proof.
  revert c. induction s as [|d s IH]; intros c Hc'.
  - destruct c; [reflexivity | cbn [length] in Hc'; lia].
  - destruct c as [|c]; [reflexivity|]. cbn [length] in Hc'. cbn [seq map firstn nth]. f_equal.
    rewrite <- seq_shift, map_map. apply IH. lia.
Qed.

(** Any code, systematic or not, changed at will, and the first [n] packets: the data
    delivered are those these packets are about, which are the first ones sent. Nothing
    is missing or kept for later, and every datum without a source packet was decoded. *)
Theorem C89_lossless :
  forall m clk f o l w n, wrun m clk (start clk f o) l = Ok w -> within_limits f w -> first_arrived w n ->
  exists c, (c <= length (w_sent w))%nat /\ w_got w = firstn c (w_sent w)
  /\ (forall x, (N.to_nat x < c)%nat <-> exists k, (k < n)%nat /\ carries m w k x)
  /\ (forall x, ~ missing w x) /\ pending w = []
  /\ N.of_nat c = d_decoded (dc_core (w_dec w)) + N.of_nat (sources_among (firstn n (w_out w)))
  /\ d_failed (dc_core (w_dec w)) = 0.
Proof.
  intros m clk f o l w n E L Ha.
  assert (En : length (w_arrived w) = n) by (rewrite Ha; apply seq_length).
  assert (Lo : lossless w) by (unfold lossless; rewrite En; exact Ha).
  destruct (run_any m clk f o l w w E (extends_refl w) L Lo) as (gs & k & B & St & Re & Ti & Ct).
  rewrite En in Ti, Ct. destruct Ti as [A1 A2 A3 A4 A5 A6 A7 A8 A9].
  assert (R : reach m clk f o w) by (exists l; exact E).
  assert (Nm : normal m clk f o w).
  { split; [exact R|]. split; [apply fifo_repairs, lossless_fifo, Lo | exact L]. }
  destruct (delivered _ _ _ _ _ Nm) as (_ & _ & Eg & _).
  pose proof (same_length _ _ _ (ch_is _ _ _ _ _ _ _ _ (ok_chan _ _ _ _ _ _ B))) as Hlen.
  assert (Hn : (n <= length gs)%nat).
  { destruct n as [|n0]; [lia|]. assert (Hin : In n0 (w_arrived w)) by (rewrite Ha; apply in_seq; lia).
    pose proof (arrived_emitted m clk f o w R) as Y. rewrite Forall_forall in Y. specialize (Y n0 Hin). cbn in Y. lia. }
  set (c := reached (firstn n gs)) in *.
  assert (Hc : (c <= length (w_sent w))%nat).
  { unfold c. rewrite <- Re. rewrite <- (firstn_skipn n gs) at 2. rewrite reached_app. lia. }
  exists c. split; [exact Hc|]. split; [|split; [|split; [|split; [|split]]]].
  - rewrite Eg, A5.
    assert (Eu : map N.to_nat (upto c) = seq 0 c).
    { unfold upto. rewrite map_map. erewrite map_ext; [apply map_id|]. intros a. apply Nat2N.id. }
    rewrite Eu. apply firstn_datum, Hc.
  - intros x. unfold c. rewrite (reached_iff gs n x St Hn). split.
    + intros (j & g & Hj & Hg & Hx). exists j. split; [exact Hj|]. apply (carries_is m f o _ gs w j x B). eauto.
    + intros (j & Hj & Hx). apply (carries_is m f o _ gs w j x B) in Hx. destruct Hx as (g & Hg & Hx). eauto.
  - intros x Hx. unfold missing in Hx. fold (core_of w) in Hx. rewrite A1 in Hx. exact Hx.
  - unfold pending. fold (core_of w). rewrite A2. reflexivity.
  - fold (core_of w). rewrite A8. exact Ct.
  - exact A9.
Qed.
Print Assumptions C89_lossless.

(** All packets arrived: all data are delivered. *)
Theorem C89_all_delivered :
  forall m clk f o l w, wrun m clk (start clk f o) l = Ok w -> within_limits f w ->
  first_arrived w (length (w_out w)) -> w_got w = w_sent w.
Proof.
  intros m clk f o l w E L Ha.
  destruct (C89_lossless m clk f o l w _ E L Ha) as (c & Hc & Eg & Hx & _).
  assert (En : length (w_arrived w) = length (w_out w)) by (rewrite Ha; apply seq_length).
  assert (Lo : lossless w) by (unfold lossless; rewrite En; exact Ha).
  destruct (run_any m clk f o l w w E (extends_refl w) L Lo) as (gs & k & B & St & Re & _).
  pose proof (same_length _ _ _ (ch_is _ _ _ _ _ _ _ _ (ok_chan _ _ _ _ _ _ B))) as Hlen.
  assert (c = length (w_sent w)).
  { destruct (Nat.eq_dec c (length (w_sent w))) as [Y|Y]; [exact Y|]. exfalso.
    assert (Z : (N.to_nat (N.of_nat c) < reached (firstn (length (w_out w)) gs))%nat).
    { rewrite Hlen, firstn_all, Re, Nat2N.id. lia. }
    apply (reached_iff gs) in Z; [|exact St | lia]. destruct Z as (j & g & Hj & Hg & Hxx).
    assert ((N.to_nat (N.of_nat c) < c)%nat); [|lia].
    apply Hx. exists j. split; [exact Hj|]. apply (carries_is m f o _ gs w j _ B). eauto. }
  subst c. rewrite Eg. apply firstn_all.
Qed.
Print Assumptions C89_all_delivered.

(** Immediately: the first packet about a datum delivers exactly this datum; a packet
    about earlier data delivers nothing. *)
Theorem C89_immediate :
  forall m clk f o l w k w', wrun m clk (start clk f o) l = Ok w ->
  wstep m clk w (Arrive k) = Ok w' -> within_limits f w' -> first_arrived w' (k + 1) -> (k < length (w_out w))%nat ->
  (forall x, carries m w k x -> (forall j, (j < k)%nat -> ~ carries m w j x) -> w_got w' = w_got w ++ [datum w (N.to_nat x)])
  /\ ((forall x, carries m w k x -> exists j, (j < k)%nat /\ carries m w j x) -> w_got w' = w_got w).
Proof.
  intros m clk f o l w k w' E E1 L Ha Hk. pose proof (wstep_extends _ _ _ _ _ E1) as X.
  assert (E' : wrun m clk (start clk f o) (l ++ [Arrive k]) = Ok w').
  { rewrite wrun_app, E. cbn [bind wrun]. rewrite E1. reflexivity. }
  pose proof (limits_before _ _ _ X L) as L0.
  destruct (nth_error (w_out w) k) as [p|] eqn:Ek; [|apply nth_error_None in Ek; lia].
  assert (Ea : w_arrived w' = w_arrived w ++ [k] /\ w_sent w' = w_sent w /\ w_out w' = w_out w).
  { cbn [wstep] in E1. rewrite Ek in E1. apply receiver_extends in E1. repeat split; apply E1. }
  destruct Ea as (Ea & Es & Eo).
  assert (Ha0 : first_arrived w k).
  { unfold first_arrived in *. rewrite Ha, Nat.add_1_r, seq_S in Ea. apply app_inj_tail in Ea. symmetry. apply Ea. }
  destruct (C89_lossless m clk f o l w k E L0 Ha0) as (c & Hc & Eg & Hx & _).
  destruct (C89_lossless m clk f o _ w' (k + 1) E' L Ha) as (c' & Hc' & Eg' & Hx' & _).
  assert (Same : forall j x, carries m w' j x <-> carries m w j x).
  { intros j x. unfold carries, source_packet_at, repair_packet_at. rewrite Eo. tauto. }
  assert (Cases : c' = c \/ c' = Datatypes.S c).
  { assert (En : length (w_arrived w) = k) by (rewrite Ha0; apply seq_length).
    assert (Lo : lossless w) by (unfold lossless; rewrite En; exact Ha0).
    destruct (run_any m clk f o l w w E (extends_refl w) L0 Lo) as (gs & kd & B & St & Re & _).
    pose proof (same_length _ _ _ (ch_is _ _ _ _ _ _ _ _ (ok_chan _ _ _ _ _ _ B))) as Hlen.
    assert (Eq : forall n z, (n <= length gs)%nat -> (forall x, (N.to_nat x < z)%nat <-> exists j, (j < n)%nat /\ carries m w j x) ->
        z = reached (firstn n gs)).
    { intros n z Hn Hz.
      assert (Y : forall x, (N.to_nat x < z <-> N.to_nat x < reached (firstn n gs))%nat).
      { intros x. rewrite Hz, (reached_iff gs n x St Hn). split.
        - intros (j & Hj & Hc0). apply (carries_is m f o _ gs w j x B) in Hc0. destruct Hc0 as (g & Hg & Hc0). eauto.
        - intros (j & g & Hj & Hg & Hc0). exists j. split; [exact Hj|]. apply (carries_is m f o _ gs w j x B). eauto. }
      pose proof (Y (N.of_nat z)) as Y1. pose proof (Y (N.of_nat (reached (firstn n gs)))) as Y2.
      rewrite !Nat2N.id in *. lia. }
    rewrite (Eq k c), (Eq (k + 1)%nat c'); try lia; try assumption.
    2: { intros x. rewrite Hx'. split; intros (j & Hj & Hc0); exists j; (split; [exact Hj | apply Same, Hc0]). }
    rewrite Nat.add_1_r. destruct (nth_error gs k) as [g|] eqn:Egk; [|apply nth_error_None in Egk; lia].
    rewrite (reached_next _ _ _ Egk). pose proof (St k g Egk) as Sg. destruct g as [y|W n']; cbn [top]; lia. }
  rewrite Es in Eg', Hc'. split.
  - intros x Cx Nx. assert (Hxc : ~ (N.to_nat x < c)%nat).
    { intros Y. apply Hx in Y. destruct Y as (j & Hj & Y). apply (Nx j Hj Y). }
    assert (Hxc' : (N.to_nat x < c')%nat) by (apply Hx'; exists k; split; [lia | apply Same, Cx]).
    destruct Cases as [-> | ->]; [contradiction|]. assert (Ex : N.to_nat x = c) by lia.
    rewrite Eg, Eg', Ex. unfold datum. revert Hc'. clear. revert c. induction (w_sent w) as [|d s IH]; intros c Hc; cbn [length] in Hc; [lia|].
    destruct c as [|c]; [reflexivity|]. rewrite (firstn_cons (Datatypes.S c)), (firstn_cons c). cbn [nth app]. f_equal. apply IH. lia.
  - intros H. destruct Cases as [-> | ->]; [congruence|]. exfalso.
    assert (Y : (N.to_nat (N.of_nat c) < Datatypes.S c)%nat) by lia.
    apply Hx' in Y. destruct Y as (j & Hj & Y). apply Same in Y.
    assert (Z : exists i, (i < k)%nat /\ carries m w i (N.of_nat c)).
    { destruct (Nat.eq_dec j k) as [->|Hne]; [apply H, Y | exists j; split; [lia | exact Y]]. }
    apply Hx in Z. lia.
Qed.
Print Assumptions C89_immediate.

(** Seven data: two not systematic, one systematic, then again not; acks in between,
    a window of two, repairs at the rate and on demand. *)
Definition changing : list action :=
  [SetCode false; SetRate 3; SetNb 2; Data (sample 0); Data (sample 1); Arrive 0; Arrive 1; AckArrive 0;
   SetCode true; Data (sample 2); Arrive 2; Arrive 3; SetCode false; Data (sample 3); Arrive 4; AckArrive 1;
   SetWindow 2; Data (sample 4); Repair; Arrive 5; Arrive 6; Data (sample 5); Data (sample 6); Arrive 7; Arrive 8; Arrive 9].

Example C89_case : forall o, let w := ending Debug W8 o changing in
  wrun Debug still (start still W8 o) changing = Ok w /\ within_limits W8 w
  /\ first_arrived w (length (w_out w)) /\ map (hd 0) (w_out w) = [1; 1; 2; 1; 1; 1; 1; 1; 1; 1]
  /\ w_got w = map sample [0; 1; 2; 3; 4; 5; 6] /\ (2 <= length (w_acks w))%nat
  /\ d_decoded (dc_core (w_dec w)) = 6.
Proof.
  intros o. cbv zeta. split; [destruct o; vm_compute; reflexivity|]. split.
  - apply (run_lossy Debug still W8 o changing); [discriminate | |]; destruct o; vm_compute; reflexivity.
  - split; [destruct o; vm_compute; reflexivity|]. split; [destruct o; vm_compute; reflexivity|].
    split; [destruct o; vm_compute; reflexivity|].
    split; [destruct o; vm_compute; repeat constructor | destruct o; vm_compute; reflexivity].
Qed.

(** One lost packet is too much for a code that is not systematic: the five that arrive
    after it deliver nothing. *)
Theorem C89_one_loss_refuted :
  exists l w, (forall m, wrun m still (start still W8 true) l = Ok w)
  /\ within_limits W8 w /\ w_arrived w = seq 1 5 /\ length (w_out w) = 6%nat
  /\ w_sent w = map sample [0; 1; 2; 3; 4; 5] /\ w_got w = [].
Proof.
  pose (l := [SetCode false; SetRate 10; Data (sample 0); Data (sample 1); Arrive 1; Data (sample 2); Arrive 2; Data (sample 3); Arrive 3;
              Data (sample 4); Arrive 4; Data (sample 5); Arrive 5]).
  exists l, (ending Debug W8 true l). split; [intros m; destruct m; vm_compute; reflexivity|].
  split; [apply (run_lossy Debug still W8 true l); [discriminate | |]; vm_compute; reflexivity|].
  split; [vm_compute; reflexivity|]. split; [vm_compute; reflexivity|]. split; vm_compute; reflexivity.
Qed.
Print Assumptions C89_one_loss_refuted.
