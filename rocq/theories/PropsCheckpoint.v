(** * C95: a repair over data that the receiver has is a checkpoint *)
From Coq Require Import ZArith NArith List Bool Lia Sorted.
From Verif Require Import Outcome GF Containers ContainersFacts Packetizer PropsPacketizer
  Encoder EncoderRun EncoderHistory EncoderSafe DetailDecoder Decoder DecoderInv DecoderStep DecoderFacts DecoderHeld
  DecoderProgress DecoderPrompt DecoderRecover System SystemInv SystemRun SystemArrive SystemFifo SystemGroups
  PropsSystem PropsRecover PropsFifo PropsBlind PropsSync PropsGaps PropsTwins PropsTwo PropsLag.
Import ListNotations.
Open Scope N_scope.

(** What the receiver has of the data that a repair is about: it holds them, or has given them up. *)
Definition has_all (w : world) (covered : list N) : Prop := forall x, In x covered -> held w x \/ obsolete w x.

Section Step.
Variable m : mode.
Variable clk : clock.
Variable f : field.
Variable o : bool.

(** Nothing that was sent before such a repair is still waited for. *)
Lemma nothing_awaited w k number covered : lossy_fifo m clk f o w -> count 1 (w_out w) <= 2 ^ 32 ->
  In k (w_arrived w) -> repair_packet_at m w k number covered -> has_all w covered ->
  forall x, x <= last covered 0 -> held w x \/ obsolete w x.
Proof.
  intros Lf Hc Hk Hp Ha x Hx. pose proof Lf as (R & Fi & L).
  destruct (run_fifo m clk f o w w R (extends_refl w) L Fi) as (gs & B & _).
  pose proof Hp as (p & r & q & P1 & P2 & P3 & _ & P5). pose proof (ok_chan _ _ _ _ _ _ B) as C.
  assert (Hg : exists g, nth_error gs k = Some g /\ is (w_sent w) m f p g).
  { pose proof (ch_is _ _ _ _ _ _ _ _ C) as F2. clear -F2 P1. revert k P1.
    induction F2 as [|p' g lp lg Hp F2 IH]; intros [|k] P1; try discriminate; cbn [nth_error] in P1.
    - exists g. split; [reflexivity|]. assert (p' = p) by congruence. subst. exact Hp.
    - apply (IH k P1). }
  destruct Hg as (g & Hg & Ig). destruct g as [y|W n]; [destruct Ig as (_ & Z & _); congruence|].
  destruct Ig as (_ & Wn & Ws & Wb & _ & r' & q' & R1 & _ & R2). assert (W = covered) as -> by congruence.
  destruct (in_dec N.eq_dec x covered) as [Hin|Hin]; [apply Ha, Hin|].
  assert (Hl : In (last covered 0) covered).
  { destruct (exists_last Wn) as (l & y & ->). rewrite last_last. apply in_or_app. right. left. reflexivity. }
  destruct (ch_gone _ _ _ _ _ _ _ _ C k covered n x Hg) as [[[S|[]]|S]|S]; [specialize (Wb _ Hl); lia | exact Hin | left; exact S | right; exact S|].
  right. apply (before_repair m clk f o w R L Fi Hc k number covered x Hk Hp).
  apply S. destruct covered; [congruence | left; reflexivity].
Qed.
(** The newest datum that a repair covers has been sent. *)
Lemma newest_sent w k number covered : lossy_fifo m clk f o w -> repair_packet_at m w k number covered -> last covered 0 < nsent w.
Proof.
  intros (R & Fi & L) (p & r & q & P1 & P2 & P3 & _ & P5).
  destruct (run_fifo m clk f o w w R (extends_refl w) L Fi) as (gs & B & _). pose proof (ok_chan _ _ _ _ _ _ B) as C.
  assert (Hg : exists g, nth_error gs k = Some g /\ is (w_sent w) m f p g).
  { pose proof (ch_is _ _ _ _ _ _ _ _ C) as F2. clear -F2 P1. revert k P1.
    induction F2 as [|p' g lp lg Hp F2 IH]; intros [|k] P1; try discriminate; cbn [nth_error] in P1.
    - exists g. split; [reflexivity|]. assert (p' = p) by congruence. subst. exact Hp.
    - apply (IH k P1). }
  destruct Hg as (g & Hg & Ig). destruct g as [y|W n]; [destruct Ig as (_ & Z & _); congruence|].
  destruct Ig as (_ & Wn & _ & Wb & _ & r' & q' & R1 & _ & R2). assert (W = covered) as -> by congruence.
  destruct (ch_new _ _ _ _ _ _ _ _ C k covered n Hg) as [Hn _].
  assert (Hl : In (last covered 0) covered).
  { destruct (exists_last Wn) as (l' & y & ->). rewrite last_last. apply in_or_app. right. left. reflexivity. }
  specialize (Wb _ Hl). lia.
Qed.
End Step.

(** ** C95 *)

(** The receiver has all data that an arrived repair is about. Then the user has got, of all
    data up to the newest of them, whatever the receiver holds, and the receiver waits for none
    of the others. *)
Theorem C95_checkpoint :
  forall m clk f w, lossy_fifo m clk f true w -> count 1 (w_out w) <= 2 ^ 32 ->
  forall k number covered, In k (w_arrived w) -> repair_packet_at m w k number covered -> has_all w covered ->
  exists which, StronglySorted lt which /\ w_got w = map (datum w) which
  /\ forall x, x <= last covered 0 -> (held w x \/ obsolete w x) /\ (held w x -> In (N.to_nat x) which).
Proof.
  intros m clk f w Lf Hc k number covered Hk Hp Ha.
  pose proof (nothing_awaited m clk f true w k number covered Lf Hc Hk Hp Ha) as Na.
  destruct (C37_nothing_withheld m clk f w Lf) as (which & W1 & W2 & W3 & _). exists which. split; [exact W1|]. split; [exact W2|].
  intros x Hx. split; [apply Na, Hx|]. intros Hh. apply W3; [exact Hh|]. intros y Lt. apply Na. lia.
Qed.
Print Assumptions C95_checkpoint.

(** Without ordering: each of these data has been delivered or given up. *)
Theorem C95_unordered :
  forall m clk f w, lossy_fifo m clk f false w -> count 1 (w_out w) <= 2 ^ 32 ->
  forall k number covered, In k (w_arrived w) -> repair_packet_at m w k number covered -> has_all w covered ->
  exists which, NoDup which /\ w_got w = map (datum w) which
  /\ forall x, x <= last covered 0 -> In (N.to_nat x) which \/ obsolete w x.
Proof.
  intros m clk f w Lf Hc k number covered Hk Hp Ha.
  destruct (delivered _ _ _ _ _ (lossy_normal _ _ _ _ _ Lf)) as (gs & B & Eg & _ & Nd & _).
  exists (map N.to_nat (handed (core_of w))). split; [exact Nd|]. split; [exact Eg|]. intros x Hx.
  destruct (nothing_awaited m clk f false w k number covered Lf Hc Hk Hp Ha x Hx) as [H|H]; [left | right; exact H].
  apply in_map. apply (do_held _ _ _ _ (ok_dec _ _ _ _ _ _ B)); [apply (do_order _ _ _ _ (ok_dec _ _ _ _ _ _ B)) | exact H].
Qed.
Print Assumptions C95_unordered.

(** If the window always had room, the user has got all of them. *)
Theorem C95_complete :
  forall m clk f l w, wrun m clk (start clk f true) l = Ok w -> lossy_fifo m clk f true w -> roomy (length (w_sent w)) l ->
  count 1 (w_out w) <= 2 ^ 32 ->
  forall k number covered, In k (w_arrived w) -> repair_packet_at m w k number covered -> has_all w covered ->
  exists n, last covered 0 < N.of_nat n /\ w_got w = firstn n (w_sent w).
Proof.
  intros m clk f l w E Lf Ro Hc k number covered Hk Hp Ha. pose proof Lf as (R & Fi & L).
  pose proof (nothing_awaited m clk f true w k number covered Lf Hc Hk Hp Ha) as Na.
  destruct (handed_seq m clk f l w E Lf Ro) as (Es & Le & _).
  exists (length (w_got w)). split; [|apply (C76_no_gaps m clk f l w E Lf Ro)].
  destruct (delivered _ _ _ _ _ (lossy_normal _ _ _ _ _ Lf)) as (gs & B & _).
  destruct (room_run m clk f true w L l w E (extends_refl w) Fi Ro) as [_ K].
  destruct (fifo_state _ _ _ _ _ Lf) as (_ & _ & P & _).
  destruct (ok_dec _ _ _ _ _ _ B) as [_ _ _ I Io _]. destruct (P Io) as [[Rd Nx] No].
  set (x := last covered 0) in *.
  assert (Hh : In x (handed (core_of w))).
  { assert (Hb : x < nsent w).
    { apply (newest_sent m clk f true w k number covered Lf Hp). }
    assert (Held : held w x -> In x (handed (core_of w))).
    { intros H. destruct (N.lt_ge_cases x (d_first (core_of w))) as [Lt|Ge]; [apply (y_old _ _ Rd); assumption|]. exfalso.
      assert (F : held w (d_first (core_of w))).
      { destruct (Na (d_first (core_of w)) Ge) as [H1|H1]; [exact H1|].
        unfold obsolete, outdated in H1. change (dc_core (w_dec w)) with (core_of w) in H1. rewrite No in H1. discriminate. }
      apply Nx, (y_wait _ _ Rd); [exact F | lia]. }
    destruct (K x Hb) as [H|[H|H]]; [|apply Held, H | exact H].
    destruct (Na x (N.le_refl _)) as [H1|H1]; [apply Held, H1|]. destruct (window_fresh _ _ _ _ _ _ _ B H H1). }
  apply (in_map N.to_nat) in Hh. rewrite Es in Hh. apply in_seq in Hh. lia.
Qed.
Print Assumptions C95_complete.

Theorem C95_complete_unordered :
  forall m clk f l w, wrun m clk (start clk f false) l = Ok w -> lossy_fifo m clk f false w -> roomy (length (w_sent w)) l ->
  count 1 (w_out w) <= 2 ^ 32 ->
  forall k number covered, In k (w_arrived w) -> repair_packet_at m w k number covered -> has_all w covered ->
  exists which, NoDup which /\ w_got w = map (datum w) which /\ forall x, x <= last covered 0 -> In (N.to_nat x) which.
Proof.
  intros m clk f l w E Lf Ro Hc k number covered Hk Hp Ha. pose proof Lf as (R & Fi & L).
  destruct (delivered _ _ _ _ _ (lossy_normal _ _ _ _ _ Lf)) as (gs & B & Eg & _ & Nd & _).
  exists (map N.to_nat (handed (core_of w))). split; [exact Nd|]. split; [exact Eg|]. intros x Hx. apply in_map.
  pose proof (newest_sent m clk f false w k number covered Lf Hp) as Hb.
  assert (Held : held w x -> In x (handed (core_of w))).
  { apply (do_held _ _ _ _ (ok_dec _ _ _ _ _ _ B)). apply (do_order _ _ _ _ (ok_dec _ _ _ _ _ _ B)). }
  destruct (room_run m clk f false w L l w E (extends_refl w) Fi Ro) as [_ K].
  destruct (K x) as [H|[H|H]]; [lia | | apply Held, H | exact H].
  destruct (nothing_awaited m clk f false w k number covered Lf Hc Hk Hp Ha x Hx) as [H1|H1]; [apply Held, H1|].
  destruct (window_fresh _ _ _ _ _ _ _ B H H1).
Qed.
Print Assumptions C95_complete_unordered.

(** *** A case *)

(** The second and the fourth datum are lost; the first three data are acknowledged before the others are sent. *)
Definition checked : list action :=
  [SetRate 3; Data [7]; Data [8]; Data [9]; Arrive 0; Arrive 2; Arrive 3; Ack; AckArrive 0;
   Data [10]; Data [11]; Data [12]; Arrive 5; Arrive 6; Arrive 7].

Example C95_case : exists w, wrun Debug still (start still W8 true) checked = Ok w /\ lossy_fifo Debug still W8 true w
  /\ roomy (length (w_sent w)) checked /\ count 1 (w_out w) <= 2 ^ 32
  /\ In 7%nat (w_arrived w) /\ repair_packet_at Debug w 7 1 [3; 4; 5] /\ has_all w [3; 4; 5]
  /\ w_got w = [[7]; [8]; [9]; [10]; [11]; [12]].
Proof.
  assert (C : ordered_checks checked (fun w => equal (list_eq_dec N.eq_dec) (w_got w) [[7]; [8]; [9]; [10]; [11]; [12]]
     && equal Nat.eq_dec (w_arrived w) [0; 2; 3; 5; 6; 7]%nat && covers w 7 1 [3; 4; 5]
     && equal N.eq_dec (mkeys (d_sources (core_of w))) [3; 4; 5] && (count 1 (w_out w) <=? 2 ^ 32)) = true) by (vm_compute; reflexivity).
  apply ordered_checks_spec in C. destruct C as (w & E & Lf & C).
  do 4 (apply andb_true_iff in C; let K := fresh "K" in destruct C as [C K]).
  apply equal_spec in C, K0, K2. apply covers_spec in K1. apply N.leb_le in K. exists w. split; [exact E|]. split; [exact Lf|].
  split. { intros k Hk. exfalso. unfold checked in Hk. cbn [In] in Hk. repeat (destruct Hk as [Hk|Hk]; [discriminate|]). destruct Hk. }
  split; [exact K|]. split; [rewrite K2; cbn [In]; auto 10|]. split; [exact K1|].
  split; [intros x Hx; left; unfold held; change (dc_core (w_dec w)) with (core_of w); rewrite K0; exact Hx | exact C].
Qed.

(** With a window that is full it is false that the user has got everything up to there. *)
Theorem C95_full_window_refuted :
  exists w, lossy_fifo Debug still W8 true w /\ count 1 (w_out w) <= 2 ^ 32
  /\ In 4%nat (w_arrived w) /\ repair_packet_at Debug w 4 0 [2; 3] /\ has_all w [2; 3]
  /\ ~ In (datum w 0) (w_got w).
Proof.
  assert (C : ordered_checks (five ++ [Arrive 4]) (fun w => equal (list_eq_dec N.eq_dec) (w_got w) [[8]; [9]; [10]]
     && equal Nat.eq_dec (w_arrived w) [1; 2; 4]%nat && covers w 4 0 [2; 3] && equal N.eq_dec (mkeys (d_sources (core_of w))) [2; 3]
     && (count 1 (w_out w) <=? 2 ^ 32) && equal N.eq_dec (datum w 0) [7]) = true) by (vm_compute; reflexivity).
  apply ordered_checks_spec in C. destruct C as (w & E & Lf & C).
  do 5 (apply andb_true_iff in C; let K := fresh "K" in destruct C as [C K]).
  apply equal_spec in C, K, K1, K3. apply covers_spec in K2. apply N.leb_le in K0. exists w. split; [exact Lf|]. split; [exact K0|].
  split; [rewrite K3; cbn [In]; auto 10|]. split; [exact K2|].
  split; [intros x Hx; left; unfold held; change (dc_core (w_dec w)) with (core_of w); rewrite K1; exact Hx|].
  rewrite C, K. intros H. cbn [In] in H. repeat (destruct H as [H|H]; [discriminate|]). destruct H.
Qed.
Print Assumptions C95_full_window_refuted.
