(** * Windows that are never full: nothing is given up (C76) *)
From Coq Require Import ZArith NArith Arith List Bool Lia Sorted.
From Verif Require Import Outcome GF Containers ContainersFacts Packetizer PropsPacketizer
  Encoder EncoderRun EncoderFacts EncoderHistory EncoderSafe DetailDecoder Decoder DecoderInv DecoderStep DecoderFacts DecoderHeld DecoderPrompt
  System SystemInv SystemRun SystemArrive SystemFifo SystemGroups PropsSystem PropsRecover PropsFifo PropsSync.
Import ListNotations.
Open Scope N_scope.

(** The calls of [set_window_size] ask for room for [n] sources or more. The
    window of a new encoder has room for 2^64-1. *)
Definition roomy (n : nat) (l : list action) : Prop := forall k, In (SetWindow k) l -> N.of_nat n <= k.

(** ** The sender *)

Lemma push_room e s l : N.of_nat (length (e_sources e)) < e_window_size e -> push_source e s = Ok l ->
  l = e_sources e ++ [s].
Proof.
  intros H E. unfold push_source in E. destruct (N.eqb_spec (N.of_nat (length (e_sources e))) (e_window_size e)); [lia|].
  congruence.
Qed.

(** What a call of the encoder does to the window, if there is room. *)
Lemma window_step m e op e' r : estep m e op = (e', r) -> ~ is_fault r ->
  (forall d, op = EData d -> N.of_nat (length (e_sources e)) < e_window_size e) ->
  (e_window_size e' = match op with ESetWindow n => n | _ => e_window_size e end)
  /\ match op with
     | EData d => e_sources e' = e_sources e ++ [{| es_id := e_source_id e; es_data := d |}]
     | EPacket _ => True
     | _ => e_sources e' = e_sources e
     end.
Proof.
  intros E Nf Hr. destruct op as [d|p| |b|k|n|b].
  - destruct (estep_data _ _ _ _ _ E Nf) as (out & _ & A). split; [apply (ad_window _ _ _ _ _ A)|].
    apply (push_room _ _ _ (Hr d eq_refl) (ad_push _ _ _ _ _ A)).
  - destruct (estep_packet _ _ _ _ _ E Nf) as (q & _ & _ & A & _). split; [apply (ap_window _ _ _ _ _ A) | exact I].
  - destruct (estep_repair _ _ _ _ E Nf) as (out & _ & G). apply generate_repair_ok in G.
    destruct G as (rr & ww & _ & _ & _ & _ & _ & _ & W & _ & _ & _ & S & _). split; [exact W | exact S].
  - destruct (estep_setters _ _ _ _ _ E Nf I) as (_ & S & _ & _ & _ & _ & W). split; [exact W | exact S].
  - destruct (estep_setters _ _ _ _ _ E Nf I) as (_ & S & _ & _ & _ & _ & W). split; [exact W | exact S].
  - destruct (estep_setters _ _ _ _ _ E Nf I) as (_ & S & _ & _ & _ & _ & W). split; [exact W | exact S].
  - destruct (estep_setters _ _ _ _ _ E Nf I) as (_ & S & _ & _ & _ & _ & W). split; [exact W | exact S].
Qed.

Lemma window_length f all m o gs w : wok all m f o gs w -> (length (e_sources (w_enc w)) <= length (w_sent w))%nat.
Proof.
  intros B. destruct (ok_enc _ _ _ _ _ _ B) as [_ _ _ So Be _]. unfold nsent in Be.
  destruct (map es_id (e_sources (w_enc w))) as [|x t] eqn:El.
  - apply map_eq_nil in El. rewrite El. cbn. lia.
  - pose proof (sorted_span _ _ So Be x t eq_refl) as H. rewrite <- El, map_length in H. lia.
Qed.

(** What one call of the sender can do. *)
Lemma sender_room m w op data w' all f o gs : wok all m f o gs w -> sender m w op data = Ok w' ->
  (forall d, op = EData d -> N.of_nat (length (e_sources (w_enc w))) < e_window_size (w_enc w)) ->
  (e_window_size (w_enc w') = match op with ESetWindow n => n | _ => e_window_size (w_enc w) end)
  /\ match op with
     | EData d => map es_id (e_sources (w_enc w')) = map es_id (e_sources (w_enc w)) ++ [nsent w]
     | EPacket _ => True
     | _ => e_sources (w_enc w') = e_sources (w_enc w)
     end.
Proof.
  intros B E Hr. unfold sender in E. destruct (estep m (w_enc w) op) as [e r] eqn:Ee.
  apply bind_ok in E. destruct E as (out & Eo & E). apply survive_ok in Eo. destruct Eo as [Nf _].
  assert (Ew : w_enc w' = e) by (apply (f_equal (fun r => match r with Ok y => w_enc y | _ => e end)) in E; symmetry; exact E).
  rewrite Ew. destruct (window_step _ _ _ _ _ Ee Nf Hr) as [W S]. split; [exact W|].
  destruct op; try exact S. rewrite S, map_app. cbn [map es_id].
  rewrite (eo_source_id _ _ _ _ (ok_enc _ _ _ _ _ _ B)). reflexivity.
Qed.

(** ** Runs *)

Definition kept (w : world) (x : N) : Prop := in_window w x \/ held w x \/ In x (handed (core_of w)).

Lemma room_run m clk f o w' : within_limits f w' -> forall l w,
  wrun m clk (start clk f o) l = Ok w -> extends w w' -> fifo w -> roomy (length (w_sent w')) l ->
  N.of_nat (length (w_sent w')) <= e_window_size (w_enc w)
  /\ forall x, x < nsent w -> kept w x.
Proof.
  intros L l. induction l as [|a l IH] using rev_ind; intros w E X Fi Ro.
  - cbn [wrun] in E. assert (w = start clk f o) by congruence. subst. split.
    + cbn. destruct L as [_ B _ _]. change (2 ^ 32) with 4294967296 in B. lia.
    + intros x Hx. unfold nsent in Hx. cbn in Hx. lia.
  - destruct (wrun_snoc _ _ _ _ _ _ E) as (w0 & E0 & E1). pose proof (wstep_extends _ _ _ _ _ E1) as X0.
    pose proof (extends_trans _ _ _ X0 X) as X1. pose proof (fifo_before _ _ X0 Fi) as Fi0.
    destruct (IH w0 E0 X1 Fi0) as [Wi K]. { intros k Hk. apply Ro, in_or_app. left. exact Hk. }
    assert (R0 : reach m clk f o w0) by (exists l; exact E0).
    pose proof (reach_step _ _ _ _ _ _ _ R0 E1) as R1.
    assert (Lf : lossy_fifo m clk f o w). { split; [exact R1|]. split; [exact Fi|]. eapply limits_before; eassumption. }
    assert (Hh : forall x, held w0 x \/ In x (handed (core_of w0)) -> held w x \/ In x (handed (core_of w))).
    { intros x. apply (held_or_handed m clk f o w0 [a] w x R0); [|exact Lf]. cbn [wrun]. rewrite E1. reflexivity. }
    destruct (run_fifo m clk f o w0 w' R0 X1 L Fi0) as (gs & B & _).
    pose proof (window_length _ _ _ _ _ _ B) as Len.
    assert (Rcv : forall op arr, receiver m clk w0 op arr = Ok w ->
      N.of_nat (length (w_sent w')) <= e_window_size (w_enc w) /\ forall x, x < nsent w -> kept w x).
    { intros op arr Er. apply receiver_extends in Er. destruct Er as (_ & Es & _ & _ & Ee). rewrite Ee. split; [exact Wi|].
      intros x Hx. unfold nsent in Hx. rewrite Es in Hx. unfold kept, in_window. rewrite Ee.
      destruct (K x Hx) as [Q|Q]; [left; exact Q | right; apply Hh, Q]. }
    assert (Same : w = w0 -> N.of_nat (length (w_sent w')) <= e_window_size (w_enc w) /\ forall x, x < nsent w -> kept w x).
    { intros ->. split; [exact Wi | exact K]. }
    assert (Snd : forall op, sender m w0 op [] = Ok w ->
      match op with EData _ | EPacket _ => False | ESetWindow n => N.of_nat (length (w_sent w')) <= n | _ => True end ->
      N.of_nat (length (w_sent w')) <= e_window_size (w_enc w) /\ forall x, x < nsent w -> kept w x).
    { intros op Es Hop. destruct (sender_room _ _ _ _ _ _ _ _ _ B Es) as [W S]; [intros d ->; destruct Hop|].
      apply sender_extends in Es. destruct Es as (_ & Es & _). rewrite app_nil_r in Es. split.
      - rewrite W. destruct op; try exact Wi. exact Hop.
      - intros x Hx. unfold nsent in Hx. rewrite Es in Hx. unfold kept, in_window.
        replace (e_sources (w_enc w)) with (e_sources (w_enc w0)) by (destruct op; solve [destruct Hop | symmetry; exact S]).
        destruct (K x Hx) as [Q|Q]; [left; exact Q | right; apply Hh, Q]. }
    destruct a; cbn [wstep] in E1;
      try (eapply Rcv; exact E1); try (eapply Snd; [exact E1 | exact I]).
    + pose proof (sender_extends _ _ _ _ _ E1) as (_ & Es & _).
      assert (Hlt : (length (w_sent w0) < length (w_sent w'))%nat).
      { destruct (x_sent _ _ X) as [more Em]. rewrite Em, Es, !app_length. cbn [length]. lia. }
      destruct (sender_room _ _ _ _ _ _ _ _ _ B E1) as [W S]; [intros _ _; lia|]. split; [rewrite W; exact Wi|].
      intros x Hx. unfold kept, in_window. rewrite S. unfold nsent in Hx. rewrite Es, app_length in Hx. cbn [length] in Hx.
      destruct (N.eq_dec x (nsent w0)) as [->|Ne]; [left; apply in_or_app; right; left; reflexivity|].
      destruct (K x) as [Q|Q]; [unfold nsent in *; lia | left; apply in_or_app; left; exact Q | right; apply Hh, Q].
    + eapply Snd; [exact E1|]. apply Ro, in_or_app. right. left. reflexivity.
    + destruct (nth_error (w_out w0) k); [eapply Rcv; exact E1 | apply Same; congruence].
    + destruct (nth_error (w_acks w0) j) as [p|] eqn:Ej; [|apply Same; congruence].
      destruct (sender_room _ _ _ _ _ _ _ _ _ B E1) as [W _]; [discriminate|]. split; [rewrite W; exact Wi|].
      pose proof (sender_extends _ _ _ _ _ E1) as (_ & Es & _ & _ & _ & Ed). rewrite app_nil_r in Es.
      intros x Hx. unfold nsent in Hx. rewrite Es in Hx. destruct (K x Hx) as [Q|Q]; [|right; apply Hh, Q].
      destruct (in_dec N.eq_dec x (map es_id (e_sources (w_enc w)))) as [Y|Y]; [left; exact Y|]. right. apply Hh.
      assert (Kd : kept_id (core_of w0) x).
      { unfold sender in E1. cbn [estep] in E1. destruct (notify m (w_enc w0) p) as [e q] eqn:En.
        apply bind_ok in E1. destruct E1 as (out & Eo & E1). apply survive_ok in Eo. destruct Eo as [Hnf _].
        assert (Ee : w_enc w = e) by (apply (f_equal (fun r => match r with Ok y => w_enc y | _ => e end)) in E1; symmetry; exact E1).
        destruct B as [B1 _ _ B4 _ _ _]. rewrite Forall_forall in B4.
        assert (Hq : ~ is_fault q). { intros [y Hy]. apply Hnf. rewrite Hy. exists y. reflexivity. }
        destruct (ack_erases _ _ _ _ _ _ _ _ _ B1 (B4 _ (nth_error_In _ _ Ej)) En Hq) as (_ & _ & Q3).
        apply Q3; [exact Q|]. rewrite Ee in Y. exact Y. }
      destruct Kd as [Sd _]. pose proof (window_fresh _ _ _ _ _ _ _ B Q) as Nob.
      destruct Sd as [[Sd|[]]|Sd]; [left; exact Sd | destruct (Nob Sd)].
Qed.

(** ** C76 *)

(** Every datum given to the sender is in its window, held by the receiver or delivered. *)
Theorem C76_nothing_given_up :
  forall m clk f o l w, wrun m clk (start clk f o) l = Ok w -> lossy_fifo m clk f o w -> roomy (length (w_sent w)) l ->
  exists which, NoDup which /\ w_got w = map (datum w) which
  /\ forall x, (x < length (w_sent w))%nat -> in_window w (N.of_nat x) \/ held w (N.of_nat x) \/ In x which.
Proof.
  intros m clk f o l w E Lf Ro. pose proof Lf as (R & Fi & L).
  destruct (delivered _ _ _ _ _ (lossy_normal _ _ _ _ _ Lf)) as (gs & _ & Eg & _ & Nd & _).
  exists (map N.to_nat (handed (core_of w))). split; [exact Nd|]. split; [exact Eg|].
  intros x Hx. destruct (room_run m clk f o w L l w E (extends_refl w) Fi Ro) as [_ K].
  destruct (K (N.of_nat x)) as [H|[H|H]]; [unfold nsent; lia | left; exact H | right; left; exact H|].
  right. right. rewrite <- (Nat2N.id x). apply in_map, H.
Qed.
Print Assumptions C76_nothing_given_up.

Lemma closed_seq l : forall a, StronglySorted lt l -> (forall x, In x l -> (a <= x)%nat) ->
  (forall x y, In x l -> (a <= y < x)%nat -> In y l) -> l = seq a (length l).
Proof.
  induction l as [|b l IH]; intros a So Ge Cl; [reflexivity|]. cbn [length seq].
  apply StronglySorted_inv in So. destruct So as [So Fa]. rewrite Forall_forall in Fa.
  assert (b = a).
  { pose proof (Ge b (or_introl eq_refl)) as G. destruct (Nat.eq_dec b a) as [|Ne]; [assumption|].
    assert (H : In a (b :: l)) by (apply (Cl b); [left; reflexivity | lia]).
    destruct H as [H|H]; [congruence|]. specialize (Fa a H). lia. }
  subst b. f_equal. apply IH; [exact So | |].
  - intros x Hx. specialize (Fa x Hx). lia.
  - intros x y Hx Hy. destruct (Cl x y) as [H|H]; [right; exact Hx | lia | lia | exact H].
Qed.

Lemma datum_seq w k : (k <= length (w_sent w))%nat -> map (datum w) (seq 0 k) = firstn k (w_sent w).
Proof.
  unfold datum. generalize (w_sent w). intros l. revert k. induction l as [|d l IH]; intros k Hk.
  - cbn in Hk. assert (k = 0%nat) by lia. subst. reflexivity.
  - destruct k as [|k]; [reflexivity|]. cbn [length] in Hk. cbn [seq map firstn nth]. f_equal.
    rewrite <- seq_shift, map_map. cbn [nth]. apply IH. lia.
Qed.

(** What an ordering receiver has handed out. *)
Lemma handed_seq m clk f l w : wrun m clk (start clk f true) l = Ok w -> lossy_fifo m clk f true w -> roomy (length (w_sent w)) l ->
  map N.to_nat (handed (core_of w)) = seq 0 (length (w_got w)) /\ (length (w_got w) <= length (w_sent w))%nat
  /\ forall x, x < nsent w -> ~ In x (handed (core_of w)) -> d_first (core_of w) <= x.
Proof.
  intros E Lf Ro. pose proof Lf as (R & Fi & L).
  destruct (delivered _ _ _ _ _ (lossy_normal _ _ _ _ _ Lf)) as (gs & B & Eg & In_ & Nd & So). specialize (So eq_refl).
  destruct (fifo_state _ _ _ _ _ Lf) as (_ & _ & P & _).
  destruct (ok_dec _ _ _ _ _ _ B) as [_ _ _ I Io _].
  destruct (P Io) as [[Rd Nx] No]. pose proof (l_order _ _ _ _ _ (i_logs _ _ _ _ I) Io) as O. fold (core_of w) in O.
  destruct (room_run m clk f true w L l w E (extends_refl w) Fi Ro) as [_ K].
  assert (Low : forall y, y < nsent w -> y < d_first (core_of w) -> In y (handed (core_of w))).
  { intros y Hy Hf. destruct (K y Hy) as [H|[H|H]]; [| |exact H].
    - pose proof (window_fresh _ _ _ _ _ _ _ B H) as Nob. unfold obsolete, outdated in Nob. fold (core_of w) in Nob.
      destruct (not_outdated (core_of w) y) eqn:Ny; [|destruct (Nob eq_refl)].
      apply (y_old _ _ Rd); [|exact Hf]. destruct (o_gap _ _ _ _ O y Ny) as [Q|[]]; [exact Hf | exact Q].
    - apply (y_old _ _ Rd); assumption. }
  assert (Cl : forall x y, In x (map N.to_nat (handed (core_of w))) -> (y < x)%nat -> In y (map N.to_nat (handed (core_of w)))).
  { intros x y Hx Hlt. pose proof (In_ x Hx) as Hb. apply in_map_iff in Hx. destruct Hx as (x' & <- & Hx).
    unfold handed in Hx. apply in_map_iff in Hx. destruct Hx as (v & <- & Hv). apply (o_log_lt _ _ _ _ O) in Hv.
    rewrite <- (Nat2N.id y). apply in_handed, Low; [unfold nsent|]; lia. }
  assert (Es : map N.to_nat (handed (core_of w)) = seq 0 (length (map N.to_nat (handed (core_of w))))).
  { apply closed_seq; [exact So | intros; lia|]. intros x y Hx Hy. apply (Cl x y Hx). lia. }
  assert (El : length (w_got w) = length (map N.to_nat (handed (core_of w)))) by (rewrite Eg at 1; apply map_length).
  rewrite El. split; [exact Es|]. split.
  - destruct (length (map N.to_nat (handed (core_of w)))) as [|k] eqn:Ek; [lia|].
    apply In_. rewrite Es. apply in_seq. lia.
  - intros x Hx Hn. destruct (N.lt_ge_cases x (d_first (core_of w))) as [H|H]; [destruct (Hn (Low x Hx H)) | exact H].
Qed.

(** An ordering receiver delivers without gaps: what the user has got is a beginning of what was sent. *)
Theorem C76_no_gaps :
  forall m clk f l w, wrun m clk (start clk f true) l = Ok w -> lossy_fifo m clk f true w -> roomy (length (w_sent w)) l ->
  w_got w = firstn (length (w_got w)) (w_sent w).
Proof.
  intros m clk f l w E Lf Ro.
  destruct (delivered _ _ _ _ _ (lossy_normal _ _ _ _ _ Lf)) as (gs & B & Eg & _).
  destruct (handed_seq _ _ _ _ _ E Lf Ro) as (Es & Le & _).
  rewrite Eg at 1. rewrite Es. apply datum_seq, Le.
Qed.
Print Assumptions C76_no_gaps.

(** As long as the user lacks data, the sender can still send the one that is due: it is in the window. *)
Theorem C76_due_is_in_window :
  forall m clk f l w, wrun m clk (start clk f true) l = Ok w -> lossy_fifo m clk f true w -> roomy (length (w_sent w)) l ->
  (length (w_got w) < length (w_sent w))%nat -> in_window w (N.of_nat (length (w_got w))).
Proof.
  intros m clk f l w E Lf Ro Hlt. pose proof Lf as (R & Fi & L).
  destruct (handed_seq _ _ _ _ _ E Lf Ro) as (Es & Le & Hi).
  destruct (room_run m clk f true w L l w E (extends_refl w) Fi Ro) as [_ K].
  assert (Hx : N.of_nat (length (w_got w)) < nsent w) by (unfold nsent; lia).
  assert (Nh : ~ In (N.of_nat (length (w_got w))) (handed (core_of w))).
  { intros H. apply (in_map N.to_nat) in H. rewrite Es, Nat2N.id in H. apply in_seq in H. lia. }
  destruct (K _ Hx) as [H|[H|H]]; [exact H | | destruct (Nh H)]. exfalso.
  destruct (delivered _ _ _ _ _ (lossy_normal _ _ _ _ _ Lf)) as (gs & B & _).
  destruct (fifo_state _ _ _ _ _ Lf) as (_ & _ & P & _).
  destruct (ok_dec _ _ _ _ _ _ B) as [_ _ _ I Io _].
  destruct (P Io) as [[Rd Nx] _]. pose proof (l_order _ _ _ _ _ (i_logs _ _ _ _ I) Io) as O. fold (core_of w) in O.
  pose proof (Hi _ Hx Nh) as Hf. pose proof (y_wait _ _ Rd _ H Hf) as Wt.
  assert (Ef : d_first (core_of w) = N.of_nat (length (w_got w))).
  { destruct (length (w_got w)) as [|k]; [lia|].
    assert (Hk : In (N.to_nat (N.of_nat k)) (map N.to_nat (handed (core_of w)))) by (rewrite Es, Nat2N.id; apply in_seq; lia).
    apply in_handed in Hk. unfold handed in Hk. apply in_map_iff in Hk. destruct Hk as (v & Ev & Hv).
    apply (o_log_lt _ _ _ _ O) in Hv. lia. }
  apply Nx. rewrite Ef. exact Wt.
Qed.
Print Assumptions C76_due_is_in_window.

(** Without ordering, what has not been delivered is in the window. *)
Theorem C76_undelivered_is_in_window :
  forall m clk f l w, wrun m clk (start clk f false) l = Ok w -> lossy_fifo m clk f false w -> roomy (length (w_sent w)) l ->
  exists which, NoDup which /\ w_got w = map (datum w) which
  /\ forall x, (x < length (w_sent w))%nat -> In x which \/ in_window w (N.of_nat x).
Proof.
  intros m clk f l w E Lf Ro. pose proof Lf as (R & Fi & L).
  destruct (delivered _ _ _ _ _ (lossy_normal _ _ _ _ _ Lf)) as (gs & B & Eg & _ & Nd & _).
  exists (map N.to_nat (handed (core_of w))). split; [exact Nd|]. split; [exact Eg|].
  intros x Hx. destruct (room_run m clk f false w L l w E (extends_refl w) Fi Ro) as [_ K].
  assert (In (N.of_nat x) (handed (core_of w)) -> In x (map N.to_nat (handed (core_of w)))).
  { intros H. rewrite <- (Nat2N.id x). apply in_map, H. }
  destruct (K (N.of_nat x)) as [H'|[H'|H']]; [unfold nsent; lia | right; exact H' | left; apply H|left; apply H, H'].
  apply (do_held _ _ _ _ (ok_dec _ _ _ _ _ _ B)); [apply (do_order _ _ _ _ (ok_dec _ _ _ _ _ _ B)) | exact H'].
Qed.
Print Assumptions C76_undelivered_is_in_window.

(** *** Examples *)

(** Six data; a repair makes good the loss of the second one; an ack empties the window; the fourth one is lost. *)
Definition patient : list action :=
  [SetRate 3; Data (sample 0); Data (sample 1); Data (sample 2); Arrive 0; Arrive 2; Arrive 3; Ack; AckArrive 0;
   Data (sample 3); Data (sample 4); Data (sample 5); Arrive 5].

Example C76_applies : let w := ending Debug W8 true patient in
  wrun Debug still (start still W8 true) patient = Ok w /\ lossy_fifo Debug still W8 true w
  /\ roomy (length (w_sent w)) patient
  /\ map es_id (e_sources (w_enc w)) = [3; 4; 5] /\ mkeys (d_sources (dc_core (w_dec w))) = [0; 1; 2; 4]
  /\ w_got w = map sample [0; 1; 2].
Proof.
  assert (E : wrun Debug still (start still W8 true) patient = Ok (ending Debug W8 true patient)) by (vm_compute; reflexivity).
  cbv zeta. split; [exact E|]. split; [|split; [|split; [|split]]].
  - apply run_lossy with patient; [discriminate | exact E | vm_compute; reflexivity].
  - assert (T : forallb (fun a => match a with SetWindow _ => false | _ => true end) patient = true) by reflexivity.
    rewrite forallb_forall in T. intros k H. specialize (T _ H). exfalso. cbn in T. discriminate T.
  - vm_compute. reflexivity.
  - vm_compute. reflexivity.
  - vm_compute. reflexivity.
Qed.

(** With a window of five sources, data are given up: in [tale] the user gets the data 0, 1, 2 and 4. *)
Theorem C76_small_windows_refuted :
  exists l w, wrun Debug still (start still W8 true) l = Ok w /\ lossy_fifo Debug still W8 true w
  /\ (forall n, w_got w <> firstn n (w_sent w))
  /\ ~ in_window w 3 /\ ~ held w 3 /\ ~ In (datum w 3) (w_got w).
Proof.
  exists tale, (ending Debug W8 true tale).
  assert (E : wrun Debug still (start still W8 true) tale = Ok (ending Debug W8 true tale)) by (vm_compute; reflexivity).
  split; [exact E|]. split; [apply C30_lossy_case|].
  assert (Eg : w_got (ending Debug W8 true tale) = map sample [0; 1; 2; 4]) by (vm_compute; reflexivity).
  assert (Es : w_sent (ending Debug W8 true tale) = map sample [0; 1; 2; 3; 4; 5; 6; 7; 8; 9; 10; 11; 12]) by (vm_compute; reflexivity).
  assert (Ew : map es_id (e_sources (w_enc (ending Debug W8 true tale))) = [8; 9; 10; 11; 12]) by (vm_compute; reflexivity).
  assert (Eh : existsb (N.eqb 3) (mkeys (d_sources (dc_core (w_dec (ending Debug W8 true tale))))) = false) by (vm_compute; reflexivity).
  unfold in_window, held, datum. rewrite Eg, Es, Ew. split; [|split; [|split]].
  - intros n H. do 4 (destruct n as [|n]; [discriminate|]). discriminate.
  - intros H. cbn [In] in H. repeat (destruct H as [H|H]; [discriminate|]). destruct H.
  - intros H. assert (T : existsb (N.eqb 3) (mkeys (d_sources (dc_core (w_dec (ending Debug W8 true tale))))) = true); [|congruence].
    apply existsb_exists. exists 3. split; [exact H | reflexivity].
  - intros H. cbn [In map nth] in H. repeat (destruct H as [H|H]; [discriminate|]). destruct H.
Qed.
Print Assumptions C76_small_windows_refuted.
