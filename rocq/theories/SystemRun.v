(** * Runs of the closed system *)
From Coq Require Import ZArith NArith List Bool Lia Sorted.
From Verif Require Import Outcome GF Containers ContainersFacts Packetizer PropsPacketizer Encoder EncoderRun EncoderHistory
  DetailDecoder Decoder DecoderInv System SystemInv.
Import ListNotations.
Open Scope N_scope.

(** The worlds that can be reached. *)
Definition reach (m : mode) (clk : clock) (f : field) (o : bool) (w : world) : Prop :=
  exists l, wrun m clk (start clk f o) l = Ok w.

Lemma wrun_snoc m clk l a : forall w w', wrun m clk w (l ++ [a]) = Ok w' ->
  exists w1, wrun m clk w l = Ok w1 /\ wstep m clk w1 a = Ok w'.
Proof.
  induction l as [|b l IH]; intros w w' H; cbn [app wrun] in H.
  - apply bind_ok in H. destruct H as (w1 & H1 & H2). exists w. split; [reflexivity|]. cbn in H2. congruence.
  - apply bind_ok in H. destruct H as (w1 & H1 & H2). destruct (IH _ _ H2) as (w2 & A & B).
    exists w2. split; [|exact B]. cbn [wrun]. rewrite H1. exact A.
Qed.

Lemma wrun_app m clk l l' : forall w w1, wrun m clk w l = Ok w1 -> wrun m clk w (l ++ l') = wrun m clk w1 l'.
Proof.
  induction l as [|b l IH]; intros w w1 H; cbn [app wrun] in *.
  - congruence.
  - apply bind_ok in H. destruct H as (w2 & H1 & H2). rewrite H1. cbn [bind]. apply IH, H2.
Qed.

(** Induction on what is reachable. *)
Lemma reach_ind m clk f o (P : world -> Prop) : P (start clk f o) ->
  (forall w a w', reach m clk f o w -> P w -> wstep m clk w a = Ok w' -> P w') ->
  forall w, reach m clk f o w -> P w.
Proof.
  intros H0 HS w [l H]. revert w H. induction l as [|a l IH] using rev_ind; intros w H.
  - cbn in H. assert (w = start clk f o) by congruence. subst. exact H0.
  - apply wrun_snoc in H. destruct H as (w1 & A & B). eapply HS; [exists l; exact A | apply IH, A | exact B].
Qed.

Lemma reach_step m clk f o w a w' : reach m clk f o w -> wstep m clk w a = Ok w' -> reach m clk f o w'.
Proof.
  intros [l H] E. exists (l ++ [a]). rewrite (wrun_app _ _ _ _ _ _ H). cbn [wrun]. rewrite E. reflexivity.
Qed.

(** Histories only grow. *)
Record extends (w w' : world) : Prop := {
  x_sent : exists l, w_sent w' = w_sent w ++ l;
  x_out : exists l, w_out w' = w_out w ++ l;
  x_arrived : exists l, w_arrived w' = w_arrived w ++ l;
  x_got : exists l, w_got w' = w_got w ++ l;
  x_acks : exists l, w_acks w' = w_acks w ++ l;
  x_lists : exists l, w_lists w' = w_lists w ++ l
}.

Lemma extends_refl w : extends w w.
Proof. constructor; exists []; rewrite app_nil_r; reflexivity. Qed.

Lemma extends_trans a b c : extends a b -> extends b c -> extends a c.
Proof.
  intros [[a1 A1] [a2 A2] [a3 A3] [a4 A4] [a5 A5] [a6 A6]] [[b1 B1] [b2 B2] [b3 B3] [b4 B4] [b5 B5] [b6 B6]].
  constructor.
  - exists (a1 ++ b1). rewrite B1, A1, app_assoc. reflexivity.
  - exists (a2 ++ b2). rewrite B2, A2, app_assoc. reflexivity.
  - exists (a3 ++ b3). rewrite B3, A3, app_assoc. reflexivity.
  - exists (a4 ++ b4). rewrite B4, A4, app_assoc. reflexivity.
  - exists (a5 ++ b5). rewrite B5, A5, app_assoc. reflexivity.
  - exists (a6 ++ b6). rewrite B6, A6, app_assoc. reflexivity.
Qed.

Lemma sender_extends m w op data w' : sender m w op data = Ok w' ->
  extends w w' /\ w_sent w' = w_sent w ++ data /\ w_arrived w' = w_arrived w /\ w_got w' = w_got w
  /\ w_acks w' = w_acks w /\ w_dec w' = w_dec w.
Proof.
  unfold sender. destruct (estep m (w_enc w) op) as [e r]. intros H. apply bind_ok in H. destruct H as (out & _ & H).
  assert (E : w' = {| w_enc := e; w_dec := w_dec w; w_sent := w_sent w ++ data; w_out := w_out w ++ out;
        w_arrived := w_arrived w; w_got := w_got w; w_acks := w_acks w;
        w_lists := w_lists w ++ map (fun _ => map es_id (e_sources e)) (of_type 1 out) |}) by congruence.
  subst w'. cbn. split; [|auto 10]. constructor; cbn; eauto; exists []; rewrite app_nil_r; reflexivity.
Qed.

Lemma receiver_extends m clk w op arr w' : receiver m clk w op arr = Ok w' ->
  extends w w' /\ w_sent w' = w_sent w /\ w_out w' = w_out w /\ w_arrived w' = w_arrived w ++ arr
  /\ w_enc w' = w_enc w.
Proof.
  unfold receiver. destruct (dstep m clk (w_dec w) op) as [d r]. intros H. apply bind_ok in H. destruct H as (out & _ & H).
  assert (E : w' = {| w_enc := w_enc w; w_dec := d; w_sent := w_sent w; w_out := w_out w;
        w_arrived := w_arrived w ++ arr; w_got := w_got w ++ to_user out;
        w_acks := w_acks w ++ to_network out;
        w_lists := w_lists w ++ acked (w_dec w) d out |}) by congruence.
  subst w'. cbn. split; [|auto 10]. constructor; cbn; eauto; exists []; rewrite app_nil_r; reflexivity.
Qed.

Lemma wstep_extends m clk w a w' : wstep m clk w a = Ok w' -> extends w w'.
Proof.
  destruct a; cbn [wstep]; intros H;
    try (apply sender_extends in H; apply H); try (apply receiver_extends in H; apply H).
  - destruct (nth_error (w_out w) k); [apply receiver_extends in H; apply H|].
    assert (w' = w) by congruence. subst. apply extends_refl.
  - destruct (nth_error (w_acks w) j); [apply sender_extends in H; apply H|].
    assert (w' = w) by congruence. subst. apply extends_refl.
Qed.

Lemma wrun_extends m clk l : forall w w', wrun m clk w l = Ok w' -> extends w w'.
Proof.
  induction l as [|a l IH]; intros w w' H; cbn [wrun] in H.
  - assert (w' = w) by congruence. subst. apply extends_refl.
  - apply bind_ok in H. destruct H as (w1 & A & B). eapply extends_trans; [eapply wstep_extends, A | eapply IH, B].
Qed.

(** Only emitted packets arrive. *)
Lemma arrived_emitted m clk f o w : reach m clk f o w -> Forall (fun k => (k < length (w_out w))%nat) (w_arrived w).
Proof.
  revert w. apply (reach_ind m clk f o (fun w => Forall (fun k => (k < length (w_out w))%nat) (w_arrived w))); [constructor|].
  intros w a w' _ IH H.
  pose proof (wstep_extends _ _ _ _ _ H) as X. destruct (x_out _ _ X) as [l El].
  assert (Old : Forall (fun k => (k < length (w_out w'))%nat) (w_arrived w)).
  { eapply Forall_impl; [|exact IH]. intros k Hk. cbv beta in *. rewrite El, app_length. lia. }
  destruct a; cbn [wstep] in H;
    try (apply sender_extends in H; destruct H as (_ & _ & -> & _); exact Old);
    try (apply receiver_extends in H; destruct H as (_ & _ & _ & -> & _); rewrite app_nil_r; exact Old).
  - destruct (nth_error (w_out w) k) eqn:E.
    + apply receiver_extends in H; destruct H as (_ & _ & Eo & -> & _). apply Forall_app. split; [exact Old|].
      constructor; [|constructor]. rewrite Eo. apply nth_error_Some. congruence.
    + assert (w' = w) by congruence. subst. exact Old.
  - destruct (nth_error (w_acks w) j) eqn:E.
    + apply sender_extends in H; destruct H as (_ & _ & -> & _). exact Old.
    + assert (w' = w) by congruence. subst. exact Old.
Qed.

Lemma filter_ext_in' {A} (f g : A -> bool) l : (forall a, In a l -> f a = g a) -> filter f l = filter g l.
Proof.
  induction l as [|a l IH]; intros H; [reflexivity|]. cbn. rewrite (H a (or_introl eq_refl)), IH; [reflexivity|].
  intros b Hb. apply H. right. exact Hb.
Qed.

Lemma sorted_prefix {A} (R : A -> A -> Prop) l l' : StronglySorted R (l ++ l') -> StronglySorted R l.
Proof.
  induction l as [|a l IH]; intros H; [constructor|]. inversion H as [|? ? H1 H2]; subst. constructor; [apply IH, H1|].
  apply Forall_app in H2. apply H2.
Qed.

(** The assumptions on the channel hold for all prefixes of a run. *)
Lemma repairs_in_order_before m clk f o w w' : reach m clk f o w -> extends w w' ->
  repairs_in_order w' -> repairs_in_order w.
Proof.
  intros R X H. pose proof (arrived_emitted _ _ _ _ _ R) as B. destruct (x_out _ _ X) as [l El].
  destruct (x_arrived _ _ X) as [l' El']. unfold repairs_in_order in *. rewrite El', filter_app in H.
  apply sorted_prefix in H. rewrite (filter_ext_in' (repair_at w) (repair_at w')); [exact H|].
  intros k Hk. rewrite Forall_forall in B. unfold repair_at. rewrite El, nth_error_app1 by (apply B, Hk). reflexivity.
Qed.

Lemma fifo_before w w' : extends w w' -> fifo w' -> fifo w.
Proof.
  intros X H. destruct (x_arrived _ _ X) as [l El]. unfold fifo in *. rewrite El in H. eapply sorted_prefix, H.
Qed.

Lemma fifo_repairs w : fifo w -> repairs_in_order w.
Proof.
  unfold fifo, repairs_in_order. induction (w_arrived w) as [|k l IH]; intros H; [constructor|].
  inversion H as [|? ? H1 H2]; subst. cbn [filter]. destruct (repair_at w k); [|apply IH, H1].
  constructor; [apply IH, H1|]. rewrite Forall_forall in *. intros x Hx. apply filter_In in Hx. apply H2, Hx.
Qed.

Lemma limits_before f w w' : extends w w' -> within_limits f w' -> within_limits f w.
Proof.
  intros X [A B C D]. destruct (x_sent _ _ X) as [l El]. destruct (x_lists _ _ X) as [l' El'].
  constructor.
  - rewrite El in A. apply Forall_app in A. apply A.
  - rewrite El, app_length in B. lia.
  - rewrite El' in C. apply Forall_app in C. apply C.
  - destruct (x_out _ _ X) as [lo Elo]. intros E m p r k x Hp Ht Hr Hx.
    specialize (D E m p r k x). rewrite Elo, El in D.
    specialize (D (in_or_app _ _ _ (or_introl Hp)) Ht Hr Hx).
    destruct (Nat.lt_ge_cases (N.to_nat x) (length (w_sent w))) as [Hlt|Hge].
    + rewrite app_nth1 in D by exact Hlt. exact D.
    + rewrite nth_overflow by exact Hge. cbn [length]. change (N.of_nat 0) with 0. rewrite GFField.gmul_0_l. reflexivity.
Qed.

(** The sizes in the repairs of a run, for the data of the whole run. *)
Lemma whole_sizes m f w w' : extends w w' -> within_limits f w' -> sizes_whole (w_sent w') m f (w_out w).
Proof.
  intros X [_ _ _ D] p r k x Hp Ht Hr Hx E. destruct (x_out _ _ X) as [lo Elo].
  apply (D E m p r k x); try assumption. rewrite Elo. apply in_app_iff. left. exact Hp.
Qed.

(** In the fields of words of up to 16 bits all sizes fit. *)
Lemma sizes_fit_other f w : f <> W32 -> sizes_fit f w.
Proof. intros H E. congruence. Qed.

Lemma sizes_fit_always m clk f o l : f <> W32 -> sizes_fit_during m clk f o l.
Proof. intros H b a w _ _. apply sizes_fit_other, H. Qed.

(** ** The invariant along runs *)

Section Run.
Variable m : mode.
Variable clk : clock.
Variable f : field.
Variable o : bool.

Lemma lim_bound w : within_limits f w -> lim (w_sent w) <= LIM.
Proof. intros [_ B _ _]. unfold lim, LIM. change (2 ^ 32) with 4294967296 in B. lia. Qed.

Lemma data_ok w : within_limits f w -> Forall (ok_datum f) (w_sent w).
Proof. intros [A _ _ _]. exact A. Qed.

(** One step, in a run that sends [all]. *)
Lemma wstep_wok all gs w a w' : Forall (ok_datum f) all -> lim all <= LIM -> wok all m f o gs w ->
  wstep m clk w a = Ok w' -> repairs_in_order w' -> (exists rest, all = w_sent w' ++ rest) ->
  sizes_whole all m f (w_out w') ->
  exists new, w_lists w' = w_lists w ++ new /\ bounded_lists all new
  /\ (Forall wire_ok new -> exists gs', wok all m f o (gs ++ gs') w').
Proof.
  intros Ha Hl B H Ho Hs Hz.
  assert (Snd : forall op data, sender m w op data = Ok w' ->
    data = match op with EData d => [d] | _ => [] end ->
    match op with EPacket p => In p (w_acks w) | _ => True end ->
    exists new, w_lists w' = w_lists w ++ new /\ bounded_lists all new
      /\ (Forall wire_ok new -> exists gs', wok all m f o (gs ++ gs') w')).
  { intros op data E1 E2 E3. eapply sender_wok; eassumption. }
  assert (Rcv : forall op arr, receiver m clk w op arr = Ok w' ->
    match op with DPacket p => exists k, arr = [k] /\ nth_error (w_out w) k = Some p | _ => arr = [] end ->
    exists new, w_lists w' = w_lists w ++ new /\ bounded_lists all new
      /\ (Forall wire_ok new -> exists gs', wok all m f o (gs ++ gs') w')).
  { intros op arr E1 E2. destruct (receiver_wok all m f o Ha Hl gs clk w op arr w' B E1 E2 Ho) as (new & A1 & A2 & _ & A3).
    exists new. split; [exact A1|]. split; [exact A2|]. intros Hw. exists []. rewrite app_nil_r. apply A3, Hw. }
  assert (Id : w' = w -> exists new, w_lists w' = w_lists w ++ new /\ bounded_lists all new
      /\ (Forall wire_ok new -> exists gs', wok all m f o (gs ++ gs') w')).
  { intros ->. exists []. rewrite app_nil_r. split; [reflexivity|]. split; [constructor|]. intros _. exists [].
    rewrite app_nil_r. exact B. }
  destruct a; cbn [wstep] in H; try (eapply Snd; [exact H | reflexivity | exact I]); try (eapply Rcv; [exact H | reflexivity]).
  - destruct (nth_error (w_out w) k) as [p|] eqn:E; [|apply Id; congruence].
    eapply Rcv; [exact H|]. exists k. auto.
  - destruct (nth_error (w_acks w) j) as [p|] eqn:E; [|apply Id; congruence].
    eapply Snd; [exact H | reflexivity|]. eapply nth_error_In, E.
Qed.

(** What is held stays held. *)
Lemma wstep_kept all gs w a w' x : Forall (ok_datum f) all -> lim all <= LIM -> wok all m f o gs w ->
  wstep m clk w a = Ok w' -> repairs_in_order w' -> kept_id (core_of w) x -> kept_id (core_of w') x.
Proof.
  intros Ha Hl B H Ho K.
  assert (Snd : forall op data, sender m w op data = Ok w' -> kept_id (core_of w') x).
  { intros op data E. apply sender_extends in E. destruct E as (_ & _ & _ & _ & _ & Ed).
    unfold core_of. rewrite Ed. exact K. }
  assert (Rcv : forall op arr, receiver m clk w op arr = Ok w' ->
    match op with DPacket p => exists k, arr = [k] /\ nth_error (w_out w) k = Some p | _ => arr = [] end ->
    kept_id (core_of w') x).
  { intros op arr E1 E2. destruct (receiver_wok all m f o Ha Hl gs clk w op arr w' B E1 E2 Ho) as (new & _ & _ & A & _).
    apply A, K. }
  destruct a; cbn [wstep] in H; try (eapply Snd; exact H); try (eapply Rcv; [exact H | reflexivity]).
  - destruct (nth_error (w_out w) k) as [p|] eqn:E.
    + eapply Rcv; [exact H|]. exists k. auto.
    + assert (w' = w) by congruence. subst. exact K.
  - destruct (nth_error (w_acks w) j) as [p|] eqn:E.
    + eapply Snd, H.
    + assert (w' = w) by congruence. subst. exact K.
Qed.

(** The invariant at all times of a run that ends in [w'], for the data of the whole run. *)
Theorem run_wok w w' : reach m clk f o w -> extends w w' -> within_limits f w' -> repairs_in_order w ->
  exists gs, wok (w_sent w') m f o gs w.
Proof.
  intros R X L. revert w R X.
  apply (reach_ind m clk f o (fun w => extends w w' -> repairs_in_order w -> exists gs, wok (w_sent w') m f o gs w)).
  - intros _ _. exists []. apply wok_start, lim_bound, L.
  - intros w a w1 R IH E X Ho. pose proof (wstep_extends _ _ _ _ _ E) as X1.
    destruct IH as [gs B].
    { eapply extends_trans; eassumption. }
    { eapply repairs_in_order_before; eassumption. }
    destruct (wstep_wok (w_sent w') gs w a w1 (data_ok _ L) (lim_bound _ L) B E Ho) as (new & E1 & _ & H).
    { destruct (x_sent _ _ X) as [rest Er]. exists rest. exact Er. }
    { apply whole_sizes; assumption. }
    destruct H as [gs' H]; [|exists (gs ++ gs'); exact H].
    pose proof (wl_lists _ _ (limits_before _ _ _ X L)) as W. rewrite E1 in W. apply Forall_app in W. apply W.
Qed.

(** With at most 65535 data the format has room for all lists. *)
Lemma bounded_wire all l : lim all <= 65535 -> bounded_lists all l -> Forall wire_ok l.
Proof.
  intros Ha H. eapply Forall_impl; [|exact H]. intros ids [Hs Hb]. split.
  - intros before a b after ->. assert (b < lim all) by (apply Hb, in_app_iff; right; right; left; reflexivity). lia.
  - apply short_fits. 
    assert (Hn : forall l : list N, ssorted l -> forall lo, (forall x, In x l -> lo <= x < lim all) ->
      N.of_nat (length l) + lo <= N.max lo (lim all)).
    { clear. induction l as [|a l IH]; intros Hs lo H; [cbn [length]; lia|].
      apply ssorted_cons_inv in Hs. destruct Hs as [Hs Hl].
      pose proof (H a (or_introl eq_refl)). specialize (IH Hs (a + 1)).
      assert (forall x, In x l -> a + 1 <= x < lim all).
      { intros x Hx. specialize (Hl x Hx). specialize (H x (or_intror Hx)). lia. }
      specialize (IH H1). cbn [length]. lia. }
    specialize (Hn ids Hs 0). assert (forall x, In x ids -> 0 <= x < lim all) by (intros x Hx; specialize (Hb x Hx); lia).
    specialize (Hn H0). lia.
Qed.

Theorem short_runs w : reach m clk f o w -> repairs_in_order w -> Forall (ok_datum f) (w_sent w) ->
  N.of_nat (length (w_sent w)) <= 65535 -> sizes_fit f w -> within_limits f w.
Proof.
  intros R Ho Ha Hn Hz.
  assert (Hl : lim (w_sent w) <= LIM) by (unfold lim, LIM; lia).
  assert (G : forall v, reach m clk f o v -> extends v w -> repairs_in_order v ->
     Forall wire_ok (w_lists v) /\ exists gs, wok (w_sent w) m f o gs v).
  { apply (reach_ind m clk f o (fun v => extends v w -> repairs_in_order v ->
       Forall wire_ok (w_lists v) /\ exists gs, wok (w_sent w) m f o gs v)).
    - intros _ _. split; [constructor|]. exists []. apply wok_start, Hl.
    - intros v a v1 Rv IH E X Hv. pose proof (wstep_extends _ _ _ _ _ E) as X1.
      destruct IH as [W [gs B]].
      { eapply extends_trans; eassumption. }
      { eapply repairs_in_order_before; eassumption. }
      destruct (wstep_wok (w_sent w) gs v a v1 Ha Hl B E Hv) as (new & E1 & Bd & H).
      { destruct (x_sent _ _ X) as [rest Er]. exists rest. exact Er. }
      { intros p r k x Hp Ht Hr Hx E'. destruct (x_out _ _ X) as [lo Elo]. apply (Hz E' m p r k x); try assumption.
        rewrite Elo. apply in_app_iff. left. exact Hp. }
      apply bounded_wire in Bd; [|exact Hn]. split.
      { rewrite E1. apply Forall_app. split; assumption. }
      destruct (H Bd) as [gs' H']. exists (gs ++ gs'). exact H'. }
  destruct (G w R (extends_refl w) Ho) as [W _]. constructor; [exact Ha | | exact W | exact Hz].
  change (2 ^ 32) with 4294967296. lia.
Qed.
End Run.
