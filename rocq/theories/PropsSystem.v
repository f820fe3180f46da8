(** * Properties of the closed system: C27, C28, C29, C31, C44 *)
From Coq Require Import ZArith NArith List Bool Lia Sorted.
From Verif Require Import Outcome GF Containers ContainersFacts Packetizer PropsPacketizer
  Encoder EncoderRun EncoderHistory DetailDecoder Decoder DecoderInv DecoderStep DecoderFacts DecoderHeld
  System SystemInv SystemRun.
Import ListNotations.
Open Scope N_scope.

(** A world that the system can reach over a channel on which no repair
    arrives after a newer one; everything else is allowed (System.v). *)
Definition normal (m : mode) (clk : clock) (f : field) (o : bool) (w : world) : Prop :=
  reach m clk f o w /\ repairs_in_order w /\ within_limits f w.

(** The datum number [i]. *)
Definition datum (w : world) (i : nat) : list N := nth i (w_sent w) [].

(** The limits are no restriction for the first 65535 data. *)
Theorem C27_limits_hold :
  forall m clk f o w, sizes_fit f w -> reach m clk f o w -> repairs_in_order w ->
  Forall (fun d => (0 < length d)%nat /\ N.of_nat (length d) < 65536
            /\ aligned f (length d) = true /\ Forall (fun b => b < 256) d) (w_sent w) ->
  N.of_nat (length (w_sent w)) <= 65535 -> within_limits f w.
Proof. intros m clk f o w Hz R Ho Hd Hn. eapply short_runs; eassumption. Qed.
Print Assumptions C27_limits_hold.

(** What the receiver handed out, as positions in what was sent. *)
Lemma delivered m clk f o w : normal m clk f o w ->
  exists gs, wok (w_sent w) m f o gs w
  /\ w_got w = map (datum w) (map N.to_nat (handed (core_of w)))
  /\ (forall i, In i (map N.to_nat (handed (core_of w))) -> (i < length (w_sent w))%nat)
  /\ NoDup (map N.to_nat (handed (core_of w)))
  /\ (o = true -> StronglySorted lt (map N.to_nat (handed (core_of w)))).
Proof.
  intros (R & Ho & L).
  destruct (run_wok m clk f o w w R (extends_refl w) L Ho) as [gs B]. exists gs. split; [exact B|].
  pose proof B as [_ _ _ _ D _ G]. destruct D as [_ _ _ I Io _]. destruct I as [_ _ [L1 _ L3 L4] _].
  unfold core_of, handed in *. split; [|split; [|split]].
  - rewrite G, !map_map. apply map_ext_in. intros v Hv. destruct (L1 v Hv) as [-> _]. reflexivity.
  - intros i Hi. rewrite map_map in Hi. apply in_map_iff in Hi. destruct Hi as (v & <- & Hv). destruct (L1 v Hv) as [_ Hl].
    unfold lim in Hl. lia.
  - clear -L3. induction L3 as [|x l H1 H2 IH]; cbn [map]; constructor; [|exact IH].
    intros X. apply in_map_iff in X. destruct X as (y & E & Hy). apply N2Nat.inj in E. congruence.
  - intros E. specialize (L4 (eq_trans Io E)). pose proof (o_log _ _ _ _ L4) as X. clear -X.
    induction (map v_id (d_log (dc_core (w_dec w)))) as [|x l IH]; cbn [map]; constructor.
    + apply IH. apply ssorted_cons_inv in X. apply X.
    + apply ssorted_cons_inv in X. destruct X as [_ X]. apply Forall_forall. intros i Hi. apply in_map_iff in Hi.
      destruct Hi as (y & <- & Hy). specialize (X y Hy). lia.
Qed.

(** ** C27: integrity *)

Theorem C27_integrity :
  forall m clk f o w, normal m clk f o w ->
  forall d, In d (w_got w) -> In d (w_sent w).
Proof.
  intros m clk f o w N d Hd. destruct (delivered _ _ _ _ _ N) as (gs & _ & E & B & _).
  rewrite E in Hd. apply in_map_iff in Hd. destruct Hd as (i & <- & Hi). apply nth_In, B, Hi.
Qed.
Print Assumptions C27_integrity.

(** ** C28: no duplicates *)

Theorem C28_at_most_once :
  forall m clk f o w, normal m clk f o w ->
  exists which, NoDup which /\ (forall i, In i which -> (i < length (w_sent w))%nat)
  /\ w_got w = map (datum w) which.
Proof.
  intros m clk f o w N. destruct (delivered _ _ _ _ _ N) as (gs & _ & E & B & D & _). eauto.
Qed.
Print Assumptions C28_at_most_once.

(** ** C29: order *)

Theorem C29_in_order :
  forall m clk f w, normal m clk f true w ->
  exists which, StronglySorted lt which /\ (forall i, In i which -> (i < length (w_sent w))%nat)
  /\ w_got w = map (datum w) which.
Proof.
  intros m clk f w N. destruct (delivered _ _ _ _ _ N) as (gs & _ & E & B & _ & D).
  exists (map N.to_nat (handed (core_of w))). auto.
Qed.
Print Assumptions C29_in_order.

(** *** Examples and counterexamples *)

Definition still : clock := fun _ => 0%Z.
Definition sample (i : N) : list N := [i; i + 1; i + 2; i * 3].

(** Decides the channel assumption. *)
Fixpoint sortedb (l : list nat) : bool :=
  match l with
  | [] => true
  | a :: l' => forallb (Nat.leb a) l' && sortedb l'
  end.

Lemma sortedb_spec l : sortedb l = true <-> StronglySorted le l.
Proof.
  induction l as [|a l IH]; cbn [sortedb]; [split; [constructor | reflexivity]|].
  rewrite andb_true_iff, forallb_forall, IH. split.
  - intros [A B]. constructor; [exact B|]. apply Forall_forall. intros x Hx. apply Nat.leb_le, A, Hx.
  - intros H. inversion H as [|? ? H1 H2]; subst. rewrite Forall_forall in H2. split; [|exact H1].
    intros x Hx. apply Nat.leb_le, H2, Hx.
Qed.

Definition orderedb (w : world) : bool := sortedb (filter (repair_at w) (w_arrived w)).

(** Decides the limits of short runs. *)
Definition smallb (f : field) (w : world) : bool :=
  forallb (fun d => Nat.ltb 0 (length d) && (N.of_nat (length d) <? 65536) && aligned f (length d)
             && forallb (fun b => b <? 256) d) (w_sent w)
  && (N.of_nat (length (w_sent w)) <=? 65535).

Lemma smallb_spec f w : smallb f w = true ->
  Forall (fun d => (0 < length d)%nat /\ N.of_nat (length d) < 65536
            /\ aligned f (length d) = true /\ Forall (fun b => b < 256) d) (w_sent w)
  /\ N.of_nat (length (w_sent w)) <= 65535.
Proof.
  unfold smallb. intros H. apply andb_true_iff in H. destruct H as [H1 H2]. split; [|apply N.leb_le, H2].
  rewrite forallb_forall in H1. apply Forall_forall. intros d Hd. specialize (H1 d Hd).
  rewrite !andb_true_iff in H1. destruct H1 as (((A & B) & C) & D).
  split; [apply Nat.ltb_lt, A|]. split; [apply N.ltb_lt, B|]. split; [exact C|].
  apply Forall_forall. intros b Hb. rewrite forallb_forall in D. apply N.ltb_lt, D, Hb.
Qed.

Lemma run_normal m clk f o l w : f <> W32 -> wrun m clk (start clk f o) l = Ok w ->
  orderedb w && smallb f w = true -> normal m clk f o w.
Proof.
  intros Hf H E. apply andb_true_iff in E. destruct E as [E1 E2].
  assert (R : reach m clk f o w) by (exists l; exact H).
  assert (Ho : repairs_in_order w) by (apply sortedb_spec, E1).
  apply smallb_spec in E2. destruct E2 as [A B].
  split; [exact R|]. split; [exact Ho|]. eapply short_runs; try eassumption. apply sizes_fit_other, Hf.
Qed.

Lemma close_within l : forallb (fun x => x <? 65536) l = true -> close_ids l.
Proof.
  intros H before a b after ->. rewrite forallb_forall in H.
  assert (X : b <? 65536 = true) by (apply H, in_app_iff; right; right; left; reflexivity).
  apply N.ltb_lt in X. lia.
Qed.

(** Eight data, a lost source, sources out of order and twice, a window cut by an
    ack in between, the lost source recovered from a repair. *)
Definition story : list action :=
  [SetRate 4; Data (sample 0); Data (sample 1); Data (sample 2); Data (sample 3);
   Arrive 3; Arrive 0; Arrive 2; Arrive 2; Arrive 4; Ack; AckArrive 0;
   Data (sample 4); Data (sample 5); Data (sample 6); Data (sample 7);
   Arrive 8; Arrive 5; Arrive 9; Arrive 0].

Definition ending (m : mode) (f : field) (o : bool) (l : list action) : world :=
  match wrun m still (start still f o) l with
  | Ok w => w
  | _ => start still f o
  end.

Example C27_C28_C29_case : forall o, normal Debug still W8 o (ending Debug W8 o story)
  /\ (9 <= length (w_arrived (ending Debug W8 o story)))%nat.
Proof.
  intros o. split.
  - apply run_normal with story; [discriminate | |]; destruct o; vm_compute; reflexivity.
  - destruct o; vm_compute; repeat constructor.
Qed.

Example C28_unordered_case : w_got (ending Debug W8 false story) = map sample [3; 0; 2; 1; 7; 4].
Proof. vm_compute. reflexivity. Qed.
Example C29_ordered_case : w_got (ending Debug W8 true story) = map sample [0; 1; 2; 3; 4].
Proof. vm_compute. reflexivity. Qed.

(** If an older repair arrives after a newer one, bytes that nobody sent can be
    delivered (build without assertions). *)
Theorem C27_overtaking_refuted :
  exists l w, wrun Release still (start still W8 false) l = Ok w
  /\ within_limits W8 w /\ ~ repairs_in_order w
  /\ exists d, In d (w_got w) /\ ~ In d (w_sent w).
Proof.
  pose (l := [Data (sample 0); Data (sample 1); Repair; Data (sample 2); Repair; Data (sample 3);
              Arrive 0; Arrive 4; Arrive 2; Arrive 5]).
  exists l, (ending Release W8 false l). split; [vm_compute; reflexivity|]. split; [|split].
  - constructor.
    + apply smallb_spec. vm_compute. reflexivity.
    + vm_compute. reflexivity.
    + assert (E : w_lists (ending Release W8 false l) = [[0; 1]; [0; 1; 2]]) by (vm_compute; reflexivity).
      rewrite E. constructor; [|constructor; [|constructor]];
        (split; [apply close_within; vm_compute; reflexivity | apply short_fits; vm_compute; discriminate]).
    + apply sizes_fit_other. discriminate.
  - intros X. apply sortedb_spec in X. vm_compute in X. discriminate.
  - eexists. split; [vm_compute; right; right; right; left; reflexivity|].
    vm_compute. intros H. repeat (destruct H as [H|H]; [discriminate|]). exact H.
Qed.
Print Assumptions C27_overtaking_refuted.

(** If an older repair arrives after a newer one, a datum can be delivered twice
    although nothing was lost. *)
Theorem C28_overtaking_refuted :
  exists l w, (forall m, wrun m still (start still W8 false) l = Ok w)
  /\ NoDup (w_sent w) /\ NoDup (w_arrived w) /\ length (w_arrived w) = length (w_out w)
  /\ ~ repairs_in_order w /\ ~ NoDup (w_got w).
Proof.
  pose (l := [SetWindow 2; Data (sample 0); Data (sample 1); Repair; Data (sample 2); Repair;
              Arrive 0; Arrive 1; Arrive 3; Arrive 4; Arrive 2]).
  exists l, (ending Debug W8 false l). split; [intros m; destruct m; vm_compute; reflexivity|].
  split; [|split; [|split; [|split]]].
  - vm_compute. repeat constructor; intros H; repeat (destruct H as [H|H]; [discriminate|]); exact H.
  - vm_compute. repeat constructor; intros H; repeat (destruct H as [H|H]; [discriminate|]); exact H.
  - vm_compute. reflexivity.
  - intros X. apply sortedb_spec in X. vm_compute in X. discriminate.
  - vm_compute. intros H. inversion H as [|? ? H1 H2]; subst. apply H1. right. right. left. reflexivity.
Qed.
Print Assumptions C28_overtaking_refuted.

(** If an older repair arrives after a newer one, ordered delivery is not ordered:
    datum 0 is delivered again after datum 4. *)
Theorem C29_overtaking_refuted :
  exists l w, (forall m, wrun m still (start still W8 true) l = Ok w)
  /\ NoDup (w_arrived w) /\ ~ repairs_in_order w
  /\ w_sent w = map sample [0; 1; 2; 3; 4; 5] /\ w_got w = map sample [0; 1; 2; 3; 4; 0; 1; 5].
Proof.
  pose (l := [SetWindow 3; SetRate 50; Data (sample 0); Data (sample 1); Data (sample 2); Repair; Repair;
              Data (sample 3); Data (sample 4); Repair; Data (sample 5); Repair;
              Arrive 0; Arrive 1; Arrive 2; Arrive 5; Arrive 6; Arrive 7; Arrive 3; Arrive 4; Arrive 9]).
  exists l, (ending Debug W8 true l). split; [intros m; destruct m; vm_compute; reflexivity|].
  split; [|split; [|split]].
  - vm_compute. repeat constructor; intros H; repeat (destruct H as [H|H]; [discriminate|]); exact H.
  - intros X. apply sortedb_spec in X. vm_compute in X. discriminate.
  - vm_compute. reflexivity.
  - vm_compute. reflexivity.
Qed.
Print Assumptions C29_overtaking_refuted.

(** ** C31: failures of the receiver *)

(** Repairs that overtake each other: the receiver uses an iterator to an element
    that was erased. *)
Theorem C31_dead_iterator_refuted :
  exists l, forall m o, exists w k, wrun m still (start still W8 o) l = Ok w
  /\ wstep m still w (Arrive k) = Fault DeadIterator.
Proof.
  pose (l := [SetWindow 2; Data (sample 0); Data (sample 1); Repair; Data (sample 2); Repair; Arrive 4; Arrive 2]).
  exists l. intros m o. exists (ending m W8 o l), 1%nat. split; [destruct m, o; vm_compute; reflexivity|].
  destruct m, o; vm_compute; reflexivity.
Qed.
Print Assumptions C31_dead_iterator_refuted.

(** Repairs in order, but sources that arrive after repairs that cover them: with
    assertions one fails, without them the first element of an empty set is read. *)
Theorem C31_late_sources_refuted :
  exists l k, forall o,
  wrun Debug still (start still W8 o) (l ++ [Arrive k]) = Fault AssertFailure
  /\ (exists w, wrun Release still (start still W8 o) l = Ok w /\ repairs_in_order w
     /\ (forall i, In i (w_arrived w) -> (i <= k)%nat)
     /\ wstep Release still w (Arrive k) = Fault EmptyFront).
Proof.
  pose (l := [SetRate 50; SetWindow 4; Data (sample 0); Data (sample 1); Repair; Data (sample 2); Data (sample 3);
          Repair; Data (sample 4); Repair; Arrive 2; Arrive 5; Arrive 0; Arrive 1]).
  exists l, 7%nat. intros o. split.
  - destruct o; vm_compute; reflexivity.
  - exists (ending Release W8 o l). split; [destruct o; vm_compute; reflexivity|].
    split; [apply sortedb_spec; destruct o; vm_compute; reflexivity|].
    split; [|destruct o; vm_compute; reflexivity].
    intros i Hi. destruct o; vm_compute in Hi; repeat (destruct Hi as [<-|Hi]; [repeat constructor|]); destruct Hi.
Qed.
Print Assumptions C31_late_sources_refuted.

(** ** C44: acks *)

(** The receiver holds the datum, or has declared it outdated because of a repair. *)
Definition held (w : world) (x : N) : Prop := In x (mkeys (d_sources (dc_core (w_dec w)))).
Definition obsolete (w : world) (x : N) : Prop := outdated (dc_core (w_dec w)) x = true.

(** The identifiers of the sender's window. *)
Definition in_window (w : world) (x : N) : Prop := In x (map es_id (e_sources (w_enc w))).

(** A source that leaves the window because of an ack is held by the receiver, or
    obsolete, at that time and at all later times; without ordering it
    has been delivered. *)
Theorem C44_ack_forgets_only_held :
  forall m clk f o w j w' x, reach m clk f o w -> wstep m clk w (AckArrive j) = Ok w' ->
  in_window w x -> ~ in_window w' x ->
  forall l w'', wrun m clk w' l = Ok w'' -> normal m clk f o w'' ->
  (held w'' x \/ obsolete w'' x)
  /\ (o = false -> exists which, NoDup which /\ w_got w'' = map (datum w'') which /\ In (N.to_nat x) which).
Proof.
  intros m clk f o w j w' x R E X1 X2 l w'' E2 Nm. pose proof Nm as (R2 & Ho2 & L2).
  pose proof (reach_step _ _ _ _ _ _ _ R E) as R1.
  pose proof (wrun_extends _ _ _ _ _ E2) as Xt. pose proof (wstep_extends _ _ _ _ _ E) as Xt0.
  pose proof (repairs_in_order_before _ _ _ _ _ _ R1 Xt Ho2) as Ho1.
  pose proof (repairs_in_order_before _ _ _ _ _ _ R Xt0 Ho1) as Ho0.
  destruct (run_wok m clk f o w w'' R (extends_trans _ _ _ Xt0 Xt) L2 Ho0) as [gs B].
  cbn [wstep] in E. destruct (nth_error (w_acks w) j) as [p|] eqn:Ej;
    [|assert (w' = w) by congruence; subst; contradiction].
  assert (K : kept_id (core_of w) x /\ w_dec w' = w_dec w).
  { pose proof (sender_extends _ _ _ _ _ E) as (_ & _ & _ & _ & _ & Ed). split; [|exact Ed].
    unfold sender in E. cbn [estep] in E. destruct (notify m (w_enc w) p) as [e q] eqn:En.
    apply bind_ok in E. destruct E as (out & Eo & E). apply survive_ok in Eo. destruct Eo as [Hnf _].
    assert (Ee : w_enc w' = e) by (apply (f_equal (fun r => match r with Ok y => w_enc y | _ => e end)) in E; symmetry; exact E).
    destruct B as [B1 _ _ B4 _ _ _]. rewrite Forall_forall in B4.
    assert (Hq : ~ is_fault q). { intros [y Hy]. apply Hnf. rewrite Hy. exists y. reflexivity. }
    destruct (ack_erases _ _ _ _ _ _ _ _ _ B1 (B4 _ (nth_error_In _ _ Ej)) En Hq) as (_ & _ & Q3).
    apply Q3; [exact X1|]. unfold in_window in X2. rewrite Ee in X2. exact X2. }
  destruct K as [K Ed].
  (* from now on *)
  assert (K' : kept_id (core_of w') x) by (unfold core_of; rewrite Ed; exact K).
  assert (K2 : kept_id (core_of w'') x).
  { clear -K' E2 R1 L2 Ho2. revert w' E2 R1 K'.
    induction l as [|a l IH]; intros w' E2 R1 K'; cbn [wrun] in E2.
    - assert (w'' = w') by congruence. subst. exact K'.
    - apply bind_ok in E2. destruct E2 as (w1 & E & E2).
      pose proof (reach_step _ _ _ _ _ _ _ R1 E) as R3.
      apply (IH w1 E2 R3). pose proof (wrun_extends _ _ _ _ _ E2) as Xt. pose proof (wstep_extends _ _ _ _ _ E) as Xt0.
      pose proof (repairs_in_order_before _ _ _ _ _ _ R3 Xt Ho2) as Ho1.
      pose proof (repairs_in_order_before _ _ _ _ _ _ R1 Xt0 Ho1) as Ho0.
      destruct (run_wok m clk f o w' w'' R1 (extends_trans _ _ _ Xt0 Xt) L2 Ho0) as [gs B].
      eapply wstep_kept; [apply data_ok, L2 | apply lim_bound with f, L2 | exact B | exact E | exact Ho1 | exact K']. }
  split; [destruct K2 as [[[Y|[]]|Y] _]; [left; exact Y | right; exact Y]|].
  intros Eo. destruct (delivered _ _ _ _ _ Nm) as (gs2 & B2 & E3 & B3 & D3 & _).
  exists (map N.to_nat (handed (core_of w''))). split; [exact D3|]. split; [exact E3|].
  apply in_map. apply K2. rewrite <- Eo. apply (do_order _ _ _ _ (ok_dec _ _ _ _ _ _ B2)).
Qed.
Print Assumptions C44_ack_forgets_only_held.

(** In [story], the twelfth action delivers an ack that removes sources 0 to 3 from
    the window; without the ack all of them stay. *)
Example C44_case : forall o,
  let w := ending Debug W8 o (firstn 11 story) in
  (exists w', wstep Debug still w (AckArrive 0) = Ok w'
     /\ wrun Debug still w' (skipn 12 story) = Ok (ending Debug W8 o story)
     /\ map es_id (e_sources (w_enc w)) = [0; 1; 2; 3] /\ map es_id (e_sources (w_enc w')) = []).
Proof.
  intros o w. exists (ending Debug W8 o (firstn 12 story)). subst w.
  destruct o; vm_compute; repeat split; reflexivity.
Qed.
