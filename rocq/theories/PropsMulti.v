(** * Several receivers of one sender: C84 *)
From Coq Require Import ZArith NArith Arith List Bool Lia Sorted.
From Verif Require Import Outcome GF Containers Packetizer PropsPacketizer Encoder EncoderRun EncoderSafe EncoderHistory
  DetailDecoder Decoder DecoderFacts DecoderHeld System SystemInv SystemRun SystemFifo PropsSystem PropsFifo Multi.
Import ListNotations.
Open Scope N_scope.
Open Scope outcome_scope.

(** ** Specification *)

Definition of_sender (a : action) : bool :=
  match a with
  | Data _ | Repair | SetCode _ | SetRate _ | SetWindow _ | SetAdaptive _ => true
  | _ => false
  end.

(** What happens at the sender and at the receiver [i]. *)
Definition seen (i : nat) (l : list (nat * action)) : list action :=
  map snd (filter (fun ja => of_sender (snd ja) || Nat.eqb (fst ja) i) l).

(** The data given to the sender; the packets that arrive at receiver [i]. *)
Definition sent_data (l : list (nat * action)) : list (list N) :=
  flat_map (fun ja => match snd ja with Data d => [d] | _ => [] end) l.
Definition arrivals_at (i : nat) (l : list (nat * action)) : list nat :=
  flat_map (fun ja => match snd ja with Arrive k => if Nat.eqb (fst ja) i then [k] else [] | _ => [] end) l.

(** The sender is never asked for a repair while nothing is outstanding (C24). *)
Definition repairs_possible (m : mode) (clks : nat -> clock) (f : field) (orders : list bool) (l : list (nat * action)) : Prop :=
  forall before after j w, l = before ++ (j, Repair) :: after -> mrun m clks (mstart clks f orders) before = Ok w ->
  e_sources (u_enc w) <> [].

(** What receiver [s] has handed out: some of [data], each at most once, if it keeps the order in
    this order; and it has not failed. *)
Definition served (in_order : bool) (data : list (list N)) (s : station) : Prop :=
  r_failed s = None
  /\ exists which, r_got s = map (fun k => nth k data []) which /\ NoDup which
     /\ (forall k, In k which -> (k < length data)%nat) /\ (in_order = true -> StronglySorted lt which).

(** ** Lists *)

Lemma seen_app i a b : seen i (a ++ b) = seen i a ++ seen i b.
Proof. unfold seen. rewrite filter_app, map_app. reflexivity. Qed.

Lemma given_seen i l : given (seen i l) = sent_data l.
Proof.
  induction l as [|[j a] l IH]; [reflexivity|]. unfold seen, sent_data in *. cbn [filter fst snd flat_map].
  destruct a; cbn [of_sender orb]; try (destruct (Nat.eqb j i)); cbn [map snd given flat_map app]; rewrite <- IH; reflexivity.
Qed.

Lemma arrivals_seen i l : arrivals (seen i l) = arrivals_at i l.
Proof.
  induction l as [|[j a] l IH]; [reflexivity|]. unfold seen, arrivals_at in *. cbn [filter fst snd flat_map].
  destruct a; cbn [of_sender orb]; try (destruct (Nat.eqb j i)); cbn [map snd arrivals flat_map app]; rewrite <- IH; reflexivity.
Qed.

Lemma seen_legal f i l : Forall (fun ja => legal_action f (snd ja)) l -> Forall (legal_action f) (seen i l).
Proof.
  intros H. apply Forall_forall. intros a Ha. unfold seen in Ha. apply in_map_iff in Ha. destruct Ha as (ja & <- & Hj).
  apply filter_In in Hj. rewrite Forall_forall in H. apply H, Hj.
Qed.

Lemma replace_same {A} (l : list A) i a b : nth_error l i = Some b -> nth_error (replace l i a) i = Some a.
Proof. revert i. induction l as [|x l IH]; intros [|i] H; try discriminate; [reflexivity|]. apply IH, H. Qed.

Lemma replace_other {A} (l : list A) i j a : i <> j -> nth_error (replace l i a) j = nth_error l j.
Proof.
  revert i j. induction l as [|x l IH]; intros [|i] [|j] H; cbn [replace nth_error]; try reflexivity; try congruence.
  apply IH. congruence.
Qed.

(** ** The view of one receiver *)

Record view (i : nat) (v : world) (w : multi) : Prop := {
  vw_enc : w_enc v = u_enc w;
  vw_sent : w_sent v = u_sent w;
  vw_out : w_out v = u_out w;
  vw_station : exists s, nth_error (u_stations w) i = Some s /\ r_failed s = None /\ w_dec v = r_dec s
    /\ w_got v = r_got s /\ w_acks v = r_acks s
}.

Lemma view_start clks f orders i : (i < length orders)%nat ->
  view i (start (clks i) f (nth i orders false)) (mstart clks f orders).
Proof.
  intros H. constructor; try reflexivity. exists (new_station (clks i) f (nth i orders false)).
  split; [|repeat split]. cbn [mstart u_stations].
  erewrite map_nth_error; [reflexivity|].
  rewrite nth_error_nth' with (d := 0%nat) by (rewrite seq_length; exact H). f_equal. apply seq_nth, H.
Qed.

Lemma view_sender m i v w op data v' : view i v w -> sender m v op data = Ok v' ->
  exists w', msender m w op data = Ok w' /\ view i v' w'.
Proof.
  intros [A B C D] H. unfold sender in H. unfold msender. rewrite <- A.
  destruct (estep m (w_enc v) op) as [e r]. apply bind_ok in H. destruct H as (out & Es & H). rewrite Es. cbn [bind].
  eexists. split; [reflexivity|]. injection H as <-.
  constructor; cbn [w_enc w_sent w_out w_dec w_got w_acks u_enc u_sent u_out u_stations]; try congruence; try exact D.
Qed.

Lemma view_receiver m clks i v w op arr v' : view i v w -> receiver m (clks i) v op arr = Ok v' ->
  exists w', mreceiver m clks w i op arr = Ok w' /\ view i v' w'.
Proof.
  intros [A B C (s & D1 & D2 & D3 & D4 & D5)] H. unfold receiver in H. unfold mreceiver. rewrite D1.
  eexists. split; [reflexivity|]. unfold station_step. rewrite D2, <- D3.
  destruct (dstep m (clks i) (w_dec v) op) as [d r]. apply bind_ok in H. destruct H as (out & Es & H). rewrite Es.
  injection H as <-.
  constructor; cbn [w_enc w_sent w_out w_dec w_got w_acks u_enc u_sent u_out u_stations]; try congruence.
  eexists. split; [apply (replace_same _ _ _ s D1)|]. cbn [r_failed r_dec r_got r_acks].
  split; [reflexivity|]. split; [reflexivity|]. split; congruence.
Qed.

Lemma view_elsewhere m clks i j v w op arr : view i v w -> j <> i ->
  exists w', mreceiver m clks w j op arr = Ok w' /\ view i v w'.
Proof.
  intros V Hj. unfold mreceiver. destruct (nth_error (u_stations w) j) as [s|]; [|eauto].
  eexists. split; [reflexivity|]. destruct V as [A B C (s0 & D1 & D)].
  constructor; cbn [u_enc u_sent u_out u_stations]; try assumption. exists s0. rewrite replace_other by exact Hj. auto.
Qed.

(** What the receiver sees also happens to its view. *)
Lemma view_step m clks i v w ja v' : view i v w -> of_sender (snd ja) || Nat.eqb (fst ja) i = true ->
  wstep m (clks i) v (snd ja) = Ok v' -> exists w', mstep m clks w ja = Ok w' /\ view i v' w'.
Proof.
  destruct ja as [j a]. cbn [fst snd]. intros V Hj H. pose proof V as [A B C (s & D1 & D2 & D3 & D4 & D5)].
  destruct a; cbn [of_sender orb] in Hj; cbn [wstep mstep] in H |- *;
    try (apply Nat.eqb_eq in Hj; subst j);
    try (eapply view_sender; eassumption);
    try (eapply view_receiver; eassumption).
  - rewrite <- C. destruct (nth_error (w_out v) k); [eapply view_receiver; eassumption|].
    exists w. split; [reflexivity|]. assert (v' = v) by congruence. subst. exact V.
  - rewrite D1, <- D5. destruct (nth_error (w_acks v) _); [eapply view_sender; eassumption|].
    exists w. split; [reflexivity|]. assert (v' = v) by congruence. subst. exact V.
Qed.

(** The rest does not touch it, if no ack of another receiver arrives. *)
Lemma view_unseen m clks i v w ja : view i v w -> of_sender (snd ja) || Nat.eqb (fst ja) i = false ->
  (forall k, snd ja <> AckArrive k) -> exists w', mstep m clks w ja = Ok w' /\ view i v w'.
Proof.
  destruct ja as [j a]. cbn [fst snd]. intros V Hj Hn.
  apply orb_false_iff in Hj. destruct Hj as [Hs Hj]. apply Nat.eqb_neq in Hj.
  destruct a; try discriminate; cbn [mstep]; try (apply view_elsewhere; assumption).
  - destruct (nth_error (u_out w) k); [apply view_elsewhere; assumption | eauto].
  - destruct (Hn j0). reflexivity.
Qed.

Lemma mrun_snoc m clks l a : forall w, mrun m clks w (l ++ [a]) = (w' <- mrun m clks w l ;; mstep m clks w' a).
Proof.
  induction l as [|b l IH]; intros w; cbn [app mrun bind].
  - destruct (mstep m clks w a); reflexivity.
  - destruct (mstep m clks w b); cbn [bind]; [apply IH | reflexivity | reflexivity].
Qed.

Lemma follow m clks f orders i l : (i < length orders)%nat ->
  sizes_fit_during m (clks i) f (nth i orders false) (seen i l) ->
  Forall (fun ja => legal_action f (snd ja)) l -> N.of_nat (length (sent_data l)) <= 65535 ->
  StronglySorted le (arrivals_at i l) -> (forall j k, In (j, AckArrive k) l -> j = i) ->
  repairs_possible m clks f orders l ->
  exists v w, wrun m (clks i) (start (clks i) f (nth i orders false)) (seen i l) = Ok v
  /\ sound m (clks i) f (nth i orders false) (seen i l) v
  /\ mrun m clks (mstart clks f orders) l = Ok w /\ view i v w.
Proof.
  intros Hi. induction l as [|ja l IH] using rev_ind; intros Hz Hl Hn Hs Ha Hr.
  - eexists. eexists. split; [reflexivity|]. split; [apply sound_start|]. split; [reflexivity | apply view_start, Hi].
  - pose proof Hl as Hl0. apply Forall_app in Hl0. destruct Hl0 as [Hl0 _].
    assert (Hn0 : N.of_nat (length (sent_data l)) <= 65535).
    { unfold sent_data in *. rewrite flat_map_app, app_length in Hn. lia. }
    assert (Hs0 : StronglySorted le (arrivals_at i l)).
    { unfold arrivals_at in *. rewrite flat_map_app in Hs. eapply sorted_prefix. exact Hs. }
    destruct IH as (v & w & R & Sd & Mr & V); try assumption.
    { intros b a w E R. apply (Hz b (a ++ seen i [ja]) w); [|exact R]. rewrite seen_app, E, app_assoc. reflexivity. }
    { intros j k H. apply (Ha j k), in_app_iff. left. exact H. }
    { intros b a j w E R. apply (Hr b (a ++ [ja]) j w); [|exact R]. rewrite E, <- app_assoc. reflexivity. }
    rewrite mrun_snoc, Mr. cbn [bind]. rewrite seen_app.
    destruct (of_sender (snd ja) || Nat.eqb (fst ja) i) eqn:Es.
    + assert (E1 : seen i [ja] = [snd ja]) by (unfold seen; cbn [filter]; rewrite Es; reflexivity). rewrite E1.
      destruct (sound_step m (clks i) f (nth i orders false) (seen i l) v (snd ja) Sd) as (v' & E & Sd').
      * rewrite <- E1, <- seen_app. apply seen_legal, Hl.
      * rewrite given_seen. exact Hn0.
      * rewrite <- E1, <- seen_app, arrivals_seen. exact Hs.
      * intros Er. rewrite (vw_enc _ _ _ V). apply (Hr l [] (fst ja) w); [|exact Mr]. rewrite <- Er. destruct ja; reflexivity.
      * apply (Hz (seen i l) [snd ja] v); [rewrite seen_app, E1; reflexivity | exact R].
      * destruct (view_step m clks i v w ja v' V Es E) as (w' & E' & V').
        exists v', w'. split; [rewrite SystemFifo.wrun_app, R; cbn [bind wrun]; rewrite E; reflexivity|]. auto.
    + assert (E1 : seen i [ja] = []) by (unfold seen; cbn [filter]; rewrite Es; reflexivity). rewrite E1, app_nil_r.
      destruct (view_unseen m clks i v w ja V Es) as (w' & E' & V').
      * intros k Ek. assert (fst ja = i). { apply (Ha (fst ja) k), in_app_iff. right. left. rewrite <- Ek. destruct ja; reflexivity. }
        apply orb_false_iff in Es. destruct Es as [_ Es]. apply Nat.eqb_neq in Es. contradiction.
      * exists v, w'. auto.
Qed.

(** ** C84 *)

(** A receiver at which nothing overtakes is served if no ack of another receiver
    arrives at the sender, whatever happens at the other receivers. *)
Theorem C84_only_own_acks :
  forall m clks f orders l i, (i < length orders)%nat ->
  sizes_fit_during m (clks i) f (nth i orders false) (seen i l) ->
  Forall (fun ja => legal_action f (snd ja)) l -> N.of_nat (length (sent_data l)) <= 65535 ->
  StronglySorted le (arrivals_at i l) -> (forall j k, In (j, AckArrive k) l -> j = i) ->
  repairs_possible m clks f orders l ->
  exists w s, mrun m clks (mstart clks f orders) l = Ok w /\ nth_error (u_stations w) i = Some s
  /\ served (nth i orders false) (sent_data l) s.
Proof.
  intros m clks f orders l i Hi Hz Hl Hn Hs Ha Hr.
  destruct (follow m clks f orders i l Hi Hz Hl Hn Hs Ha Hr) as (v & w & R & Sd & Mr & V).
  destruct (vw_station _ _ _ V) as (s & D1 & D2 & D3 & D4 & D5). exists w, s. split; [exact Mr|]. split; [exact D1|].
  assert (L : within_limits f v).
  { eapply sound_limits; [exact Sd | apply seen_legal, Hl | rewrite given_seen; exact Hn|].
    apply (Hz (seen i l) [] v); [rewrite app_nil_r; reflexivity | exact R]. }
  assert (Nm : normal m (clks i) f (nth i orders false) v).
  { apply lossy_normal. split; [apply (sd_reach _ _ _ _ _ _ Sd)|]. split; [apply (sd_fifo _ _ _ _ _ _ Sd) | exact L]. }
  destruct (delivered _ _ _ _ _ Nm) as (gs & _ & Eg & Hb & Nd & So).
  split; [exact D2|]. exists (map N.to_nat (handed (core_of v))).
  rewrite <- (given_seen i l), <- (sd_sent _ _ _ _ _ _ Sd). rewrite <- D4. auto.
Qed.
Print Assumptions C84_only_own_acks.

(** Without acks every receiver is served. *)
Theorem C84_no_acks :
  forall m clks f orders l, (forall i, (i < length orders)%nat -> sizes_fit_during m (clks i) f (nth i orders false) (seen i l)) ->
  Forall (fun ja => legal_action f (snd ja)) l -> N.of_nat (length (sent_data l)) <= 65535 ->
  (forall i, StronglySorted le (arrivals_at i l)) -> (forall j k, ~ In (j, AckArrive k) l) ->
  repairs_possible m clks f orders l -> (0 < length orders)%nat ->
  exists w, mrun m clks (mstart clks f orders) l = Ok w
  /\ forall i, (i < length orders)%nat -> exists s, nth_error (u_stations w) i = Some s
     /\ served (nth i orders false) (sent_data l) s.
Proof.
  intros m clks f orders l Hz Hl Hn Hs Ha Hr H0.
  assert (X : forall i, (i < length orders)%nat -> exists w s, mrun m clks (mstart clks f orders) l = Ok w
     /\ nth_error (u_stations w) i = Some s /\ served (nth i orders false) (sent_data l) s).
  { intros i Hi. apply C84_only_own_acks; auto. intros j k H. destruct (Ha j k H). }
  destruct (X 0%nat H0) as (w & s & E & _). exists w. split; [exact E|]. intros i Hi.
  destruct (X i Hi) as (w' & s' & E' & N' & S'). assert (w' = w) by congruence. subst. eauto.
Qed.
Print Assumptions C84_no_acks.

(** *** Two acking receivers *)

(** The calls of the sender and of two receivers. *)
Notation sender_does a := (2%nat, a).
Notation first_does a := (0%nat, a).
Notation second_does a := (1%nat, a).

(** The first receiver lacks 1, 2, 3 and has two repairs of 0, 1, 2, 3. After the ack of 1 and 3 by the second
    a repair of 0 and 2 makes 2 known, but the two repairs keep it. With the source 4 the first
    receiver solves them for 1 and 3 as if 2 were not in them. *)
Definition two_receivers : list (nat * action) :=
  [sender_does (SetRate 100); sender_does (Data (sample 0)); sender_does (Data (sample 1)); sender_does (Data (sample 2));
   sender_does (Data (sample 3)); first_does (Arrive 0); sender_does Repair; sender_does Repair; first_does (Arrive 4);
   first_does (Arrive 5); second_does (Arrive 1); second_does (Arrive 3); second_does Ack; second_does (AckArrive 0);
   sender_does Repair; first_does (Arrive 6); sender_does (Data (sample 4)); first_does (Arrive 7)].

(** The first lacks 1, 2, 3, 4 and has a repair of 0 to 4. After the ack of 1 and 2 by the second it gets two repairs of
    0, 3, 4, then the source 5 and a repair of 3, 4, 5: 1 and 2 are given up with the first repair, and three
    repairs are left for the two missing data 3 and 4. *)
Definition more_repairs : list (nat * action) :=
  [sender_does (SetRate 100); sender_does (Data (sample 0)); sender_does (Data (sample 1)); sender_does (Data (sample 2));
   sender_does (Data (sample 3)); sender_does (Data (sample 4)); first_does (Arrive 0); sender_does Repair; first_does (Arrive 5);
   second_does (Arrive 1); second_does (Arrive 2); second_does Ack; second_does (AckArrive 0);
   sender_does Repair; sender_does Repair; first_does (Arrive 6); first_does (Arrive 7); sender_does (SetWindow 3);
   sender_does (Data (sample 5)); sender_does Repair; first_does (Arrive 8); first_does (Arrive 9)].

Definition at_rest : nat -> clock := fun _ => still.
Definition multi_end (m : mode) (o : bool) (l : list (nat * action)) : multi :=
  match mrun m at_rest (mstart at_rest W8 [o; o]) l with Ok w => w | _ => mstart at_rest W8 [] end.

Definition the_first (w : multi) : station := nth 0 (u_stations w) (new_station still W8 false).

Definition other_data (m : mode) (o : bool) : bool :=
  match mrun m at_rest (mstart at_rest W8 [o; o]) two_receivers with
  | Ok w => forallb (fun s => match r_failed s with None => true | Some _ => false end) (u_stations w)
            && negb (forallb (fun d => existsb (fun d' => if list_eq_dec N.eq_dec d d' then true else false) (sent_data two_receivers))
                 (r_got (the_first w)))
  | _ => false
  end.

(** All calls respect the contracts, nothing overtakes, both receivers are honest,
    only the acks of the second arrive: the first hands out data that nobody sent, in
    both builds, and no assertion fails. *)
Theorem C84_foreign_acks_refuted :
  exists l, Forall (fun ja => legal_action W8 (snd ja)) l /\ (forall i, StronglySorted le (arrivals_at i l))
  /\ (forall j k, In (j, AckArrive k) l -> j = 1%nat)
  /\ forall m o, exists w s, mrun m at_rest (mstart at_rest W8 [o; o]) l = Ok w /\ nth_error (u_stations w) 0 = Some s
     /\ Forall (fun s => r_failed s = None) (u_stations w)
     /\ exists d, In d (r_got s) /\ ~ In d (sent_data l).
Proof.
  exists two_receivers. split.
  { assert (E : Forall (legal_action W8) (map snd two_receivers)) by (apply legalb_spec; vm_compute; reflexivity).
    apply Forall_forall. intros ja H. rewrite Forall_forall in E. apply E, in_map, H. }
  split.
  { intros i. unfold arrivals_at. destruct i as [|[|i]]; [apply sortedb_spec; reflexivity | apply sortedb_spec; reflexivity | constructor]. }
  split.
  { intros j k H. cbn [two_receivers In] in H. repeat (destruct H as [H|H]; [congruence|]). destruct H. }
  intros m o. assert (E : other_data m o = true) by (destruct m, o; vm_compute; reflexivity).
  unfold other_data in E. destruct (mrun m at_rest (mstart at_rest W8 [o; o]) two_receivers) as [w| |] eqn:Ew; try discriminate.
  apply andb_true_iff in E. destruct E as [E1 E2]. exists w.
  assert (Hs : exists s, nth_error (u_stations w) 0 = Some s /\ the_first w = s).
  { unfold the_first in E2 |- *. destruct (u_stations w) as [|s ss]; [discriminate E2|]. exists s. split; reflexivity. }
  destruct Hs as (s & Hs & Es). rewrite Es in E2. exists s. split; [reflexivity|]. split; [exact Hs|]. split.
  { apply Forall_forall. intros x Hx. rewrite forallb_forall in E1. specialize (E1 x Hx). destruct (r_failed x); [discriminate | reflexivity]. }
  apply negb_true_iff in E2. clear -E2. induction (r_got s) as [|d ds IH]; [discriminate|].
  cbn [forallb] in E2. destruct (existsb _ (sent_data two_receivers)) eqn:Ed; cbn [andb] in E2.
  - destruct (IH E2) as (x & H1 & H2). exists x. split; [right; exact H1 | exact H2].
  - exists d. split; [left; reflexivity|]. intros H. assert (X : existsb (fun d' => if list_eq_dec N.eq_dec d d' then true else false) (sent_data two_receivers) = true).
    { apply existsb_exists. exists d. split; [exact H|]. destruct (list_eq_dec N.eq_dec d d); [reflexivity | contradiction]. }
    congruence.
Qed.
Print Assumptions C84_foreign_acks_refuted.

(** And the first receiver can fail: an assertion, or without assertions a matrix
    of which a part was never written. *)
Theorem C84_failure_refuted :
  exists l, Forall (fun ja => legal_action W8 (snd ja)) l /\ (forall i, StronglySorted le (arrivals_at i l))
  /\ (forall j k, In (j, AckArrive k) l -> j = 1%nat)
  /\ forall o, r_failed (the_first (multi_end Debug o l)) = Some AssertFailure
     /\ r_failed (the_first (multi_end Release o l)) = Some Uninitialised.
Proof.
  exists more_repairs. split.
  { assert (E : Forall (legal_action W8) (map snd more_repairs)) by (apply legalb_spec; vm_compute; reflexivity).
    apply Forall_forall. intros ja H. rewrite Forall_forall in E. apply E, in_map, H. }
  split.
  { intros i. unfold arrivals_at. destruct i as [|[|i]]; [apply sortedb_spec; reflexivity | apply sortedb_spec; reflexivity | constructor]. }
  split.
  { intros j k H. cbn [more_repairs In] in H. repeat (destruct H as [H|H]; [congruence|]). destruct H. }
  intros o. destruct o; split; vm_compute; reflexivity.
Qed.
Print Assumptions C84_failure_refuted.

(** *** Example *)

(** Two receivers with different losses, the first one acks; the second one, which joins late, does not. *)
Definition one_acker : list (nat * action) :=
  [sender_does (SetRate 2); sender_does (Data (sample 0)); sender_does (Data (sample 1)); first_does (Arrive 0); first_does (Arrive 2);
   first_does Ack; first_does (AckArrive 0); sender_does (Data (sample 2)); sender_does (Data (sample 3)); second_does (Arrive 3);
   first_does (Arrive 4); second_does (Arrive 4); first_does (Arrive 5); second_does (Arrive 5); second_does Ack].

Definition possible_b (l : list (nat * action)) (o : bool) : bool :=
  forallb (fun n => match nth n l (first_does Ack) with
                    | (_, Repair) => match mrun Debug at_rest (mstart at_rest W8 [o; o]) (firstn n l) with
                                     | Ok w => negb (Nat.eqb (length (e_sources (u_enc w))) 0)
                                     | _ => false
                                     end
                    | _ => true
                    end) (seq 0 (length l)).

Lemma possible_spec l o : possible_b l o = true -> repairs_possible Debug at_rest W8 [o; o] l.
Proof.
  intros H before after j w E R Ew. unfold possible_b in H. rewrite forallb_forall in H.
  specialize (H (length before)). rewrite E in H.
  rewrite app_nth2, Nat.sub_diag in H by lia. cbn [nth] in H. rewrite firstn_app, firstn_all2, Nat.sub_diag in H by lia.
  cbn [firstn] in H. rewrite app_nil_r, R, Ew in H. discriminate H.
  apply in_seq. rewrite app_length. cbn [length]. lia.
Qed.

Definition both_got : option (list (list (list N))) :=
  match mrun Debug at_rest (mstart at_rest W8 [true; true]) one_acker with Ok w => Some (map r_got (u_stations w)) | _ => None end.

Example C84_case :
  sizes_fit_during Debug (at_rest 0) W8 true (seen 0 one_acker)
  /\ Forall (fun ja => legal_action W8 (snd ja)) one_acker /\ N.of_nat (length (sent_data one_acker)) <= 65535
  /\ (forall i, StronglySorted le (arrivals_at i one_acker)) /\ (forall j k, In (j, AckArrive k) one_acker -> j = 0%nat)
  /\ repairs_possible Debug at_rest W8 [true; true] one_acker
  /\ both_got = Some [map sample [0; 1; 2; 3]; map sample [2; 3]].
Proof.
  split; [intros b a w E R; apply sizes_fit_other; discriminate|]. split.
  { assert (E : Forall (legal_action W8) (map snd one_acker)) by (apply legalb_spec; vm_compute; reflexivity).
    apply Forall_forall. intros ja H. rewrite Forall_forall in E. apply E, in_map, H. }
  split; [vm_compute; discriminate|]. split.
  { intros i. unfold arrivals_at. destruct i as [|[|i]]; [apply sortedb_spec; reflexivity | apply sortedb_spec; reflexivity | constructor]. }
  split.
  { intros j k H. cbn [one_acker In] in H. repeat (destruct H as [H|H]; [congruence|]). destruct H. }
  split; [apply possible_spec; vm_compute; reflexivity | vm_compute; reflexivity].
Qed.
