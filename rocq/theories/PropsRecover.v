(** * Properties of the closed system: recovery of lost data (C33, C34) *)
From Coq Require Import ZArith NArith List Bool Lia Sorted.
From Verif Require Import Outcome GF Containers ContainersFacts Packetizer PropsPacketizer
  Encoder EncoderRun EncoderHistory DetailDecoder Decoder DecoderInv DecoderStep DecoderFacts DecoderHeld
  DecoderRecover System SystemInv SystemRun SystemArrive PropsSystem.
Import ListNotations.
Open Scope N_scope.

(** Packet number [k] is a repair: its number and the sources it covers. *)
Definition repair_packet_at (m : mode) (w : world) (k : nat) (number : N) (covered : list N) : Prop :=
  exists p r q, nth_error (w_out w) k = Some p /\ get_packet_type p = Ok TRepair
  /\ read_repair m p = Ok (r, q) /\ dr_id r = number /\ dr_ids r = covered.

(** Packet number [k] is the source [x]. *)
Definition source_packet_at (m : mode) (w : world) (k : nat) (x : N) : Prop :=
  exists p s q, nth_error (w_out w) k = Some p /\ get_packet_type p = Ok TSource
  /\ read_source m p = Ok (s, q) /\ ds_id s = x.

(** The repairs the receiver keeps for later: their numbers and the sources they
    still cover. The sources it knows to be lost. *)
Definition pending (w : world) : list (N * list N) := equations (d_repairs (dc_core (w_dec w))).
Definition missing (w : world) (x : N) : Prop := In x (mkeys (d_missing (dc_core (w_dec w)))).

(** The step from [w] to [w'] recovers datum [x]: the receiver has its exact contents,
    and, without ordering, has handed it out in this step. *)
Definition recovers (o : bool) (w w' : world) (x : N) : Prop :=
  mfind x (d_sources (dc_core (w_dec w'))) = Some (datum w' (N.to_nat x))
  /\ (N.to_nat x < length (w_sent w'))%nat
  /\ (o = false -> exists new, w_got w' = w_got w ++ new /\ In (datum w' (N.to_nat x)) new).

Lemma recover_step m clk f o w k w' x : reach m clk f o w -> wstep m clk w (Arrive k) = Ok w' ->
  normal m clk f o w' -> ~ held w x -> ~ obsolete w x -> held w' x -> recovers o w w' x.
Proof.
  intros R E Nm Hn Hno Hh. pose proof Nm as (R' & Ho & L).
  pose proof (reach_step _ _ _ _ _ _ _ R E) as _.
  destruct (run_wok m clk f o w' w' R' (extends_refl w') L Ho) as [gs' B'].
  pose proof B' as [_ _ _ _ D' _ G']. destruct D' as [_ _ _ I' O' H'].
  destruct I' as [C' Ge' L' _].
  assert (Hx : x < lim (w_sent w')) by (apply Ge'; left; left; exact Hh).
  split; [apply (sgen_find (S (w_sent w')) (dc_core (w_dec w')) x (c_sources _ _ _ _ C') Hh)|].
  split; [unfold lim in Hx; lia|]. intros Eo.
  destruct (nth_error (w_out w) k) as [p|] eqn:Hk.
  2:{ exfalso. cbn [wstep] in E. rewrite Hk in E. assert (w' = w) by congruence. subst. contradiction. }
  destruct (arrive_core m clk f o w k w' p R E Ho L Hk) as (gs & B & A).
  pose proof B as [_ _ _ _ D _ G]. destruct D as [_ _ _ I _ _].
  assert (Elog : exists new, d_log (core_of w') = d_log (core_of w) ++ new).
  { destruct A as [(s & q & _ & _ & Hs & A)|(r & q & _ & _ & Ac & A)].
    - apply (recv_source_spec f _ m _ (lim_bound f w' L) (HS _ f (data_ok f w' L))) in A; [|exact I | exact Hs].
      destruct A as (_ & V & _). apply (e_log _ _ _ _ V).
    - apply (recv_repair_spec f _ m _ (lim_bound f w' L) (HS _ f (data_ok f w' L))) in A; [|exact I | exact Ac].
      destruct A as (_ & V & _). apply (e_log _ _ _ _ V). }
  destruct Elog as [new Elog]. exists (map v_data new). rewrite G, G', Elog, map_app. split; [reflexivity|].
  assert (Hin : In x (handed (core_of w'))) by (apply H'; [unfold core_of in *; congruence | exact Hh]).
  unfold handed in Hin. rewrite Elog, map_app in Hin. apply in_app_iff in Hin. destruct Hin as [Hin|Hin].
  - exfalso. apply in_map_iff in Hin. destruct Hin as (v & Ev & Hv). destruct I as [_ _ Lg _].
    destruct (l_settled _ _ _ _ _ Lg v x Hv (or_introl (eq_sym Ev))) as [[Z|[]]|Z]; [apply Hn, Z | apply Hno, Z].
  - apply in_map_iff in Hin. destruct Hin as (v & Ev & Hv). apply in_map_iff. exists v. split; [|exact Hv].
    destruct (l_gen _ _ _ _ _ L' v) as [Z _]; [unfold core_of in Elog; rewrite Elog; apply in_app_iff; right; exact Hv|].
    rewrite Z, Ev. reflexivity.
Qed.

(** ** C33: one lost datum *)

Theorem C33_single_loss :
  forall m clk f o w k w' number covered x,
  reach m clk f o w -> wstep m clk w (Arrive k) = Ok w' -> normal m clk f o w' ->
  repair_packet_at m w k number covered -> ~ In number (map fst (pending w)) ->
  In x covered -> ~ held w x -> ~ obsolete w x ->
  (forall y, In y covered -> y <> x -> held w y) ->
  recovers o w w' x.
Proof.
  intros m clk f o w k w' number covered x R E Nm (p & r & q & Hk & Et & Er & <- & <-) Hp Hx Hn Hno Hall.
  apply (recover_step m clk f o w k w' x R E Nm Hn Hno). pose proof Nm as (R' & Ho & L).
  destruct (arrive_core m clk f o w k w' p R E Ho L Hk) as (gs & B & A).
  destruct A as [(s & q' & Et' & _)|(r' & q' & _ & Er' & Ac & A)]; [congruence|].
  assert (r' = r) by congruence. subst r'.
  pose proof (do_inv _ _ _ _ (ok_dec _ _ _ _ _ _ B)) as I.
  eapply (recv_repair_single f _ m _ (lim_bound f w' L) (HS _ f (data_ok f w' L))); try eassumption.
  - intros A1. apply Hp. unfold pending, equations. rewrite map_map.
    unfold mkeys in A1. rewrite (map_ext _ fst); [exact A1 | intros [a b]; reflexivity].
  - destruct (outdated (core_of w) x) eqn:Eo; [exfalso; apply Hno, Eo | first [reflexivity | exact Eo]].
Qed.
Print Assumptions C33_single_loss.

(** ** C34: any number of lost data *)

(** A repair arrives. It makes everything older than its first source obsolete. If the pending
    repairs that stay and the new one determine the lost sources, all of them are recovered. *)
Theorem C34_repair_completes :
  forall m clk f o w k w' number covered lost,
  reach m clk f o w -> wstep m clk w (Arrive k) = Ok w' -> normal m clk f o w' ->
  repair_packet_at m w k number covered -> ~ In number (map fst (pending w)) ->
  ~ obsolete w (last covered 0) ->
  (forall x, In x lost <-> (missing w x /\ hd 0 covered <= x) \/ (In x covered /\ ~ held w x)) ->
  determines f ((number, covered)
    :: filter (fun '(_, ids) => hd 0 covered <=? hd 0 ids) (pending w)) lost ->
  forall x, In x lost -> recovers o w w' x.
Proof.
  intros m clk f o w k w' number covered lost R E Nm (p & r & q & Hk & Et & Er & <- & <-) Hp Hl HU D x Hx.
  pose proof Nm as (R' & Ho & L).
  destruct (arrive_core m clk f o w k w' p R E Ho L Hk) as (gs & B & A).
  destruct A as [(s & q' & Et' & _)|(r' & q' & _ & Er' & Ac & A)]; [congruence|].
  assert (r' = r) by congruence. subst r'.
  pose proof (do_inv _ _ _ _ (ok_dec _ _ _ _ _ _ B)) as I. pose proof I as [C Ge _ _].
  apply (recover_step m clk f o w k w' x R E Nm).
  - intros A1. apply HU in Hx. destruct Hx as [[Z _]|[_ Z]]; [|contradiction].
    apply (c_disj _ _ _ _ C x Z). left. exact A1.
  - unfold obsolete. intros A1. apply HU in Hx.
    assert (Z : not_outdated (core_of w) x = true).
    { destruct Hx as [[Z _]|[Z _]]; [apply Ge; right; exact Z|].
      pose proof (b_first _ _ _ _ _ Ac) as F. unfold not_outdated in *. destruct (d_last (core_of w)); [|reflexivity].
      apply N.leb_le in F. apply N.leb_le. pose proof (sorted_hd _ x (DecoderAlgebra.g_sorted _ _ _ (b_genuine _ _ _ _ _ Ac)) Z). lia. }
    apply outdated_true in A1. unfold core_of in Z. congruence.
  - apply (recv_repair_determined f _ m _ (lim_bound f w' L) (HS _ f (data_ok f w' L)) (core_of w) r) with (U := lost); try assumption.
    + destruct (outdated (core_of w) (last (dr_ids r) 0)) eqn:Eo; [exfalso; apply Hl, Eo | first [reflexivity | exact Eo]].
    + intros A1. apply Hp. unfold pending, equations. rewrite map_map.
      unfold mkeys in A1. rewrite (map_ext _ fst); [exact A1 | intros [a b]; reflexivity].
    + replace (equations (filter _ _)) with (filter (fun '(_, ids) => hd 0 (dr_ids r) <=? hd 0 ids) (pending w)); [exact D|].
      unfold pending, equations. change (dc_core (w_dec w)) with (core_of w). generalize (d_repairs (core_of w)).
      intros l. induction l as [|[i rep] l IH]; [reflexivity|]. cbn [map filter].
      destruct (hd 0 (dr_ids r) <=? hd 0 (dr_ids rep)); cbn [map]; rewrite IH; reflexivity.
Qed.
Print Assumptions C34_repair_completes.

(** A source arrives. If, with it, the pending repairs determine the other lost
    sources, all of them are recovered. *)
Theorem C34_source_completes :
  forall m clk f o w k w' y lost,
  reach m clk f o w -> wstep m clk w (Arrive k) = Ok w' -> normal m clk f o w' ->
  source_packet_at m w k y -> ~ held w y -> ~ obsolete w y ->
  (forall x, In x lost <-> missing w x /\ x <> y) ->
  determines f (pending w) lost ->
  forall x, In x lost -> recovers o w w' x.
Proof.
  intros m clk f o w k w' y lost R E Nm (p & s & q & Hk & Et & Er & <-) Hy Hyo HU D x Hx.
  pose proof Nm as (R' & Ho & L).
  destruct (arrive_core m clk f o w k w' p R E Ho L Hk) as (gs & B & A).
  destruct A as [(s' & q' & _ & Er' & Hs & A)|(r' & q' & Et' & _)]; [|congruence].
  assert (s' = s) by congruence. subst s'.
  pose proof (do_inv _ _ _ _ (ok_dec _ _ _ _ _ _ B)) as I. pose proof I as [C Ge _ _].
  apply (recover_step m clk f o w k w' x R E Nm).
  - intros A1. apply HU in Hx. destruct Hx as [Z _]. apply (c_disj _ _ _ _ C x Z). left. exact A1.
  - unfold obsolete. intros A1. apply HU in Hx. destruct Hx as [Z _].
    destruct (Ge x (or_intror Z)) as [Z' _]. apply outdated_true in A1. congruence.
  - apply (recv_source_determined f _ m _ (lim_bound f w' L) (HS _ f (data_ok f w' L)) (core_of w) (ds_id s)) with (U := lost); try assumption.
    destruct (outdated (core_of w) (ds_id s)) eqn:Eo; [exfalso; apply Hyo, Eo | first [reflexivity | exact Eo]].
Qed.
Print Assumptions C34_source_completes.

(** *** Examples *)

(** In [story], the tenth action brings a repair over 0, 1, 2, 3; only 1 is unknown. *)
Example C33_case : forall o, let w := ending Debug W8 o (firstn 9 story) in
  exists w', wstep Debug still w (Arrive 4) = Ok w' /\ normal Debug still W8 o w'
  /\ repair_packet_at Debug w 4 0 [0; 1; 2; 3] /\ pending w = []
  /\ (forall x, held w x <-> In x [0; 2; 3]) /\ (forall x, ~ obsolete w x).
Proof.
  intros o w. exists (ending Debug W8 o (firstn 10 story)).
  split; [subst w; destruct o; vm_compute; reflexivity|].
  split; [apply run_normal with (firstn 10 story); [discriminate | |]; destruct o; vm_compute; reflexivity|].
  split; [|split; [|split]].
  - subst w. destruct o; (eexists; eexists; eexists; split; [vm_compute; reflexivity|]; vm_compute; repeat split; reflexivity).
  - subst w. destruct o; vm_compute; reflexivity.
  - intros x. subst w. destruct o; vm_compute; tauto.
  - intros x. subst w. destruct o; vm_compute; discriminate.
Qed.

(** Four data, of which 1 and 2 are lost, and two repairs. *)
Definition two_lost : list action :=
  [SetRate 50; Data (sample 0); Data (sample 1); Data (sample 2); Data (sample 3); Repair; Repair;
   Arrive 0; Arrive 3; Arrive 4].

Example C34_repair_case : forall o, let w := ending Debug W8 o two_lost in
  exists w', wstep Debug still w (Arrive 5) = Ok w' /\ normal Debug still W8 o w'
  /\ repair_packet_at Debug w 5 1 [0; 1; 2; 3] /\ pending w = [(0, [1; 2])] /\ ~ obsolete w 3
  /\ (forall x, In x [1; 2] <-> (missing w x /\ 0 <= x) \/ (In x [0; 1; 2; 3] /\ ~ held w x))
  /\ determines W8 [(1, [0; 1; 2; 3]); (0, [1; 2])] [1; 2].
Proof.
  intros o w. exists (ending Debug W8 o (two_lost ++ [Arrive 5])).
  split; [subst w; destruct o; vm_compute; reflexivity|].
  split; [apply run_normal with (two_lost ++ [Arrive 5]); [discriminate | |]; destruct o; vm_compute; reflexivity|].
  split; [|split; [|split; [|split]]].
  - subst w. destruct o; (eexists; eexists; eexists; split; [vm_compute; reflexivity|]; vm_compute; repeat split; reflexivity).
  - subst w. destruct o; vm_compute; reflexivity.
  - subst w. destruct o; vm_compute; discriminate.
  - assert (H1 : forall x, missing w x <-> In x [1; 2]) by (intros x; subst w; destruct o; vm_compute; tauto).
    assert (H2 : forall x, held w x <-> In x [0; 3]) by (intros x; subst w; destruct o; vm_compute; tauto).
    intros x. rewrite H1, H2. clear. cbn [In]. split.
    + intros H. left. split; [exact H | apply N.le_0_l].
    + intros [[H _]|[H1 H2]]; [exact H | tauto].
  - apply invertible_determines; [discriminate | reflexivity | | |].
    + repeat constructor.
    + intros i ids [H|[H|[]]]; injection H as <- <-; repeat constructor.
    + apply invertible_shown. vm_compute. reflexivity.
Qed.

(** Four data, of which 1, 2 and 3 are late, and two repairs; then 3 arrives. *)
Definition three_late : list action :=
  [SetRate 50; Data (sample 0); Data (sample 1); Data (sample 2); Data (sample 3); Repair; Repair;
   Arrive 0; Arrive 4; Arrive 5].

Example C34_source_case : forall o, let w := ending Debug W8 o three_late in
  exists w', wstep Debug still w (Arrive 3) = Ok w' /\ normal Debug still W8 o w'
  /\ source_packet_at Debug w 3 3 /\ pending w = [(0, [1; 2; 3]); (1, [1; 2; 3])]
  /\ ~ held w 3 /\ ~ obsolete w 3
  /\ (forall x, In x [1; 2] <-> missing w x /\ x <> 3)
  /\ determines W8 (pending w) [1; 2].
Proof.
  intros o w. exists (ending Debug W8 o (three_late ++ [Arrive 3])).
  split; [subst w; destruct o; vm_compute; reflexivity|].
  split; [apply run_normal with (three_late ++ [Arrive 3]); [discriminate | |]; destruct o; vm_compute; reflexivity|].
  assert (Hp : pending w = [(0, [1; 2; 3]); (1, [1; 2; 3])]) by (subst w; destruct o; vm_compute; reflexivity).
  split; [|split; [|split; [|split; [|split]]]].
  - subst w. destruct o; (eexists; eexists; eexists; split; [vm_compute; reflexivity|]; vm_compute; repeat split; reflexivity).
  - exact Hp.
  - assert (H2 : forall x, held w x <-> In x [0]) by (intros x; subst w; destruct o; vm_compute; tauto).
    rewrite H2. intros [H|[]]. discriminate.
  - subst w. destruct o; vm_compute; discriminate.
  - assert (H1 : forall x, missing w x <-> In x [1; 2; 3]) by (intros x; subst w; destruct o; vm_compute; tauto).
    intros x. rewrite H1. clear. cbn [In]. split.
    + intros [<-|[<-|[]]]; split; try tauto; discriminate.
    + intros [H1 H2]. destruct H1 as [H|[H|[H|[]]]]; subst; tauto.
  - rewrite Hp. apply invertible_determines; [discriminate | reflexivity | | |].
    + repeat constructor.
    + intros i ids [H|[H|[]]]; injection H as <- <-; repeat constructor.
    + apply invertible_shown. vm_compute. reflexivity.
Qed.
