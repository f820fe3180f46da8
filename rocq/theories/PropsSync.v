(** * Properties of the closed system: what an ack does to the window of the sender (C73) *)
From Coq Require Import ZArith NArith Arith List Bool Lia Sorted.
From Verif Require Import Outcome GF Containers ContainersFacts Packetizer PropsPacketizer
  Encoder EncoderFacts EncoderRun EncoderHistory DetailDecoder Decoder DecoderOuter DecoderInv DecoderStep DecoderFacts DecoderHeld
  DecoderPrompt Rate System SystemInv SystemRun SystemArrive SystemFifo SystemLossless PropsSystem PropsRecover PropsFifo.
Import ListNotations.
Open Scope N_scope.

(** ** What the theorems say *)

(** The sources in the window of the sender, oldest first. *)
Definition outstanding (w : world) : list N := map es_id (e_sources (w_enc w)).

(** Those that are not in [ids]. *)
Definition except (ids l : list N) : list N := filter (fun x => negb (existsb (N.eqb x) ids)) l.

(** What the receiver has of the data. *)
Definition holdings (w : world) : list N := map fst (d_sources (dc_core (w_dec w))).

(** ** Auxiliary *)

Lemma window_fresh all m f o gs w x : wok all m f o gs w -> In x (outstanding w) -> ~ obsolete w x.
Proof.
  intros B Hx Ob. unfold obsolete in Ob. fold (core_of w) in Ob.
  destruct (ok_last _ _ _ _ _ _ B) as [[El _]|(i & W & n & Hi & _ & El & _ & _)].
  - unfold outdated, not_outdated in Ob. rewrite El in Ob. discriminate.
  - unfold outdated, not_outdated in Ob. rewrite El in Ob. apply negb_true_iff, N.leb_gt in Ob.
    pose proof (ok_chan _ _ _ _ _ _ B) as C.
    assert (Ip : exists p, is all m f p (GRepair W n)).
    { pose proof (ch_is _ _ _ _ _ _ _ _ C) as F2. clear -F2 Hi. revert i Hi.
      induction F2 as [|p g lp lg Hp F2 IH]; intros i Hi; [destruct i; discriminate|].
      destruct i as [|i]; cbn [nth_error] in Hi; [|apply (IH i Hi)]. exists p. congruence. }
    destruct Ip as (p & _ & Wn & Ws & Wb & _ & _).
    destruct (ch_new _ _ _ _ _ _ _ _ C i W n Hi) as [_ Hw].
    destruct W as [|y W]; [congruence|]. cbn [hd] in Ob.
    destruct (Hw x Hx) as [Hin|Hge].
    + apply ssorted_cons_inv in Ws. destruct Ws as [_ Ws]. destruct Hin as [<-|Hin]; [lia|]. specialize (Ws x Hin). lia.
    + specialize (Wb y (or_introl eq_refl)). lia.
Qed.

(** An ack that is read removes what it lists. *)
Lemma notify_lists m e ids nb e' r : ssorted (map es_id (e_sources e)) -> nb < 65536 -> id_set ids -> wire_ok ids ->
  notify m e (the_ack ids nb) = (e', r) -> ~ is_fault r -> map es_id (e_sources e') = except ids (map es_id (e_sources e)).
Proof.
  intros Hs Hnb Hids [Hc Hfit] E Hr. pose proof E as E0. apply notify_spec in E; [|exact Hr].
  pose proof (C03_ack_roundtrip m {| a_ids := ids; a_nb := nb |} Hnb Hids Hc Hfit) as R. unfold on_wire in R.
  destruct r as [k|x|x].
  - destruct (ap_ok _ _ _ _ _ E k eq_refl) as (a & _ & Ra & -> & _). unfold the_ack in Ra. rewrite R in Ra. injection Ra as <- _.
    cbn [a_ids]. rewrite erase_filter by (exact Hs || apply Hids).
    unfold except. clear. induction (e_sources e) as [|s l IH]; [reflexivity|]. cbn [filter map].
    replace (smem (es_id s) ids) with (existsb (N.eqb (es_id s)) ids).
    + destruct (existsb _ ids); cbn [negb map]; rewrite IH; reflexivity.
    + destruct (smem (es_id s) ids) eqn:Em; destruct (existsb (N.eqb (es_id s)) ids) eqn:Ex; try reflexivity.
      * assert (existsb (N.eqb (es_id s)) ids = true); [|congruence]. apply existsb_exists. exists (es_id s).
        split; [apply smem_spec, Em | apply N.eqb_refl].
      * apply existsb_exists in Ex. destruct Ex as (y & Hy & Ey). apply N.eqb_eq in Ey. subst y.
        assert (smem (es_id s) ids = true) by (apply smem_spec, Hy). congruence.
  - exfalso. unfold notify in E0. change (the_ack ids nb) with (concat (write_ack {| a_ids := ids; a_nb := nb |})) in E0.
    rewrite R in E0. change (get_packet_type _) with (@Ok ptype TAck) in E0.
    replace (assert_ m _) with (@Ok unit tt) in E0 by (destruct m; reflexivity). cbn [bind] in E0.
    unfold apply_ack in E0.
    assert (Nt : forall a b y, adapted_rate a b <> Throw y).
    { intros a b y. unfold adapted_rate, rate_for_loss, ceil_size. destruct (0 <? a); destruct (SpecFloat.SFltb _ _); try discriminate;
        match goal with |- match ?q with _ => _ end <> _ => destruct q end; try discriminate;
        match goal with |- (if ?q then _ else _) <> _ => destruct q end; discriminate. }
    destruct (e_adaptive (with_ack e)).
    + destruct (adapted_rate _ _) as [?|y|?] eqn:Ea; cbn [bind] in E0; try discriminate. apply (Nt _ _ _ Ea).
    + discriminate.
  - destruct Hr. eexists. reflexivity.
Qed.

(** ** C73 *)

(** The receiver never gives up a datum that the sender can still send in repairs: what is in the window and
    was delivered is held. *)
Theorem C73_window_is_live :
  forall m clk f o w, normal m clk f o w ->
  (forall x, In x (outstanding w) -> ~ obsolete w x)
  /\ exists which, NoDup which /\ w_got w = map (datum w) which
     /\ forall x, In x (outstanding w) -> In (N.to_nat x) which -> In x (holdings w).
Proof.
  intros m clk f o w Nm. destruct (delivered _ _ _ _ _ Nm) as (gs & B & Eg & _ & Nd & _).
  assert (Fr : forall x, In x (outstanding w) -> ~ obsolete w x) by (intros x; eapply window_fresh, B).
  split; [exact Fr|]. exists (map N.to_nat (handed (core_of w))). split; [exact Nd|]. split; [exact Eg|].
  intros x Hx Hin. apply in_map_iff in Hin. destruct Hin as (y & Ey & Hy). apply N2Nat.inj in Ey. subst y.
  apply in_map_iff in Hy. destruct Hy as (v & Ev & Hv).
  pose proof (do_inv _ _ _ _ (ok_dec _ _ _ _ _ _ B)) as I. destruct I as [_ _ [_ L2 _ _] _].
  destruct (L2 v x Hv (or_introl (eq_sym Ev))) as [[K|[]]|K]; [exact K|]. destruct (Fr x Hx K).
Qed.
Print Assumptions C73_window_is_live.

Lemma ack_written m clk f o w w1 : reach m clk f o w -> repairs_in_order w -> within_limits f w ->
  wstep m clk w Ack = Ok w1 ->
  exists nb, w_acks w1 = w_acks w ++ [the_ack (holdings w) nb] /\ nb < 65536 /\ w_lists w1 = w_lists w ++ [holdings w]
  /\ w_enc w1 = w_enc w /\ w_got w1 = w_got w /\ w_sent w1 = w_sent w /\ core_of w1 = core_of w /\ w_arrived w1 = w_arrived w
  /\ w_out w1 = w_out w.
Proof.
  intros R Ho L E. destruct (run_wok m clk f o w w R (extends_refl w) L Ho) as [gs B].
  destruct (ok_dec _ _ _ _ _ _ B) as [G Hi Hn I _ _].
  cbn [wstep] in E. unfold receiver in E. cbn [dstep] in E. destruct (generate_ack (w_dec w)) as [d out] eqn:Eg.
  cbn [survive bind] in E. unfold generate_ack in Eg. apply generate_ack_of_spec in Eg; [|exact Hi | apply G].
  destruct Eg as (K & _ & _ & _ & _ & Eo). exists (a_nb (dc_ack (w_dec w))).
  assert (Ec : dc_core d = dc_core (w_dec w)) by apply K.
  match type of E with Ok ?x = _ => assert (Ew : w1 = x) by congruence end. rewrite Ew. clear E Ew.
  cbn [w_acks w_lists w_enc w_got w_sent w_dec w_arrived w_out]. rewrite Eo. cbn [to_network to_user]. unfold core_of. cbn [w_dec].
  split; [reflexivity|]. split; [exact Hn|]. split.
  - unfold acked. cbn [to_network]. rewrite Ec, skipn_all. reflexivity.
  - rewrite !app_nil_r. auto 10.
Qed.

(** An ack that was requested and arrives later, with anything in between, takes exactly those data out of the window that the receiver
    had when it wrote the ack; the order of the others stays. Whether other acks were lost does not matter. *)
Theorem C73_ack_arrives :
  forall m clk f o w w1 l w2 w3, normal m clk f o w3 -> reach m clk f o w ->
  wstep m clk w Ack = Ok w1 -> wrun m clk w1 l = Ok w2 -> wstep m clk w2 (AckArrive (length (w_acks w))) = Ok w3 ->
  outstanding w3 = except (holdings w) (outstanding w2).
Proof.
  intros m clk f o w w1 l w2 w3 (R3 & Ho3 & L3) R E1 E2 E3.
  pose proof (wstep_extends _ _ _ _ _ E1) as X1. pose proof (wrun_extends _ _ _ _ _ E2) as X2. pose proof (wstep_extends _ _ _ _ _ E3) as X3.
  pose proof (reach_step _ _ _ _ _ _ _ R E1) as R1.
  assert (R2 : reach m clk f o w2).
  { destruct R1 as [l1 R1]. exists (l1 ++ l). rewrite (SystemRun.wrun_app _ _ _ _ _ _ R1). exact E2. }
  pose proof (repairs_in_order_before _ _ _ _ _ _ R2 X3 Ho3) as Ho2.
  pose proof (repairs_in_order_before _ _ _ _ _ _ R (extends_trans _ _ _ X1 X2) Ho2) as Ho.
  pose proof (extends_trans _ _ _ X1 (extends_trans _ _ _ X2 X3)) as X.
  destruct (ack_written m clk f o w w1 R Ho (limits_before _ _ _ X L3) E1) as (nb & Ea & Hnb & El & _).
  destruct (run_wok m clk f o w w (R) (extends_refl w) (limits_before _ _ _ X L3) Ho) as [gs0 B0].
  destruct (run_wok m clk f o w2 w2 R2 (extends_refl w2) (limits_before _ _ _ X3 L3) Ho2) as [gs2 B2].
  assert (En : nth_error (w_acks w2) (length (w_acks w)) = Some (the_ack (holdings w) nb)).
  { destruct (x_acks _ _ X2) as [t ->]. apply nth_error_keep. rewrite Ea, nth_error_app2 by lia.
    rewrite Nat.sub_diag. reflexivity. }
  assert (Wi : wire_ok (holdings w)).
  { pose proof (wl_lists _ _ L3) as W. destruct (x_lists _ _ (extends_trans _ _ _ X2 X3)) as [t Et]. rewrite Et, El in W.
    apply Forall_app in W. destruct W as [W _]. apply Forall_app in W. destruct W as [_ W]. inversion W; assumption. }
  assert (Is : id_set (holdings w)).
  { apply (ids_set (w_sent w)).
    - apply lim_bound with f, (limits_before _ _ _ X L3).
    - apply (do_good _ _ _ _ (ok_dec _ _ _ _ _ _ B0)).
    - intros x Hx. apply (i_ge _ _ _ _ (do_inv _ _ _ _ (ok_dec _ _ _ _ _ _ B0)) x). left. left. exact Hx. }
  cbn [wstep] in E3. rewrite En in E3. unfold sender in E3. cbn [estep] in E3.
  destruct (notify m (w_enc w2) (the_ack (holdings w) nb)) as [e q] eqn:Eq.
  apply bind_ok in E3. destruct E3 as (out & Eo & E3). apply survive_ok in Eo. destruct Eo as [Hnf _].
  match type of E3 with Ok ?x = _ => assert (Ew : w3 = x) by congruence end.
  unfold outstanding. rewrite Ew. cbn [w_enc].
  apply (notify_lists m (w_enc w2) (holdings w) nb e q); try assumption.
  - apply (eo_sorted _ _ _ _ (ok_enc _ _ _ _ _ _ B2)).
  - intros [y Hy]. apply Hnf. rewrite Hy. exists y. reflexivity.
Qed.
Print Assumptions C73_ack_arrives.

Lemma except_in ids l x : In x (except ids l) <-> In x l /\ ~ In x ids.
Proof.
  unfold except. rewrite filter_In, negb_true_iff. split; intros [H1 H2]; split; try exact H1.
  - intros Y. assert (existsb (N.eqb x) ids = true); [|congruence]. apply existsb_exists. exists x. split; [exact Y | apply N.eqb_refl].
  - destruct (existsb (N.eqb x) ids) eqn:E; [|reflexivity]. destruct H2. apply existsb_exists in E. destruct E as (y & Hy & Ey).
    apply N.eqb_eq in Ey. congruence.
Qed.

Lemma except_all ids l : (forall x, In x l -> In x ids) -> except ids l = [].
Proof.
  intros H. destruct (except ids l) as [|x t] eqn:E; [reflexivity|]. exfalso.
  assert (Hx : In x (except ids l)) by (rewrite E; left; reflexivity). apply except_in in Hx. destruct Hx as [H1 H2]. auto.
Qed.

(** An ack that arrives at once: what remains in the window are the data that the receiver lacks, none of which was delivered. *)
Theorem C73_synchronised :
  forall m clk f o w w1 w2, normal m clk f o w2 -> reach m clk f o w ->
  wstep m clk w Ack = Ok w1 -> wstep m clk w1 (AckArrive (length (w_acks w))) = Ok w2 ->
  (forall x, In x (outstanding w2) <-> In x (outstanding w) /\ ~ In x (holdings w2))
  /\ exists which, NoDup which /\ w_got w2 = map (datum w2) which
     /\ forall x, In x (outstanding w2) -> ~ In (N.to_nat x) which.
Proof.
  intros m clk f o w w1 w2 Nm R E1 E2.
  assert (E : outstanding w2 = except (holdings w) (outstanding w1)).
  { apply (C73_ack_arrives m clk f o w w1 [] w1 w2); try assumption. reflexivity. }
  pose proof Nm as (R2 & Ho2 & L2).
  pose proof (wstep_extends _ _ _ _ _ E1) as X1. pose proof (wstep_extends _ _ _ _ _ E2) as X2.
  pose proof (reach_step _ _ _ _ _ _ _ R E1) as R1.
  pose proof (repairs_in_order_before _ _ _ _ _ _ R (extends_trans _ _ _ X1 X2) Ho2) as Ho.
  destruct (ack_written m clk f o w w1 R Ho (limits_before _ _ _ (extends_trans _ _ _ X1 X2) L2) E1) as (nb & _ & _ & _ & Ee & _ & _ & Ec & _).
  assert (Eh : holdings w2 = holdings w).
  { unfold holdings. fold (core_of w2) (core_of w). rewrite <- Ec. f_equal. f_equal.
    apply dec_kept in E2; [exact E2 | discriminate]. }
  assert (Eo : outstanding w1 = outstanding w) by (unfold outstanding; rewrite Ee; reflexivity).
  assert (A : forall x, In x (outstanding w2) <-> In x (outstanding w) /\ ~ In x (holdings w2)).
  { intros x. rewrite E, Eh, Eo. apply except_in. }
  split; [exact A|]. destruct (C73_window_is_live m clk f o w2 Nm) as (_ & which & Nd & Eg & Hw).
  exists which. split; [exact Nd|]. split; [exact Eg|]. intros x Hx Hin. apply (proj1 (A x) Hx). apply Hw; assumption.
Qed.
Print Assumptions C73_synchronised.

(** If nothing is lost, an ack empties the window. *)
Theorem C73_lossless_empties :
  forall m clk f o l w w1 w2, wrun m clk (start clk f o) l = Ok w -> within_limits f w2 ->
  ~ In (SetCode false) l -> first_arrived w (length (w_out w)) ->
  wstep m clk w Ack = Ok w1 -> wstep m clk w1 (AckArrive (length (w_acks w))) = Ok w2 ->
  outstanding w2 = [].
Proof.
  intros m clk f o l w w1 w2 E L2 Hc Ha E1 E2.
  pose proof (wstep_extends _ _ _ _ _ E1) as X1. pose proof (wstep_extends _ _ _ _ _ E2) as X2.
  pose proof (limits_before _ _ _ (extends_trans _ _ _ X1 X2) L2) as L.
  assert (En : length (w_arrived w) = length (w_out w)) by (rewrite Ha; apply seq_length).
  assert (Lo : lossless w) by (unfold lossless; rewrite En; exact Ha).
  destruct (run_lossless m clk f o l w w E (extends_refl w) L Lo Hc) as (gs & B & _ & Co & _ & Cl).
  rewrite En, firstn_all, <- Co in Cl.
  assert (R : reach m clk f o w) by (exists l; exact E).
  destruct (ack_written m clk f o w w1 R (fifo_repairs _ (lossless_fifo _ Lo)) L E1) as (nb & _ & _ & _ & Ee & _ & _ & Ec & Ear & Eou).
  assert (Nm : normal m clk f o w2).
  { split; [eapply reach_step; [eapply reach_step; [exact R | exact E1] | exact E2]|]. split; [|exact L2].
    apply fifo_repairs. unfold fifo.
    replace (w_arrived w2) with (w_arrived w); [rewrite Ha; apply seq_fifo|]. rewrite <- Ear. symmetry.
    cbn [wstep] in E2. destruct (nth_error (w_acks w1) _); [apply (sender_extends _ _ _ _ _ E2) | congruence]. }
  rewrite (C73_ack_arrives m clk f o w w1 [] w1 w2 Nm R E1 eq_refl E2).
  apply except_all. intros x Hx. unfold outstanding in Hx. rewrite Ee in Hx.
  apply (cl_keys _ _ Cl). split; [apply (eo_below _ _ _ _ (ok_enc _ _ _ _ _ _ B)), Hx|].
  pose proof (window_fresh _ _ _ _ _ _ x B Hx) as Fr. unfold obsolete, outdated in Fr. fold (core_of w) in Fr.
  destruct (not_outdated (core_of w) x); [reflexivity | destruct Fr; reflexivity].
Qed.
Print Assumptions C73_lossless_empties.

(** ** Examples *)

(** Five data; the second and the fourth source and the first ack are lost. *)
Definition before_sync : list action :=
  [Data (sample 0); Data (sample 1); Data (sample 2); Arrive 0; Ack; Data (sample 3); Arrive 2; SetRate 7; Data (sample 4); Arrive 4].

Example C73_case : forall o, let w := ending Debug W8 o before_sync in
  let w1 := ending Debug W8 o (before_sync ++ [Ack]) in
  let w2 := ending Debug W8 o (before_sync ++ [Ack; AckArrive 1]) in
  normal Debug still W8 o w2 /\ reach Debug still W8 o w
  /\ wstep Debug still w Ack = Ok w1 /\ wstep Debug still w1 (AckArrive (length (w_acks w))) = Ok w2
  /\ outstanding w = [0; 1; 2; 3; 4] /\ holdings w = [0; 2; 4] /\ outstanding w2 = [1; 3].
Proof.
  intros o. cbv zeta. split; [apply lossy_normal, run_lossy with (before_sync ++ [Ack; AckArrive 1]); [discriminate | |]; destruct o; vm_compute; reflexivity|].
  split; [exists before_sync; destruct o; vm_compute; reflexivity|].
  destruct o; vm_compute; repeat split; reflexivity.
Qed.

(** Nothing is lost; the window is empty after the ack. *)
Example C73_lossless_case : forall o, let l := [Data (sample 0); Data (sample 1); Arrive 0; Arrive 1] in
  let w := ending Debug W8 o l in
  let w1 := ending Debug W8 o (l ++ [Ack]) in
  let w2 := ending Debug W8 o (l ++ [Ack; AckArrive 0]) in
  wrun Debug still (start still W8 o) l = Ok w /\ within_limits W8 w2 /\ ~ In (SetCode false) l
  /\ first_arrived w (length (w_out w)) /\ wstep Debug still w Ack = Ok w1
  /\ wstep Debug still w1 (AckArrive (length (w_acks w))) = Ok w2
  /\ outstanding w = [0; 1] /\ outstanding w2 = [].
Proof.
  intros o. cbv zeta. split; [destruct o; vm_compute; reflexivity|].
  split; [assert (Lf : lossy_fifo Debug still W8 o (ending Debug W8 o ([Data (sample 0); Data (sample 1); Arrive 0; Arrive 1] ++ [Ack; AckArrive 0])));
    [apply run_lossy with ([Data (sample 0); Data (sample 1); Arrive 0; Arrive 1] ++ [Ack; AckArrive 0]); [discriminate | |];
      destruct o; vm_compute; reflexivity | apply Lf]|].
  split; [cbn; intuition discriminate|]. destruct o; vm_compute; repeat split; reflexivity.
Qed.

(** That an ack leaves no delivered datum in the window is false if packets arrived
    after it was written: the datum 1 arrives too late for the ack. *)
Theorem C73_late_arrivals_refuted :
  exists m clk f o w w1 l w2 w3 x, normal m clk f o w3 /\ reach m clk f o w
  /\ wstep m clk w Ack = Ok w1 /\ wrun m clk w1 l = Ok w2 /\ wstep m clk w2 (AckArrive (length (w_acks w))) = Ok w3
  /\ In x (outstanding w3) /\ In x (holdings w3) /\ In (datum w3 (N.to_nat x)) (w_got w3).
Proof.
  set (l := [Data (sample 0); Data (sample 1); Arrive 0]).
  exists Debug, still, W8, true, (ending Debug W8 true l), (ending Debug W8 true (l ++ [Ack])), [Arrive 1],
    (ending Debug W8 true (l ++ [Ack; Arrive 1])), (ending Debug W8 true (l ++ [Ack; Arrive 1; AckArrive 0])), 1.
  split; [apply lossy_normal, run_lossy with (l ++ [Ack; Arrive 1; AckArrive 0]); [discriminate | |]; vm_compute; reflexivity|].
  split; [exists l; vm_compute; reflexivity|]. split; [vm_compute; reflexivity|]. split; [vm_compute; reflexivity|].
  split; [vm_compute; reflexivity|]. split; [vm_compute; auto|]. split; vm_compute; auto.
Qed.
Print Assumptions C73_late_arrivals_refuted.
