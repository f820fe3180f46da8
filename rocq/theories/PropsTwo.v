(** * C93: two losses are made good unless their numbers agree modulo the number of coefficients *)
From Coq Require Import ZArith NArith List Bool Lia Sorted.
From Verif Require Import Outcome GF GFField Linear Containers ContainersFacts Packetizer PropsPacketizer
  Encoder EncoderRun EncoderHistory DetailDecoder Decoder DecoderInv DecoderStep DecoderFacts DecoderHeld
  DecoderProgress DecoderPrompt DecoderRecover Twins System SystemInv SystemRun SystemArrive SystemFifo
  PropsSystem PropsRecover PropsFifo PropsBlind PropsWide TwoLosses PropsTwins.
Import ListNotations.
Open Scope N_scope.

(** ** The claim *)

(** The receiver knows of exactly two missing data. *)
Definition lacks_two (w : world) (a b : N) : Prop := forall x, missing w x <-> x = a \/ x = b.

(** A repair with number [r] is among the packets that arrived between [w] and [w']. *)
Definition repair_arrives (m : mode) (w w' : world) (r : N) : Prop :=
  exists k covered, In k (skipn (length (w_arrived w)) (w_arrived w')) /\ repair_packet_at m w' k r covered.

(** As long as [a] is missing, the repairs that arrive during [l] cover [a] and [b], and
    nothing else that the receiver does not have. *)
Definition repairs_about (m : mode) (clk : clock) (w : world) (l : list action) (a b : N) : Prop :=
  forall l1 k l2 w1 number covered, l = l1 ++ Arrive k :: l2 -> wrun m clk w l1 = Ok w1 -> missing w1 a ->
  repair_packet_at m w1 k number covered ->
  In a covered /\ In b covered /\ forall y, In y covered -> y = a \/ y = b \/ held w1 y.

(** Some arrival during [l] recovers both. *)
Definition recovered_in (m : mode) (clk : clock) (o : bool) (w : world) (l : list action) (a b : N) : Prop :=
  exists l1 k l2 w1 w2, l = l1 ++ Arrive k :: l2 /\ wrun m clk w l1 = Ok w1 /\ wstep m clk w1 (Arrive k) = Ok w2
  /\ recovers o w1 w2 a /\ recovers o w1 w2 b.

(** ** Proof *)

Section Run.
Variable m : mode.
Variable clk : clock.
Variable f : field.
Variable o : bool.
Variables a b : N.
Hypothesis Hab : a < b.

(** The repairs seen so far say all the same about [a] and [b]. *)
Definition one_row (w : world) (seen : list N) : Prop :=
  forall r, In r seen -> exists q rep, d_repairs (core_of w) = [(q, rep)] /\ det f q r a b = 0.

Lemma det_self q : det f q q a b = 0.
Proof. apply det_zero. apply gmul_comm; apply coef_elt. Qed.

Lemma lacks_core all gs w : lim all <= LIM -> wok all m f o gs w -> calm (core_of w) -> lacks_two w a b ->
  lacks (core_of w) a b.
Proof.
  intros Hl B Q H. pose proof (do_inv _ _ _ _ (ok_dec _ _ _ _ _ _ B)) as I. pose proof (i_core _ _ _ _ I) as C.
  assert (Ns : forall x, miss (core_of w) x -> ~ In x (mkeys (d_sources (core_of w)))).
  { intros x Hx Hh. apply (c_disj _ _ _ _ C x Hx). left. exact Hh. }
  assert (Ma : miss (core_of w) a) by (apply H; auto). assert (Mb : miss (core_of w) b) by (apply H; auto).
  split; [intros x Hx; apply H, Hx|]. split; [apply Ns, Ma|]. split; [apply Ns, Mb|].
  split; [apply (i_ge _ _ _ _ I a (or_intror Ma))|].
  intros q rep E. pose proof (calm_two (core_of w) q rep Q E) as T.
  assert (Hin : forall x, In x (dr_ids rep) -> x = a \/ x = b).
  { intros x Hx. apply H. apply (c_live _ _ _ _ C q rep x E Hx). }
  assert (Sr : ssorted (dr_ids rep)) by (apply (DecoderAlgebra.g_sorted f (S all)), (c_repairs _ _ _ _ C q rep E)).
  destruct (dr_ids rep) as [|x [|y [|z l]]]; cbn [length] in T; try lia.
  - pose proof (ssorted_NoDup _ Sr) as Nd. pose proof (sorted_hd [x; y] y Sr (or_intror (or_introl eq_refl))) as Le. cbn [hd] in Le.
    inversion Nd as [|? ? A1 A2]; subst.
    destruct (Hin x (or_introl eq_refl)) as [->| ->]; destruct (Hin y (or_intror (or_introl eq_refl))) as [->| ->]; try reflexivity;
      [destruct A1; left; reflexivity | lia | destruct A1; left; reflexivity].
  - exfalso. pose proof (ssorted_NoDup _ Sr) as Nd.
    assert (Le : (length (x :: y :: z :: l) <= length [a; b])%nat).
    { apply NoDup_incl_length; [exact Nd|]. intros v Hv. destruct (Hin v Hv) as [->| ->]; cbn [In]; auto. }
    cbn [length] in Le. lia.
Qed.

Lemma two_arrive w k w1 seen : reach m clk f o w -> wstep m clk w (Arrive k) = Ok w1 -> lossy_fifo m clk f o w1 ->
  lacks_two w a b -> one_row w seen ->
  (forall number covered, repair_packet_at m w k number covered ->
     In a covered /\ In b covered /\ forall y, In y covered -> y = a \/ y = b \/ held w y) ->
  (recovers o w w1 a /\ recovers o w w1 b)
  \/ (lacks_two w1 a b /\ one_row w1 seen
      /\ forall number covered, repair_packet_at m w k number covered -> one_row w1 (number :: seen)).
Proof.
  intros R E Lf1 La Row Hc. pose proof Lf1 as (R1 & Fi & L). pose proof (wstep_extends _ _ _ _ _ E) as X.
  assert (Fi0 : fifo w) by (eapply fifo_before; eassumption).
  destruct (nth_error (w_out w) k) as [p|] eqn:Hk.
  2:{ right. cbn [wstep] in E. rewrite Hk in E. assert (w1 = w) by congruence. subst w1. split; [exact La|]. split; [exact Row|].
      intros number covered (p & r & q & P1 & _). congruence. }
  destruct (run_fifo m clk f o w w1 R X L Fi0) as (gs & B & Lt & Q & P).
  assert (Ea : w_arrived w1 = w_arrived w ++ [k] /\ w_out w1 = w_out w).
  { cbn [wstep] in E. rewrite Hk in E. apply receiver_extends in E. split; apply E. }
  destruct Ea as [Ea Eo].
  assert (Hle : forall i, In i (w_arrived w) -> (i <= k)%nat) by (apply (fifo_last w w1); assumption).
  destruct (arrival_of m f o (w_sent w1) gs w k p (data_ok _ _ L) (lim_bound _ _ L) B Lt Hle Hk) as (g & Hg & A).
  destruct (arrive_core m clk f o w k w1 p R E (fifo_repairs _ Fi) L Hk) as (gs' & B' & Ar).
  pose proof (do_inv _ _ _ _ (ok_dec _ _ _ _ _ _ B)) as I.
  pose proof (lacks_core _ _ _ (lim_bound _ _ L) B Q La) as Lc.
  destruct Ar as [(s & q & Et & Er & Hs & Ec)|(r & q & Et & Er & Acc & Ec)].
  - right. destruct A as [s' q' x Eg R1' Ht R2 R3 Hx Hm|r' q' W n Eg R1' Ht R2 Hne Acc]; [|congruence].
    assert (s' = s) by congruence. subst s' x.
    destruct (source_progress f (S (w_sent w1)) m (lim (w_sent w1)) (lim_bound _ _ L) (core_of w) (ds_id s) I Q Hx Hm)
      as (d1 & E2 & _ & E3 & E4).
    assert (core_of w1 = d1) as Ed by congruence. rewrite <- Ed in E3, E4.
    split; [|split].
    + intros x. unfold missing. change (dc_core (w_dec w1)) with (core_of w1). rewrite E4. apply La.
    + intros x Hx'. rewrite E3. apply Row, Hx'.
    + intros number covered (p' & r & q2 & P1 & P2 & _). congruence.
  - assert (Pk : repair_packet_at m w k (dr_id r) (dr_ids r)) by (exists p, r, q; auto).
    destruct (Hc _ _ Pk) as (Ha & Hb & Hy).
    assert (Ne : dr_ids r <> []) by (intros Z; rewrite Z in Ha; destruct Ha).
    assert (Rec : forall x, x = a \/ x = b -> held w1 x -> recovers o w w1 x).
    { intros x Hx Hh. assert (Mx : miss (core_of w) x) by (apply La, Hx).
      apply (recover_step m clk f o w k w1 x R E (lossy_normal _ _ _ _ _ Lf1)); [| |exact Hh].
      - intros Z. apply (c_disj _ _ _ _ (i_core _ _ _ _ I) x Mx). left. exact Z.
      - intros Z. pose proof (i_ge _ _ _ _ I x (or_intror Mx)) as [Y _]. unfold obsolete in Z. change (dc_core (w_dec w)) with (core_of w) in Z. apply outdated_true in Z. unfold core_of in *. congruence. }
    destruct (two_step f (S (w_sent w1)) m (lim (w_sent w1)) (lim_bound _ _ L) (HS _ f (data_ok f w1 L))
      (core_of w) r (core_of w1) a b I Q Acc Ne Ec Hab Lc Ha Hb Hy) as [[A1 A2]|(Lc1 & q1 & rep & Eq & Q1 & Q2)].
    { left. split; apply Rec; auto. }
    destruct (fifo_state _ _ _ _ _ Lf1) as (gs1 & B1 & _). pose proof (do_inv _ _ _ _ (ok_dec _ _ _ _ _ _ B1)) as I1.
    assert (La1 : lacks_two w1 a b).
    { intros x. split; [apply Lc1|]. intros Hx. unfold missing. change (dc_core (w_dec w1)) with (core_of w1).
      assert (F : mfind q1 (d_repairs (core_of w1)) = Some rep) by (rewrite Eq; cbn [mfind]; rewrite N.eqb_refl; reflexivity).
      apply (c_live _ _ _ _ (i_core _ _ _ _ I1) q1 rep x F). destruct Lc1 as (_ & _ & _ & _ & Lr). rewrite (Lr _ _ F).
      destruct Hx as [->| ->]; cbn [In]; auto. }
    assert (Old : forall r0, In r0 (dr_id r :: seen) -> det f q1 r0 a b = 0 \/ (recovers o w w1 a /\ recovers o w w1 b)).
    { intros r0 Hr0. destruct (d_repairs (core_of w)) as [|[q0 rep0] t] eqn:Ed.
      { left. rewrite (Q1 eq_refl). destruct Hr0 as [->|Hr0]; [apply det_self|]. destruct (Row r0 Hr0) as (? & ? & Z & _). congruence. }
      assert (F0 : mfind q0 (d_repairs (core_of w)) = Some rep0) by (rewrite Ed; cbn [mfind]; rewrite N.eqb_refl; reflexivity).
      pose proof (one_repair f (S (w_sent w1)) (lim (w_sent w1)) (lim_bound _ _ L) (core_of w) a b I Q Hab Lc q0 rep0 F0) as One.
      assert (Z0 : In r0 seen -> det f q0 r0 a b = 0).
      { intros Hs. destruct (Row r0 Hs) as (q' & rep' & Z1 & Z2). assert (q' = q0) as <- by congruence. exact Z2. }
      destruct (N.eq_dec (det f q0 (dr_id r) a b) 0) as [D|D].
      - left. assert (Y : det f q0 r0 a b = 0) by (destruct Hr0 as [<-|Hr0]; [exact D | apply Z0, Hr0]).
        assert (q1 = dr_id r \/ q1 = q0) as [->| ->].
        { destruct Q2 as [Q2|Q2]; [auto|]. assert (t = []) as -> by congruence. destruct Q2 as [<-|[]]. auto. }
        + apply (det_trans f q0); assumption.
        + exact Y.
      - right. pose proof (proj2 (proj2 (proj2 (proj2 Lc))) _ _ F0) as Ids.
        pose proof (DecoderAlgebra.g_sorted _ _ _ (b_genuine _ _ _ _ _ Acc)) as Sr.
        assert (Hpend : pending w = [(q0, [a; b])]).
        { unfold pending. change (dc_core (w_dec w)) with (core_of w). rewrite One. unfold equations. cbn [map]. rewrite Ids. reflexivity. }
        assert (C : forall x, In x [a; b] -> recovers o w w1 x).
        { apply (C34_repair_completes m clk f o w k w1 (dr_id r) (dr_ids r) [a; b] R E (lossy_normal _ _ _ _ _ Lf1) Pk).
          - rewrite Hpend. intros [Z|[]]. cbn [fst] in Z. rewrite Z in D. apply D, det_self.
          - intros Z. pose proof (sorted_last_max _ a Sr Ha). destruct Lc as (_ & _ & _ & No & _).
            unfold obsolete in Z. change (dc_core (w_dec w)) with (core_of w) in Z. apply outdated_true in Z. unfold not_outdated in *.
            destruct (d_last (core_of w)); [|discriminate]. apply N.leb_le in No. apply N.leb_gt in Z. lia.
          - intros x. split.
            + intros Hx. left. split; [apply La; destruct Hx as [<-|[<-|[]]]; auto|].
              apply (sorted_hd _ x Sr). destruct Hx as [<-|[<-|[]]]; assumption.
            + intros [[Hx _]|[Hx Hh]]; [apply La in Hx; destruct Hx as [->| ->]; cbn [In]; auto|].
              destruct (Hy x Hx) as [->|[->|Z]]; [left; reflexivity | right; left; reflexivity | contradiction].
          - rewrite Hpend. cbn [filter hd]. rewrite (proj2 (N.leb_le _ _) (sorted_hd _ a Sr Ha)).
            apply (det_determines f q0 (dr_id r) a b (dr_ids r)); try assumption; try lia.
            + apply ssorted_NoDup, Sr.
            + right. left. reflexivity.
            + left. reflexivity.
            + intros x [<-|[<-|[]]]; auto. }
        split; apply C; cbn [In]; auto. }
    destruct (Forall_Exists_dec (fun r0 => det f q1 r0 a b = 0) (fun r0 => N.eq_dec _ 0) (dr_id r :: seen)) as [All|Ex].
    + right. split; [exact La1|]. rewrite Forall_forall in All.
      assert (Row1 : one_row w1 (dr_id r :: seen)) by (intros r0 Hr0; exists q1, rep; split; [exact Eq | apply All, Hr0]).
      split; [intros r0 Hr0; apply Row1; right; exact Hr0|].
      intros number covered (p' & r' & q' & P1 & P2 & P3 & <- & _). assert (r' = r) as -> by congruence. exact Row1.
    + left. apply Exists_exists in Ex. destruct Ex as (r0 & Hr0 & D). destruct (Old r0 Hr0) as [Z|Z]; [contradiction | exact Z].
Qed.

Lemma recovered_cons w x w1 l : wstep m clk w x = Ok w1 -> recovered_in m clk o w1 l a b -> recovered_in m clk o w (x :: l) a b.
Proof.
  intros E (l1 & k & l2 & w2 & w3 & -> & E1 & E2 & Z). exists (x :: l1), k, l2, w2, w3. split; [reflexivity|].
  cbn [wrun]. rewrite E. auto.
Qed.

Lemma arrived_kept w x w1 : wstep m clk w x = Ok w1 -> (forall k, x <> Arrive k) -> w_arrived w1 = w_arrived w.
Proof.
  intros H Hx.
  assert (Snd : forall op data, sender m w op data = Ok w1 -> w_arrived w1 = w_arrived w) by (intros op data E; apply sender_extends in E; apply E).
  assert (Rcv : forall op, receiver m clk w op [] = Ok w1 -> w_arrived w1 = w_arrived w).
  { intros op E. apply receiver_extends in E. destruct E as (_ & _ & _ & E & _). rewrite E. apply app_nil_r. }
  destruct x; cbn [wstep] in H; try (eapply Snd; exact H); try (eapply Rcv; exact H).
  - destruct (Hx k eq_refl).
  - destruct (nth_error (w_acks w) j); [eapply Snd; exact H|]. congruence.
Qed.

Lemma two_run l : forall w w' seen, reach m clk f o w -> wrun m clk w l = Ok w' -> lossy_fifo m clk f o w' ->
  lacks_two w a b -> one_row w seen -> repairs_about m clk w l a b ->
  recovered_in m clk o w l a b
  \/ exists q, forall r, repair_arrives m w w' r \/ In r seen -> det f q r a b = 0.
Proof.
  induction l as [|x l IH]; intros w w' seen R H Lf La Row Hc.
  - right. cbn [wrun] in H. assert (w' = w) by congruence. subst w'.
    destruct seen as [|s seen].
    + exists 0. intros r [(k & c & Hk & _)|[]]. rewrite skipn_all in Hk. destruct Hk.
    + destruct (Row s (or_introl eq_refl)) as (q & rep & E & _). exists q.
      intros r [(k & c & Hk & _)|Hr]; [rewrite skipn_all in Hk; destruct Hk|].
      destruct (Row r Hr) as (q' & rep' & E' & D). assert (q' = q) as -> by congruence. exact D.
  - cbn [wrun] in H. apply bind_ok in H. destruct H as (w1 & E & H).
    pose proof (wstep_extends _ _ _ _ _ E) as X. pose proof (wrun_extends _ _ _ _ _ H) as X1.
    pose proof (reach_step _ _ _ _ _ _ _ R E) as R1. pose proof Lf as (R' & Fi & L).
    assert (Lf1 : lossy_fifo m clk f o w1).
    { split; [exact R1|]. split; [eapply fifo_before; eassumption | eapply limits_before; eassumption]. }
    destruct (x_out _ _ X1) as [new1 Eo1]. destruct (x_arrived _ _ X1) as [arr1 Ea1].
    assert (Hc1 : repairs_about m clk w1 l a b).
    { intros l1 k l2 w2 number covered El E2. apply (Hc (x :: l1) k l2 w2 number covered); [rewrite El; reflexivity|].
      cbn [wrun]. rewrite E. exact E2. }
    (* what arrives in the first step *)
    assert (Go : forall seen1, one_row w1 seen1 -> lacks_two w1 a b ->
      (forall r, repair_arrives m w w' r \/ In r seen -> repair_arrives m w1 w' r \/ In r seen1) ->
      recovered_in m clk o w (x :: l) a b \/ exists q, forall r, repair_arrives m w w' r \/ In r seen -> det f q r a b = 0).
    { intros seen1 Row1 La1 Sub. destruct (IH w1 w' seen1 R1 H Lf La1 Row1 Hc1) as [Z|[q0 Z]].
      - left. apply (recovered_cons w x w1 l E Z).
      - right. exists q0. intros r Hr. apply Z, Sub, Hr. }
    assert (Dec : (exists k, x = Arrive k) \/ forall k, x <> Arrive k).
    { destruct x; try (right; discriminate). left. eexists. reflexivity. }
    destruct Dec as [[k ->]|Hx].
    2:{ pose proof (dec_kept m clk w x w1 E Hx) as Ek. apply (Go seen).
        - intros r Hr. rewrite Ek. apply Row, Hr.
        - intros y. unfold missing. change (dc_core (w_dec w1)) with (core_of w1). rewrite Ek. apply La.
        - intros r [(k & c & Hk & Hp)|Hr]; [left | right; exact Hr]. exists k, c. split; [|exact Hp].
          assert (Z : w_arrived w1 = w_arrived w) by (apply (arrived_kept w x w1 E Hx)). rewrite Z. exact Hk. }
    destruct (two_arrive w k w1 seen R E Lf1 La Row) as [[Z1 Z2]|(La1 & Row1 & Row2)].
    { intros number covered Hp. apply (Hc [] k l w number covered eq_refl eq_refl); [apply La; auto | exact Hp]. }
    { left. exists [], k, l, w, w1. split; [reflexivity|]. split; [reflexivity|]. auto. }
    destruct (nth_error (w_out w) k) as [p|] eqn:Hk.
    2:{ assert (w1 = w) by (cbn [wstep] in E; rewrite Hk in E; congruence). subst w1. apply (Go seen Row1 La1). auto. }
    assert (Ea : w_arrived w1 = w_arrived w ++ [k] /\ w_out w1 = w_out w).
    { cbn [wstep] in E. rewrite Hk in E. apply receiver_extends in E. split; apply E. }
    destruct Ea as [Ea Eo].
    assert (Sk : skipn (length (w_arrived w)) (w_arrived w') = k :: skipn (length (w_arrived w1)) (w_arrived w')).
    { assert (Sk0 : forall u v : list nat, skipn (length u) (u ++ v) = v).
      { intros u v. rewrite skipn_app, skipn_all, Nat.sub_diag. reflexivity. }
      rewrite Ea1, Sk0, Ea, <- app_assoc, Sk0. reflexivity. }
    assert (Nw : nth_error (w_out w') k = Some p).
    { rewrite Eo1, Eo. rewrite nth_error_app1; [exact Hk|]. apply nth_error_Some. congruence. }
    destruct (get_packet_type p) as [t| |] eqn:Et.
    2,3: apply (Go seen Row1 La1); intros r [(k' & c & Hk' & Hp)|Hr]; [|auto]; rewrite Sk in Hk'; destruct Hk' as [<-|Hk'];
         [destruct Hp as (p' & r' & q & P1 & P2 & _); congruence | left; exists k', c; auto].
    destruct (read_repair m p) as [[rr qq]| |] eqn:Er.
    2,3: apply (Go seen Row1 La1); intros r [(k' & c & Hk' & Hp)|Hr]; [|auto]; rewrite Sk in Hk'; destruct Hk' as [<-|Hk'];
         [destruct Hp as (p' & r' & q & P1 & P2 & P3 & _); congruence | left; exists k', c; auto].
    destruct t.
    1,3: apply (Go seen Row1 La1); intros r [(k' & c & Hk' & Hp)|Hr]; [|auto]; rewrite Sk in Hk'; destruct Hk' as [<-|Hk'];
         [destruct Hp as (p' & r' & q & P1 & P2 & P3 & _); congruence | left; exists k', c; auto].
    apply (Go (dr_id rr :: seen)); [|exact La1|].
    + apply (Row2 (dr_id rr) (dr_ids rr)). exists p, rr, qq. auto.
    + intros r [(k' & c & Hk' & Hp)|Hr]; [|right; right; exact Hr]. rewrite Sk in Hk'. destruct Hk' as [<-|Hk'].
      * right. left. destruct Hp as (p' & r' & q & P1 & P2 & P3 & <- & _). congruence.
      * left. exists k', c. auto.
Qed.
End Run.

(** ** C93 *)

(** Two of the repairs that arrive have rows that are not multiples of each other: then
    both data are recovered, at once, whatever the other repairs were. *)
Theorem C93_two_losses :
  forall m clk f o w l w' a b r r', lossy_fifo m clk f o w -> wrun m clk w l = Ok w' -> lossy_fifo m clk f o w' ->
  a < b -> lacks_two w a b -> repairs_about m clk w l a b ->
  repair_arrives m w w' r -> repair_arrives m w w' r' -> det f r r' a b <> 0 ->
  recovered_in m clk o w l a b.
Proof.
  intros m clk f o w l w' a b r r' (R & _) H Lf Hab La Hc H1 H2 D.
  destruct (two_run m clk f o a b Hab l w w' [] R H Lf La) as [Z|[q Z]]; [intros x [] | exact Hc | exact Z|].
  exfalso. apply D. apply (det_trans f q); apply Z; auto.
Qed.
Print Assumptions C93_two_losses.

Lemma small_less r s x y : r <= s -> x <= y -> small s y -> small r x.
Proof. unfold small. intros. nia. Qed.

Lemma coefficient_last f r x : f <> W32 -> small r x -> r mod period f = period f - 1 -> coefficient f r x = 1.
Proof.
  intros Hf Hs Hr. rewrite coefficient_small by assumption.
  assert (P : period f <> 0) by (destruct f; discriminate).
  assert (E : (r + 1) mod period f = 0).
  { rewrite <- N.add_mod_idemp_l, Hr by exact P. replace (period f - 1 + 1) with (period f) by lia. apply N.mod_same, P. }
  rewrite <- N.mul_mod_idemp_r, E, N.mul_0_r, N.mod_0_l by exact P. reflexivity.
Qed.

Lemma coefficient_first f r x : f <> W32 -> small r x -> r mod period f = 0 -> coefficient f r x = (x + 2) mod period f + 1.
Proof.
  intros Hf Hs Hr. rewrite coefficient_small by assumption. f_equal.
  assert (P : period f <> 0) by (destruct f; discriminate).
  assert (E : (r + 1) mod period f = 1 mod period f) by (rewrite <- N.add_mod_idemp_l, Hr by exact P; reflexivity).
  rewrite <- N.mul_mod_idemp_r, E, N.mul_mod_idemp_r, N.mul_1_r by exact P.
  replace (r + x + 2) with (r + (x + 2)) by lia. rewrite <- N.add_mod_idemp_l, Hr by exact P. reflexivity.
Qed.

Lemma mod_add_cancel p a b c : p <> 0 -> (a + c) mod p = (b + c) mod p -> a mod p = b mod p.
Proof.
  intros P E. assert (X : forall a b, (a + c) mod p = (b + c) mod p -> (a + (c + (p - c mod p))) mod p = (b + (c + (p - c mod p))) mod p).
  { intros u v H. rewrite !N.add_assoc. rewrite <- (N.add_mod_idemp_l (u + c)), H, N.add_mod_idemp_l by exact P. reflexivity. }
  apply X in E. pose proof (N.mod_lt c p P) as L.
  assert (Z : (c + (p - c mod p)) mod p = 0).
  { rewrite <- N.add_mod_idemp_l by exact P. replace (c mod p + (p - c mod p)) with p by lia. apply N.mod_same, P. }
  rewrite <- (N.add_mod_idemp_r a), <- (N.add_mod_idemp_r b), Z, !N.add_0_r in E by exact P. exact E.
Qed.

Lemma det_period f r r' a b : f <> W32 -> small r a -> small r b -> small r' a -> small r' b ->
  r mod period f = period f - 1 -> r' mod period f = 0 -> a mod period f <> b mod period f -> det f r r' a b <> 0.
Proof.
  intros Hf S1 S2 S3 S4 Hr Hr' Hab D. apply det_zero in D.
  rewrite !(coefficient_last f r) in D by assumption.
  pose proof (coef_elt f r' a) as Ea. pose proof (coef_elt f r' b) as Eb.
  rewrite !gmul_1_l in D by assumption. rewrite !coefficient_first in D by assumption.
  apply Hab. assert (P : period f <> 0) by (destruct f; discriminate).
  symmetry. apply (mod_add_cancel (period f) b a 2 P). lia.
Qed.

(** In the fields of words of at most 16 bits: of the repairs of one period two always
    suffice, unless the numbers of the two data agree modulo the period. *)
Theorem C93_period :
  forall m clk f o w l w' a b r r', lossy_fifo m clk f o w -> wrun m clk w l = Ok w' -> lossy_fifo m clk f o w' ->
  f <> W32 -> a < b -> a mod period f <> b mod period f -> lacks_two w a b -> repairs_about m clk w l a b ->
  repair_arrives m w w' r -> repair_arrives m w w' r' -> small r b -> small r' b ->
  r mod period f = period f - 1 -> r' mod period f = 0 ->
  recovered_in m clk o w l a b.
Proof.
  intros m clk f o w l w' a b r r' Lf H Lf' Hf Hab Hmod La Hc H1 H2 S1 S2 E1 E2.
  apply (C93_two_losses m clk f o w l w' a b r r' Lf H Lf' Hab La Hc H1 H2).
  apply det_period; try assumption; [apply (small_less r r a b) | apply (small_less r' r' a b)]; try assumption; lia.
Qed.
Print Assumptions C93_period.

(** As many consecutive repairs as there are coefficients always suffice. *)
Theorem C93_consecutive :
  forall m clk f o w l w' a b n, lossy_fifo m clk f o w -> wrun m clk w l = Ok w' -> lossy_fifo m clk f o w' ->
  f <> W32 -> a < b -> a mod period f <> b mod period f -> lacks_two w a b -> repairs_about m clk w l a b ->
  (forall r, n <= r < n + period f -> repair_arrives m w w' r) -> small (n + period f) b ->
  recovered_in m clk o w l a b.
Proof.
  intros m clk f o w l w' a b n Lf H Lf' Hf Hab Hmod La Hc Hn Hs.
  assert (P : period f <> 0) by (destruct f; discriminate).
  assert (Ex : forall t, t < period f -> exists r, n <= r < n + period f /\ r mod period f = t).
  { intros t Ht. pose proof (N.mod_lt n (period f) P) as L. pose proof (N.div_mod n (period f) P) as D.
    set (p := period f) in *. set (q := n / p) in *. set (s := n mod p) in *.
    destruct (N.le_gt_cases s t).
    - exists (p * q + t). split; [lia|]. symmetry. apply (N.mod_unique _ p q); lia.
    - exists (p * (q + 1) + t). split; [lia|]. symmetry. apply (N.mod_unique _ p (q + 1)); lia. }
  destruct (Ex (period f - 1) ltac:(lia)) as (r & Hr & Er). destruct (Ex 0 ltac:(lia)) as (r' & Hr' & Er').
  apply (C93_period m clk f o w l w' a b r r'); try assumption; try (apply Hn; assumption);
    apply (small_less _ (n + period f) b b); try assumption; lia.
Qed.
Print Assumptions C93_consecutive.

(** *** Example *)

(** The second and the third of three data are lost, and the first two repairs. Of the
    next four repairs the first three say the same about the two data; the fourth does not. *)
Definition sent_three_six : list action :=
  SetRate 1000 :: map (fun i => Data [7 + N.of_nat i]) (seq 0 3) ++ repeat Repair 6 ++ map Arrive [0; 5]%nat.

Definition next_three : list action := map Arrive [6; 7; 8]%nat.

Definition about_checks (w : world) : bool :=
  equal N.eq_dec (mkeys (d_missing (core_of w))) [1; 2] && equal N.eq_dec (mkeys (d_sources (core_of w))) [0]
  && forallb (covers_all w) [6; 7; 8]%nat.

Definition numbered (w : world) (k : nat) (n : N) : bool :=
  match nth_error (w_out w) k with
  | Some p => match get_packet_type p, read_repair Debug p with Ok TRepair, Ok (r, _) => dr_id r =? n | _, _ => false end
  | None => false
  end.

Lemma numbered_spec w k n : numbered w k n = true -> exists covered, repair_packet_at Debug w k n covered.
Proof.
  unfold numbered. destruct (nth_error (w_out w) k) as [p|] eqn:E; [|discriminate].
  destruct (get_packet_type p) as [[]| |] eqn:Et; try discriminate. destruct (read_repair Debug p) as [[r q]| |] eqn:Er; try discriminate.
  intros H. apply N.eqb_eq in H. exists (dr_ids r), p, r, q. auto.
Qed.

Example C93_case : exists w w', lossy_fifo Debug still W4 false w /\ wrun Debug still w next_three = Ok w'
  /\ lossy_fifo Debug still W4 false w' /\ 1 mod period W4 <> 2 mod period W4 /\ lacks_two w 1 2
  /\ repairs_about Debug still w next_three 1 2
  /\ repair_arrives Debug w w' 3 /\ repair_arrives Debug w w' 4 /\ repair_arrives Debug w w' 5
  /\ map fst (pending w) = [2] /\ det W4 2 3 1 2 = 0 /\ det W4 2 4 1 2 = 0 /\ det W4 3 5 1 2 <> 0
  /\ w_got w = [[7]] /\ length (w_got w') = 3%nat.
Proof.
  assert (C : fifo_checks sent_three_six (fun w => about_checks w && Nat.eqb (length (w_arrived w)) 2
     && equal N.eq_dec (map fst (pending w)) [2] && equal (list_eq_dec N.eq_dec) (w_got w) [[7]]) = true) by (vm_compute; reflexivity).
  assert (C1 : fifo_checks (sent_three_six ++ map Arrive [6]%nat) about_checks = true) by (vm_compute; reflexivity).
  assert (C2 : fifo_checks (sent_three_six ++ map Arrive [6; 7]%nat) about_checks = true) by (vm_compute; reflexivity).
  assert (C3 : fifo_checks (sent_three_six ++ next_three) (fun w => equal Nat.eq_dec (w_arrived w) [0; 5; 6; 7; 8]%nat
     && numbered w 6 3 && numbered w 7 4 && numbered w 8 5 && Nat.eqb (length (w_got w)) 3) = true) by (vm_compute; reflexivity).
  apply fifo_checks_spec in C, C1, C2, C3. destruct C as (w & E & Lf & C). destruct C1 as (w1 & E1 & _ & C1).
  destruct C2 as (w2 & E2 & _ & C2). destruct C3 as (w3 & E3 & Lf3 & C3).
  do 3 (apply andb_true_iff in C; let K := fresh "K" in destruct C as [C K]).
  do 4 (apply andb_true_iff in C3; let K := fresh "K" in destruct C3 as [C3 K]).
  apply equal_spec in C3, K, K0. apply Nat.eqb_eq in K1, K2.
  rewrite (SystemRun.wrun_app _ _ _ _ _ _ E) in E1. rewrite (SystemRun.wrun_app _ _ _ _ _ _ E) in E2.
  rewrite (SystemRun.wrun_app _ _ _ _ _ _ E) in E3.
  assert (Ab : forall v, about_checks v = true -> (forall x, missing v x <-> x = 1 \/ x = 2)
    /\ forall k number covered, In k [6; 7; 8]%nat -> repair_packet_at Debug v k number covered ->
       In 1 covered /\ In 2 covered /\ forall y, In y covered -> y = 1 \/ y = 2 \/ held v y).
  { intros v Hv. unfold about_checks in Hv. do 2 (apply andb_true_iff in Hv; let J := fresh "J" in destruct Hv as [Hv J]).
    apply equal_spec in Hv, J0. split.
    - intros x. unfold missing. change (dc_core (w_dec v)) with (core_of v). rewrite Hv. cbn [In]. intuition.
    - intros k number covered Hk (p & r & q & P1 & P2 & P3 & P4 & P5). rewrite forallb_forall in J. specialize (J k Hk).
      unfold covers_all in J. rewrite P1, P3 in J. apply equal_spec in J. subst covered. rewrite J.
      split; [right; left; reflexivity|]. split; [right; right; left; reflexivity|].
      intros y [<-|[<-|[<-|[]]]]; auto. right. right. unfold held. change (dc_core (w_dec v)) with (core_of v). rewrite J0. left. reflexivity. }
  exists w, w3. split; [exact Lf|]. split; [exact E3|]. split; [exact Lf3|]. split; [discriminate|].
  split; [exact (proj1 (Ab w C))|]. split.
  { intros l1 k l2 v number covered El Ev _ Hp.
    assert (Hk : In k [6; 7; 8]%nat /\ about_checks v = true).
    { assert (Q : forall v' l, wrun Debug still w l = Ok v' -> l1 = l -> about_checks v' = true -> about_checks v = true) by (intros v' l Q1 -> Q2; congruence).
      unfold next_three in El. cbn [map] in El.
      destruct l1 as [|x1 [|x2 [|x3 l1]]]; cbn [app] in El.
      - split; [left; congruence | apply (Q w [] eq_refl eq_refl C)].
      - assert (x1 = Arrive 6) as -> by congruence. split; [right; left; congruence | apply (Q w1 _ E1 eq_refl C1)].
      - assert (x1 = Arrive 6) as -> by congruence. assert (x2 = Arrive 7) as -> by congruence.
        split; [right; right; left; congruence | apply (Q w2 _ E2 eq_refl C2)].
      - exfalso. apply (f_equal (@length action)) in El. cbn [length] in El. rewrite app_length in El. cbn [length] in El. lia. }
    destruct Hk as [Hk Hv]. apply (proj2 (Ab v Hv) k number covered Hk Hp). }
  assert (Arr : forall k n, In k [6; 7; 8]%nat -> numbered w3 k n = true -> repair_arrives Debug w w3 n).
  { intros k n Hk Hn. apply numbered_spec in Hn. destruct Hn as [c Hn]. exists k, c. split; [|exact Hn]. rewrite C3, K1. exact Hk. }
  split; [apply (Arr 6%nat); cbn [In]; auto|]. split; [apply (Arr 7%nat); cbn [In]; auto|]. split; [apply (Arr 8%nat); cbn [In]; auto|].
  split; [exact K0|]. split; [reflexivity|]. split; [reflexivity|]. split; [discriminate|]. auto.
Qed.

(** That as many repairs as there are missing data always suffice is false: three repairs
    over two missing data whose numbers differ modulo the period. *)
Theorem C93_two_repairs_refuted :
  exists w, lossy_fifo Debug still W4 false w /\ 1 mod period W4 <> 2 mod period W4
  /\ w_arrived w = [0; 5; 6; 7]%nat
  /\ (forall k number covered, In k [5; 6; 7]%nat -> repair_packet_at Debug w k number covered -> covered = [0; 1; 2])
  /\ (exists c5 c6 c7, repair_packet_at Debug w 5 2 c5 /\ repair_packet_at Debug w 6 3 c6 /\ repair_packet_at Debug w 7 4 c7)
  /\ lacks_two w 1 2 /\ w_got w = [[7]].
Proof.
  assert (C : fifo_checks (sent_three_six ++ map Arrive [6; 7]%nat) (fun w => equal Nat.eq_dec (w_arrived w) [0; 5; 6; 7]%nat
     && forallb (covers_all w) [5; 6; 7]%nat && numbered w 5 2 && numbered w 6 3 && numbered w 7 4
     && equal N.eq_dec (mkeys (d_missing (core_of w))) [1; 2] && equal (list_eq_dec N.eq_dec) (w_got w) [[7]]) = true) by (vm_compute; reflexivity).
  apply fifo_checks_spec in C. destruct C as (w & _ & Lf & C).
  do 6 (apply andb_true_iff in C; let K := fresh "K" in destruct C as [C K]).
  apply equal_spec in C, K, K0. exists w. split; [exact Lf|]. split; [discriminate|]. split; [exact C|]. split.
  { intros k number covered Hk (p & r & q & P1 & P2 & P3 & P4 & P5). rewrite forallb_forall in K4. specialize (K4 k Hk).
    unfold covers_all in K4. rewrite P1, P3 in K4. apply equal_spec in K4. congruence. }
  split.
  { apply numbered_spec in K1, K2, K3. destruct K1 as [c7 ?]. destruct K2 as [c6 ?]. destruct K3 as [c5 ?]. exists c5, c6, c7. auto. }
  split; [|exact K]. intros x. unfold missing. change (dc_core (w_dec w)) with (core_of w). rewrite K0. cbn [In]. intuition.
Qed.
Print Assumptions C93_two_repairs_refuted.
