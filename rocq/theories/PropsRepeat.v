(** * C100: a packet that arrives again before any later one changes nothing *)
From Coq Require Import ZArith NArith List Bool Lia Sorted.
From Verif Require Import Outcome GF Containers ContainersFacts Packetizer PropsPacketizer
  Encoder EncoderRun EncoderHistory EncoderSafe DetailDecoder Decoder DecoderInv DecoderStep DecoderFacts DecoderOuter DecoderHeld
  DecoderProgress DecoderPrompt DecoderRecover System SystemInv SystemRun SystemArrive SystemFifo
  PropsModes PropsSystem PropsRecover PropsFifo PropsBlind PropsTwins Repeat Tally.
Import ListNotations.
Open Scope N_scope.

(** ** The claim *)

(** The sender and the user of the receiver may act, but no packet reaches the receiver. *)
Definition no_arrival (l : list action) : Prop := forall k, ~ In (Arrive k) l.

(** The data held, known to be missing, and given up, and the repairs that are stored. *)
Definition knows_the_same (w w' : world) : Prop :=
  d_sources (dc_core (w_dec w')) = d_sources (dc_core (w_dec w))
  /\ (forall x, missing w' x <-> missing w x) /\ (forall x, obsolete w' x <-> obsolete w x)
  /\ d_repairs (dc_core (w_dec w')) = d_repairs (dc_core (w_dec w))
  /\ d_decoded (dc_core (w_dec w')) = d_decoded (dc_core (w_dec w)).

(** Each number once, instead of several times in a row. *)
Fixpoint once (l : list nat) : list nat :=
  match l with
  | [] => []
  | x :: l' => match l' with
               | [] => [x]
               | y :: _ => if Nat.eqb x y then once l' else x :: once l'
               end
  end.

(** ** Proof *)

Section Again.
Variable m : mode.
Variable clk : clock.
Variable f : field.
Variable o : bool.

Lemma quiet_run l : forall w w', no_arrival l -> wrun m clk w l = Ok w' ->
  core_of w' = core_of w /\ w_arrived w' = w_arrived w.
Proof.
  induction l as [|a l IH]; intros w w' Hn H; cbn [wrun] in H.
  - injection H as <-. auto.
  - apply bind_ok in H. destruct H as (w1 & E & H).
    assert (Ha : forall k, a <> Arrive k) by (intros k ->; apply (Hn k); left; reflexivity).
    destruct (IH w1 w') as [A B]; [intros k Hk; apply (Hn k); right; exact Hk | exact H|].
    rewrite A, B. split; [apply dec_kept with m clk a; assumption|].
    destruct a; cbn [wstep] in E; try (apply sender_extends in E; apply E); try (apply receiver_extends in E; rewrite app_nil_r in E; apply E).
    + destruct (Ha k eq_refl).
    + destruct (nth_error (w_acks w) j); [apply sender_extends in E; apply E | congruence].
Qed.

Lemma core_again w k w1 l w2 p : reach m clk f o w -> wstep m clk w (Arrive k) = Ok w1 -> nth_error (w_out w) k = Some p ->
  no_arrival l -> wrun m clk w1 l = Ok w2 -> lossy_fifo m clk f o w2 ->
  exists d out n, dec_packet m clk (w_dec w2) p = (d, Ok (out, n))
  /\ counted (core_of w2) (dc_core d) /\ out = [].
Proof.
  intros R E Ek Hq Hl Lf. pose proof Lf as (R2 & Fi & L).
  destruct (quiet_run l w1 w2 Hq Hl) as [Ec2 Ea2].
  pose proof (wstep_extends _ _ _ _ _ E) as X1. pose proof (wrun_extends _ _ _ _ _ Hl) as X2.
  pose proof (extends_trans _ _ _ X1 X2) as X. pose proof (fifo_before _ _ X Fi) as Fi0.
  pose proof (fifo_before _ _ X2 Fi) as Fi1. pose proof (lim_bound f w2 L) as Hlim. pose proof (data_ok f w2 L) as Hdat.
  destruct (run_fifo m clk f o w w2 R X L Fi0) as (gs & B & Lt & Q & P).
  destruct (run_fifo m clk f o w2 w2 R2 (extends_refl w2) L Fi) as (gs2 & B2 & Lt2 & _ & _).
  assert (Ea1 : w_arrived w1 = w_arrived w ++ [k]).
  { pose proof E as E'. cbn [wstep] in E'. rewrite Ek in E'. apply receiver_extends in E'. apply E'. }
  assert (Hle : forall i, In i (w_arrived w) -> (i <= k)%nat) by (eapply fifo_last; eassumption).
  assert (Hle2 : forall i, In i (w_arrived w2) -> (i <= k)%nat).
  { intros i Hi. rewrite Ea2, Ea1 in Hi. apply in_app_iff in Hi. destruct Hi as [Hi|[<-|[]]]; [apply Hle, Hi | lia]. }
  assert (Ek2 : nth_error (w_out w2) k = Some p).
  { destruct (x_out _ _ X) as [rest Er]. rewrite Er, nth_error_app1; [exact Ek|]. apply nth_error_Some. congruence. }
  destruct (arrival_of m f o (w_sent w2) gs w k p Hdat Hlim B Lt Hle Ek) as (g & _ & A).
  destruct (arrival_of m f o (w_sent w2) gs2 w2 k p Hdat Hlim B2 Lt2 Hle2 Ek2) as (g2 & _ & A2).
  pose proof (do_inv _ _ _ _ (ok_dec _ _ _ _ _ _ B)) as I.
  (* the first arrival *)
  assert (First : exists d1 out1 n1, dec_packet m clk (w_dec w) p = (d1, Ok (out1, n1)) /\ core_of w1 = dc_core d1).
  { destruct (arrival_returns m clk f o w k p R (limits_before _ _ _ X L) Fi0 Hle Ek) as (d1 & out1 & n1 & E1).
    exists d1, out1, n1. split; [exact E1|]. cbn [wstep] in E. rewrite Ek in E. unfold receiver in E. cbn [dstep] in E.
    rewrite E1 in E. cbn [survive bind] in E. injection E as <-. reflexivity. }
  destruct First as (d1 & out1 & n1 & E1 & Ec1).
  apply dec_packet_ok in E1; [|apply (do_good _ _ _ _ (ok_dec _ _ _ _ _ _ B)) | apply (do_ids _ _ _ _ (ok_dec _ _ _ _ _ _ B))].
  (* the second one *)
  assert (Hne : p <> []) by (intros ->; destruct A as [s' q' x Eg R1 Ht|r' q' W n Eg R1 Ht]; discriminate).
  assert (Ha : assert_ m (Nat.ltb 0 (length p)) = Ok tt).
  { destruct p as [|b p0]; [congruence|]. destruct m; reflexivity. }
  unfold dec_packet. rewrite Ha. cbn [bind].
  assert (Silent : forall a b c, counted (core_of w2) c -> exists d,
     handle_sources clk (with_core (count_packet (w_dec w2) a b) c)
       (skipn (length (d_log (core_of w2))) (d_log c)) = (d, []) /\ dc_core d = c).
  { intros a b c Hc. assert (El : d_log c = d_log (core_of w2)) by (destruct Hc as [->|[->| ->]]; reflexivity).
    rewrite El, skipn_all. eexists. split; reflexivity. }
  destruct E1 as [s c nw Et Er Ecc Rn|r c nw Et Er Hr Ecc Rn]; destruct Rn as (_ & Ed1 & _);
    assert (Hc2 : core_of w2 = c) by congruence; clear Ec1 Ed1.
  - destruct A as [s' q' x Eg R1 Ht R2' R3 Hx Hm|r' q' W n Eg R1 Ht R2' Hne2 Acc]; [|congruence].
    assert (s' = s) by congruence. subst s'. rewrite R3, R2' in Ecc. fold (core_of w) in Ecc.
    rewrite Et. cbv zeta. rewrite Er. cbn [bind]. unfold call_core. cbn [count_packet dc_core].
    change (dc_core (w_dec w2)) with (core_of w2). rewrite R3, R2'.
    destruct (recv_source_spec f (S (w_sent w2)) m (lim (w_sent w2)) Hlim (HS _ f Hdat) (core_of w) x c I Hx Ecc)
      as (_ & _ & St & _).
    assert (E2 : recv_source m (core_of w2) x (S (w_sent w2) x) = Ok (core_of w2)).
    { apply recv_source_old. rewrite Hc2. destruct St as [[K|[]]|O]; auto. }
    rewrite E2. cbn [bind]. destruct (Silent 0 1 (core_of w2) (or_introl eq_refl)) as (d & Eh & Ed).
    rewrite Eh. cbn [bind finish]. exists d, [], n1. split; [reflexivity|]. split; [left; exact Ed | reflexivity].
  - destruct A as [s' q' x Eg R1 Ht R2' R3 Hx Hm|r' q' W n Eg R1 Ht R2' Hne2 Acc]; [congruence|].
    assert (r' = r) by congruence. subst r'. fold (core_of w) in Ecc.
    destruct A2 as [s2 q2 x2 Eg2 R12 Ht2 R22 R32 Hx2 Hm2|r2 q2 W2 n2 Eg2 R12 Ht2 R22 Hne3 Acc2]; [congruence|].
    assert (r2 = r) by congruence. subst r2. rewrite Hc2 in Acc2.
    destruct (repair_again f (S (w_sent w2)) m (lim (w_sent w2)) Hlim (HS _ f Hdat) (core_of w) r c I Q P Acc)
      as (c2 & E2 & Hc); try assumption; [congruence|].
    rewrite Et. cbv zeta. rewrite Er. cbn [bind]. unfold call_core. cbn [count_packet dc_core].
    change (dc_core (w_dec w2)) with (core_of w2). rewrite <- Hc2 in E2, Hc. rewrite E2. cbn [bind].
    destruct (Silent 1 0 c2 Hc) as (d & Eh & Ed).
    rewrite Eh. cbn [bind finish]. exists d, [], n1. split; [reflexivity|]. split; [rewrite Ed; exact Hc | reflexivity].
Qed.
End Again.

(** A packet arrives, and arrives again before any other packet does. The second arrival is
    without effect: no exception, nothing is delivered, no ack is sent, and what the receiver knows
    and stores is as before. *)
Theorem C100_again :
  forall m clk f o w k p w1 l w2,
  reach m clk f o w -> nth_error (w_out w) k = Some p -> wstep m clk w (Arrive k) = Ok w1 ->
  no_arrival l -> wrun m clk w1 l = Ok w2 -> lossy_fifo m clk f o w2 ->
  (exists d n, dec_packet m clk (w_dec w2) p = (d, Ok ([], n)))
  /\ exists w3, wstep m clk w2 (Arrive k) = Ok w3 /\ w_got w3 = w_got w2 /\ w_acks w3 = w_acks w2
     /\ knows_the_same w2 w3.
Proof.
  intros m clk f o w k p w1 l w2 R Ek E Hq Hl Lf.
  destruct (core_again m clk f o w k w1 l w2 p R E Ek Hq Hl Lf) as (d & out & n & Ed & Hc & ->).
  split; [eauto|].
  assert (Ek2 : nth_error (w_out w2) k = Some p).
  { pose proof (extends_trans _ _ _ (wstep_extends _ _ _ _ _ E) (wrun_extends _ _ _ _ _ Hl)) as X.
    destruct (x_out _ _ X) as [rest Er]. rewrite Er, nth_error_app1; [exact Ek|]. apply nth_error_Some. congruence. }
  cbn [wstep]. rewrite Ek2. unfold receiver. cbn [dstep]. rewrite Ed. cbn [survive bind].
  eexists. split; [reflexivity|]. cbn [w_got w_acks to_user to_network flat_map]. rewrite !app_nil_r.
  split; [reflexivity|]. split; [reflexivity|]. unfold knows_the_same, missing, obsolete. cbn [w_dec].
  unfold core_of in Hc.
  destruct Hc as [->|[->| ->]]; (split; [reflexivity|]; split; [reflexivity|]; split; [reflexivity|]; split; reflexivity).
Qed.
Print Assumptions C100_again.

(** ** Whole runs *)

Lemma once_snoc l k : once (l ++ [k]) = if match l with [] => false | _ => Nat.eqb (last l O) k end then once l else once l ++ [k].
Proof.
  induction l as [|x l IH]; [reflexivity|]. destruct l as [|y l].
  - cbn. destruct (Nat.eqb_spec x k) as [->|]; reflexivity.
  - change (last (x :: y :: l) O) with (last (y :: l) O).
    change (once ((x :: y :: l) ++ [k])) with (if Nat.eqb x y then once ((y :: l) ++ [k]) else x :: once ((y :: l) ++ [k])).
    change (once (x :: y :: l)) with (if Nat.eqb x y then once (y :: l) else x :: once (y :: l)). rewrite IH.
    destruct (Nat.eqb x y); destruct (Nat.eqb (last (y :: l) O) k); reflexivity.
Qed.

Lemma tallied_trans c c1 c2 : tallied c c1 -> tallied c1 c2 -> tallied c c2.
Proof. intros (a & b & ->) (a' & b' & ->). exists a', b'. reflexivity. Qed.

Lemma tallied_refl c : tallied c c.
Proof. exists (d_useless c), (d_failed c). destruct c; reflexivity. Qed.

Lemma counted_tallied c c' : counted c c' -> tallied c c'.
Proof.
  intros [->|[->| ->]]; [apply tallied_refl | |]; [exists (d_useless c + 1), (d_failed c) | exists (d_useless c), (d_failed c + 1)];
    destruct c; reflexivity.
Qed.

Lemma core_packet_agree m c c' p : tallied c c' -> agree (core_packet m c p) (core_packet m c' p).
Proof.
  intros (a & b & ->). unfold core_packet. apply agree_same. intros [| |]; [reflexivity | |].
  - apply agree_same. intros [r n]. apply recv_repair_agree.
  - apply agree_same. intros [s n]. apply recv_source_agree.
Qed.

Lemma core_run_snoc m ps p : forall c c1, core_run m c ps = Ok c1 ->
  core_run m c (ps ++ [p]) = match core_packet m c1 p with Ok c2 => Ok c2 | Throw _ => Ok c1 | Fault x => Fault x end.
Proof.
  induction ps as [|q ps IH]; intros c c1 H; cbn [app core_run] in *.
  - injection H as ->. destruct (core_packet m c1 p); reflexivity.
  - destruct (core_packet m c q); [apply IH, H | apply IH, H | discriminate].
Qed.

Section Whole.
Variable m : mode.
Variable clk : clock.
Variable f : field.
Variable o : bool.

Definition packet_at (w : world) (k : nat) : packet := nth k (w_out w) [].

Lemma packets_before w w' l : extends w w' -> Forall (fun k => (k < length (w_out w))%nat) l ->
  map (packet_at w') l = map (packet_at w) l.
Proof.
  intros X H. apply map_ext_in. intros k Hk. rewrite Forall_forall in H. specialize (H k Hk).
  destruct (x_out _ _ X) as [rest E]. unfold packet_at. rewrite E, app_nth1 by exact H. reflexivity.
Qed.

Lemma once_incl l x : In x (once l) -> In x l.
Proof.
  induction l as [|a l IH]; [intros []|]. destruct l as [|b l].
  - intros H. exact H.
  - change (once (a :: b :: l)) with (if Nat.eqb a b then once (b :: l) else a :: once (b :: l)).
    destruct (Nat.eqb a b); [intros H; right; apply IH, H|]. intros [<-|H]; [left; reflexivity | right; apply IH, H].
Qed.

Lemma once_emitted w : reach m clk f o w -> Forall (fun k => (k < length (w_out w))%nat) (once (w_arrived w)).
Proof.
  intros R. apply Forall_forall. intros k Hk. pose proof (arrived_emitted m clk f o w R) as H.
  rewrite Forall_forall in H. apply H, once_incl, Hk.
Qed.

(** The last arrival. *)
Definition last_arrival (w : world) : Prop := w_arrived w = [] \/ exists w0 p w1 l,
  reach m clk f o w0 /\ nth_error (w_out w0) (last (w_arrived w) O) = Some p
  /\ wstep m clk w0 (Arrive (last (w_arrived w) O)) = Ok w1 /\ no_arrival l /\ wrun m clk w1 l = Ok w.

Lemma whole_run w' w : reach m clk f o w -> extends w w' -> within_limits f w' -> fifo w' ->
  last_arrival w /\ exists c, core_run m (new_ddec f o) (map (packet_at w) (once (w_arrived w))) = Ok c /\ tallied c (core_of w).
Proof.
  intros R X L Fi'. revert w R X.
  apply (reach_ind m clk f o (fun w => extends w w' -> last_arrival w
    /\ exists c, core_run m (new_ddec f o) (map (packet_at w) (once (w_arrived w))) = Ok c /\ tallied c (core_of w))).
  - intros _. split; [left; reflexivity|]. exists (new_ddec f o). split; [reflexivity | apply tallied_refl].
  - intros w a w1 R IH E X. pose proof (wstep_extends _ _ _ _ _ E) as X1.
    pose proof (extends_trans _ _ _ X1 X) as X0.
    destruct (IH X0) as (La & c & Ec & Tc). clear IH.
    assert (R1 : reach m clk f o w1) by (eapply reach_step; eassumption).
    assert (Other : (forall k, a <> Arrive k) -> last_arrival w1 /\ exists c,
       core_run m (new_ddec f o) (map (packet_at w1) (once (w_arrived w1))) = Ok c /\ tallied c (core_of w1)).
    { intros Ha. assert (Hn : no_arrival [a]) by (intros k [Hk|[]]; apply (Ha k); exact Hk).
      destruct (quiet_run m clk [a] w w1 Hn) as [C A].
      { cbn [wrun]. rewrite E. reflexivity. }
      rewrite C. unfold last_arrival. rewrite A. split.
      - destruct La as [La|(w0 & p & w2 & l & L1 & L2 & L3 & L4 & L5)]; [left; exact La|]. right.
        exists w0, p, w2, (l ++ [a]). split; [exact L1|]. split; [exact L2|]. split; [exact L3|]. split.
        + intros k Hk. apply in_app_iff in Hk. destruct Hk as [Hk|Hk]; [apply (L4 k Hk) | apply (Hn k Hk)].
        + rewrite (SystemRun.wrun_app _ _ _ _ _ _ L5). cbn [wrun]. rewrite E. reflexivity.
      - rewrite (packets_before w w1 _ X1 (once_emitted w R)). eauto. }
    destruct a; try (apply Other; discriminate). clear Other.
    destruct (nth_error (w_out w) k) as [p|] eqn:Ek.
    2: { cbn [wstep] in E. rewrite Ek in E. assert (w1 = w) by congruence. subst. eauto. }
    pose proof E as E'. cbn [wstep] in E'. rewrite Ek in E'. pose proof E' as Ea. apply receiver_extends in Ea.
    assert (Ea1 : w_arrived w1 = w_arrived w ++ [k]) by apply Ea. clear Ea.
    split.
    { right. exists w, p, w1, []. rewrite Ea1, last_last. split; [exact R|]. split; [exact Ek|]. split; [exact E|].
      split; [intros j []|reflexivity]. }
    assert (Fi : fifo w) by (apply fifo_before with w'; assumption).
    assert (Fi1 : fifo w1) by (apply fifo_before with w'; assumption).
    assert (Lw : within_limits f w) by (apply limits_before with w'; assumption).
    assert (Hle : forall i, In i (w_arrived w) -> (i <= k)%nat) by (eapply fifo_last; eassumption).
    rewrite Ea1, once_snoc.
    destruct (match w_arrived w with [] => false | _ => Nat.eqb (last (w_arrived w) O) k end) eqn:Er.
    + (* repeated *)
      rewrite (packets_before w w1 _ X1 (once_emitted w R)). exists c. split; [exact Ec|].
      destruct La as [La|(w0 & q & w2 & l & L1 & L2 & L3 & L4 & L5)]; [rewrite La in Er; discriminate|].
      assert (El : last (w_arrived w) O = k).
      { destruct (w_arrived w); [discriminate|]. apply Nat.eqb_eq, Er. }
      rewrite El in L2, L3.
      assert (q = p).
      { pose proof (extends_trans _ _ _ (wstep_extends _ _ _ _ _ L3) (wrun_extends _ _ _ _ _ L5)) as Y.
        destruct (x_out _ _ Y) as [rest Z]. rewrite Z, nth_error_app1 in Ek; [congruence|]. apply nth_error_Some. congruence. }
      subst q.
      destruct (core_again m clk f o w0 k w2 l w p L1 L3 L2 L4 L5) as (d & out & n & Ed & Hc & _).
      { split; [exact R|]. split; assumption. }
      unfold receiver in E'. cbn [dstep] in E'. rewrite Ed in E'. cbn [survive bind] in E'. injection E' as <-.
      eapply tallied_trans; [exact Tc | apply counted_tallied, Hc].
    + (* new *)
      rewrite map_app, (packets_before w w1 _ X1 (once_emitted w R)). cbn [map].
      assert (Ep : packet_at w1 k = p).
      { destruct (x_out _ _ X1) as [rest Z]. unfold packet_at. rewrite Z, app_nth1.
        - apply nth_error_nth. exact Ek.
        - apply nth_error_Some. congruence. }
      rewrite Ep. destruct (arrival_returns m clk f o w k p R Lw Fi Hle Ek) as (d & out & n & Ed).
      unfold receiver in E'. cbn [dstep] in E'. rewrite Ed in E'. cbn [survive bind] in E'. injection E' as <-.
      unfold core_of. cbn [w_dec]. rewrite (core_run_snoc _ _ _ _ _ Ec).
      pose proof (dec_packet_core m clk (w_dec w) p) as H. pose proof (core_packet_agree m c (core_of w) p Tc) as Ag.
      unfold core_of in Ag. destruct (core_packet m (dc_core (w_dec w)) p) as [c1|x|x].
      * destruct H as (d' & out' & n' & new & E1 & E2 & _). assert (d' = d) by congruence. subst d'.
        destruct (core_packet m c p) as [c2|x|x]; cbn in Ag; try contradiction. exists c2. split; [reflexivity|].
        rewrite E2. exact Ag.
      * destruct H as (d' & E1 & _). congruence.
      * destruct H as (d' & E1). congruence.
Qed.
End Whole.

(** Repetitions have no influence on a whole run: a new receiver that gets each packet once, with
    any clock and any calls about acks in between, delivers the same data in the same order, and
    ends up with the same knowledge. *)
Theorem C100_without_repetitions :
  forall m clk clk' f o w ops,
  lossy_fifo m clk f o w ->
  packets ops = map (fun k => nth k (w_out w) []) (once (w_arrived w)) -> Forall legal_setting ops ->
  exists d out, drun m clk' (new_dec clk' f o) ops = Ok (d, out)
  /\ to_user out = w_got w
  /\ d_sources (dc_core d) = d_sources (dc_core (w_dec w))
  /\ d_missing (dc_core d) = d_missing (dc_core (w_dec w))
  /\ d_repairs (dc_core d) = d_repairs (dc_core (w_dec w))
  /\ d_decoded (dc_core d) = d_decoded (dc_core (w_dec w))
  /\ (forall x, outdated (dc_core d) x = outdated (dc_core (w_dec w)) x).
Proof.
  intros m clk clk' f o w ops Lf Ep Hl. pose proof Lf as (R & Fi & L).
  destruct (whole_run m clk f o w w R (extends_refl w) L Fi) as (_ & c & Ec & Tc).
  destruct (run_fifo m clk f o w w R (extends_refl w) L Fi) as (gs & B & _).
  pose proof (drun_core m clk' ops Hl (new_dec clk' f o)) as H. rewrite Ep in H.
  change (dc_core (new_dec clk' f o)) with (new_ddec f o) in H. unfold packet_at in Ec. rewrite Ec in H.
  destruct H as (d & out & new & E & Edc & El & Eu). exists d, out. split; [exact E|].
  rewrite Edc. destruct Tc as (a & b & Tc). rewrite (ok_got _ _ _ _ _ _ B). change (dc_core (w_dec w)) with (core_of w).
  rewrite Tc. cbn [new_ddec d_log app] in El. rewrite Eu, <- El. repeat (split; [reflexivity|]). intros x. reflexivity.
Qed.
Print Assumptions C100_without_repetitions.

(** ** Only before a later packet *)

(** Two data are lost, and repairs 0 and 15 about them arrive, of which the second says nothing new.
    Then another datum is lost and repairs 16 and 17 arrive. *)
Definition sent_before : list action :=
  SetRate 1000 :: map (fun i => Data [7 + N.of_nat i]) (seq 0 2) ++ repeat Repair 16 ++ [Data [9]; Repair; Repair].

Definition run_of (m : mode) (arrivals : list nat) : outcome world :=
  wrun m still (start still W4 false) (sent_before ++ map Arrive arrivals).

Definition lists_eq := list_eq_dec (list_eq_dec N.eq_dec).

(** Without repetition the three data are recovered. If repair 15 arrives again after repair 16,
    none of them is: repair 16, which could help, is given up. *)
Theorem C100_later_repetition_refuted :
  forall m, exists w w', reach m still W4 false w /\ reach m still W4 false w'
  /\ w_out w' = w_out w /\ w_sent w' = w_sent w
  /\ w_arrived w = [2; 17; 19; 20]%nat /\ w_arrived w' = [2; 17; 19; 17; 20]%nat
  /\ w_got w = w_sent w /\ w_got w' = [] /\ length (w_sent w) = 3%nat.
Proof.
  intros m.
  assert (C : match run_of m [2; 17; 19; 20]%nat, run_of m [2; 17; 19; 17; 20]%nat with
    | Ok w, Ok w' => (if lists_eq (w_out w') (w_out w) then true else false)
        && (if lists_eq (w_sent w') (w_sent w) then true else false)
        && (if list_eq_dec Nat.eq_dec (w_arrived w) [2; 17; 19; 20]%nat then true else false)
        && (if list_eq_dec Nat.eq_dec (w_arrived w') [2; 17; 19; 17; 20]%nat then true else false)
        && (if lists_eq (w_got w) (w_sent w) then true else false)
        && (if lists_eq (w_got w') [] then true else false) && Nat.eqb (length (w_sent w)) 3
    | _, _ => false
    end = true) by (destruct m; vm_compute; reflexivity).
  destruct (run_of m [2; 17; 19; 20]%nat) as [w| |] eqn:E; try discriminate.
  destruct (run_of m [2; 17; 19; 17; 20]%nat) as [w'| |] eqn:E'; try discriminate.
  exists w, w'. split; [eexists; exact E|]. split; [eexists; exact E'|].
  rewrite !andb_true_iff in C. destruct C as ((((((C1 & C2) & C3) & C4) & C5) & C6) & C7).
  destruct (lists_eq _ _); [|discriminate]. destruct (lists_eq _ _); [|discriminate].
  destruct (list_eq_dec Nat.eq_dec _ _); [|discriminate]. destruct (list_eq_dec Nat.eq_dec _ _); [|discriminate].
  destruct (lists_eq _ _); [|discriminate]. destruct (lists_eq _ _); [|discriminate].
  apply Nat.eqb_eq in C7. auto 10.
Qed.
Print Assumptions C100_later_repetition_refuted.

(** ** Examples *)

(** The repair that is given up arrives twice, it is given up twice; and so does the one that recovers
    the three data, which is useless the second time. *)
Example C100_case : exists w, lossy_fifo Debug still W4 false w
  /\ w_arrived w = [2; 17; 17; 19; 20; 20]%nat /\ once (w_arrived w) = [2; 17; 19; 20]%nat
  /\ w_got w = [[7]; [8]; [9]]
  /\ d_failed (dc_core (w_dec w)) = 2 /\ d_useless (dc_core (w_dec w)) = 1.
Proof.
  assert (C : fifo_checks (sent_before ++ map Arrive [2; 17; 17; 19; 20; 20]%nat) (fun w =>
     (if list_eq_dec Nat.eq_dec (w_arrived w) [2; 17; 17; 19; 20; 20]%nat then true else false)
     && (if lists_eq (w_got w) [[7]; [8]; [9]] then true else false)
     && (d_failed (dc_core (w_dec w)) =? 2) && (d_useless (dc_core (w_dec w)) =? 1)) = true) by (vm_compute; reflexivity).
  apply fifo_checks_spec in C. destruct C as (w & _ & Lf & K). exists w. split; [exact Lf|].
  rewrite !andb_true_iff in K. destruct K as (((K1 & K2) & K3) & K4).
  destruct (list_eq_dec Nat.eq_dec _ _) as [Ea|]; [|discriminate]. destruct (lists_eq _ _) as [Eg|]; [|discriminate].
  apply N.eqb_eq in K3, K4. split; [exact Ea|]. rewrite Ea. auto.
Qed.

(** Calls that give each packet once to another receiver, which also asks for acks. *)
Example C100_case_calls : forall w : world, exists ops,
  packets ops = map (fun k => nth k (w_out w) []) (once (w_arrived w)) /\ Forall legal_setting ops
  /\ length ops = (2 + length (once (w_arrived w)))%nat.
Proof.
  intros w. exists (DSetNb 3 :: DAck :: map DPacket (map (fun k => nth k (w_out w) []) (once (w_arrived w)))).
  cbn [packets length]. rewrite !map_length. split; [|split; [|reflexivity]].
  - induction (map (fun k => nth k (w_out w) []) (once (w_arrived w))) as [|p l IH]; cbn; [reflexivity | rewrite IH; reflexivity].
  - constructor; [reflexivity|]. constructor; [exact I|]. apply Forall_forall. intros op Hop. apply in_map_iff in Hop.
    destruct Hop as (p & <- & _). exact I.
Qed.

Lemma run_ok l (check : world -> bool) :
  match wrun Debug still (start still W4 false) l with Ok w => check w | _ => false end = true ->
  exists w, wrun Debug still (start still W4 false) l = Ok w /\ check w = true.
Proof. destruct (wrun Debug still (start still W4 false) l) as [w| |]; try discriminate. eauto. Qed.

(** Between the two arrivals of the repair that is given up, another repair is sent and an ack is requested. *)
Example C100_case_again : exists w p w1 w2, reach Debug still W4 false w /\ nth_error (w_out w) 17 = Some p
  /\ wstep Debug still w (Arrive 17) = Ok w1 /\ no_arrival [Repair; Ack] /\ wrun Debug still w1 [Repair; Ack] = Ok w2
  /\ lossy_fifo Debug still W4 false w2 /\ pending w2 = [(0, [0; 1])] /\ d_failed (dc_core (w_dec w2)) = 1.
Proof.
  assert (C : fifo_checks (((sent_before ++ [Arrive 2]) ++ [Arrive 17]) ++ [Repair; Ack]) (fun w =>
     equal eqs_eq (pending w) [(0, [0; 1])] && (d_failed (dc_core (w_dec w)) =? 1)) = true) by (vm_compute; reflexivity).
  apply fifo_checks_spec in C. destruct C as (w2 & E & Lf & K). apply andb_true_iff in K. destruct K as [K1 K2].
  destruct (run_ok (sent_before ++ [Arrive 2]) (fun w => Nat.ltb 17 (length (w_out w)))) as (w & E0 & P); [vm_compute; reflexivity|].
  apply Nat.ltb_lt in P. destruct (nth_error (w_out w) 17) as [p|] eqn:Ek.
  2: { apply nth_error_None in Ek. lia. }
  rewrite <- app_assoc in E. rewrite (SystemRun.wrun_app Debug still _ _ _ w E0) in E. cbn [app wrun] in E.
  apply bind_ok in E. destruct E as (w1 & E1 & E2).
  exists w, p, w1, w2. split; [eexists; exact E0|]. split; [exact Ek|]. split; [exact E1|].
  split; [intros k [H|[H|[]]]; discriminate|]. split; [exact E2|]. split; [exact Lf|].
  apply equal_spec in K1. apply N.eqb_eq in K2. auto.
Qed.
