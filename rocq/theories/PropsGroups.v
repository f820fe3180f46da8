(** * Properties of the closed system: one loss in each group of packets is made good (C72) *)
From Coq Require Import ZArith NArith Arith List Bool Lia Sorted.
From Verif Require Import Outcome GF Containers ContainersFacts Packetizer PropsPacketizer
  Encoder EncoderFacts EncoderRun EncoderHistory EncoderSafe DetailDecoder Decoder DecoderInv DecoderStep DecoderFacts
  DecoderHeld DecoderPrompt System SystemInv SystemRun SystemArrive SystemFifo SystemLossless PropsSystem PropsRecover PropsFifo
  SystemGroups.
Import ListNotations.
Open Scope N_scope.

(** ** What the theorems say *)

(** The number of sources among the packets before number [r]. *)
Definition sources_before (w : world) (r : nat) : nat := length (filter (fun p => nth 0 p 255 =? 2) (firstn r (w_out w))).

(** The first [c] data have been delivered, each once, all with their contents;
    if delivery is ordered they are the first ones delivered. *)
Definition first_delivered (o : bool) (w : world) (c : nat) : Prop :=
  (exists which, NoDup which /\ w_got w = map (datum w) which /\ forall x, (x < c)%nat -> In x which)
  /\ (o = true -> exists rest, w_got w = firstn c (w_sent w) ++ rest).

(** A packet did not arrive (yet). *)
Definition did_not_arrive (w : world) (j : nat) : Prop := ~ In j (w_arrived w).

(** ** Auxiliary *)

Lemma sorted_initial l c : StronglySorted lt l -> (forall x, (x < c)%nat -> In x l) -> exists rest, l = seq 0 c ++ rest.
Proof.
  enough (G : forall a, StronglySorted lt l -> (forall x, In x l -> (a <= x)%nat) -> (forall x, (a <= x < a + c)%nat -> In x l) ->
      exists rest, l = seq a c ++ rest).
  { intros H1 H2. apply (G 0%nat); [exact H1 | lia | intros x Hx; apply H2; lia]. }
  revert l. induction c as [|c IH]; intros l a Hs Hlow Hin; [exists l; reflexivity|].
  destruct l as [|y l]; [destruct (Hin a ltac:(lia))|]. inversion Hs as [|? ? H1 H2]; subst. rewrite Forall_forall in H2.
  assert (y = a).
  { destruct (Hin a ltac:(lia)) as [E|E]; [exact E|]. specialize (H2 a E). specialize (Hlow y (or_introl eq_refl)). lia. }
  subst y. destruct (IH l (Datatypes.S a) H1) as [rest Er].
  - intros x Hx. specialize (H2 x Hx). lia.
  - intros x Hx. destruct (Hin x ltac:(lia)) as [E|E]; [lia | exact E].
  - exists rest. cbn [seq app]. congruence.
Qed.

Lemma map_nth_seq {A} (d : A) l c : (c <= length l)%nat -> map (fun i => nth i l d) (seq 0 c) = firstn c l.
Proof.
  intros H. enough (G : forall a c l', (c <= length l')%nat -> (forall i, (i < c)%nat -> nth (a + i) l d = nth i l' d) ->
     map (fun i => nth i l d) (seq a c) = firstn c l').
  { apply G; [exact H | reflexivity]. }
  clear c H. intros a c. revert a. induction c as [|c IH]; intros a l' Hc Hi; [reflexivity|].
  destruct l' as [|x l']; cbn [length] in Hc; [lia|]. cbn [seq map firstn]. f_equal.
  - specialize (Hi 0%nat ltac:(lia)). rewrite Nat.add_0_r in Hi. exact Hi.
  - apply IH; [lia|]. intros i Hlt. specialize (Hi (Datatypes.S i) ltac:(lia)). cbn [nth] in Hi. rewrite <- Hi. f_equal. lia.
Qed.

(** In ordered delivery the receiver does not withhold what it holds. *)
Lemma not_withheld m clk f w x : lossy_fifo m clk f true w -> held w x ->
  (forall y, y < x -> held w y \/ obsolete w y) -> In x (handed (core_of w)).
Proof.
  intros Lf Hx Hy. destruct (fifo_state _ _ _ _ _ Lf) as (gs & B & P & _).
  destruct (ok_dec _ _ _ _ _ _ B) as [_ _ _ I Io _]. destruct (P Io) as [[Rd Nx] No].
  destruct (N.lt_ge_cases x (d_first (core_of w))) as [Lt|Ge]; [apply (y_old _ _ Rd); assumption|].
  exfalso. assert (F : held w (d_first (core_of w))).
  { destruct (N.eq_dec x (d_first (core_of w))) as [<-|Ne]; [exact Hx|].
    destruct (Hy (d_first (core_of w))) as [H|H]; [lia | exact H|].
    unfold obsolete, outdated in H. fold (core_of w) in H. rewrite No in H. discriminate. }
  apply Nx, (y_wait _ _ Rd); [exact F | lia].
Qed.

Lemma good_delivered m clk f o w c : lossy_fifo m clk f o w -> (c <= length (w_sent w))%nat ->
  (forall x, x < N.of_nat c -> good w x) -> first_delivered o w c.
Proof.
  intros Lf Hc Hg.
  destruct (delivered _ _ _ _ _ (lossy_normal _ _ _ _ _ Lf)) as (gs & B & Eg & _ & Nd & So).
  assert (Hin : forall x, (x < c)%nat -> In x (map N.to_nat (handed (core_of w)))).
  { intros x Hx. rewrite <- (Nat2N.id x). apply in_handed.
    destruct (Hg (N.of_nat x) ltac:(lia)) as [_ [Hh|Hh]]; [|exact Hh].
    destruct o.
    - apply (not_withheld m clk f); [exact Lf | exact Hh|]. intros y Hy.
      destruct (Hg y ltac:(lia)) as [[[[Y|[]]|Y] _] _]; [left; exact Y | right; exact Y].
    - destruct (ok_dec _ _ _ _ _ _ B) as [_ _ _ _ Io Hi]. apply Hi; assumption. }
  split; [exists (map N.to_nat (handed (core_of w))); auto|].
  intros Eo. destruct (sorted_initial _ c (So Eo) Hin) as [rest Er]. exists (map (datum w) rest).
  rewrite Eg, Er, map_app. f_equal. unfold datum. apply map_nth_seq, Hc.
Qed.

(** ** C72: one loss between two repairs *)

(** A systematic sender with a window of [n] sources. Packets arrive in the order of their emission or not at
    all. Up to the repair number [r], two packets that did not arrive have a repair at or
    after the first and before the second, so that each group (some sources and the repair
    after them) lost at most one packet, be it the repair. No group has more than [n] sources.
    Then all data before this repair have been delivered, whatever became of the acks,
    whatever the rate, adapted or not, and whatever repairs the user requested. *)
Theorem C72_one_loss :
  forall m clk f o n l w r,
  wrun m clk (start clk f o) (SetWindow n :: l) = Ok w ->
  (forall a, In a l -> a <> SetCode false /\ forall s, a <> SetWindow s) ->
  fifo w -> within_limits f w ->
  repair_at w r = true ->
  (forall i j, (i < j <= r)%nat -> did_not_arrive w i -> did_not_arrive w j ->
     exists c, (i <= c < j)%nat /\ repair_at w c = true) ->
  (forall i j, (i < j <= r)%nat -> (forall c, (i <= c < j)%nat -> repair_at w c = false) -> N.of_nat (j - i) <= n) ->
  first_delivered o w (sources_before w r).
Proof.
  intros m clk f o n l w r E Hl Fi L Hr H1 H2.
  assert (Lf : lossy_fifo m clk f o w) by (split; [exists (SetWindow n :: l); exact E | split; assumption]).
  destruct (run_groups m clk f o n l w w E (extends_refl w) L Fi) as (gs & B & Lt & Cv & Ag & Rg).
  { apply Forall_forall. intros a Ha. apply Hl, Ha. }
  apply (good_delivered m clk f o w _ Lf).
  - rewrite (cv_count _ _ _ Cv). unfold sources_before. change (length (filter _ ?q)) with (srcs q).
    rewrite <- (firstn_skipn r (w_out w)) at 2. rewrite srcs_app. lia.
  - intros x Hx. eapply (all_repairs_good m f o n); try eassumption; [apply (cv_numbered _ _ _ Cv)|].
    split; assumption.
Qed.
Print Assumptions C72_one_loss.

(** ** A fixed rate *)

(** The calls that neither change the settings of the sender nor request a repair. *)
Definition plain_action (a : action) : Prop :=
  match a with
  | Repair | SetCode _ | SetRate _ | SetWindow _ | SetAdaptive _ => False
  | _ => True
  end.

(** [k] sources, a repair, [k] sources, a repair, ... *)
Record patterned (k : nat) (w : world) : Prop := {
  pt_systematic : e_systematic (w_enc w) = true;
  pt_rate : e_rate (w_enc w) = N.of_nat k;
  pt_adaptive : e_adaptive (w_enc w) = false;
  pt_length : exists q t, (t < k)%nat /\ length (w_sent w) = (k * q + t)%nat /\ length (w_out w) = ((k + 1) * q + t)%nat;
  pt_types : forall j p, nth_error (w_out w) j = Some p -> type_of p = if Nat.eqb (j mod (k + 1)) k then 1 else 2
}.

Lemma patterned_step m clk f o k w a w' : (0 < k)%nat -> reach m clk f o w -> wstep m clk w a = Ok w' ->
  within_limits f w' -> fifo w' -> plain_action a -> patterned k w -> patterned k w'.
Proof.
  intros Hk R H L Fi Ha [P1 P2 P3 P4 P5].
  pose proof (wstep_extends _ _ _ _ _ H) as X.
  destruct (run_wok m clk f o w w' R X L (fifo_repairs _ (fifo_before _ _ X Fi))) as [gs B].
  assert (Snd : forall op data, sender m w op data = Ok w' -> exists e r, estep m (w_enc w) op = (e, r)
    /\ ~ is_fault r /\ w_out w' = w_out w ++ emitted r /\ w_sent w' = w_sent w ++ data /\ w_enc w' = e).
  { intros op data E. unfold sender in E. destruct (estep m (w_enc w) op) as [e r]. exists e, r. split; [reflexivity|].
    apply bind_ok in E. destruct E as (out & Eo & E). apply survive_ok in Eo. destruct Eo as [Hff Hr]. split; [exact Hff|].
    match type of E with Ok ?x = _ => assert (Ew : w' = x) by congruence end. rewrite Ew. cbn [w_out w_sent w_enc].
    split; [f_equal; destruct Hr as [->|[-> [x ->]]]; reflexivity|]. split; reflexivity. }
  assert (Same : w_enc w' = w_enc w -> w_out w' = w_out w -> w_sent w' = w_sent w -> patterned k w').
  { intros E1 E2 E3. constructor; rewrite ?E1, ?E2, ?E3; assumption. }
  assert (Recv : forall op q, receiver m clk w op q = Ok w' -> patterned k w').
  { intros op q E. apply receiver_extends in E. destruct E as (_ & E2 & E3 & _ & E4). apply Same; assumption. }
  destruct a; cbn [plain_action] in Ha; try contradiction; cbn [wstep] in H; try (eapply Recv; exact H).
  - destruct (Snd _ _ H) as (e & r & E & Hff & E1 & E2 & E3). apply estep_data in E; [|exact Hff]. destruct E as (out & Er & A).
    rewrite Er in E1. cbn [emitted] in E1.
    destruct P4 as (q & t & Ht & En & Eo).
    assert (Hid : u32 (e_source_id (w_enc w) + 1) = N.of_nat (k * q + t + 1)).
    { rewrite (eo_source_id _ _ _ _ (ok_enc _ _ _ _ _ _ B)). unfold nsent. rewrite En. unfold u32. rewrite N.mod_small; [lia|].
      pose proof (lim_bound f w' L) as Hl. unfold lim, LIM in Hl. rewrite E2, app_length, En in Hl. cbn [length] in Hl.
      change (2 ^ 32) with 4294967296. lia. }
    destruct (ad_out _ _ _ _ _ A) as (first & rest & Eout & O1 & _ & O3 & O4). specialize (O1 P1).
    rewrite Hid, P2 in O3, O4.
    assert (Hmod : N.of_nat (k * q + t + 1) mod N.of_nat k = 0 <-> (t + 1 = k)%nat).
    { replace (N.of_nat (k * q + t + 1)) with (N.of_nat (t + 1) + N.of_nat q * N.of_nat k) by lia.
      rewrite N.mod_add by lia. destruct (Nat.eq_dec (t + 1) k) as [Y|Y].
      - rewrite Y, N.mod_same by lia. split; auto.
      - rewrite N.mod_small by lia. split; [lia | congruence]. }
    assert (M1 : (((k + 1) * q + t) mod (k + 1) = t)%nat).
    { rewrite Nat.add_comm, Nat.mul_comm, Nat.mod_add by lia. apply Nat.mod_small. lia. }
    assert (Ty1 : type_of first = 2) by (rewrite O1; reflexivity).
    assert (Rest : (rest = [] /\ (t + 1 < k)%nat) \/ exists p, rest = [p] /\ type_of p = 1 /\ (t + 1 = k)%nat).
    { destruct (Nat.eq_dec (t + 1) k) as [Y|Y].
      - right. destruct (O3 (proj2 Hmod Y)) as (p & -> & Rp). exists p. split; [reflexivity|]. split; [eapply repair_of_type, Rp | exact Y].
      - left. split; [apply O4; intros Z; apply Y, Hmod, Z | lia]. }
    constructor.
    + rewrite E3, (ad_systematic _ _ _ _ _ A). exact P1.
    + rewrite E3, (ad_rate _ _ _ _ _ A). exact P2.
    + rewrite E3, (ad_adaptive _ _ _ _ _ A). exact P3.
    + rewrite E2, E1, Eout, !app_length, En, Eo. cbn [length]. destruct Rest as [[-> Y]|(p & -> & _ & Y)]; cbn [length].
      * exists q, (t + 1)%nat. lia.
      * exists (q + 1)%nat, 0%nat. lia.
    + intros j p Hp. rewrite E1 in Hp. destruct (Nat.lt_ge_cases j (length (w_out w))) as [Lj|Lj].
      { rewrite nth_error_app1 in Hp by exact Lj. apply P5, Hp. }
      rewrite nth_error_app2 in Hp by exact Lj. rewrite Eout in Hp.
      destruct (j - length (w_out w))%nat as [|j'] eqn:Ej.
      * assert (Ejj : j = ((k + 1) * q + t)%nat) by lia. cbn [nth_error] in Hp. assert (first = p) by congruence. subst p.
        rewrite Ejj, M1. replace (Nat.eqb t k) with false by (symmetry; apply Nat.eqb_neq; lia). exact Ty1.
      * destruct Rest as [[-> _]|(p' & -> & Tp & Y)]; [destruct j'; discriminate|].
        destruct j' as [|j']; [|destruct j'; discriminate]. cbn [nth_error] in Hp. assert (p' = p) by congruence. subst p'.
        assert (Ejj : j = ((k + 1) * q + k)%nat) by lia. rewrite Ejj.
        replace (((k + 1) * q + k) mod (k + 1))%nat with k.
        { rewrite Nat.eqb_refl. exact Tp. }
        rewrite Nat.add_comm, (Nat.mul_comm (k + 1) q), Nat.mod_add by lia. symmetry. apply Nat.mod_small. lia.
  - destruct (nth_error (w_out w) k0); [eapply Recv; exact H | assert (w' = w) by congruence; subst w'; constructor; assumption].
  - destruct (nth_error (w_acks w) j); [|assert (w' = w) by congruence; subst w'; constructor; assumption].
    destruct (Snd _ _ H) as (e & r & E & Hff & E1 & E2 & E3). apply estep_packet in E; [|exact Hff].
    destruct E as (q & _ & Hq & Ap & Er). rewrite Er, app_nil_r in E1. rewrite app_nil_r in E2.
    constructor; rewrite ?E1, ?E2; try assumption.
    + rewrite E3, (ap_systematic _ _ _ _ _ Ap). exact P1.
    + rewrite E3. destruct q as [v|x|x].
      * destruct (ap_ok _ _ _ _ _ Ap v eq_refl) as (a & _ & _ & _ & _ & Y & _). rewrite (Y P3). exact P2.
      * destruct (ap_throw _ _ _ _ _ Ap x eq_refl) as (_ & Y & _). rewrite Y. exact P2.
      * destruct Hq. eexists. reflexivity.
    + rewrite E3, (ap_adaptive _ _ _ _ _ Ap). exact P3.
Qed.

Lemma pattern_count k out : (forall j p, nth_error out j = Some p -> type_of p = if Nat.eqb (j mod (k + 1)) k then 1 else 2) ->
  forall r, (r <= length out)%nat -> srcs (firstn r out) = (r - r / (k + 1))%nat.
Proof.
  intros H r. induction r as [|r IH]; intros Hr; [reflexivity|].
  destruct (nth_error out r) as [p|] eqn:E; [|apply nth_error_None in E; lia].
  rewrite (srcs_next _ _ _ E), (IH ltac:(lia)), (H r p E).
  pose proof (Nat.div_mod r (k + 1) ltac:(lia)) as D. pose proof (Nat.mod_upper_bound r (k + 1) ltac:(lia)) as M.
  set (q := (r / (k + 1))%nat) in *. set (t := (r mod (k + 1))%nat) in *.
  assert (q <= r)%nat by (rewrite D; nia).
  destruct (Nat.eqb_spec t k) as [Y|Y]; cbn [N.eqb Pos.eqb].
  - replace (Datatypes.S r / (k + 1))%nat with (q + 1)%nat; [lia|]. apply Nat.div_unique with 0%nat; [lia | nia].
  - replace (Datatypes.S r / (k + 1))%nat with q; [lia|]. apply Nat.div_unique with (t + 1)%nat; [lia | nia].
Qed.

(** The sender with a fixed rate: [k] sources and then a repair, again and again. Group number [i] is
    the packets from [(k + 1) * i] on, [k + 1] of them. If at most one packet of each of the
    first [g] groups is lost, the first [k * g] data have been delivered. *)
Theorem C72_fixed_rate :
  forall m clk f o k n l w g, (0 < k)%nat -> N.of_nat k <= n ->
  wrun m clk (start clk f o) ([SetWindow n; SetRate (N.of_nat k); SetAdaptive false] ++ l) = Ok w -> Forall plain_action l ->
  fifo w -> within_limits f w -> ((k + 1) * g <= length (w_out w))%nat ->
  (forall i a b, (i < g)%nat -> ((k + 1) * i <= a < (k + 1) * (i + 1))%nat -> ((k + 1) * i <= b < (k + 1) * (i + 1))%nat ->
     did_not_arrive w a -> did_not_arrive w b -> a = b) ->
  first_delivered o w (k * g).
Proof.
  intros m clk f o k n l w g Hk Hn E Hl Fi L Hg Hone.
  assert (Pt : patterned k w).
  { clear Hg Hone. revert w E Fi L Hl. induction l as [|a l IH] using rev_ind; intros w E Fi L Hl.
    - cbn [app wrun] in E. apply bind_ok in E. destruct E as (w1 & E1 & E). apply bind_ok in E. destruct E as (w2 & E2 & E).
      apply bind_ok in E. destruct E as (w3 & E3 & E). assert (w3 = w) by congruence. subst w3. clear E.
      cbn [wstep] in E1, E2, E3.
      assert (Setter : forall w op w', sender m w op [] = Ok w' -> match op with EData _ | EPacket _ | ERepair => False | _ => True end ->
        w_out w' = w_out w /\ w_sent w' = w_sent w
        /\ e_rate (w_enc w') = (match op with ESetRate k => k | _ => e_rate (w_enc w) end)
        /\ e_systematic (w_enc w') = (match op with ESetCode b => b | _ => e_systematic (w_enc w) end)
        /\ e_adaptive (w_enc w') = (match op with ESetAdaptive b => b | _ => e_adaptive (w_enc w) end)).
      { clear. intros w op w' E Hop. unfold sender in E. destruct (estep m (w_enc w) op) as [e r] eqn:Ee.
        apply bind_ok in E. destruct E as (out & Eo & E). apply survive_ok in Eo. destruct Eo as [Hff Hr].
        apply estep_setters in Ee; [|exact Hff | exact Hop]. destruct Ee as (Er & _ & _ & A1 & A2 & A3 & _).
        assert (out = []) by (destruct Hr as [Hr|[Hr _]]; congruence). subst out.
        match type of E with Ok ?x = _ => assert (Ew : w' = x) by congruence end. rewrite Ew. cbn [w_out w_sent w_enc].
        rewrite !app_nil_r. auto. }
      destruct (Setter _ _ _ E1 I) as (A1 & A2 & A3 & A4 & A5). destruct (Setter _ _ _ E2 I) as (B1 & B2 & B3 & B4 & B5).
      destruct (Setter _ _ _ E3 I) as (C1 & C2 & C3 & C4 & C5).
      assert (Eo : w_out w = []) by (rewrite C1, B1, A1; reflexivity).
      assert (Es : w_sent w = []) by (rewrite C2, B2, A2; reflexivity).
      constructor.
      + rewrite C4, B4, A4. reflexivity.
      + rewrite C3, B3. reflexivity.
      + rewrite C5. reflexivity.
      + rewrite Eo, Es. exists 0%nat, 0%nat. cbn [length]. lia.
      + rewrite Eo. intros j p Hp. destruct j; discriminate.
    - rewrite app_assoc, wrun_app in E. apply bind_ok in E. destruct E as (w0 & E0 & E). cbn [wrun] in E.
      apply bind_ok in E. destruct E as (w1 & E & Eq). assert (w1 = w) by congruence. subst w1. clear Eq.
      pose proof (wstep_extends _ _ _ _ _ E) as X. apply Forall_app in Hl. destruct Hl as [Hl Ha]. inversion Ha as [|? ? Ha' _]; subst.
      apply (patterned_step m clk f o k w0 a w Hk); try assumption.
      + eexists. exact E0.
      + apply IH; [exact E0 | eapply fifo_before; eassumption | eapply limits_before; eassumption | exact Hl]. }
  pose proof Pt as [_ _ _ (q0 & t0 & Ht0 & En & Eo) P5].
  destruct g as [|g].
  { rewrite Nat.mul_0_r. apply (good_delivered m clk f o w 0); [|lia | lia].
    split; [eexists; exact E | split; assumption]. }
  set (r := ((k + 1) * g + k)%nat).
  assert (Hr : (r < length (w_out w))%nat) by lia.
  assert (Rep : forall j, (j <= r)%nat -> repair_at w j = Nat.eqb (j mod (k + 1)) k).
  { intros j Hj. unfold repair_at. destruct (nth_error (w_out w) j) as [p|] eqn:Ep; [|apply nth_error_None in Ep; lia].
    rewrite (P5 j p Ep). destruct (Nat.eqb (j mod (k + 1)) k); reflexivity. }
  assert (Mod : forall q t, (t <= k)%nat -> (((k + 1) * q + t) mod (k + 1) = t /\ ((k + 1) * q + t) / (k + 1) = q)%nat).
  { intros q t Ht. split.
    - rewrite Nat.add_comm, (Nat.mul_comm (k + 1) q), Nat.mod_add by lia. apply Nat.mod_small. lia.
    - symmetry. apply Nat.div_unique with t; lia. }
  replace (k * Datatypes.S g)%nat with (sources_before w r).
  2: { unfold sources_before. change (length (filter _ ?q)) with (srcs q). rewrite (pattern_count k _ P5) by lia.
       unfold r. rewrite (proj2 (Mod g k ltac:(lia))). nia. }
  apply (C72_one_loss m clk f o n ([SetRate (N.of_nat k); SetAdaptive false] ++ l) w r E); try assumption.
  - intros a Ha. apply in_app_iff in Ha. destruct Ha as [[<-|[<-|[]]]|Ha]; [split; discriminate | split; discriminate|].
    rewrite Forall_forall in Hl. specialize (Hl a Ha). destruct a; cbn [plain_action] in Hl; try contradiction; split; discriminate.
  - rewrite Rep by lia. unfold r. rewrite (proj1 (Mod g k ltac:(lia))). apply Nat.eqb_refl.
  - intros i j Hij Li Lj.
    pose proof (Nat.div_mod i (k + 1) ltac:(lia)) as Di. pose proof (Nat.mod_upper_bound i (k + 1) ltac:(lia)) as Mi.
    pose proof (Nat.div_mod j (k + 1) ltac:(lia)) as Dj. pose proof (Nat.mod_upper_bound j (k + 1) ltac:(lia)) as Mj.
    set (qi := (i / (k + 1))%nat) in *. set (qj := (j / (k + 1))%nat) in *.
    assert (Hqj : (qj < Datatypes.S g)%nat) by (unfold r in Hij; nia).
    assert (Hq : (qi < qj)%nat).
    { destruct (Nat.lt_trichotomy qi qj) as [Y|[Y|Y]]; [exact Y | | nia]. exfalso.
      assert (i = j) by (apply (Hone qi); [lia | lia | rewrite Y; lia | exact Li | exact Lj]). lia. }
    exists ((k + 1) * qi + k)%nat. split; [nia|]. rewrite Rep by nia. rewrite (proj1 (Mod qi k ltac:(lia))). apply Nat.eqb_refl.
  - intros i j Hij Hno. destruct (Nat.le_gt_cases (j - i) k) as [Y|Y]; [lia|]. exfalso.
    pose proof (Nat.div_mod i (k + 1) ltac:(lia)) as Di. pose proof (Nat.mod_upper_bound i (k + 1) ltac:(lia)) as Mi.
    set (qi := (i / (k + 1))%nat) in *. specialize (Hno ((k + 1) * qi + k)%nat ltac:(lia)).
    rewrite Rep in Hno by lia. rewrite (proj1 (Mod qi k ltac:(lia))), Nat.eqb_refl in Hno. discriminate.
Qed.
Print Assumptions C72_fixed_rate.

(** ** Examples *)

(** Three groups of two sources and a repair; lost are the first source of the first group, the
    repair of the second one and the second source of the third one, and the second ack. *)
Definition scarred : list action :=
  [SetNb 2; Data (sample 0); Data (sample 1); Arrive 1; Arrive 2; AckArrive 0; Data (sample 2); Arrive 3; Data (sample 3); Arrive 4;
   Data (sample 4); Data (sample 5); Arrive 6; Arrive 8; AckArrive 2].

Definition scarred_setup : list action := [SetWindow 2; SetRate 2; SetAdaptive false].

Definition arrivedb (w : world) (j : nat) : bool := existsb (Nat.eqb j) (w_arrived w).

Lemma arrivedb_false w j : did_not_arrive w j <-> arrivedb w j = false.
Proof.
  unfold did_not_arrive, arrivedb. split.
  - intros H. destruct (existsb (Nat.eqb j) (w_arrived w)) eqn:E; [|reflexivity]. exfalso. apply H.
    apply existsb_exists in E. destruct E as (x & Hx & Ex). apply Nat.eqb_eq in Ex. congruence.
  - intros H Y. assert (existsb (Nat.eqb j) (w_arrived w) = true); [|congruence].
    apply existsb_exists. exists j. split; [exact Y | apply Nat.eqb_refl].
Qed.

(** Decides that each of the groups below [g] has lost at most [most] of its [k + 1] packets. *)
Definition losses (w : world) (k i : nat) : nat :=
  length (filter (fun j => negb (arrivedb w j)) (seq ((k + 1) * i) (k + 1))).

Lemma losses_one w k i : (losses w k i <= 1)%nat -> forall a b, ((k + 1) * i <= a < (k + 1) * (i + 1))%nat ->
  ((k + 1) * i <= b < (k + 1) * (i + 1))%nat -> did_not_arrive w a -> did_not_arrive w b -> a = b.
Proof.
  intros H a b Ha Hb La Lb. unfold losses in H.
  assert (In_ : forall x, ((k + 1) * i <= x < (k + 1) * (i + 1))%nat -> did_not_arrive w x ->
    In x (filter (fun j => negb (arrivedb w j)) (seq ((k + 1) * i) (k + 1)))).
  { intros x Hx Lx. apply filter_In. split; [apply in_seq; lia|]. apply arrivedb_false in Lx. rewrite Lx. reflexivity. }
  pose proof (In_ a Ha La) as A. pose proof (In_ b Hb Lb) as B.
  destruct (filter _ _) as [|x [|y t]]; cbn [length] in H; [destruct A | | lia].
  destruct A as [A|[]]. destruct B as [B|[]]. congruence.
Qed.

Example C72_case : forall o, let w := ending Debug W8 o (scarred_setup ++ scarred) in
  wrun Debug still (start still W8 o) (scarred_setup ++ scarred) = Ok w /\ Forall plain_action scarred
  /\ fifo w /\ within_limits W8 w /\ ((2 + 1) * 3 <= length (w_out w))%nat
  /\ w_arrived w = [1; 2; 3; 4; 6; 8]%nat
  /\ (forall i, (i < 3)%nat -> losses w 2 i = 1%nat)
  /\ w_got w = map sample (if o then [0; 1; 2; 3; 4; 5] else [1; 0; 2; 3; 4; 5]).
Proof.
  intros o. cbv zeta. split; [destruct o; vm_compute; reflexivity|].
  split; [repeat constructor|].
  assert (Lf : lossy_fifo Debug still W8 o (ending Debug W8 o (scarred_setup ++ scarred))).
  { apply run_lossy with (scarred_setup ++ scarred); [discriminate | |]; destruct o; vm_compute; reflexivity. }
  split; [apply Lf|]. split; [apply Lf|]. split; [destruct o; vm_compute; repeat constructor|].
  split; [destruct o; vm_compute; reflexivity|]. split; [|destruct o; vm_compute; reflexivity].
  intros i Hi. destruct i as [|[|[|i]]]; [| | | lia]; destruct o; vm_compute; reflexivity.
Qed.

(** The theorem applies to it. *)
Example C72_applies : forall o, first_delivered o (ending Debug W8 o (scarred_setup ++ scarred)) (2 * 3).
Proof.
  intros o. destruct (C72_case o) as (E & Hp & Fi & L & Hn & _ & Hl & _).
  apply (C72_fixed_rate Debug still W8 o 2 2 scarred); [lia | lia | exact E | exact Hp | exact Fi | exact L | exact Hn |].
  intros i a b Hi. apply losses_one. rewrite Hl by exact Hi. lia.
Qed.

(** ** Why the conditions *)

Lemma not_delivered o w c x : (x < c)%nat -> (x < length (w_sent w))%nat -> ~ In (datum w x) (w_got w) -> ~ first_delivered o w c.
Proof.
  intros Hx Hl Hn [(which & _ & Eg & Hin) _]. apply Hn. rewrite Eg. apply in_map, Hin, Hx.
Qed.

(** Two packets of one group lost: the window moves on, and the data are never delivered. *)
Theorem C72_two_losses_refuted :
  exists m clk f o k n l w g, f <> W32 /\ (0 < k)%nat /\ N.of_nat k <= n
  /\ wrun m clk (start clk f o) ([SetWindow n; SetRate (N.of_nat k); SetAdaptive false] ++ l) = Ok w /\ Forall plain_action l
  /\ fifo w /\ within_limits f w /\ ((k + 1) * g <= length (w_out w))%nat
  /\ (forall i, (0 < i < g)%nat -> losses w k i = 0%nat) /\ losses w k 0 = 2%nat
  /\ ~ first_delivered o w (k * g)
  /\ obsolete w 0.
Proof.
  set (l := [Data (sample 0); Data (sample 1); Arrive 2; Data (sample 2); Data (sample 3); Arrive 3; Arrive 4; Arrive 5]).
  exists Debug, still, W8, false, 2%nat, 2, l, (ending Debug W8 false (scarred_setup ++ l)), 2%nat.
  assert (Lf : lossy_fifo Debug still W8 false (ending Debug W8 false (scarred_setup ++ l))).
  { apply run_lossy with (scarred_setup ++ l); [discriminate | |]; vm_compute; reflexivity. }
  split; [discriminate|]. split; [lia|]. split; [lia|]. split; [vm_compute; reflexivity|]. split; [repeat constructor|].
  split; [apply Lf|]. split; [apply Lf|]. split; [vm_compute; repeat constructor|].
  split; [intros i Hi; replace i with 1%nat by lia; vm_compute; reflexivity|]. split; [vm_compute; reflexivity|].
  split; [|vm_compute; reflexivity].
  apply (not_delivered false _ _ 0%nat); [lia | vm_compute; repeat constructor|].
  vm_compute. intros [H|[H|[]]]; discriminate.
Qed.
Print Assumptions C72_two_losses_refuted.

(** A window smaller than a group: a single loss is not made good. *)
Theorem C72_small_window_refuted :
  exists m clk f o k n l w g, f <> W32 /\ (0 < k)%nat /\ 0 < n
  /\ wrun m clk (start clk f o) ([SetWindow n; SetRate (N.of_nat k); SetAdaptive false] ++ l) = Ok w /\ Forall plain_action l
  /\ fifo w /\ within_limits f w /\ ((k + 1) * g <= length (w_out w))%nat
  /\ (forall i, (0 < i < g)%nat -> losses w k i = 0%nat) /\ losses w k 0 = 1%nat
  /\ ~ first_delivered o w (k * g).
Proof.
  set (l := [Data (sample 0); Data (sample 1); Arrive 1; Arrive 2; Data (sample 2); Data (sample 3); Arrive 3; Arrive 4; Arrive 5]).
  exists Debug, still, W8, false, 2%nat, 1, l, (ending Debug W8 false ([SetWindow 1; SetRate 2; SetAdaptive false] ++ l)), 2%nat.
  assert (Lf : lossy_fifo Debug still W8 false (ending Debug W8 false ([SetWindow 1; SetRate 2; SetAdaptive false] ++ l))).
  { apply run_lossy with ([SetWindow 1; SetRate 2; SetAdaptive false] ++ l); [discriminate | |]; vm_compute; reflexivity. }
  split; [discriminate|]. split; [lia|]. split; [lia|]. split; [vm_compute; reflexivity|]. split; [repeat constructor|].
  split; [apply Lf|]. split; [apply Lf|]. split; [vm_compute; repeat constructor|].
  split; [intros i Hi; replace i with 1%nat by lia; vm_compute; reflexivity|]. split; [vm_compute; reflexivity|].
  apply (not_delivered false _ _ 0%nat); [lia | vm_compute; repeat constructor|].
  vm_compute. intros [H|[H|[H|[]]]]; discriminate.
Qed.
Print Assumptions C72_small_window_refuted.
