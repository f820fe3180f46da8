(** * Data that the packets do not determine

    What the receiver got from the channel may fit other data than those that
    were sent. As integrity holds for those data as well, the receiver cannot have
    delivered anything in which they differ. *)
From Coq Require Import ZArith NArith List Bool Lia Sorted.
From Verif Require Import Outcome GF GFRegion Linear Containers ContainersFacts Packetizer PropsPacketizer
  DetailDecoder Decoder DecoderAlgebra DecoderInv DecoderStep DecoderFacts DecoderOuter DecoderHeld
  Encoder EncoderRun EncoderHistory System SystemInv SystemRun.
Import ListNotations.
Open Scope N_scope.

(** ** Other data for two sources *)

(** The first byte, changed. *)
Definition flip (d : list N) : list N := xorl [1] d.

Lemma flip_length d : (0 < length d)%nat -> length (flip d) = length d.
Proof. destruct d as [|a d]; cbn [length]; [lia|]. destruct d; reflexivity. Qed.

Lemma flip_nth d k : (0 < length d)%nat -> nth k (flip d) 0 = N.lxor (if Nat.eqb k 0 then 1 else 0) (nth k d 0).
Proof.
  destruct d as [|a d]; cbn [length]; [lia|]. intros _. unfold flip. cbn [xorl].
  destruct k as [|k]; [reflexivity|]. cbn [nth Nat.eqb]. rewrite N.lxor_0_l. destruct d; reflexivity.
Qed.

Lemma flip_differs d : (0 < length d)%nat -> flip d <> d.
Proof.
  intros H E. pose proof (flip_nth d 0 H) as X. rewrite E in X. cbn [Nat.eqb] in X.
  apply (f_equal (fun y => N.lxor y (nth 0 d 0))) in X. rewrite N.lxor_assoc, N.lxor_nilpotent, N.lxor_0_r in X.
  discriminate.
Qed.

Lemma flip_good f d : (0 < length d)%nat -> good_data f d -> good_data f (flip d).
Proof.
  intros Hl (A & B & C). split; [|rewrite flip_length by exact Hl; auto].
  destruct d as [|a d]; cbn [length] in Hl; [lia|]. unfold flip. cbn [xorl].
  unfold bytes in *. inversion A as [|? ? A1 A2]; subst. constructor.
  - change 256 with (2 ^ 8). destruct (N.lxor 1 a) as [|q] eqn:E; [vm_compute; reflexivity|].
    apply N.log2_lt_pow2; [lia|]. rewrite <- E.
    eapply N.le_lt_trans; [apply N.log2_lxor|]. apply N.max_lub_lt; [vm_compute; reflexivity|].
    destruct (N.eq_dec a 0) as [->|Ha]; [vm_compute; reflexivity|]. apply N.log2_lt_pow2; [lia | exact A1].
  - destruct d; exact A2.
Qed.

Section Other.
Variable f : field.
Variable S : N -> list N.
Variables i j : N.
Hypothesis Hij : i <> j.
Hypothesis Hi : (0 < length (S i))%nat.
Hypothesis Hj : (0 < length (S j))%nat.
Hypothesis HS : forall x, good_data f (S x).

Definition chosen (x : N) : bool := (x =? i) || (x =? j).

Definition S' (x : N) : list N := if chosen x then flip (S x) else S x.

Lemma chosen_length x : chosen x = true -> (0 < length (S x))%nat.
Proof. intros H. apply orb_true_iff in H. destruct H as [H|H]; apply N.eqb_eq in H; subst; assumption. Qed.

Lemma S'_length x : length (S' x) = length (S x).
Proof. unfold S'. destruct (chosen x) eqn:E; [|reflexivity]. apply flip_length, chosen_length, E. Qed.

Lemma S'_good x : good_data f (S' x).
Proof. unfold S'. destruct (chosen x) eqn:E; [|apply HS]. apply flip_good; [apply chosen_length, E | apply HS]. Qed.

(** The change, as a vector with the size in front. *)
Definition delta (k : nat) : N := if Nat.eqb k 4 then 1 else 0.

Lemma svec_chosen x k : svec S' x k = N.lxor (if chosen x then delta k else 0) (svec S x k).
Proof.
  unfold svec. rewrite S'_length. unfold S'. destruct (chosen x) eqn:E; [|rewrite N.lxor_0_l; reflexivity].
  destruct k as [|[|[|[|k]]]]; cbn [vec]; try reflexivity. rewrite flip_nth by (apply chosen_length, E). reflexivity.
Qed.

(** Equal coefficients, and both sources or none: the same combination. *)
Lemma other_genuine r : genuine f S r -> (In i (dr_ids r) <-> In j (dr_ids r)) ->
  (In i (dr_ids r) -> coefficient f (dr_id r) i = coefficient f (dr_id r) j) -> genuine f S' r.
Proof.
  intros [A1 A2 A3 A4 A5 A6 A7 A8 A9] Hb Hc. constructor; try assumption.
  - intros x Hx. rewrite S'_length. apply A6, Hx.
  - intros x _. apply S'_good.
  - intros k. rewrite A8.
    rewrite (xsum_ext (fun x => rmul_at f (coefficient f (dr_id r) x) (svec S' x) k)
      (fun x => N.lxor (if chosen x then rmul_at f (coefficient f (dr_id r) x) delta k else 0)
                  (rmul_at f (coefficient f (dr_id r) x) (svec S x) k)) (dr_ids r)).
    2:{ intros x _. destruct (chosen x) eqn:E.
        - rewrite <- rmul_at_lxor_r. apply rmul_at_ext_all. intros t. rewrite svec_chosen, E. reflexivity.
        - rewrite N.lxor_0_l. apply rmul_at_ext_all. intros t. rewrite svec_chosen, E. apply N.lxor_0_l. }
    rewrite xsum_lxor.
    assert (Z : xsum (fun x => if chosen x then rmul_at f (coefficient f (dr_id r) x) delta k else 0) (dr_ids r) = 0);
      [|rewrite Z, N.lxor_0_l; reflexivity].
    assert (Hn : NoDup (dr_ids r)) by (apply ssorted_NoDup, A1).
    rewrite (xsum_ext _ (fun x => N.lxor (if x =? i then rmul_at f (coefficient f (dr_id r) x) delta k else 0)
                                    (if x =? j then rmul_at f (coefficient f (dr_id r) x) delta k else 0))).
    2:{ intros x _. unfold chosen. destruct (N.eqb_spec x i); destruct (N.eqb_spec x j); cbn [orb];
          rewrite ?N.lxor_0_l, ?N.lxor_0_r; try reflexivity. congruence. }
    rewrite xsum_lxor.
    assert (One : forall y, xsum (fun x => if x =? y then rmul_at f (coefficient f (dr_id r) x) delta k else 0) (dr_ids r)
                  = if in_dec N.eq_dec y (dr_ids r) then rmul_at f (coefficient f (dr_id r) y) delta k else 0).
    { intros y. destruct (in_dec N.eq_dec y (dr_ids r)) as [Hy|Hy].
      - rewrite (xsum_single _ y _ Hn Hy); [rewrite N.eqb_refl; reflexivity|].
        intros x _ Hx. apply N.eqb_neq in Hx. rewrite Hx. reflexivity.
      - rewrite (xsum_ext _ (fun _ => 0) (dr_ids r)); [apply xsum_0|].
        intros x Hx. destruct (N.eqb_spec x y) as [->|]; [contradiction | reflexivity]. }
    rewrite !One. destruct (in_dec N.eq_dec i (dr_ids r)) as [H1|H1]; destruct (in_dec N.eq_dec j (dr_ids r)) as [H2|H2];
      try reflexivity; try tauto.
    rewrite (Hc H1). apply N.lxor_nilpotent.
  - intros x Hx. rewrite S'_length. apply A9, Hx.
Qed.
End Other.

(** ** The receiver, seen with other data *)

Section Receiver.
Variable all : list (list N).
Variable m : mode.
Variable clk : clock.
Variable f : field.
Variable o : bool.
Variable T : N -> list N.
Hypothesis Hlim : lim all <= LIM.
Hypothesis HT : forall x, good_data f (T x).

(** The packet says the same about [T] as about the data sent. *)
Definition fits (p : packet) : Prop :=
  (forall s k, get_packet_type p = Ok TSource -> read_source m p = Ok (s, k) -> T (ds_id s) = SystemInv.S all (ds_id s))
  /\ (forall r k, get_packet_type p = Ok TRepair -> read_repair m p = Ok (r, k) ->
        genuine f (SystemInv.S all) r -> genuine f T r).

Lemma receiver_other gs w op arr w' : wok all m f o gs w -> inv f T (lim all) (core_of w) ->
  receiver m clk w op arr = Ok w' ->
  match op with
  | DPacket p => fits p /\ exists k, arr = [k] /\ nth_error (w_out w) k = Some p
  | _ => arr = []
  end ->
  repairs_in_order w' -> inv f T (lim all) (core_of w').
Proof.
  intros B I H Hop Ho. unfold receiver in H.
  destruct (dstep m clk (w_dec w) op) as [d r] eqn:E.
  apply bind_ok in H. destruct H as (out & Hout & H).
  assert (Ew : w' = {| w_enc := w_enc w; w_dec := d; w_sent := w_sent w; w_out := w_out w;
        w_arrived := w_arrived w ++ arr; w_got := w_got w ++ to_user out;
        w_acks := w_acks w ++ to_network out;
        w_lists := w_lists w ++ acked (w_dec w) d out |}) by congruence.
  clear H. pose proof B as [B1 B2 B3 B4 B5 B6 B7]. pose proof B5 as [D1 D2 D3 D4 D5 D6].
  apply survive_ok in Hout. destruct Hout as [Hnf Hr].
  assert (Ec' : core_of w' = dc_core d) by (rewrite Ew; reflexivity). rewrite Ec'.
  destruct Hr as [->|(-> & x & ->)].
  - destruct op as [p| | |t|nb]; cbn [dstep] in E.
    + destruct Hop as ((F1 & F2) & k & -> & Hk).
      destruct (dec_packet m clk (w_dec w) p) as [d1 r] eqn:Ed.
      assert (X : d1 = d /\ exists q, r = Ok (out, q)).
      { destruct r as [[o1 q]| |]; cbn in E; [|congruence|congruence]. split; [congruence|]. exists q. congruence. }
      destruct X as [-> [q ->]]. apply dec_packet_ok in Ed; [|exact D1 | exact D2].
      destruct (forall2_nth _ _ _ (ch_is _ _ _ _ _ _ _ _ B3) k p Hk) as (g & Hg & Hp).
      destruct Ed as [s c new Et Er Ec R|r c new Et Er Hr Ec R].
      * destruct g as [x|W n]; [|destruct Hp as (Y & _); congruence].
        destruct Hp as (Hx & _ & s' & q' & R1 & R2 & R3).
        assert (s' = s) by congruence. subst s'. specialize (F1 s q' Et R1).
        rewrite R3, <- R2, <- F1 in Ec. rewrite <- R2 in Hx.
        destruct (recv_source_spec f T m (lim all) Hlim HT _ _ _ I Hx Ec) as (I' & _).
        destruct R as (_ & -> & _). exact I'.
      * destruct g as [x|W n]; [destruct Hp as (_ & Y & _); congruence|].
        assert (Hle : forall i, In i (w_arrived w) -> (exists W' n', nth_error gs i = Some (GRepair W' n')) -> (i <= k)%nat).
        { eapply earlier_repairs; [apply B3 | | | exact Ho | exact Hg]; rewrite Ew; reflexivity. }
        assert (G : genuine f (SystemInv.S all) r /\ dr_ids r = W).
        { destruct Hp as (_ & _ & _ & _ & _ & r' & q' & R' & G & Eq).
          assert (r' = r) by congruence. subst r'. auto. }
        destruct G as [G Eq].
        assert (A0 : acceptable f (SystemInv.S all) (lim all) (core_of w) r) by (eapply accept; eassumption).
        destruct A0 as [_ A2 A3 A4 A5].
        specialize (F2 r _ Et Er G).
        assert (A : acceptable f T (lim all) (core_of w) r) by (constructor; assumption).
        destruct (recv_repair_spec f T m (lim all) Hlim HT _ _ _ I A Ec) as (I' & _).
        destruct R as (_ & -> & _). exact I'.
    + destruct (generate_ack (w_dec w)) as [d1 o1] eqn:Eg. assert (d1 = d /\ o1 = out) as [-> ->] by (split; congruence).
      unfold generate_ack in Eg. apply generate_ack_of_spec in Eg; [|exact D2 | apply D1].
      destruct Eg as ([K1 _ _ _ _] & E1 & _). rewrite K1. exact I.
    + destruct (maybe_ack clk (w_dec w)) as [d1 o1] eqn:Eg. assert (d1 = d /\ o1 = out) as [-> ->] by (split; congruence).
      unfold maybe_ack in Eg. apply maybe_ack_of_spec in Eg; [|exact D2 | apply D1].
      destruct Eg as ([K1 _ _ _ _] & _). rewrite K1. exact I.
    + assert (d = set_ack_period (w_dec w) t /\ out = []) as [-> ->] by (split; congruence). exact I.
    + apply finish_ok in E. apply bind_ok in E. destruct E as (d1 & Ed & E).
      unfold set_ack_nb_packets in Ed. apply bind_ok in Ed. destruct Ed as (u & _ & Ed).
      assert (d = with_ack_params (w_dec w) (dc_period (w_dec w)) (N.min nb 128) /\ out = []) as [-> ->] by (split; congruence).
      exact I.
  - apply dstep_throw in E. destruct E as (p & -> & E). apply dec_packet_throw in E.
    assert (X : dc_core d = core_of w).
    { destruct E as [(_ & _ & ->)|[(_ & ->)|(_ & ->)]]; reflexivity. }
    rewrite X. exact I.
Qed.
End Receiver.

(** ** Runs *)

Section Run.
Variable m : mode.
Variable clk : clock.
Variable f : field.
Variable o : bool.
Variable T : N -> list N.
Hypothesis HT : forall x, good_data f (T x).

(** All that arrived in the run fits [T]: the data delivered are those of [T]. *)
Theorem run_other w w' : reach m clk f o w -> extends w w' -> within_limits f w' -> repairs_in_order w ->
  (forall k p, In k (w_arrived w) -> nth_error (w_out w) k = Some p -> fits (w_sent w') m f T p) ->
  inv f T (lim (w_sent w')) (core_of w).
Proof.
  intros R X L. revert w R X.
  apply (reach_ind m clk f o (fun w => extends w w' -> repairs_in_order w ->
    (forall k p, In k (w_arrived w) -> nth_error (w_out w) k = Some p -> fits (w_sent w') m f T p) ->
    inv f T (lim (w_sent w')) (core_of w))).
  - intros _ _ _. constructor.
    + constructor; try reflexivity; try apply msorted_nil; try discriminate; cbn.
      * split; [apply msorted_nil | discriminate].
      * intros x [].
      * intros x [].
    + intros x [[[]|[]]|[]].
    + constructor; cbn.
      * intros v [].
      * intros v x [].
      * constructor.
      * intros _. constructor; cbn; try (apply ssorted_nil); try (intros ? []); try (intros; lia).
    + left. reflexivity.
  - intros w a w1 R IH E X Ho F. pose proof (wstep_extends _ _ _ _ _ E) as X1.
    assert (X0 : extends w w') by (eapply extends_trans; eassumption).
    assert (Ho0 : repairs_in_order w) by exact (repairs_in_order_before m clk f o w w1 R X1 Ho).
    destruct (run_wok m clk f o w w' R X0 L Ho0) as [gs B].
    assert (I : inv f T (lim (w_sent w')) (core_of w)).
    { apply IH; [exact X0 | exact Ho0|]. intros k p Hk Hp. apply (F k p).
      - destruct (x_arrived _ _ X1) as [l ->]. apply in_app_iff. left. exact Hk.
      - destruct (x_out _ _ X1) as [l ->]. apply nth_error_keep, Hp. }
    assert (Snd : forall op data, sender m w op data = Ok w1 -> inv f T (lim (w_sent w')) (core_of w1)).
    { intros op data H. apply sender_extends in H. destruct H as (_ & _ & _ & _ & _ & Ed).
      unfold core_of. rewrite Ed. exact I. }
    destruct a; cbn [wstep] in E; try (eapply Snd; exact E);
      try (eapply (receiver_other (w_sent w') m clk f o T (lim_bound f _ L) HT);
           [exact B | exact I | exact E | reflexivity | exact Ho]).
    + destruct (nth_error (w_out w) k) as [p|] eqn:Ek; [|assert (w1 = w) by congruence; subst; exact I].
      eapply (receiver_other (w_sent w') m clk f o T (lim_bound f _ L) HT);
        [exact B | exact I | exact E | | exact Ho].
      split; [|exists k; auto]. apply receiver_extends in E. destruct E as (_ & _ & Eo & Ea & _).
      apply (F k p); [rewrite Ea; apply in_app_iff; right; left; reflexivity | rewrite Eo; exact Ek].
    + destruct (nth_error (w_acks w) j) as [p|] eqn:Ej; [eapply Snd; exact E|].
      assert (w1 = w) by congruence. subst. exact I.
Qed.

(** So nothing in which [T] differs from what was sent was delivered. *)
Corollary never_delivered w : reach m clk f o w -> within_limits f w -> repairs_in_order w ->
  (forall k p, In k (w_arrived w) -> nth_error (w_out w) k = Some p -> fits (w_sent w) m f T p) ->
  forall v, In v (d_log (core_of w)) -> T (v_id v) = SystemInv.S (w_sent w) (v_id v).
Proof.
  intros R L Ho F v Hv. pose proof (run_other w w R (extends_refl w) L Ho F) as [_ _ [A _ _ _] _].
  destruct (run_wok m clk f o w w R (extends_refl w) L Ho) as [gs [_ _ _ _ [_ _ _ I _ _] _ _]].
  destruct I as [_ _ [A' _ _ _] _]. destruct (A v Hv) as [<- _]. apply (A' v Hv).
Qed.
End Run.
