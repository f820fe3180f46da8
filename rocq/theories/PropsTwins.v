(** * C91: a repair that says nothing new can stop the recovery *)
From Coq Require Import ZArith NArith List Bool Lia Sorted.
From Verif Require Import Outcome GF GFField Linear Containers ContainersFacts Packetizer PropsPacketizer
  Encoder EncoderRun EncoderHistory DetailDecoder Decoder DecoderInv DecoderStep DecoderFacts DecoderHeld
  DecoderProgress DecoderPrompt DecoderRecover Twins System SystemInv SystemRun SystemArrive SystemFifo
  PropsSystem PropsRecover PropsFifo PropsBlind PropsWide.
Import ListNotations.
Open Scope N_scope.

(** ** The numbers of repairs grow *)

Lemma read_repair_id m p r q : read_repair m p = Ok (r, q) -> dr_id r = id_of p.
Proof.
  intros H. unfold read_repair in H. apply bind_ok in H. destruct H as (u & _ & H). cbv zeta in H.
  apply bind_ok in H. destruct H as ([b c] & E1 & H). unfold read in E1.
  destruct (Nat.ltb (length p) 1); [discriminate|]. apply bind_ok in E1. destruct E1 as (v & _ & E1).
  assert (c = ((0 + 1)%nat, (length p - 1)%nat)) by congruence. subst c. clear E1. change (0 + 1)%nat with 1%nat in H.
  apply bind_ok in H. destruct H as ([id c] & E2 & H). unfold read in E2.
  destruct (Nat.ltb (length p - 1) 4); [discriminate|]. apply bind_ok in E2. destruct E2 as (i & Ei & E2).
  assert (i = id) by congruence. subst i. clear E2.
  apply bind_ok in H. destruct H as ([size c2] & _ & H). apply bind_ok in H. destruct H as (c3 & _ & H).
  apply bind_ok in H. destruct H as ([ids c4] & _ & H). apply bind_ok in H. destruct H as ([enc c5] & _ & H).
  assert (E : dr_id r = id) by (injection H as H _; rewrite <- H; reflexivity). rewrite E. clear H E.
  assert (X : forall k b, nth_error p k = Some b -> nth k p 0 = b) by (intros k b' Hb; apply nth_error_nth, Hb).
  unfold id_of. cbn [copy_be] in Ei.
  destruct (nth_error p 1) as [b1|] eqn:E1; [|discriminate]. destruct (nth_error p 2) as [b2|] eqn:E2; [|discriminate].
  destruct (nth_error p 3) as [b3|] eqn:E3; [|discriminate]. destruct (nth_error p 4) as [b4|] eqn:E4; [|discriminate].
  rewrite (X _ _ E1), (X _ _ E2), (X _ _ E3), (X _ _ E4).
  assert (id = (((0 * 256 + b1) * 256 + b2) * 256 + b3) * 256 + b4) by congruence. lia.
Qed.

Lemma nth_filter {A} (b : A -> bool) l : forall i a, nth_error l i = Some a -> b a = true ->
  nth_error (filter b l) (length (filter b (firstn i l))) = Some a.
Proof.
  induction l as [|x l IH]; intros [|i] a H Hb; try discriminate; cbn [nth_error firstn filter] in *.
  - assert (x = a) by congruence. subst x. rewrite Hb. reflexivity.
  - destruct (b x); cbn [length nth_error]; apply IH; assumption.
Qed.

Lemma firstn_filter {A} (b : A -> bool) l : forall i j, (i <= j)%nat ->
  (length (filter b (firstn i l)) <= length (filter b (firstn j l)))%nat.
Proof.
  induction l as [|x l IH]; intros [|i] [|j] H; cbn [firstn filter length]; try lia.
  specialize (IH i j ltac:(lia)). destruct (b x); cbn [length]; lia.
Qed.

Lemma ids_grow m clk f o w i k p q : reach m clk f o w -> count 1 (w_out w) <= 2 ^ 32 -> (i <= k)%nat ->
  nth_error (w_out w) i = Some p -> nth_error (w_out w) k = Some q -> type_of p = 1 -> type_of q = 1 ->
  id_of p <= id_of q.
Proof.
  intros R Hc Hik Hp Hq Tp Tq. destruct (world_sender _ _ _ _ _ R) as (ops & Ro & _).
  pose proof (history_of_run _ _ _ _ _ Ro) as Hs. pose proof (h_repair_ids _ _ _ _ Hs) as Hi.
  assert (X : forall i p, nth_error (w_out w) i = Some p -> type_of p = 1 ->
    id_of p = N.of_nat (length (of_type 1 (firstn i (w_out w))))).
  { intros i' p' H T. assert (Hb : (type_of p' =? 1) = true) by (apply N.eqb_eq, T).
    pose proof (nth_filter (fun p => type_of p =? 1) _ _ _ H Hb) as F. rewrite (Hi _ _ F).
    apply N.mod_small. assert (length (filter (fun p => (type_of p =? 1)%N) (firstn i' (w_out w))) < length (of_type 1 (w_out w)))%nat.
    { apply nth_error_Some. unfold of_type. rewrite F. discriminate. }
    change (count 1 (w_out w)) with (N.of_nat (length (of_type 1 (w_out w)))) in Hc.
    change (2 ^ 32) with 4294967296 in *. unfold of_type at 1. lia. }
  rewrite (X i p Hp Tp), (X k q Hq Tq). unfold of_type. pose proof (firstn_filter (fun p => type_of p =? 1) (w_out w) i k Hik). lia.
Qed.

(** ** Runs *)

(** The stored repairs have arrived. *)
Definition from_arrived (w : world) : Prop :=
  forall r, In r (mkeys (d_repairs (core_of w))) ->
  exists i p, In i (w_arrived w) /\ nth_error (w_out w) i = Some p /\ type_of p = 1 /\ id_of p = r.

(** The repairs that arrive after the first [n] packets cover something as old as each of [xs]. *)
Definition reach_back (m : mode) (n : nat) (w : world) (xs : list N) : Prop :=
  forall k number covered x, In k (skipn n (w_arrived w)) -> repair_packet_at m w k number covered -> In x xs ->
  exists y, In y covered /\ y <= x.

Section Run.
Variable m : mode.
Variable clk : clock.
Variable f : field.
Variable o : bool.

(** What one step does to the stored repairs. *)
Lemma step_shape w a w1 : reach m clk f o w -> wstep m clk w a = Ok w1 -> within_limits f w1 -> fifo w1 ->
  count 1 (w_out w1) <= 2 ^ 32 -> from_arrived w ->
  from_arrived w1
  /\ forall D, (forall p, In p D -> In p (d_repairs (core_of w))) -> dependent f (equations D) ->
     (forall k number covered r rep, a = Arrive k -> repair_packet_at m w1 k number covered -> In (r, rep) D ->
        exists y, In y covered /\ y <= hd 0 (dr_ids rep)) ->
     forall p, In p D -> In p (d_repairs (core_of w1)).
Proof.
  intros R E L Fi Hc Fa. pose proof (wstep_extends _ _ _ _ _ E) as X.
  destruct (x_out _ _ X) as [newp Xo]. destruct (x_arrived _ _ X) as [newa Xa].
  assert (More : d_repairs (core_of w1) = d_repairs (core_of w) -> from_arrived w1).
  { intros Er r Hr. rewrite Er in Hr. destruct (Fa r Hr) as (i & p & A1 & A2 & A3 & A4). exists i, p.
    split; [rewrite Xa; apply in_app_iff; left; exact A1|]. split; [|auto].
    rewrite Xo. rewrite nth_error_app1; [exact A2|]. apply nth_error_Some. congruence. }
  assert (Same : d_repairs (core_of w1) = d_repairs (core_of w) -> from_arrived w1
     /\ forall D, (forall p, In p D -> In p (d_repairs (core_of w))) -> dependent f (equations D) ->
     (forall k number covered r rep, a = Arrive k -> repair_packet_at m w1 k number covered -> In (r, rep) D ->
        exists y, In y covered /\ y <= hd 0 (dr_ids rep)) ->
     forall p, In p D -> In p (d_repairs (core_of w1))).
  { intros Er. split; [apply More, Er|]. rewrite Er. auto. }
  assert (Dec : (exists k, a = Arrive k) \/ forall k, a <> Arrive k).
  { destruct a; try (right; discriminate). left. eexists. reflexivity. }
  destruct Dec as [[k ->]|Ha].
  2:{ apply Same. rewrite (dec_kept m clk w a w1 E Ha). reflexivity. }
  destruct (nth_error (w_out w) k) as [p|] eqn:Hk.
  2:{ apply Same. cbn [wstep] in E. rewrite Hk in E. assert (w1 = w) by congruence. subst. reflexivity. }
  assert (Fi0 : fifo w) by (eapply fifo_before; eassumption).
  destruct (run_fifo m clk f o w w1 R X L Fi0) as (gs & B & Lt & Q & P).
  assert (Ea : w_arrived w1 = w_arrived w ++ [k] /\ w_out w1 = w_out w).
  { cbn [wstep] in E. rewrite Hk in E. apply receiver_extends in E. split; apply E. }
  destruct Ea as [Ea Eo].
  assert (Hle : forall i, In i (w_arrived w) -> (i <= k)%nat) by (apply (fifo_last w w1); assumption).
  destruct (arrival_of m f o (w_sent w1) gs w k p (data_ok _ _ L) (lim_bound _ _ L) B Lt Hle Hk) as (g & Hg & A).
  destruct (arrive_core m clk f o w k w1 p R E (fifo_repairs _ Fi) L Hk) as (gs' & B' & Ar).
  pose proof (do_inv _ _ _ _ (ok_dec _ _ _ _ _ _ B)) as I.
  destruct Ar as [(s & q & Et & Er & Hs & Ec)|(r & q & Et & Er & Acc & Ec)].
  - destruct A as [s' q' x Eg R1 Ht R2 R3 Hx Hm|r' q' W n Eg R1 Ht R2 Hne Acc]; [|congruence].
    assert (s' = s) by congruence. subst s' x.
    destruct (source_progress f (S (w_sent w1)) m (lim (w_sent w1)) (lim_bound _ _ L) (core_of w) (ds_id s) I Q Hx Hm)
      as (d1 & E2 & _ & E3 & _).
    apply Same. assert (core_of w1 = d1) as -> by congruence. exact E3.
  - destruct (repair_shape f (S (w_sent w1)) m (lim (w_sent w1)) (lim_bound _ _ L) (HS _ f (data_ok f w1 L))
      (core_of w) r (core_of w1) I Q Acc Ec) as [Sh1 Sh2].
    pose proof (read_repair_id _ _ _ _ Er) as Hid. pose proof (type_of_repair p Et) as Ht.
    assert (Hk1 : nth_error (w_out w1) k = Some p) by (rewrite Eo; exact Hk).
    split.
    + intros k' Hk'. apply mfind_keys in Hk'. destruct Hk' as [rep Hk']. apply Sh1 in Hk'. destruct Hk' as [Hk'|Hk'].
      * destruct (Fa k') as (i & p' & A1 & A2 & A3 & A4); [apply mfind_keys; eauto|]. exists i, p'. rewrite Ea, Eo.
        split; [apply in_app_iff; left; exact A1 | auto].
      * exists k, p. rewrite Ea. split; [apply in_app_iff; right; left; reflexivity|]. split; [exact Hk1|]. split; [exact Ht | congruence].
    + intros D HD Dep Hb. apply Sh2; try assumption.
      * intros k' Hk'. destruct (Fa k' Hk') as (i & p' & A1 & A2 & A3 & A4). rewrite <- A4, Hid.
        apply (ids_grow m clk f o w i k p' p R); try assumption; [rewrite <- Eo; exact Hc | apply Hle, A1].
      * intros k' rep Hin. destruct (Hb k (dr_id r) (dr_ids r) k' rep eq_refl) as (y & Y1 & Y2); [|exact Hin|].
        { exists p, r, q. auto 10. }
        pose proof (sorted_hd (dr_ids r) y) as Z. specialize (Z ltac:(apply Acc) Y1). lia.
Qed.

Lemma start_arrived : from_arrived (start clk f o).
Proof. intros r []. Qed.

Lemma reach_arrived w : reach m clk f o w -> within_limits f w -> fifo w -> count 1 (w_out w) <= 2 ^ 32 -> from_arrived w.
Proof.
  intros R. revert w R. apply (reach_ind m clk f o (fun w => within_limits f w -> fifo w -> count 1 (w_out w) <= 2 ^ 32 -> from_arrived w)).
  - intros _ _ _. apply start_arrived.
  - intros w a w1 R IH E L Fi Hc. pose proof (wstep_extends _ _ _ _ _ E) as X.
    apply (step_shape w a w1 R E L Fi Hc). apply IH.
    + eapply limits_before; eassumption.
    + eapply fifo_before; eassumption.
    + destruct (x_out _ _ X) as [new Eo]. rewrite Eo, count_app in Hc. lia.
Qed.

Lemma run_keeps l : forall w w' D, reach m clk f o w -> wrun m clk w l = Ok w' -> within_limits f w' -> fifo w' ->
  count 1 (w_out w') <= 2 ^ 32 ->
  (forall p, In p D -> In p (d_repairs (core_of w))) -> dependent f (equations D) ->
  (forall k number covered r rep, In k (skipn (length (w_arrived w)) (w_arrived w')) ->
     repair_packet_at m w' k number covered -> In (r, rep) D -> exists y, In y covered /\ y <= hd 0 (dr_ids rep)) ->
  forall p, In p D -> In p (d_repairs (core_of w')).
Proof.
  induction l as [|a l IH]; intros w w' D R H L Fi Hc HD Dep Hb.
  - cbn [wrun] in H. assert (w' = w) by congruence. subst w'. exact HD.
  - cbn [wrun] in H. apply bind_ok in H. destruct H as (w1 & E & H).
    pose proof (wstep_extends _ _ _ _ _ E) as X. pose proof (wrun_extends _ _ _ _ _ H) as X1.
    pose proof (reach_step _ _ _ _ _ _ _ R E) as R1.
    assert (L1 : within_limits f w1) by (eapply limits_before; eassumption).
    assert (Fi1 : fifo w1) by (eapply fifo_before; eassumption).
    destruct (x_out _ _ X1) as [new1 Eo1]. destruct (x_arrived _ _ X1) as [arr1 Ea1].
    destruct (x_out _ _ X) as [new Eo]. destruct (x_arrived _ _ X) as [arr Ea].
    assert (Hc1 : count 1 (w_out w1) <= 2 ^ 32) by (rewrite Eo1, count_app in Hc; lia).
    assert (Fa : from_arrived w).
    { apply reach_arrived; [exact R | eapply limits_before; eassumption | eapply fifo_before; eassumption|].
      rewrite Eo, count_app in Hc1. lia. }
    apply (IH w1 w' D R1 H L Fi Hc).
    + apply (step_shape w a w1 R E L1 Fi1 Hc1 Fa); [exact HD | exact Dep|].
      intros k number covered r rep -> Hp Hin.
      destruct (nth_error (w_out w) k) as [p|] eqn:Hk.
      * apply (Hb k number covered r rep); [|destruct Hp as (p' & r' & q & P1 & P2); exists p', r', q; split; [|exact P2] | exact Hin].
        -- cbn [wstep] in E. rewrite Hk in E. apply receiver_extends in E. destruct E as (_ & _ & _ & E & _).
           rewrite Ea1, E, <- app_assoc, skipn_app, skipn_all, Nat.sub_diag. left. reflexivity.
        -- rewrite Eo1. rewrite nth_error_app1; [exact P1|]. apply nth_error_Some. congruence.
      * exfalso. cbn [wstep] in E. rewrite Hk in E. assert (w1 = w) by congruence. subst w1.
        destruct Hp as (p' & r' & q & P1 & _). congruence.
    + exact Dep.
    + intros k number covered r rep Hk Hp Hin. apply (Hb k number covered r rep); try assumption.
      rewrite Ea1, Ea in Hk. rewrite Ea1, Ea. rewrite skipn_app, skipn_all, Nat.sub_diag in Hk.
      rewrite <- app_assoc, skipn_app, skipn_all, Nat.sub_diag. cbn [app skipn] in Hk |- *. apply in_app_iff. right. exact Hk.
Qed.
End Run.

Lemma pending_repairs w D : incl D (pending w) ->
  exists D', equations D' = D /\ forall p, In p D' -> In p (d_repairs (core_of w)).
Proof.
  induction D as [|[i ids] D IH]; intros H; [exists []; split; [reflexivity | intros p []]|].
  destruct IH as (D' & E & H'); [intros p Hp; apply H; right; exact Hp|].
  assert (Hi : In (i, ids) (pending w)) by (apply H; left; reflexivity).
  unfold pending, equations in Hi. apply in_map_iff in Hi. destruct Hi as ([r rep] & E1 & Hi).
  exists ((r, rep) :: D'). split; [unfold equations; cbn [map]; rewrite E1; f_equal; exact E|].
  intros p [<-|Hp]; [exact Hi | apply H', Hp].
Qed.

(** ** C91 *)

(** While the receiver keeps repairs that depend on each other, it recovers none of the
    data they cover, whatever else arrives, until a repair arrives that covers only newer data. *)
Theorem C91_stuck :
  forall m clk f o w l w' D, lossy_fifo m clk f o w -> wrun m clk w l = Ok w' -> lossy_fifo m clk f o w' ->
  count 1 (w_out w') <= 2 ^ 32 ->
  incl D (pending w) -> dependent f D ->
  (forall i ids, In (i, ids) D -> reach_back m (length (w_arrived w)) w' ids) ->
  incl D (pending w')
  /\ (forall i ids x, In (i, ids) D -> In x ids -> missing w' x /\ ~ held w' x)
  /\ exists which, NoDup which /\ w_got w' = map (datum w') which
     /\ forall i ids x, In (i, ids) D -> In x ids -> ~ In (N.to_nat x) which.
Proof.
  intros m clk f o w l w' D (R & Fi & L) H Lf Hc HD Dep Hb. pose proof Lf as (R' & Fi' & L').
  destruct (pending_repairs w D HD) as (D' & ED & HD'). subst D.
  destruct (fifo_state _ _ _ _ _ Lf) as (gs & B & _ & _). pose proof (do_inv _ _ _ _ (ok_dec _ _ _ _ _ _ B)) as I.
  destruct (fifo_state _ _ _ _ _ (conj R (conj Fi L))) as (gs0 & B0 & _ & _).
  pose proof (do_inv _ _ _ _ (ok_dec _ _ _ _ _ _ B0)) as I0.
  assert (Kept : forall p, In p D' -> In p (d_repairs (core_of w'))).
  { apply (run_keeps m clk f o l w w' D' R H L' Fi' Hc HD' Dep).
    intros k number covered r rep Hk Hp Hin.
    apply (Hb r (dr_ids rep)) with (k := k) (number := number); [|exact Hk | exact Hp|].
    - unfold equations. apply in_map_iff. exists (r, rep). auto.
    - destruct (run_fifo m clk f o w w R (extends_refl w) L Fi) as (_ & _ & _ & Q & _).
      assert (T : (2 <= length (dr_ids rep))%nat).
      { apply (calm_two (core_of w) r rep Q). apply in_mfind; [apply I0 | apply HD', Hin]. }
      destruct (dr_ids rep); [cbn in T; lia | left; reflexivity]. }
  assert (Miss : forall i ids x, In (i, ids) (equations D') -> In x ids -> missing w' x /\ ~ held w' x).
  { intros i ids x Hi Hx. unfold equations in Hi. apply in_map_iff in Hi. destruct Hi as ([r rep] & E & Hi).
    assert (dr_ids rep = ids) as <- by congruence. apply Kept in Hi.
    assert (M : miss (core_of w') x).
    { apply (c_live _ _ _ _ (i_core _ _ _ _ I) r rep x); [|exact Hx]. apply in_mfind; [apply I | exact Hi]. }
    split; [exact M|]. intros Hh. apply (c_disj _ _ _ _ (i_core _ _ _ _ I) x M). left. exact Hh. }
  split; [|split; [exact Miss|]].
  - intros [i ids] Hi. unfold pending, equations in *. apply in_map_iff in Hi. destruct Hi as (p & E & Hi).
    apply in_map_iff. exists p. split; [exact E | apply Kept, Hi].
  - destruct (delivered _ _ _ _ _ (lossy_normal _ _ _ _ _ Lf)) as (_ & _ & G & _ & Nd & _).
    exists (map N.to_nat (DecoderHeld.handed (core_of w'))). split; [exact Nd|]. split; [exact G|].
    intros i ids x Hi Hx Hin. apply in_handed in Hin. destruct (Miss i ids x Hi Hx) as [M Hh].
    unfold DecoderHeld.handed in Hin. apply in_map_iff in Hin. destruct Hin as (v & Ev & Hv).
    destruct (l_settled _ _ _ _ _ (i_logs _ _ _ _ I) v x Hv (or_introl (eq_sym Ev))) as [[Z|[]]|Z]; [apply Hh, Z|].
    destruct (i_ge _ _ _ _ I x (or_intror M)) as [Y _]. apply outdated_false in Y. congruence.
Qed.
Print Assumptions C91_stuck.

(** Two repairs whose numbers differ by a multiple of the number of coefficients say the same. *)
Lemma coefficient_twin f i j x : f <> W32 -> small i x -> small j x -> i mod period f = j mod period f ->
  coefficient f i x = coefficient f j x.
Proof.
  intros Hf Hi Hj E. rewrite !coefficient_small by assumption. f_equal.
  assert (P : period f <> 0) by (destruct f; discriminate).
  assert (A : forall a b, a mod period f = b mod period f -> forall c, (a + c) mod period f = (b + c) mod period f).
  { intros a b Hab c. rewrite <- (N.add_mod_idemp_l a), <- (N.add_mod_idemp_l b) by exact P. rewrite Hab. reflexivity. }
  rewrite N.mul_mod, (N.mul_mod (j + x + 2)) by exact P.
  replace (i + x + 2) with (i + (x + 2)) by lia. replace (j + x + 2) with (j + (x + 2)) by lia.
  rewrite (A i j E (x + 2)), (A i j E 1). reflexivity.
Qed.

Lemma twins_dependent f i j ids : f <> W32 -> i <> j -> i mod period f = j mod period f ->
  (forall x, In x ids -> small i x /\ small j x) -> dependent f [(i, ids); (j, ids)].
Proof.
  intros Hf Hij E Hs. split; [constructor; [intros [X|[]]; cbn in X; congruence | constructor; [intros [] | constructor]]|].
  exists (fun _ => 1). split; [intros _; destruct f; reflexivity|].
  split; [exists i, ids; split; [left; reflexivity | discriminate]|].
  intros x. cbn [map fold_right]. destruct (in_dec N.eq_dec x ids) as [Hx|_]; [|reflexivity].
  destruct (Hs x Hx) as [A B]. rewrite (coefficient_twin f i j x Hf A B E), N.lxor_0_r, N.lxor_nilpotent. reflexivity.
Qed.

Theorem C91_twins :
  forall m clk f o w l w' i j ids, lossy_fifo m clk f o w -> wrun m clk w l = Ok w' -> lossy_fifo m clk f o w' ->
  count 1 (w_out w') <= 2 ^ 32 -> f <> W32 ->
  In (i, ids) (pending w) -> In (j, ids) (pending w) -> i <> j -> i mod period f = j mod period f ->
  (forall x, In x ids -> small i x /\ small j x) ->
  reach_back m (length (w_arrived w)) w' ids ->
  In (i, ids) (pending w') /\ In (j, ids) (pending w')
  /\ exists which, NoDup which /\ w_got w' = map (datum w') which /\ forall x, In x ids -> ~ In (N.to_nat x) which.
Proof.
  intros m clk f o w l w' i j ids Lf H Lf' Hc Hf Hi Hj Hij E Hs Hb.
  destruct (C91_stuck m clk f o w l w' [(i, ids); (j, ids)] Lf H Lf' Hc) as (A1 & A2 & which & A3 & A4 & A5).
  - intros p [<-|[<-|[]]]; assumption.
  - apply twins_dependent; assumption.
  - intros i' ids' [X|[X|[]]]; assert (ids' = ids) as -> by congruence; exact Hb.
  - split; [apply A1; left; reflexivity|]. split; [apply A1; right; left; reflexivity|].
    exists which. split; [exact A3|]. split; [exact A4|]. intros x Hx. apply (A5 i ids x); [left; reflexivity | exact Hx].
Qed.
Print Assumptions C91_twins.

(** *** Examples *)

(** Three data are lost, eighteen repairs are sent. *)
Definition sent_three : list action :=
  SetRate 1000 :: map (fun i => Data [7 + N.of_nat i]) (seq 0 3) ++ repeat Repair 18.

Definition before_twin : list action := map Arrive [3; 18]%nat.
Definition after_twin : list action := map Arrive [19; 20]%nat.

Definition fifo_checks (l : list action) (check : world -> bool) : bool :=
  match wrun Debug still (start still W4 false) l with
  | Ok w => sortedb (w_arrived w) && smallb W4 w && check w
  | _ => false
  end.

Lemma fifo_checks_spec l check : fifo_checks l check = true ->
  exists w, wrun Debug still (start still W4 false) l = Ok w /\ lossy_fifo Debug still W4 false w /\ check w = true.
Proof.
  unfold fifo_checks. destruct (wrun Debug still (start still W4 false) l) as [w| |] eqn:E; try discriminate.
  intros H. apply andb_true_iff in H. destruct H as [H1 H2]. exists w. split; [reflexivity|]. split; [|exact H2].
  apply run_lossy with l; [discriminate | exact E | exact H1].
Qed.

Definition eqs_eq (a b : N * list N) : {a = b} + {a <> b}.
Proof. decide equality; [apply list_eq_dec, N.eq_dec | apply N.eq_dec]. Defined.

Definition covers_all (w : world) (k : nat) : bool :=
  match nth_error (w_out w) k with
  | Some p => match read_repair Debug p with Ok (r, _) => equal N.eq_dec (dr_ids r) [0; 1; 2] | _ => false end
  | None => false
  end.

Example C91_case : exists w w', lossy_fifo Debug still W4 false w /\ wrun Debug still w after_twin = Ok w'
  /\ lossy_fifo Debug still W4 false w' /\ count 1 (w_out w') <= 2 ^ 32
  /\ In (0, [0; 1; 2]) (pending w) /\ In (15, [0; 1; 2]) (pending w) /\ 0 mod period W4 = 15 mod period W4
  /\ (forall x, In x [0; 1; 2] -> small 0 x /\ small 15 x)
  /\ reach_back Debug (length (w_arrived w)) w' [0; 1; 2]
  /\ skipn (length (w_arrived w)) (w_arrived w') = [19; 20]%nat.
Proof.
  assert (C : fifo_checks (sent_three ++ before_twin) (fun w => Nat.eqb (length (w_arrived w)) 2
     && equal eqs_eq (pending w) [(0, [0; 1; 2]); (15, [0; 1; 2])]) = true) by (vm_compute; reflexivity).
  assert (C' : fifo_checks (sent_three ++ before_twin ++ after_twin) (fun w =>
     equal Nat.eq_dec (w_arrived w) [3; 18; 19; 20]%nat && forallb (covers_all w) [19; 20]%nat
     && (count 1 (w_out w) <=? 2 ^ 32)) = true) by (vm_compute; reflexivity).
  apply fifo_checks_spec in C, C'. destruct C as (w & E & Lf & K). destruct C' as (w' & E' & Lf' & K').
  apply andb_true_iff in K, K'. destruct K as [K1 K2]. destruct K' as [K3 K5]. apply andb_true_iff in K3. destruct K3 as [K3 K4].
  apply Nat.eqb_eq in K1. apply equal_spec in K2, K3. apply N.leb_le in K5.
  exists w, w'. split; [exact Lf|]. split.
  { rewrite app_assoc in E'. rewrite (SystemRun.wrun_app _ _ _ _ _ _ E) in E'. exact E'. }
  split; [exact Lf'|]. split; [exact K5|]. rewrite K2. split; [left; reflexivity|]. split; [right; left; reflexivity|].
  split; [reflexivity|]. split.
  { intros x [<-|[<-|[<-|[]]]]; split; reflexivity. }
  rewrite K1, K3. split; [|reflexivity].
  intros k number covered x Hk (p & r & q & P1 & P2 & P3 & P4 & P5) Hx. rewrite K3 in Hk.
  rewrite forallb_forall in K4. specialize (K4 k Hk). unfold covers_all in K4. rewrite P1, P3 in K4.
  apply equal_spec in K4. subst covered. rewrite K4. exists x. split; [exact Hx | lia].
Qed.

Lemma two_worlds (x y : outcome world) (c : world -> world -> bool) :
  match x, y with Ok w, Ok w' => c w w' | _, _ => false end = true ->
  exists w w', x = Ok w /\ y = Ok w' /\ c w w' = true.
Proof. destruct x as [w| |]; try discriminate. destruct y as [w'| |]; try discriminate. eauto. Qed.

Definition less_for_more (w w' : world) : bool :=
  let pk := list_eq_dec N.eq_dec in
  (sortedb (w_arrived w) && smallb W4 w) && (sortedb (w_arrived w') && smallb W4 w')
  && equal pk (w_out w') (w_out w) && equal pk (w_sent w') (w_sent w)
  && equal Nat.eq_dec (w_arrived w) [3; 18; 19; 20]%nat && equal Nat.eq_dec (w_arrived w') [3; 19; 20]%nat
  && equal pk (w_got w) [] && equal pk (w_got w') (w_sent w') && Nat.eqb (length (w_sent w')) 3.

(** That a packet more never leads to less delivered data is false: the same sender, the
    same losses, and without one of the repairs everything is recovered. *)
Theorem C91_more_packets_refuted :
  exists w w', lossy_fifo Debug still W4 false w /\ lossy_fifo Debug still W4 false w'
  /\ w_out w' = w_out w /\ w_sent w' = w_sent w /\ w_arrived w = [3; 18; 19; 20]%nat /\ w_arrived w' = [3; 19; 20]%nat
  /\ w_got w = [] /\ w_got w' = w_sent w' /\ length (w_sent w') = 3%nat.
Proof.
  destruct (two_worlds (wrun Debug still (start still W4 false) (sent_three ++ before_twin ++ after_twin))
    (wrun Debug still (start still W4 false) (sent_three ++ map Arrive [3; 19; 20]%nat)) less_for_more)
    as (w & w' & E & E' & C); [vm_compute; reflexivity|].
  unfold less_for_more in C.
  exists w, w'. cbv zeta in C. do 8 (apply andb_true_iff in C; let K := fresh "K" in destruct C as [C K]).
  split; [apply run_lossy with (2 := E); [discriminate | exact C]|].
  split; [apply run_lossy with (2 := E'); [discriminate | exact K6]|].
  apply equal_spec in K0, K1, K2, K3, K4, K5. apply Nat.eqb_eq in K. auto 10.
Qed.
Print Assumptions C91_more_packets_refuted.
