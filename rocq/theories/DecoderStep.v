(** * Invariant of the decoding algorithm: the handlers

    Continues DecoderInv.v: dropping, linking, full decoding, and the two entry
    points of the decoder. *)
From Coq Require Import NArith PeanoNat List Bool Lia Permutation.
From Verif Require Import Outcome GF GFField GFRegion Linear Containers
  ContainersFacts Packetizer Matrix MatrixFacts DetailDecoder DecoderAlgebra DecoderInv.
Import ListNotations.
Open Scope N_scope.

(** ** Removing links *)

Lemma unlink_or_create_spec r ids : forall missing, msorted missing ->
  (forall x, In x ids -> In x (mkeys missing)) -> NoDup ids ->
  msorted (unlink_or_create r ids missing)
  /\ forall x, mfind x (unlink_or_create r ids missing)
       = match mfind x missing with
         | None => None
         | Some l => Some (if smem x ids then serase r l else l)
         end.
Proof.
  induction ids as [|id ids IH]; intros missing Hs Hi Hn; cbn [unlink_or_create].
  - split; [exact Hs|]. intros x. destruct (mfind x missing); reflexivity.
  - apply NoDup_cons_iff in Hn. destruct Hn as [Hn1 Hn2].
    assert (Hid : In id (mkeys missing)) by (apply Hi; left; reflexivity).
    apply mfind_keys in Hid. destruct Hid as [l El]. rewrite El.
    destruct (IH (mset id (serase r l) missing)) as [A B].
    + apply mset_sorted, Hs.
    + intros x Hx. apply mset_keys. right. apply Hi. right. exact Hx.
    + exact Hn2.
    + split; [exact A|]. intros x. rewrite B, mfind_mset. cbn [smem].
      destruct (x =? id) eqn:E; [|reflexivity]. apply N.eqb_eq in E. subst x.
      rewrite El. cbn [orb]. replace (smem id ids) with false by (symmetry; apply smem_false; exact Hn1).
      reflexivity.
Qed.

Lemma unlink_total r ids : forall missing,
  (forall x, In x ids -> In x (mkeys missing)) -> unlink r ids missing = Ok (unlink_or_create r ids missing).
Proof.
  induction ids as [|id ids IH]; intros missing Hi; cbn [unlink unlink_or_create]; [reflexivity|].
  assert (Hid : In id (mkeys missing)) by (apply Hi; left; reflexivity).
  apply mfind_keys in Hid. destruct Hid as [l El]. rewrite El. apply IH.
  intros x Hx. apply mset_keys. right. apply Hi. right. exact Hx.
Qed.

Lemma before_spec id l x : In x (before id l) <-> In x l /\ x < id.
Proof. unfold before. rewrite filter_In, N.ltb_lt. reflexivity. Qed.

Lemma mfrom_find {V} id (l : list (N * V)) x : mfind x (mfrom id l) = if id <=? x then mfind x l else None.
Proof.
  induction l as [|[k v] l IH]; cbn [mfrom filter mfind].
  - destruct (id <=? x); reflexivity.
  - fold (mfrom id l). destruct (id <=? k) eqn:E; cbn [mfind].
    + destruct (x =? k) eqn:Ek.
      * apply N.eqb_eq in Ek. subst x. rewrite E. reflexivity.
      * exact IH.
    + rewrite IH. destruct (x =? k) eqn:Ek; [|reflexivity].
      apply N.eqb_eq in Ek. subst x. rewrite E. reflexivity.
Qed.

Lemma mfrom_keys {V} id (l : list (N * V)) x : In x (mkeys (mfrom id l)) <-> In x (mkeys l) /\ id <= x.
Proof.
  rewrite !mfind_keys. setoid_rewrite mfrom_find. destruct (id <=? x) eqn:E.
  - apply N.leb_le in E. tauto.
  - apply N.leb_gt in E. split; [intros [v H]; discriminate | lia].
Qed.

Lemma mfrom_sorted {V} id (l : list (N * V)) : msorted l -> msorted (mfrom id l).
Proof. apply msorted_filter. Qed.

Lemma sorted_hd l x : ssorted l -> In x l -> hd 0 l <= x.
Proof.
  intros Hs Hx. destruct l as [|a l]; [contradiction|]. cbn [hd].
  apply ssorted_cons_inv in Hs. destruct Hx as [<-|Hx]; [lia|]. apply Hs in Hx. lia.
Qed.

Section Step.
Variable f : field.
Variable S : N -> list N.
Variable m : mode.
Variable lim : N.
Hypothesis Hlim0 : lim <= LIM.
Hypothesis HS : forall x, good_data f (S x).

Local Notation core := (core f S).
Local Notation logs := (logs S lim).
Local Notation ge := (ge lim).
Local Notation fresh := (fresh lim).
Local Notation sgen := (sgen S).

(** A repair is given up, with its links. *)
Lemma core_drop P d r rep : core P d -> mfind r (d_repairs d) = Some rep ->
  core P (with_missing (with_repairs d (merase r (d_repairs d)))
            (unlink_or_create r (dr_ids rep) (d_missing d)))
  /\ (forall y, In y (mkeys (unlink_or_create r (dr_ids rep) (d_missing d))) <-> miss d y)
  /\ unlink r (dr_ids rep) (d_missing d) = Ok (unlink_or_create r (dr_ids rep) (d_missing d)).
Proof.
  intros C Er. destruct (c_repairs _ _ _ _ C r rep Er) as [Hid G].
  assert (Hi : forall x, In x (dr_ids rep) -> In x (mkeys (d_missing d)))
    by (intros x; apply (c_live _ _ _ _ C r rep x Er)).
  destruct (unlink_or_create_spec r (dr_ids rep) (d_missing d)) as [Hs Hfd].
  { apply C. } { exact Hi. } { apply ssorted_NoDup, G. }
  assert (Hk : forall y, In y (mkeys (unlink_or_create r (dr_ids rep) (d_missing d))) <-> miss d y).
  { intros y. unfold miss. rewrite !mfind_keys. setoid_rewrite Hfd. split.
    - intros [v Hv]. destruct (mfind y (d_missing d)) as [l|]; [eauto | discriminate].
    - intros [v Hv]. rewrite Hv. eauto. }
  split; [|split; [exact Hk | apply unlink_total; exact Hi]].
  constructor; unfold sgen, miss, K;
    cbn [with_missing with_repairs d_field d_sources d_repairs d_missing].
  - apply C.
  - apply C.
  - apply merase_sorted, C.
  - intros r' rep' H. rewrite mfind_merase in H by apply C.
    destruct (r' =? r); [discriminate|]. apply (c_repairs _ _ _ _ C), H.
  - exact Hs.
  - intros x l Hx. rewrite Hfd in Hx. destruct (mfind x (d_missing d)) as [l0|] eqn:E0; [|discriminate].
    destruct (c_links _ _ _ _ C x l0 E0) as [Hs0 Hl0].
    assert (El : l = serase r l0).
    { destruct (smem x (dr_ids rep)) eqn:Em; [congruence|]. apply smem_false in Em.
      rewrite serase_notin; [congruence|]. intros A. apply Hl0 in A.
      destruct A as (rep0 & A1 & A2). rewrite Er in A1. injection A1 as <-. contradiction. }
    subst l. split; [apply serase_sorted, Hs0|].
    intros r'. rewrite serase_in, Hl0 by exact Hs0. rewrite mfind_merase by apply C.
    destruct (r' =? r) eqn:Err.
    + apply N.eqb_eq in Err. split; [intros [_ A]; contradiction | intros (z & A & _); discriminate].
    + apply N.eqb_neq in Err. split; [intros [A _]; exact A | intros A; split; [exact A | exact Err]].
  - intros r' rep' x H Hx. apply Hk. rewrite mfind_merase in H by apply C.
    destruct (r' =? r); [discriminate|]. eapply (c_live _ _ _ _ C); eassumption.
  - intros x Hx. apply Hk in Hx. apply (c_disj _ _ _ _ C x Hx).
  - apply C.
  - intros r' rep' x y H Hy. apply Hk in Hy. rewrite mfind_merase in H by apply C.
    destruct (r' =? r); [discriminate|]. apply (c_newer _ _ _ _ C r' rep' x y H Hy).
Qed.

Lemma drop_repairs_spec P id reps : forall d d', core P d -> msorted reps ->
  (forall r rep, mfind r reps = Some rep -> mfind r (d_repairs d) = Some rep) ->
  drop_repairs m id reps d = Ok d' ->
  core P d' /\ (forall y, miss d' y <-> miss d y)
  /\ (exists R M, d' = with_missing (with_repairs d R) M)
  /\ (forall r rep, mfind r reps = Some rep -> dr_ids rep <> [])
  /\ (forall r rep, mfind r (d_repairs d') = Some rep <->
        mfind r (d_repairs d) = Some rep /\ (mfind r reps = Some rep -> id <= hd 0 (dr_ids rep))).
Proof.
  induction reps as [|[r rep] reps IH]; intros d d' C Hs Hr H; cbn [drop_repairs] in H.
  - assert (d' = d) by congruence. subst d'. split; [exact C|]. split; [reflexivity|].
    split; [exists (d_repairs d), (d_missing d); destruct d; reflexivity|].
    split; [discriminate|]. intros r rep. split; [|tauto]. intros E. split; [exact E | discriminate].
  - apply bind_ok in H. destruct H as (u & _ & H).
    apply msorted_cons_inv in Hs. destruct Hs as [Hs Hlt].
    assert (Er : mfind r (d_repairs d) = Some rep).
    { apply Hr. cbn [mfind]. rewrite N.eqb_refl. reflexivity. }
    assert (Hnot : mfind r reps = None).
    { apply mfind_none. intros A. apply mfind_keys in A. destruct A as [v A].
      apply mfind_in in A. apply Hlt in A. lia. }
    assert (Hrest : forall r' rep', mfind r' reps = Some rep' -> mfind r' (d_repairs d) = Some rep' /\ r' <> r).
    { intros r' rep' A. assert (r' <> r) by congruence. split; [|assumption]. apply Hr. cbn [mfind].
      replace (r' =? r) with false by (symmetry; apply N.eqb_neq; assumption). exact A. }
    destruct (dr_ids rep) as [|first ids] eqn:Eids; [discriminate|].
    destruct (first <? id) eqn:Ef.
    + destruct (core_drop P d r rep C Er) as (C1 & Hk & Hu). rewrite Eids in C1, Hk, Hu.
      rewrite Hu in H. cbn [bind] in H.
      apply IH in H; [|exact C1 | exact Hs |].
      * destruct H as (H1 & H2 & (R & M & H3) & H4 & H5).
        split; [exact H1|]. split; [intros y; rewrite H2; apply Hk|].
        split; [exists R, M; rewrite H3; reflexivity|]. split.
        -- intros r' rep' A. cbn [mfind] in A. destruct (r' =? r) eqn:E.
           ++ assert (rep' = rep) by congruence. subst rep'. rewrite Eids. discriminate.
           ++ apply (H4 r' rep' A).
        -- intros r' rep'. rewrite H5. cbn [with_missing with_repairs d_repairs mfind].
           rewrite mfind_merase by apply C. destruct (r' =? r) eqn:E.
           ++ apply N.eqb_eq in E. subst r'. apply N.ltb_lt in Ef. split.
              ** intros [A _]. discriminate.
              ** intros [A B]. rewrite Er in A. specialize (B A).
                 assert (rep' = rep) by congruence. subst rep'. rewrite Eids in B. cbn [hd] in B. lia.
           ++ reflexivity.
      * intros r' rep' A. apply Hrest in A. destruct A as [A1 A2].
        cbn [with_missing with_repairs d_repairs]. rewrite mfind_merase by apply C.
        replace (r' =? r) with false by (symmetry; apply N.eqb_neq; exact A2). exact A1.
    + apply IH in H; [|exact C | exact Hs | intros r' rep' A; apply (Hrest r' rep' A)].
      destruct H as (H1 & H2 & H3 & H4 & H5).
      split; [exact H1|]. split; [exact H2|]. split; [exact H3|]. split.
      * intros r' rep' A. cbn [mfind] in A. destruct (r' =? r) eqn:E.
        -- assert (rep' = rep) by congruence. subst rep'. rewrite Eids. discriminate.
        -- apply (H4 r' rep' A).
      * intros r' rep'. rewrite H5. cbn [mfind]. apply N.ltb_ge in Ef. destruct (r' =? r) eqn:E.
        -- apply N.eqb_eq in E. subst r'. split.
           ++ intros [A _]. split; [exact A|]. intros B.
              assert (rep' = rep) by congruence. subst rep'. rewrite Eids. exact Ef.
           ++ intros [A _]. split; [exact A|]. rewrite Hnot. discriminate.
        -- reflexivity.
Qed.

(** ** Delivering the outdated ordered sources *)

Definition ev (d : ddec) (x : N) : event :=
  {| v_id := x; v_data := S x; v_known := mkeys (d_sources d) |}.

Lemma deliver_outdated_spec l : forall d, sgen d -> ssorted (d_ordered d) -> ssorted l ->
  (forall x, In x l -> In x (mkeys (d_sources d))) ->
  deliver_outdated l d
  = Ok (delivery d (d_first d) (filter (fun x => negb (smem x l)) (d_ordered d))
          (d_log d ++ map (ev d) l)).
Proof.
  induction l as [|x l IH]; intros d G Hs Hl Hk; cbn [deliver_outdated].
  - cbn [map smem]. rewrite app_nil_r. replace (filter _ (d_ordered d)) with (d_ordered d).
    + destruct d; reflexivity.
    + clear. induction (d_ordered d) as [|a l IH]; [reflexivity|]. cbn [filter negb]. f_equal. exact IH.
  - apply ssorted_cons_inv in Hl. destruct Hl as [Hl Hlt].
    unfold callback_ordered. rewrite (sgen_find S d x G) by (apply Hk; left; reflexivity). cbn [bind].
    rewrite IH.
    + f_equal. unfold delivery.
      cbn [with_ordered callback d_ordered d_first d_log d_field d_in_order d_repairs d_sources d_last d_missing d_useless d_failed d_decoded].
      f_equal.
      * apply ssorted_ext.
        -- apply ssorted_filter, serase_sorted, Hs.
        -- apply ssorted_filter, Hs.
        -- intros y. rewrite !filter_In. rewrite serase_in by exact Hs. cbn [smem].
           rewrite negb_orb, andb_true_iff, !negb_true_iff, N.eqb_neq. tauto.
      * rewrite <- app_assoc. reflexivity.
    + exact G.
    + apply serase_sorted, Hs.
    + exact Hl.
    + intros y Hy. apply Hk. right. exact Hy.
Qed.

Lemma logs_last lt P d id : logs lt P d -> not_outdated d id = true -> logs lt P (with_last d (Some id)).
Proof.
  intros [L1 L2 L3 L4] Hid.
  assert (Hn : forall y, not_outdated (with_last d (Some id)) y = true -> not_outdated d y = true).
  { intros y Hy. unfold not_outdated in *. cbn [with_last d_last] in Hy. apply N.leb_le in Hy.
    destruct (d_last d); [|reflexivity]. apply N.leb_le in Hid. apply N.leb_le. lia. }
  constructor; try assumption.
  - intros v x Hv Hx. destruct (L2 v x Hv Hx) as [A|A]; [left; exact A|]. right.
    apply outdated_true. apply outdated_true in A.
    destruct (not_outdated (with_last d (Some id)) x) eqn:E; [|reflexivity].
    apply Hn in E. congruence.
  - intros A. destruct (L4 A) as [O1 O2 O3 O4 O5 O6 O7]. constructor; try assumption.
    intros y Hy Hy2. apply O6; [apply Hn, Hy | exact Hy2].
Qed.

(** The part of [drop_outdated] between the repairs and the sources. *)
Definition deliver_part (d : ddec) (id : N) : outcome ddec :=
  if d_in_order d then
    bind (deliver_outdated (before id (d_ordered d)) d)
         (fun d => flush m (if d_first d <? id then with_first d id else d))
  else Ok d.

Lemma deliver_part_spec d id : sgen d -> (forall x, K [] d x -> x < lim) -> logs N.lt [] d ->
  d_last d = Some id -> id < lim ->
  exists fi od lg, deliver_part d id = Ok (delivery d fi od lg)
  /\ logs N.lt [] (delivery d fi od lg) /\ (d_in_order d = true -> id <= fi)
  /\ (exists new, lg = d_log d ++ new)
  /\ (d_in_order d = false -> delivery d fi od lg = d).
Proof.
  intros G Hb L Hl Hlim. unfold deliver_part. destruct (d_in_order d) eqn:Hin.
  - pose proof (l_order _ _ _ _ _ L Hin) as O.
    rewrite deliver_outdated_spec; [|exact G | apply O | apply ssorted_filter, O |].
    2: { intros x Hx. apply before_spec in Hx. apply (o_known _ _ _ _ O), Hx. }
    cbn [bind]. set (od := filter _ (d_ordered d)). set (lg := d_log d ++ _).
    cbn [delivery d_first].
    set (d1 := if d_first d <? id then _ else _).
    assert (Hod : forall x, In x od <-> In x (d_ordered d) /\ id <= x).
    { intros x. unfold od. rewrite filter_In, negb_true_iff, smem_false, before_spec.
      split; (intros [A B]; split; [exact A|]).
      - apply N.le_ngt. intros Hlt. apply B. auto.
      - intros [_ D]. lia. }
    assert (Hlg : forall v, In v lg <-> In v (d_log d) \/ exists x, In x (d_ordered d) /\ x < id /\ v = ev d x).
    { intros v. unfold lg. rewrite in_app_iff, in_map_iff. setoid_rewrite before_spec.
      split; (intros [A|A]; [left; exact A | right]).
      - destruct A as (x & E & A). exists x. intuition.
      - destruct A as (x & A & B & E). exists x. intuition. }
    assert (Hsl : ssorted (map v_id lg)).
    { unfold lg. rewrite map_app, map_map. cbn [ev v_id]. rewrite map_id.
      apply ssorted_app; [apply O | apply ssorted_filter, O|].
      intros a b Ha Hb'. apply before_spec in Hb'. apply in_map_iff in Ha. destruct Ha as (v & <- & Hv).
      pose proof (o_log_lt _ _ _ _ O v Hv). pose proof (o_after _ _ _ _ O b (proj1 Hb')). lia. }
    set (fi := if d_first d <? id then id else d_first d).
    assert (E1 : d1 = delivery d fi od lg).
    { unfold d1, fi. destruct (d_first d <? id); reflexivity. }
    assert (Hfi : id <= fi /\ d_first d <= fi).
    { unfold fi. destruct (d_first d <? id) eqn:E; [apply N.ltb_lt in E | apply N.ltb_ge in E]; lia. }
    assert (L1 : logs N.le [] d1).
    { rewrite E1. constructor; cbn [delivery d_log d_in_order].
      - intros v Hv. apply Hlg in Hv. destruct Hv as [Hv|(x & Hx & _ & ->)].
        + apply (l_gen _ _ _ _ _ L), Hv.
        + split; [reflexivity|]. apply Hb. left. apply (o_known _ _ _ _ O), Hx.
      - intros v y Hv Hy. apply Hlg in Hv. destruct Hv as [Hv|(x & Hx & _ & ->)].
        + apply (l_settled _ _ _ _ _ L v y Hv Hy).
        + left. left. destruct Hy as [->|Hy]; [apply (o_known _ _ _ _ O), Hx | exact Hy].
      - apply ssorted_NoDup, Hsl.
      - intros _. constructor; cbn [delivery d_ordered d_first d_log d_sources].
        + apply ssorted_filter, O.
        + intros x Hx. apply Hod in Hx. apply (o_known _ _ _ _ O), Hx.
        + intros x Hx. apply Hod in Hx. unfold fi. pose proof (o_after _ _ _ _ O x (proj1 Hx)).
          destruct (d_first d <? id); lia.
        + exact Hsl.
        + intros v Hv. apply Hlg in Hv. destruct Hv as [Hv|(x & _ & Hx & ->)].
          * pose proof (o_log_lt _ _ _ _ O v Hv). lia.
          * cbn [ev v_id]. lia.
        + intros y Hy Hy2. apply (o_gap _ _ _ _ O); [exact Hy|].
          unfold not_outdated in Hy. cbn [delivery d_last] in Hy. rewrite Hl in Hy.
          apply N.leb_le in Hy. unfold fi in Hy2.
          destruct (d_first d <? id) eqn:E; [lia | exact Hy2].
        + unfold fi. pose proof (o_lim _ _ _ _ O). destruct (d_first d <? id); lia. }
    destruct (flush_spec S m lim Hlim0 [] d1) as (fi' & od' & lg' & R1 & R2 & R3).
    { rewrite E1. exact Hin. } { rewrite E1. exact G. } { rewrite E1. exact Hb. } { exact L1. }
    exists fi', od', lg'. pose proof R1 as R1'. rewrite R1. rewrite E1 in R2, R3 |- *.
    cbn [delivery d_first] in R2.
    split; [reflexivity|]. split; [exact R3|]. split; [intros _; lia|]. split; [|congruence].
    apply flush_log in R1'. destruct R1' as [new En]. rewrite E1 in En. cbn [delivery d_log] in En.
    exists (map (ev d) (before id (d_ordered d)) ++ new). rewrite En. unfold lg.
    rewrite app_assoc. reflexivity.
  - exists (d_first d), (d_ordered d), (d_log d).
    assert (E : delivery d (d_first d) (d_ordered d) (d_log d) = d) by (destruct d; reflexivity).
    rewrite E. split; [reflexivity|]. split; [exact L|]. split; [congruence|]. split; [|auto].
    exists []. rewrite app_nil_r. reflexivity.
Qed.

Record dropped (d d' : ddec) (id : N) : Prop := {
  p_core : core [] d';
  p_ge : ge [] d';
  p_logs : logs N.lt [] d';
  p_evolves : evolves [] [] d d';
  p_last : d_last d' = Some id;
  p_missing : forall y, miss d' y <-> miss d y /\ id <= y;
  p_sources : d_sources d' = mfrom id (d_sources d);
  p_repairs : forall r rep, mfind r (d_repairs d') = Some rep <->
     mfind r (d_repairs d) = Some rep /\ id <= hd 0 (dr_ids rep);
  p_nonempty : forall r rep, mfind r (d_repairs d) = Some rep -> dr_ids rep <> [];
  p_counters : d_useless d' = d_useless d /\ d_failed d' = d_failed d /\ d_decoded d' = d_decoded d;
  p_log : d_in_order d = false -> d_log d' = d_log d
}.

Lemma drop_outdated_spec d id d' : core [] d -> ge [] d -> logs N.lt [] d ->
  not_outdated d id = true -> id < lim -> drop_outdated m d id = Ok d' -> dropped d d' id.
Proof.
  intros C G L Hid Hlim H. unfold drop_outdated in H.
  set (d0 := with_last d (Some id)) in H.
  apply bind_ok in H. destruct H as (d1 & E1 & H).
  assert (C0 : core [] d0) by (apply core_same with (5 := C); reflexivity).
  apply (drop_repairs_spec [] id (d_repairs d0) d0 d1 C0) in E1; [|apply C | auto].
  destruct E1 as (C1 & Hm1 & (R & M & E1) & Hne & Hr1).
  apply bind_ok in H. destruct H as (d2 & E2 & H).
  change (deliver_part d1 id = Ok d2) in E2.
  assert (L1 : logs N.lt [] d1).
  { apply logs_same with (d := d0).
    - rewrite E1. repeat split.
    - apply logs_last; assumption. }
  assert (Hb1 : forall x, K [] d1 x -> x < lim).
  { rewrite E1. intros x Hx. apply G. left. exact Hx. }
  destruct (deliver_part_spec d1 id) as (fi & od & lg & R1 & R2 & R3 & R4 & R5).
  { apply C1. } { exact Hb1. } { exact L1. } { rewrite E1. reflexivity. } { exact Hlim. }
  rewrite R1 in E2. assert (d2 = delivery d1 fi od lg) by congruence. subst d2. clear E2.
  set (d2 := delivery d1 fi od lg) in *.
  assert (H' : d' = with_missing (with_sources d2 (mfrom id (d_sources d2))) (mfrom id (d_missing d2)))
    by (cbv zeta in H; injection H as H; symmetry; exact H). clear H.
  assert (Es : d_sources d2 = d_sources d) by (unfold d2; rewrite E1; reflexivity).
  assert (El : d_last d2 = Some id) by (unfold d2; rewrite E1; reflexivity).
  assert (Hm : forall y, miss d' y <-> miss d y /\ id <= y).
  { intros y. rewrite H'. unfold miss at 1. cbn [with_missing d_missing]. rewrite mfrom_keys.
    change (In y (mkeys (d_missing d2))) with (miss d1 y). rewrite Hm1. reflexivity. }
  assert (HK : forall y, K [] d' y <-> K [] d y /\ id <= y).
  { intros y. rewrite H'. unfold K. cbn [with_missing with_sources d_sources In]. rewrite mfrom_keys, Es. tauto. }
  assert (Hno : forall y, not_outdated d' y = true <-> id <= y).
  { intros y. rewrite H'. unfold not_outdated. cbn [with_missing with_sources d_last]. rewrite El.
    apply N.leb_le. }
  assert (Hno2 : forall y, not_outdated d2 y = true <-> id <= y).
  { intros y. unfold not_outdated. rewrite El. apply N.leb_le. }
  assert (Hr : forall r rep, mfind r (d_repairs d') = Some rep <->
     mfind r (d_repairs d) = Some rep /\ id <= hd 0 (dr_ids rep)).
  { intros r rep. rewrite H'. cbn [with_missing with_sources d_repairs d2 delivery].
    rewrite Hr1. change (d_repairs d0) with (d_repairs d). tauto. }
  assert (Hge : forall r rep x, mfind r (d_repairs d') = Some rep -> In x (dr_ids rep) -> id <= x).
  { intros r rep x Hrep Hx. apply Hr in Hrep. destruct Hrep as [Hrep Hh].
    destruct (c_repairs _ _ _ _ C r rep Hrep) as [_ Gn]. pose proof (g_sorted _ _ _ Gn) as Hs.
    destruct (dr_ids rep) as [|a l]; [contradiction|]. cbn [hd] in Hh.
    apply ssorted_cons_inv in Hs. destruct Hx as [<-|Hx]; [exact Hh|]. apply Hs in Hx. lia. }
  assert (Hset : forall y, settled [] d y -> settled [] d' y).
  { intros y Hy. destruct (N.le_gt_cases id y) as [A|A].
    - destruct Hy as [Hy|Hy].
      + left. apply HK. auto.
      + apply outdated_true in Hy. exfalso. unfold not_outdated in Hy, Hid.
        destruct (d_last d) as [la|]; [|discriminate]. apply N.leb_le in Hid. apply N.leb_gt in Hy. lia.
    - right. apply outdated_true. destruct (not_outdated d' y) eqn:E; [|reflexivity].
      apply Hno in E. lia. }
  assert (Hfd : forall x, mfind x (d_missing d') = if id <=? x then mfind x (d_missing d1) else None).
  { intros x. rewrite H'. cbn [with_missing d_missing d2 delivery]. apply mfrom_find. }
  constructor.
  - constructor.
    + rewrite H'. exact (c_field _ _ _ _ C1).
    + rewrite H'. split; cbn [with_missing with_sources d_sources].
      * apply mfrom_sorted. rewrite Es. apply C.
      * intros x data Hx. rewrite mfrom_find, Es in Hx. destruct (id <=? x); [|discriminate].
        apply (c_sources _ _ _ _ C), Hx.
    + rewrite H'. exact (c_rsorted _ _ _ _ C1).
    + intros r rep Hrep. apply Hr in Hrep. apply (c_repairs _ _ _ _ C), Hrep.
    + rewrite H'. apply mfrom_sorted, C1.
    + intros x l Hx. rewrite Hfd in Hx. destruct (id <=? x) eqn:Eid; [|discriminate].
      destruct (c_links _ _ _ _ C1 x l Hx) as [A B]. split; [exact A|].
      intros r. rewrite B. rewrite H'. reflexivity.
    + intros r rep x Hrep Hx. apply Hm. split; [|eapply Hge; eassumption].
      apply Hr in Hrep. eapply (c_live _ _ _ _ C); [apply Hrep | exact Hx].
    + intros x Hx A. apply Hm in Hx. apply HK in A. apply (c_disj _ _ _ _ C x); [apply Hx | apply A].
    + intros x [].
    + intros r rep x y Hrep Hy. apply Hr in Hrep. apply Hm in Hy.
      apply (c_newer _ _ _ _ C r rep x y); [apply Hrep | apply Hy].
  - intros x [Hx|Hx].
    + apply HK in Hx. split; [apply Hno, Hx | apply G; left; apply Hx].
    + apply Hm in Hx. split; [apply Hno, Hx | apply G; right; apply Hx].
  - destruct R2 as [A1 A2 A3 A4]. fold d2 in A1, A2, A3, A4.
    assert (Elog : d_log d' = d_log d2) by (rewrite H'; reflexivity).
    constructor; rewrite ?Elog; try assumption.
    + intros v x Hv Hx. destruct (A2 v x Hv Hx) as [B|B].
      * destruct (N.le_gt_cases id x) as [D|D].
        -- left. apply HK. split; [|exact D]. unfold K in B |- *. rewrite Es in B. exact B.
        -- right. apply outdated_true. destruct (not_outdated d' x) eqn:E; [|reflexivity].
           apply Hno in E. lia.
      * right. apply outdated_true. apply outdated_true in B.
        destruct (not_outdated d' x) eqn:E; [|reflexivity].
        apply Hno, Hno2 in E. congruence.
    + intros Hin. assert (Hin2 : d_in_order d2 = true) by (rewrite H' in Hin; exact Hin).
      assert (Hfi : id <= fi) by (apply R3; exact Hin2).
      destruct (A4 Hin2) as [O1 O2 O3 O4 O5 O6 O7].
      constructor; rewrite ?Elog.
      * rewrite H'. exact O1.
      * rewrite H'. cbn [with_missing with_sources d_ordered d_sources]. intros x Hx.
        apply mfrom_keys. split; [apply O2, Hx|]. specialize (O3 x Hx). cbn [d2 delivery d_first] in O3. lia.
      * rewrite H'. exact O3.
      * exact O4.
      * rewrite H'. exact O5.
      * intros y Hy Hy2. apply HK. apply Hno in Hy. split; [|exact Hy].
        assert (B : K [] d2 y) by (apply O6; [apply Hno2; exact Hy | rewrite H' in Hy2; exact Hy2]).
        unfold K in B |- *. rewrite Es in B. exact B.
      * rewrite H'. exact O7.
  - constructor.
    + rewrite H'. cbn [with_missing with_sources d_field d2 delivery]. rewrite E1. reflexivity.
    + rewrite H'. cbn [with_missing with_sources d_in_order d2 delivery]. rewrite E1. reflexivity.
    + intros y Hy. left. apply Hm, Hy.
    + intros y Hy. destruct (N.le_gt_cases id y) as [A|A]; [left; apply Hm; auto|].
      right. right. apply outdated_true. destruct (not_outdated d' y) eqn:E; [|reflexivity].
      apply Hno in E. lia.
    + exact Hset.
    + destruct R4 as [new En]. exists new. rewrite H'. cbn [with_missing with_sources d_log d2 delivery].
      rewrite En, E1. reflexivity.
  - rewrite H'. exact El.
  - exact Hm.
  - rewrite H'. cbn [with_missing with_sources d_sources]. rewrite Es. reflexivity.
  - exact Hr.
  - exact Hne.
  - rewrite H'. cbn [with_missing with_sources d_useless d_failed d_decoded d2 delivery]. rewrite E1. auto.
  - intros Hin. rewrite H'. cbn [with_missing with_sources d_log d2].
    rewrite R5 by (rewrite E1; exact Hin). rewrite E1. reflexivity.
Qed.

(** ** Linking a repair *)

Definition links_of (d : ddec) (x : N) : list N :=
  match mfind x (d_missing d) with None => [] | Some l => l end.

Lemma link_repair_spec ids : forall d r d' r', NoDup ids ->
  (forall x, In x ids -> In x (dr_ids r)) -> genuine f S r -> d_field d = f -> sgen d ->
  msorted (d_missing d) -> link_repair m ids d r = Ok (d', r') ->
  exists M, d' = with_missing d M /\ msorted M /\ genuine f S r' /\ dr_id r' = dr_id r
  /\ (forall x, In x (dr_ids r') <-> In x (dr_ids r) /\ ~ (In x ids /\ In x (mkeys (d_sources d))))
  /\ (forall x, mfind x M = if smem x ids && negb (mmem x (d_sources d))
                            then Some (sinsert (dr_id r) (links_of d x)) else mfind x (d_missing d)).
Proof.
  induction ids as [|id ids IH]; intros d r d' r' Hn Hi G Hfi Hsg Hs H; cbn [link_repair] in H.
  - assert (E : d = d' /\ r = r') by (split; congruence). destruct E as [<- <-].
    exists (d_missing d). split; [destruct d; reflexivity|]. split; [exact Hs|]. split; [exact G|].
    split; [reflexivity|]. split; [intros x; cbn [In]; tauto | reflexivity].
  - apply NoDup_cons_iff in Hn. destruct Hn as [Hn1 Hn2].
    assert (Hid : In id (dr_ids r)) by (apply Hi; left; reflexivity).
    destruct (mfind id (d_sources d)) as [data|] eqn:Es.
    + assert (data = S id) by (apply Hsg; exact Es). subst data.
      rewrite Hfi, (remove_data_spec f S m r id G Hid) in H.
      apply bind_ok in H. destruct H as (r1 & E1 & H).
      apply bind_ok in E1. destruct E1 as (u & _ & E1).
      assert (r1 = minus f S r id) by congruence. subst r1. clear E1.
      change (dr_ids (minus f S r id)) with (dr_ids r) in H.
      pose proof (minus_genuine f S r id G Hid) as G1.
      apply IH in H; try assumption.
      * destruct H as (M & H1 & H2 & H3 & H4 & H5 & H6). exists M.
        split; [exact H1|]. split; [exact H2|]. split; [exact H3|]. split; [exact H4|].
        assert (Hk : In id (mkeys (d_sources d))) by (apply mfind_keys; eauto).
        split.
        -- intros x. rewrite H5. unfold with_ids. cbn [dr_ids In].
           rewrite serase_in by apply G. split.
           ++ intros [[A B] D]. split; [exact A|]. intros [[E|E] F]; [congruence|]. apply D. auto.
           ++ intros [A B]. split; [split; [exact A|]|].
              ** intros ->. apply B. split; [left; reflexivity | exact Hk].
              ** intros [D E]. apply B. split; [right; exact D | exact E].
        -- intros x. rewrite H6. unfold with_ids, minus. cbn [dr_id smem].
           destruct (x =? id) eqn:E; [|reflexivity]. apply N.eqb_eq in E. subst x.
           replace (mmem id (d_sources d)) with true by (symmetry; apply mmem_spec; exact Hk).
           cbn [negb]. rewrite !andb_false_r. reflexivity.
      * intros x Hx. unfold with_ids. cbn [dr_ids]. rewrite serase_in by apply G.
        split; [apply Hi; right; exact Hx|]. intros ->. contradiction.
    + apply IH in H; try assumption.
      * destruct H as (M & H1 & H2 & H3 & H4 & H5 & H6). exists M.
        split; [exact H1|]. split; [exact H2|]. split; [exact H3|]. split; [exact H4|].
        cbn [with_missing d_sources d_missing] in H5, H6.
        assert (Hk : ~ In id (mkeys (d_sources d))) by (apply mfind_none; exact Es).
        split.
        -- intros x. rewrite H5. cbn [In]. split.
           ++ intros [A B]. split; [exact A|]. intros [[E|E] F]; [congruence|]. apply B. auto.
           ++ intros [A B]. split; [exact A|]. intros [D E]. apply B. auto.
        -- intros x. rewrite H6. unfold links_of. cbn [with_missing d_missing]. rewrite mfind_mset.
           cbn [smem]. destruct (x =? id) eqn:E.
           ++ apply N.eqb_eq in E. subst x. cbn [orb].
              replace (mmem id (d_sources d)) with false by (symmetry; apply mmem_false; exact Hk).
              replace (smem id ids) with false by (symmetry; apply smem_false; exact Hn1).
              reflexivity.
           ++ reflexivity.
      * intros x Hx. apply Hi. right. exact Hx.
      * apply mset_sorted, Hs.
Qed.

(** The conditions on a repair that arrives: the missing sources it could cover
    are covered, and the sources it reveals are newer than the stored repairs. *)
Record acceptable (d : ddec) (r : drepair) : Prop := {
  b_genuine : genuine f S r;
  b_first : not_outdated d (hd 0 (dr_ids r)) = true;
  b_covers : forall x, miss d x -> hd 0 (dr_ids r) <= x -> In x (dr_ids r);
  b_newer : forall y, In y (dr_ids r) -> K [] d y \/ miss d y \/
    forall r' rep x, mfind r' (d_repairs d) = Some rep -> In x (dr_ids rep) -> x < y;
  b_lim : forall x, In x (dr_ids r) -> x < lim
}.

Record linked (d : ddec) (r : drepair) (d' : ddec) (r' : drepair) : Prop := {
  k_core : core [] d';
  k_ge : ge [] d';
  k_state : exists R M, d' = with_repairs (with_missing d M) R;
  k_repair : mfind (dr_id r) (d_repairs d') = Some r';
  k_repairs : d_repairs d' = mset (dr_id r) r' (d_repairs d);
  k_id : dr_id r' = dr_id r;
  k_genuine : genuine f S r';
  k_ids : forall x, In x (dr_ids r') <-> In x (dr_ids r) /\ ~ K [] d x;
  k_missing : forall x, miss d' x <-> miss d x \/ In x (dr_ids r')
}.

Lemma link_spec d r d1 r' : core [] d -> ge [] d -> acceptable d r ->
  (forall x, miss d x -> hd 0 (dr_ids r) <= x) ->
  ~ In (dr_id r) (mkeys (d_repairs d)) ->
  link_repair m (rev (dr_ids r)) d r = Ok (d1, r') ->
  linked d r (with_repairs d1 (mset (dr_id r') r' (d_repairs d1))) r'.
Proof.
  intros C G [B1 B2 B3 B4 B5] Hall Hnew H.
  apply link_repair_spec in H; try assumption; try apply C.
  2: { apply NoDup_rev, ssorted_NoDup, B1. }
  2: { intros x Hx. apply in_rev. exact Hx. }
  destruct H as (M & H1 & H2 & H3 & H4 & H5 & H6). subst d1.
  cbn [with_missing d_repairs]. rewrite H4.
  set (d' := with_repairs _ _).
  assert (Hids : forall x, In x (dr_ids r') <-> In x (dr_ids r) /\ ~ K [] d x).
  { intros x. rewrite H5. unfold K. rewrite <- in_rev. cbn [In]. tauto. }
  assert (HM : forall x, mfind x M = if smem x (dr_ids r')
             then Some (sinsert (dr_id r) (links_of d x)) else mfind x (d_missing d)).
  { intros x. rewrite H6.
    replace (smem x (rev (dr_ids r)) && negb (mmem x (d_sources d))) with (smem x (dr_ids r'));
      [reflexivity|]. apply eq_true_iff_eq.
    rewrite andb_true_iff, negb_true_iff, !smem_spec, mmem_false, <- in_rev, Hids.
    unfold K. cbn [In]. tauto. }
  assert (Hmiss : forall x, miss d' x <-> miss d x \/ In x (dr_ids r')).
  { intros x. unfold miss, d'. cbn [with_repairs with_missing d_missing].
    rewrite !mfind_keys. setoid_rewrite HM. destruct (smem x (dr_ids r')) eqn:E.
    - apply smem_spec in E. split; [auto|]. intros _. eauto.
    - apply smem_false in E. split; [auto|]. intros [A|A]; [exact A | contradiction]. }
  assert (Hfind : forall r0, mfind r0 (d_repairs d') = if r0 =? dr_id r then Some r' else mfind r0 (d_repairs d)).
  { intros r0. unfold d'. cbn [with_repairs d_repairs]. apply mfind_mset. }
  constructor; try assumption.
  - constructor.
    + apply C.
    + apply C.
    + apply mset_sorted, C.
    + intros r0 rep Hrep. rewrite Hfind in Hrep. destruct (r0 =? dr_id r) eqn:E.
      * apply N.eqb_eq in E. assert (rep = r') by congruence. subst rep. split; [congruence | exact H3].
      * apply (c_repairs _ _ _ _ C), Hrep.
    + exact H2.
    + intros x l Hx. unfold d' in Hx. cbn [with_repairs with_missing d_missing] in Hx.
      rewrite HM in Hx. destruct (smem x (dr_ids r')) eqn:E.
      * apply smem_spec in E. assert (l = sinsert (dr_id r) (links_of d x)) by congruence. subst l.
        assert (Hl : ssorted (links_of d x) /\ forall r0, In r0 (links_of d x) <->
           exists rep, mfind r0 (d_repairs d) = Some rep /\ In x (dr_ids rep)).
        { unfold links_of. destruct (mfind x (d_missing d)) as [l|] eqn:El.
          - apply (c_links _ _ _ _ C x l El).
          - split; [apply ssorted_nil|]. intros r0. split; [intros []|]. intros (rep & A & D).
            apply mfind_none in El. apply El. eapply (c_live _ _ _ _ C); eassumption. }
        destruct Hl as [Hl1 Hl2]. split; [apply sinsert_sorted, Hl1|].
        intros r0. rewrite sinsert_in, Hl2. setoid_rewrite Hfind.
        destruct (r0 =? dr_id r) eqn:E0.
        -- apply N.eqb_eq in E0. split; [intros _; eauto | auto].
        -- apply N.eqb_neq in E0. split; [intros [A|A]; [contradiction | exact A] | auto].
      * apply smem_false in E. destruct (c_links _ _ _ _ C x l Hx) as [A B]. split; [exact A|].
        intros r0. rewrite B, Hfind. destruct (r0 =? dr_id r) eqn:E0.
        -- apply N.eqb_eq in E0. subst r0. split.
           ++ intros (rep & D & _). exfalso. apply Hnew, mfind_keys. eauto.
           ++ intros (rep & D & F). assert (rep = r') by congruence. subst rep. contradiction.
        -- reflexivity.
    + intros r0 rep x Hrep Hx. apply Hmiss. rewrite Hfind in Hrep. destruct (r0 =? dr_id r).
      * right. congruence.
      * left. eapply (c_live _ _ _ _ C); eassumption.
    + intros x Hx A. change (K [] d' x) with (K [] d x) in A. apply Hmiss in Hx. destruct Hx as [Hx|Hx].
      * apply (c_disj _ _ _ _ C x Hx A).
      * apply Hids in Hx. apply Hx, A.
    + intros x [].
    + intros r0 rep x y Hrep Hy Hny Hx. rewrite Hfind in Hrep. destruct (r0 =? dr_id r) eqn:E0.
      * assert (rep = r') by congruence. subst rep. apply Hmiss in Hy.
        destruct Hy as [Hy|Hy]; [|contradiction]. exfalso. apply Hny, Hids.
        split; [apply B3; [exact Hy | apply Hall, Hy] | apply (c_disj _ _ _ _ C y Hy)].
      * apply Hmiss in Hy. destruct Hy as [Hy|Hy].
        -- apply (c_newer _ _ _ _ C r0 rep x y Hrep Hy Hny Hx).
        -- apply Hids in Hy. destruct (B4 y (proj1 Hy)) as [A|[A|A]].
           ++ destruct Hy as [_ Hy]. contradiction.
           ++ apply (c_newer _ _ _ _ C r0 rep x y Hrep A Hny Hx).
           ++ apply (A r0 rep x Hrep Hx).
  - intros x Hx. change (not_outdated d' x) with (not_outdated d x).
    destruct Hx as [Hx|Hx]; [apply G; left; exact Hx|]. apply Hmiss in Hx.
    destruct Hx as [Hx|Hx]; [apply G; right; exact Hx|]. apply Hids in Hx. destruct Hx as [Hx _].
    split; [|apply B5, Hx]. pose proof (sorted_hd _ x (g_sorted _ _ _ B1) Hx).
    unfold not_outdated in *. destruct (d_last d) as [la|]; [|reflexivity].
    apply N.leb_le in B2. apply N.leb_le. lia.
  - exists (mset (dr_id r) r' (d_repairs d)), M. reflexivity.
  - rewrite Hfind, N.eqb_refl. reflexivity.
  - reflexivity.
Qed.

(** ** Full decoding *)

Lemma mset_new_sources d x : sgen d -> sgen (with_sources d (mput x (S x) (d_sources d))).
Proof.
  intros [S1 S2]. split; [apply mput_sorted, S1|].
  cbn [with_sources d_sources]. intros y data Hy. rewrite mput_find in Hy.
  destruct (mfind y (d_sources d)) as [w|] eqn:E.
  - injection Hy as <-. apply S2, E.
  - destruct (y =? x) eqn:Eyx; [|discriminate]. apply N.eqb_eq in Eyx. subst y. congruence.
Qed.

Lemma add_decoded_spec d x : sgen d -> (forall y, K [] d y -> y < lim) -> logs N.lt [] d -> fresh [] d x ->
  exists fi od lg, add_decoded m d x (S x)
     = Ok (delivery (with_sources d (mput x (S x) (d_sources d))) fi od lg)
  /\ logs N.lt [] (delivery (with_sources d (mput x (S x) (d_sources d))) fi od lg)
  /\ (exists new, lg = d_log d ++ new)
  /\ (d_in_order d = false -> lg = d_log d ++
        [{| v_id := x; v_data := S x; v_known := mkeys (mput x (S x) (d_sources d)) |}]).
Proof.
  intros Hg Hb L Fr.
  assert (Hx : ~ In x (mkeys (d_sources d))) by (intros A; apply Fr; left; exact A).
  unfold add_decoded. replace (mmem x (d_sources d)) with false by (symmetry; apply mmem_false; exact Hx).
  cbn [negb]. replace (assert_ m true) with (Ok tt) by (destruct m; reflexivity). cbn [bind].
  replace (mfind x (d_sources d)) with (@None (list N)) by (symmetry; apply mfind_none; exact Hx).
  set (d1 := with_sources d (mput x (S x) (d_sources d))).
  assert (HK : forall y, K [] d1 y <-> K [x] d y).
  { intros y. unfold K, d1. cbn [with_sources d_sources In]. rewrite mput_keys. intuition congruence. }
  assert (Lx : forall lt, logs lt [] d -> logs lt [] d1).
  { intros lt [A1 A2 A3 A4]. constructor; try assumption.
    - intros v y Hv Hy. destruct (A2 v y Hv Hy) as [[A|[]]|A]; [left; apply HK; left; exact A | right; exact A].
    - intros A. destruct (A4 A) as [O1 O2 O3 O4 O5 O6 O7]. constructor; try assumption.
      + intros y Hy. unfold d1. cbn [with_sources d_sources]. apply mput_keys. right. apply O2, Hy.
      + intros y Hy Hy2. apply HK. destruct (O6 y Hy Hy2) as [D|[]]. left. exact D. }
  pose proof (Lx _ L) as L1.
  assert (Hg1 : sgen d1) by (apply mset_new_sources, Hg).
  assert (Hx1 : In x (mkeys (d_sources d1))) by (apply mput_keys; left; reflexivity).
  change (d_in_order d1) with (d_in_order d). change (d_first d1) with (d_first d).
  destruct (d_in_order d) eqn:Hin; cbn [negb].
  - destruct (x =? d_first d) eqn:E.
    + apply N.eqb_eq in E.
      assert (Hlim : d_first d < lim) by (rewrite <- E; apply Fr).
      set (d2 := with_first _ _).
      assert (E2 : d2 = delivery d1 (d_first d1 + 1) (d_ordered d1)
         (d_log d1 ++ [{| v_id := x; v_data := S x; v_known := mkeys (d_sources d1) |}])).
      { unfold d2, with_first, callback, delivery.
        cbn [d_ordered d_first d_log d_field d_in_order d_repairs d_sources d_last d_missing d_useless d_failed d_decoded].
        f_equal. exact (u32_succ lim Hlim0 _ Hlim). }
      pose proof (l_order _ _ _ _ _ L1 Hin) as O.
      assert (Hb1 : forall y, K [] d1 y -> y < lim).
      { intros y Hy. apply HK in Hy. destruct Hy as [Hy|[<-|[]]]; [apply Hb; left; exact Hy | apply Fr]. }
      assert (L2 : logs N.le [] d2).
      { rewrite E2. apply log_snoc.
        - exact Hlim0.
        - exact Hin.
        - apply l_order with (1 := logs_weaken S lim Hlim0 [] d1 L1). exact Hin.
        - apply (logs_weaken S lim Hlim0), L1.
        - left. exact Hx1.
        - change (d_first d1) with (d_first d). lia.
        - apply Fr.
        - apply O.
        - intros y Hy. split; [exact Hy|]. pose proof (o_after _ _ _ _ O y Hy). lia.
        - change (d_first d1) with (d_first d). lia.
        - change (d_first d1) with (d_first d). lia.
        - intros y Hy Hy2. destruct (N.eq_dec y x) as [->|Hne]; [left; exact Hx1|].
          apply (o_gap _ _ _ _ O); [exact Hy|]. change (d_first d1) with (d_first d) in *. lia. }
      destruct (flush_spec S m lim Hlim0 [] d2) as (fi & od & lg & R1 & R2 & R3).
      { rewrite E2. exact Hin. } { rewrite E2. exact Hg1. } { rewrite E2. exact Hb1. } { exact L2. }
      exists fi, od, lg. pose proof R1 as R1'. rewrite R1. rewrite E2 in R3 |- *.
      split; [reflexivity|]. split; [exact R3|]. split; [|congruence].
      apply flush_log in R1'. destruct R1' as [new En]. rewrite E2 in En. cbn [delivery d_log] in En.
      rewrite En, <- app_assoc. eexists. reflexivity.
    + apply N.eqb_neq in E.
      assert (Hf1 : d_first d < x).
      { pose proof (fresh_ge_first _ _ _ _ _ _ L Hin Fr). lia. }
      exists (d_first d1), (sinsert x (d_ordered d1)), (d_log d1).
      split; [reflexivity|]. split; [|split; [exists []; rewrite app_nil_r; reflexivity | congruence]].
      destruct L1 as [A1 A2 A3 A4]. constructor; try assumption.
      intros A. destruct (A4 A) as [O1 O2 O3 O4 O5 O6 O7]. constructor; try assumption.
      * apply sinsert_sorted, O1.
      * intros y Hy. apply sinsert_in in Hy. destruct Hy as [->|Hy]; [exact Hx1 | apply O2, Hy].
      * intros y Hy. apply sinsert_in in Hy. destruct Hy as [->|Hy]; [exact Hf1 | apply O3, Hy].
  - exists (d_first d1), (d_ordered d1),
      (d_log d1 ++ [{| v_id := x; v_data := S x; v_known := mkeys (d_sources d1) |}]).
    split; [reflexivity|]. split; [|split; [eexists; reflexivity | reflexivity]].
    destruct L1 as [A1 A2 A3 A4]. constructor; cbn [delivery d_log d_in_order].
    + intros v Hv. apply in_app_iff in Hv. destruct Hv as [Hv|[<-|[]]];
        [apply A1, Hv | split; [reflexivity | apply Fr]].
    + intros v y Hv Hy. apply in_app_iff in Hv. destruct Hv as [Hv|[<-|[]]]; [apply (A2 v y Hv Hy)|].
      left. left. destruct Hy as [->|Hy]; [exact Hx1 | exact Hy].
    + rewrite map_app. cbn [map v_id]. apply NoDup_app_one; [exact A3|].
      intros Hi. apply in_map_iff in Hi. destruct Hi as [v [E Hv]].
      apply (fresh_not_in_log _ _ _ _ _ _ _ L Fr Hv E).
    + change (d_in_order d1) with (d_in_order d). congruence.
Qed.

Record decoding (d d' : ddec) (xs : list N) : Prop := {
  q_state : exists so fi od lg, d' = delivery (with_sources d so) fi od lg;
  q_sgen : sgen d';
  q_logs : logs N.lt [] d';
  q_known : forall y, K [] d' y <-> K [] d y \/ In y xs;
  q_count : length (d_sources d') = (length (d_sources d) + length xs)%nat;
  q_log : exists new, d_log d' = d_log d ++ new;
  q_delivered : d_in_order d = false -> exists new, d_log d' = d_log d ++ new /\ map v_id new = xs
}.

Lemma decode_all_spec n inv reps ms : solvable f S n inv reps ms ->
  forall todo col d, (forall i, nth i todo 0 = nth (col + i) ms 0) ->
  (col + length todo = n)%nat -> NoDup todo ->
  d_field d = f -> sgen d -> (forall y, K [] d y -> y < lim) -> logs N.lt [] d ->
  (forall x, In x todo -> fresh [] d x) ->
  exists d', decode_all m n inv (map snd reps) col todo d = Ok d' /\ decoding d d' todo.
Proof.
  intros Hs. induction todo as [|x todo IH]; intros col d Hnth Hlen Hnd Hfi Hg Hb L Hfr.
  - cbn [decode_all]. exists d. split; [reflexivity|]. constructor.
    + exists (d_sources d), (d_first d), (d_ordered d), (d_log d). destruct d; reflexivity.
    + exact Hg.
    + exact L.
    + intros y. cbn [In]. tauto.
    + cbn [length]. lia.
    + exists []. rewrite app_nil_r. reflexivity.
    + intros _. exists []. rewrite app_nil_r. split; reflexivity.
  - cbn [decode_all]. rewrite Hfi.
    change (combine (column n inv col) (map snd reps)) with (pairs n inv reps col).
    cbn [length] in Hlen.
    rewrite (decode_data f S n inv reps ms Hs m col) by lia.
    assert (Ex : nth col ms 0 = x).
    { specialize (Hnth 0%nat). rewrite Nat.add_0_r in Hnth. rewrite <- Hnth. reflexivity. }
    rewrite Ex. cbn [bind].
    apply NoDup_cons_iff in Hnd. destruct Hnd as [Hnd1 Hnd2].
    assert (Fx : fresh [] d x) by (apply Hfr; left; reflexivity).
    destruct (add_decoded_spec d x Hg Hb L Fx) as (fi & od & lg & E & L1 & Hlog & Hdel).
    rewrite E. cbn [bind]. set (d1 := delivery _ fi od lg) in *.
    assert (HK : forall y, K [] d1 y <-> K [] d y \/ y = x).
    { intros y. unfold K, d1. cbn [delivery with_sources d_sources In]. rewrite mput_keys. tauto. }
    destruct (IH (Datatypes.S col) d1) as (d' & E' & D).
    + intros i. specialize (Hnth (Datatypes.S i)). cbn [nth] in Hnth. rewrite Hnth. f_equal. lia.
    + lia.
    + exact Hnd2.
    + exact Hfi.
    + apply mset_new_sources, Hg.
    + intros y Hy. apply HK in Hy. destruct Hy as [Hy|Hy]; [apply Hb, Hy|]. subst y. apply Fx.
    + exact L1.
    + intros y Hy. destruct (Hfr y (or_intror Hy)) as (A & B & D). split; [|split; [exact B | exact D]].
      intros F. apply HK in F. destruct F as [F|F]; [contradiction|]. subst y. contradiction.
    + exists d'. split; [exact E'|]. destruct D as [Q1 Q2 Q3 Q4 Q5 Q6 Q7]. constructor.
      * destruct Q1 as (so & fi' & od' & lg' & Q1). exists so, fi', od', lg'. rewrite Q1. reflexivity.
      * exact Q2.
      * exact Q3.
      * intros y. rewrite Q4, HK. cbn [In]. intuition congruence.
      * rewrite Q5. unfold d1. cbn [delivery with_sources d_sources length].
        rewrite mput_length by (intros A; apply Fx; left; exact A). lia.
      * destruct Q6 as [n2 Q6], Hlog as [n1 Hlog]. exists (n1 ++ n2). rewrite Q6. cbn [d1 delivery d_log].
        rewrite Hlog, app_assoc. reflexivity.
      * intros Hin. destruct (Q7 Hin) as (n2 & Q8 & Q9). specialize (Hdel Hin).
        eexists. rewrite Q8. cbn [d1 delivery d_log]. rewrite Hdel, <- app_assoc. split; [reflexivity|].
        cbn [map v_id app]. rewrite Q9. reflexivity.
Qed.

(** Nothing is left to decode: fewer repairs than missing sources. A repair
    without any source is a state no call survives. *)
Definition idle (d : ddec) : Prop :=
  d_repairs d = [] \/ (length (d_repairs d) < length (d_missing d))%nat
  \/ exists r rep, mfind r (d_repairs d) = Some rep /\ dr_ids rep = [].

Record inv (d : ddec) : Prop := {
  i_core : core [] d;
  i_ge : ge [] d;
  i_logs : logs N.lt [] d;
  i_idle : idle d
}.

Lemma decode_all_solvable d inv0 : core [] d -> length (d_missing d) = length (d_repairs d) ->
  wfm (length (d_repairs d)) inv0 -> eltm f (length (d_repairs d)) (at_ (length (d_repairs d)) inv0) ->
  eqm (length (d_repairs d)) (mm f (length (d_repairs d)) (at_ (length (d_repairs d)) inv0)
     (at_ (length (d_repairs d)) (coefficients f (d_repairs d) (mkeys (d_missing d))))) one ->
  solvable f S (length (d_repairs d)) inv0 (d_repairs d) (mkeys (d_missing d)).
Proof.
  intros C Hn W1 W2 W3.
  assert (Hin : forall r rep, In (r, rep) (d_repairs d) -> mfind r (d_repairs d) = Some rep)
    by (intros r rep; apply in_mfind, C).
  constructor; try assumption.
  - rewrite mkeys_length. symmetry. exact Hn.
  - reflexivity.
  - apply ssorted_NoDup, C.
  - intros r rep H. apply (c_repairs _ _ _ _ C r rep), Hin, H.
  - intros r rep H. apply (c_repairs _ _ _ _ C r rep), Hin, H.
  - intros r rep x H Hx. eapply (c_live _ _ _ _ C); [apply Hin, H | exact Hx].
  - intros x _. apply HS.
Qed.

Lemma idle_dead d : core [] d -> d_missing d = [] -> idle d.
Proof.
  intros C E. destruct (d_repairs d) as [|[r rep] reps] eqn:Er; [left; exact Er|].
  right. right. exists r, rep. rewrite Er. cbn [mfind]. rewrite N.eqb_refl. split; [reflexivity|].
  destruct (dr_ids rep) as [|x l] eqn:Eids; [reflexivity|]. exfalso.
  assert (A : miss d x).
  { apply (c_live _ _ _ _ C r rep x).
    - rewrite Er. cbn [mfind]. rewrite N.eqb_refl. reflexivity.
    - rewrite Eids. left. reflexivity. }
  unfold miss in A. rewrite E in A. exact A.
Qed.

(** Either nothing happens, or the matrix is singular and the last repair is
    given up, or all missing sources are recovered. *)
Inductive attempt (d d' : ddec) : Prop :=
| Attempt_none : d' = d -> attempt d d'
| Attempt_failed r rep : mfind r (d_repairs d) = Some rep ->
    length (d_repairs d) = length (d_missing d) ->
    d' = with_failed (with_repairs (with_missing d (unlink_or_create r (dr_ids rep) (d_missing d)))
           (merase r (d_repairs d))) (d_failed d + 1) -> attempt d d'
| Attempt_done d1 : length (d_repairs d) = length (d_missing d) ->
    decoding d d1 (mkeys (d_missing d)) ->
    d' = with_missing (with_repairs (count_decoded d1 (N.of_nat (length (d_missing d)))) []) [] ->
    attempt d d'.

Lemma coefficients_wfm reps ms : length ms = length reps -> wfm (length reps) (coefficients f reps ms).
Proof. intros H. unfold wfm. rewrite coefficients_length, H. reflexivity. Qed.

Lemma coefficients_eltm reps ms : length ms = length reps ->
  eltm f (length reps) (at_ (length reps) (coefficients f reps ms)).
Proof. intros H a b _ _. rewrite <- H. apply coefficients_elt. Qed.

Lemma attempt_spec d d' : core [] d -> ge [] d -> logs N.lt [] d ->
  attempt_full_decoding m d = Ok d' -> attempt d d'.
Proof.
  intros C G L H. unfold attempt_full_decoding in H. cbv zeta in H.
  destruct (Nat.eqb (length (d_repairs d)) 0 || Nat.eqb (length (d_missing d)) 0) eqn:E0.
  { apply Attempt_none. congruence. }
  destruct (Nat.ltb (length (d_repairs d)) (length (d_missing d))) eqn:E1.
  { apply Attempt_none. congruence. }
  apply bind_ok in H. destruct H as (u1 & _ & H).
  apply bind_ok in H. destruct H as (u2 & _ & H).
  destruct (Nat.eqb (length (d_missing d)) (length (d_repairs d))) eqn:E2; cbn [negb] in H; [|discriminate].
  apply Nat.eqb_eq in E2. apply orb_false_iff in E0. destruct E0 as [E0 _]. apply Nat.eqb_neq in E0.
  rewrite (c_field _ _ _ _ C) in H.
  set (n := length (d_repairs d)) in *.
  set (co := coefficients f (d_repairs d) (mkeys (d_missing d))) in *.
  assert (Hk : length (mkeys (d_missing d)) = length (d_repairs d)) by (rewrite mkeys_length; exact E2).
  destruct (invert_spec f n co (repeat 0 (n * n))) as [(m' & v' & I & W1 & W2 & W3 & W4 & W5)|[I _]].
  { exact E0. }
  { apply coefficients_wfm, Hk. }
  { unfold wfm. apply repeat_length. }
  { apply coefficients_eltm, Hk. }
  - rewrite I in H. cbn [bind] in H.
    pose proof (decode_all_solvable d v' C E2 W2 W3 W4) as Hs.
    destruct (decode_all_spec n v' (d_repairs d) (mkeys (d_missing d)) Hs (mkeys (d_missing d)) 0 d)
      as (d1 & Ed & D).
    + reflexivity.
    + cbn [plus]. exact Hk.
    + apply ssorted_NoDup, C.
    + apply C.
    + apply C.
    + intros y Hy. apply G. left. exact Hy.
    + exact L.
    + intros x Hx. split; [apply (c_disj _ _ _ _ C x Hx) | apply G; right; exact Hx].
    + rewrite Ed in H. cbn [bind] in H. apply Attempt_done with d1.
      * symmetry. exact E2.
      * exact D.
      * congruence.
  - rewrite I in H. cbn [bind] in H. unfold failed_decoding in H.
    cbn [with_failed d_repairs] in H.
    destruct (nth_error (d_repairs d) (n - 1)) as [[r rep]|] eqn:En; [|discriminate].
    apply Attempt_failed with r rep.
    + apply in_mfind; [apply C|]. eapply nth_error_In. exact En.
    + symmetry. exact E2.
    + cbv zeta in H. injection H as H. symmetry. exact H.
Qed.

Record stepped (W : list N) (d d' : ddec) : Prop := {
  t_inv : inv d';
  t_evolves : evolves [] W d d';
  t_last : d_last d' = d_last d;
  t_useless : d_useless d' = d_useless d;
  t_count : d_decoded d' + nsources d = d_decoded d + nsources d'
}.

Lemma attempt_stepped d d' : core [] d -> ge [] d -> logs N.lt [] d ->
  attempt_full_decoding m d = Ok d' -> stepped [] d d'.
Proof.
  intros C G L H. pose proof (attempt_spec d d' C G L H) as A.
  destruct A as [-> | r rep Er En Ed | d1 En D Ed].
  - assert (T : idle d).
    { unfold attempt_full_decoding in H. cbv zeta in H.
      destruct (Nat.eqb (length (d_repairs d)) 0) eqn:E0.
      { left. apply Nat.eqb_eq in E0. destruct (d_repairs d); [reflexivity | discriminate]. }
      destruct (Nat.eqb (length (d_missing d)) 0) eqn:E1.
      { apply idle_dead; [exact C|]. apply Nat.eqb_eq in E1. destruct (d_missing d); [reflexivity | discriminate]. }
      cbn [orb] in H.
      destruct (Nat.ltb (length (d_repairs d)) (length (d_missing d))) eqn:E2.
      { right. left. apply Nat.ltb_lt. exact E2. }
      exfalso. apply bind_ok in H. destruct H as (u1 & _ & H).
      apply bind_ok in H. destruct H as (u2 & _ & H).
      destruct (negb _); [discriminate|].
      apply bind_ok in H. destruct H as ([k|[mm' inv']] & _ & H).
      - unfold failed_decoding in H. destruct (nth_error _ k) as [[r rep]|]; [|discriminate].
        assert (A : d_failed d = d_failed d + 1).
        { injection H as H. rewrite <- H at 1. reflexivity. }
        lia.
      - apply bind_ok in H. destruct H as (d1 & _ & H).
        assert (A : d_repairs d = []).
        { injection H as H. rewrite <- H. reflexivity. }
        rewrite A in E0. discriminate. }
    constructor; try reflexivity.
    + constructor; assumption.
    + apply evolves_refl.
  - destruct (core_drop [] d r rep C Er) as (C1 & Hk & _).
    assert (Hm : forall y, miss d' y <-> miss d y) by (intros y; rewrite Ed; apply Hk).
    constructor; try (rewrite Ed; reflexivity).
    + constructor.
      * apply core_same with (5 := C1); rewrite Ed; reflexivity.
      * intros x Hx. rewrite Ed. change (not_outdated _ x) with (not_outdated d x). apply G.
        destruct Hx as [Hx|Hx]; [left; rewrite Ed in Hx; exact Hx | right; apply Hm, Hx].
      * apply logs_same with (2 := L). rewrite Ed. repeat split.
      * right. left. rewrite Ed. cbn [with_failed with_repairs with_missing d_repairs d_missing].
        pose proof (merase_length r (d_repairs d)) as Hl.
        assert (Hr : In r (mkeys (d_repairs d))) by (apply mfind_keys; eauto).
        specialize (Hl Hr).
        assert (Hlen : length (unlink_or_create r (dr_ids rep) (d_missing d)) = length (d_missing d)).
        { rewrite <- !mkeys_length. f_equal. apply ssorted_ext; [apply C1 | apply C | exact Hk]. }
        rewrite Hlen. lia.
    + constructor; try (rewrite Ed; reflexivity).
      * intros x Hx. left. apply Hm, Hx.
      * intros x Hx. left. apply Hm, Hx.
      * intros x Hx. rewrite Ed. exact Hx.
      * exists []. rewrite app_nil_r, Ed. reflexivity.
  - destruct D as [(so & fi & od & lg & Q1) Q2 Q3 Q4 Q5 [new Q6] _].
    assert (HK : forall y, K [] d' y <-> K [] d y \/ miss d y) by (intros y; rewrite Ed; apply Q4).
    assert (Hm : forall y, ~ miss d' y) by (intros y; rewrite Ed; intros []).
    constructor; try (rewrite Ed, Q1; reflexivity).
    + constructor.
      * constructor.
        -- rewrite Ed, Q1. apply C.
        -- rewrite Ed. exact Q2.
        -- rewrite Ed. apply msorted_nil.
        -- rewrite Ed. discriminate.
        -- rewrite Ed. apply msorted_nil.
        -- rewrite Ed. discriminate.
        -- rewrite Ed. discriminate.
        -- intros x Hx. destruct (Hm x Hx).
        -- intros x [].
        -- rewrite Ed. discriminate.
      * intros x [Hx|Hx]; [|destruct (Hm x Hx)]. apply HK in Hx.
        replace (not_outdated d' x) with (not_outdated d x) by (rewrite Ed, Q1; reflexivity).
        apply G, Hx.
      * apply logs_same with (2 := Q3). rewrite Ed. repeat split.
      * left. rewrite Ed. reflexivity.
    + constructor.
      * rewrite Ed, Q1. reflexivity.
      * rewrite Ed, Q1. reflexivity.
      * intros x Hx. destruct (Hm x Hx).
      * intros x Hx. right. left. apply HK. right. exact Hx.
      * intros x [Hx|Hx]; [left; apply HK; left; exact Hx|]. right. rewrite Ed, Q1. exact Hx.
      * exists new. rewrite Ed. exact Q6.
    + unfold nsources. rewrite Ed. cbn [with_missing with_repairs count_decoded with_decoded d_decoded d_sources].
      rewrite Q5, mkeys_length. replace (d_decoded d1) with (d_decoded d) by (rewrite Q1; reflexivity). lia.
Qed.

(** ** A source arrives *)

Lemma recv_source_spec d x d' : inv d -> x < lim -> recv_source m d x (S x) = Ok d' ->
  inv d' /\ evolves [] [] d d' /\ settled [] d' x /\ d_last d' = d_last d
  /\ d_useless d' = d_useless d
  /\ (outdated d x = true \/ In x (mkeys (d_sources d)) -> d' = d)
  /\ (outdated d x = false -> ~ In x (mkeys (d_sources d)) ->
      In x (mkeys (d_sources d')) /\ d_decoded d' + nsources d + 1 = d_decoded d + nsources d').
Proof.
  intros [C G L T] Hx H. unfold recv_source in H.
  destruct (outdated d x) eqn:Eo.
  { assert (d' = d) by congruence. subst d'. split; [constructor; assumption|].
    split; [apply evolves_refl|]. split; [right; exact Eo|]. repeat split; congruence. }
  destruct (mmem x (d_sources d)) eqn:Em.
  { assert (d' = d) by congruence. subst d'. apply mmem_spec in Em. split; [constructor; assumption|].
    split; [apply evolves_refl|]. split; [left; left; exact Em|]. repeat split; contradiction. }
  apply mmem_false in Em. apply bind_ok in H. destruct H as (d1 & E1 & H).
  assert (Fr : fresh [] d x).
  { split; [intros [A|[]]; contradiction|]. split; [apply outdated_false, Eo | exact Hx]. }
  apply (add_source_spec f S m lim Hlim0) with (P := []) in E1; try assumption; [|right; exact C].
  destruct E1 as ([C1 G1 L1 V1 La1 U1 F1 _] & Hin & Hcount).
  destruct (attempt_stepped d1 d' C1 G1 L1 H) as [I2 V2 La2 U2 Hc2].
  assert (Hin' : settled [] d' x).
  { apply (e_settled _ _ _ _ V2). left. left. exact Hin. }
  split; [exact I2|]. split; [eapply evolves_trans; eassumption|]. split; [exact Hin'|].
  split; [congruence|]. split; [congruence|]. split; [intros [A|A]; [discriminate | contradiction]|].
  intros _ _. split; [|lia].
  destruct Hin' as [[A|[]]|A]; [exact A|].
  unfold outdated in A. rewrite (not_outdated_same d d') in A by congruence.
  unfold outdated in Eo. congruence.
Qed.

(** ** A repair arrives *)

Lemma acceptable_dropped d d' r : acceptable d r -> dropped d d' (hd 0 (dr_ids r)) -> acceptable d' r.
Proof.
  intros [B1 B2 B3 B4 B5] D. pose proof (p_last _ _ _ D) as La. constructor; try assumption.
  - unfold not_outdated. rewrite La. apply N.leb_refl.
  - intros x Hx. apply (p_missing _ _ _ D) in Hx. apply B3, Hx.
  - intros y Hy. pose proof (sorted_hd _ y (g_sorted _ _ _ B1) Hy) as Hle.
    destruct (B4 y Hy) as [[A|[]]|[A|A]].
    + left. left. rewrite (p_sources _ _ _ D). apply mfrom_keys. auto.
    + right. left. apply (p_missing _ _ _ D). auto.
    + right. right. intros r' rep x Hr. apply (A r' rep x). apply (p_repairs _ _ _ D), Hr.
Qed.

Lemma dropped_idle d d' id : inv d -> dropped d d' id -> idle d' /\
  (d_repairs d' = [] \/ (length (d_repairs d') < length (d_missing d'))%nat).
Proof.
  intros [C G L T] D.
  assert (H : d_repairs d' = [] \/ (length (d_repairs d') < length (d_missing d'))%nat).
  { destruct (d_repairs d') as [|[r rep] reps] eqn:Er; [left; reflexivity|]. right.
    assert (Hr : mfind r (d_repairs d') = Some rep) by (rewrite Er; cbn [mfind]; rewrite N.eqb_refl; reflexivity).
    apply (p_repairs _ _ _ D) in Hr. destruct Hr as [Hr Hge].
    assert (Hm : mkeys (d_missing d') = mkeys (d_missing d)).
    { apply ssorted_ext; [apply (p_core _ _ _ D) | apply C|]. intros y.
      change (miss d' y <-> miss d y). rewrite (p_missing _ _ _ D). split; [tauto|]. intros Hy.
      split; [exact Hy|]. pose proof (p_nonempty _ _ _ D r rep Hr) as Hne.
      destruct (c_repairs _ _ _ _ C r rep Hr) as [_ Gn].
      destruct (dr_ids rep) as [|a l] eqn:Eids; [congruence|]. cbn [hd] in Hge.
      destruct (in_dec N.eq_dec y (dr_ids rep)) as [Hin|Hin].
      - pose proof (sorted_hd _ y (g_sorted _ _ _ Gn) Hin) as Hle. rewrite Eids in Hle. cbn [hd] in Hle. lia.
      - assert (a < y).
        { apply (c_newer _ _ _ _ C r rep a y Hr Hy Hin). rewrite Eids. left. reflexivity. }
        lia. }
    assert (Hlen : (length (d_repairs d') <= length (d_repairs d))%nat).
    { rewrite <- !mkeys_length. apply NoDup_incl_length; [apply ssorted_NoDup, (p_core _ _ _ D)|].
      intros x Hx. apply mfind_keys in Hx. destruct Hx as [v Hv]. apply mfind_keys. exists v.
      apply (p_repairs _ _ _ D), Hv. }
    rewrite Er in Hlen.
    replace (length (d_missing d')) with (length (d_missing d))
      by (rewrite <- !mkeys_length, Hm; reflexivity).
    destruct T as [T|[T|(r0 & rep0 & T1 & T2)]].
    - rewrite T in Hr. discriminate.
    - lia.
    - destruct (p_nonempty _ _ _ D r0 rep0 T1 T2). }
  split; [|exact H]. destruct H as [H|H]; [left; exact H | right; left; exact H].
Qed.

Lemma evolves_widen P W W' d d' : (forall x, In x W -> In x W') -> evolves P W d d' -> evolves P W' d d'.
Proof.
  intros Hi [A1 A2 A3 A4 A5 A6]. constructor; try assumption.
  intros x Hx. destruct (A3 x Hx) as [A|A]; [left; exact A | right; apply Hi, A].
Qed.

Lemma linked_evolves d r d' r' : linked d r d' r' -> evolves [] (dr_ids r) d d'.
Proof.
  intros K0. destruct (k_state _ _ _ _ K0) as (R & M & E). constructor.
  - rewrite E. reflexivity.
  - rewrite E. reflexivity.
  - intros x Hx. apply (k_missing _ _ _ _ K0) in Hx. destruct Hx as [Hx|Hx]; [left; exact Hx|].
    right. apply (k_ids _ _ _ _ K0), Hx.
  - intros x Hx. left. apply (k_missing _ _ _ _ K0). left. exact Hx.
  - intros x Hx. rewrite E. exact Hx.
  - exists []. rewrite app_nil_r, E. reflexivity.
Qed.

(** What a repair that is neither outdated nor pending does. *)
Inductive repaired (d0 d' : ddec) (r : drepair) : Prop :=
| Repair_useless : (forall x, In x (dr_ids r) -> K [] d0 x) ->
    d' = with_useless d0 (d_useless d0 + 1) -> repaired d0 d' r
| Repair_single x : (forall y, In y (dr_ids r) -> y = x \/ K [] d0 y) -> In x (dr_ids r) ->
    ~ K [] d0 x -> In x (mkeys (d_sources d')) ->
    d_decoded d' + nsources d0 = d_decoded d0 + nsources d' ->
    repaired d0 d' r
| Repair_pending d1 r1 : linked d0 r d1 r1 -> (2 <= length (dr_ids r1))%nat \/ dr_ids r1 = [] ->
    attempt_full_decoding m d1 = Ok d' -> repaired d0 d' r.

Lemma recv_repair_spec d r d' : inv d -> acceptable d r -> recv_repair m d r = Ok d' ->
  inv d' /\ evolves [] (dr_ids r) d d'
  /\ (outdated d (last (dr_ids r) 0) = true \/ In (dr_id r) (mkeys (d_repairs d)) -> d' = d)
  /\ (outdated d (last (dr_ids r) 0) = false -> ~ In (dr_id r) (mkeys (d_repairs d)) ->
      (forall x, In x (dr_ids r) -> miss d' x \/ settled [] d' x)
      /\ d_last d' = Some (hd 0 (dr_ids r))
      /\ exists d0, dropped d d0 (hd 0 (dr_ids r)) /\ drop_outdated m d (hd 0 (dr_ids r)) = Ok d0
           /\ repaired d0 d' r).
Proof.
  intros I A H. pose proof I as I0. destruct I0 as [C G L T].
  pose proof A as A0. destruct A0 as [B1 B2 B3 B4 B5].
  unfold recv_repair in H.
  apply bind_ok in H. destruct H as (u & _ & H).
  destruct (dr_ids r) as [|first ids] eqn:Eids; [discriminate|]. rewrite <- Eids in *.
  assert (Efirst : hd 0 (dr_ids r) = first) by (rewrite Eids; reflexivity).
  destruct (outdated d (last (dr_ids r) 0)) eqn:Eo.
  { assert (d' = d) by congruence. subst d'. split; [exact I|]. split; [apply evolves_refl|].
    split; [reflexivity | discriminate]. }
  destruct (mmem (dr_id r) (d_repairs d)) eqn:Em.
  { assert (d' = d) by congruence. subst d'. apply mmem_spec in Em. split; [exact I|].
    split; [apply evolves_refl|]. split; [reflexivity | contradiction]. }
  apply mmem_false in Em.
  apply bind_ok in H. destruct H as (d0 & E0 & H). rewrite <- Efirst in E0.
  assert (Hfl : hd 0 (dr_ids r) < lim) by (apply B5; rewrite Eids; left; reflexivity).
  pose proof (drop_outdated_spec d _ d0 C G L B2 Hfl E0) as D.
  pose proof (acceptable_dropped d d0 r A D) as A'.
  destruct (dropped_idle d d0 _ I D) as [T0 T0'].
  pose proof D as D'. destruct D' as [C0 G0 L0 V0 La0 Hm0 Hs0 Hr0 _ _ _].
  assert (Hend : inv d' -> evolves [] (dr_ids r) d0 d' -> d_last d' = d_last d0 ->
    (forall x, In x (dr_ids r) -> miss d' x \/ settled [] d' x) -> repaired d0 d' r ->
    inv d' /\ evolves [] (dr_ids r) d d'
    /\ (false = true \/ In (dr_id r) (mkeys (d_repairs d)) -> d' = d)
    /\ (false = false -> ~ In (dr_id r) (mkeys (d_repairs d)) ->
      (forall x, In x (dr_ids r) -> miss d' x \/ settled [] d' x)
      /\ d_last d' = Some (hd 0 (dr_ids r))
      /\ exists d0, dropped d d0 (hd 0 (dr_ids r)) /\ drop_outdated m d (hd 0 (dr_ids r)) = Ok d0
           /\ repaired d0 d' r)).
  { intros X1 X2 X3 X4 X5. split; [exact X1|]. split.
    - apply evolves_trans with d0; [|exact X2]. apply evolves_widen with (2 := V0). intros x [].
    - split; [intros [Y|Y]; [discriminate | contradiction]|]. intros _ _. split; [exact X4|].
      split; [congruence|]. exists d0. auto. }
  destruct (forallb (fun id => mmem id (d_sources d0)) (dr_ids r)) eqn:Ef.
  { rewrite forallb_forall in Ef.
    assert (Hall : forall x, In x (dr_ids r) -> K [] d0 x)
      by (intros x Hx; left; apply mmem_spec, Ef, Hx).
    assert (E' : d' = with_useless d0 (d_useless d0 + 1)) by congruence. clear H. apply Hend.
    - rewrite E'. constructor.
      + apply core_same with (5 := C0); reflexivity.
      + exact G0.
      + apply logs_same with (2 := L0). repeat split.
      + exact T0.
    - rewrite E'. constructor; try reflexivity.
      + intros x Hx. left. exact Hx.
      + intros x Hx. left. exact Hx.
      + intros x Hx. exact Hx.
      + exists []. rewrite app_nil_r. reflexivity.
    - rewrite E'. reflexivity.
    - intros x Hx. right. left. rewrite E'. apply Hall, Hx.
    - apply Repair_useless; assumption. }
  apply bind_ok in H. destruct H as (u2 & _ & H).
  apply bind_ok in H. destruct H as ([d1' r1] & El & H).
  apply link_spec in El; try assumption.
  2: { intros x Hx. apply Hm0 in Hx. apply Hx. }
  2: { intros Hin. apply mfind_keys in Hin. destruct Hin as [v Hv]. apply Em, mfind_keys.
       exists v. apply Hr0, Hv. }
  cbv zeta in H. set (d1 := with_repairs d1' _) in *.
  pose proof El as K0. destruct K0 as [C1 G1 (R & M & E1) Hr1 Hreps Hid1 Gn1 Hids Hm1].
  assert (L1 : logs N.lt [] d1) by (apply logs_same with (2 := L0); rewrite E1; repeat split).
  pose proof (linked_evolves _ _ _ _ El) as V1.
  assert (Hcov1 : forall x, In x (dr_ids r) -> miss d1 x \/ settled [] d1 x).
  { intros x Hx. destruct (in_dec N.eq_dec x (mkeys (d_sources d0))) as [Hk|Hk].
    - right. left. left. rewrite E1. exact Hk.
    - left. apply Hm1. right. apply Hids. split; [exact Hx|]. intros [Y|[]]; contradiction. }
  apply bind_ok in H. destruct H as (u3 & _ & H).
  destruct (Nat.eqb (length (dr_ids r1)) 1) eqn:E1l.
  - apply Nat.eqb_eq in E1l.
    destruct (dr_ids r1) as [|x [|x2 l]] eqn:Eids1; try discriminate. clear E1l.
    rewrite (c_field _ _ _ _ C1), (create_source_spec f S m r1 x Gn1 Eids1) in H.
    cbn [bind] in H. set (d2 := with_repairs (with_missing _ _) _) in H.
    assert (Hmx : forall y, miss d0 y -> y = x).
    { intros y Hy. assert (In y (dr_ids r1)).
      { rewrite Eids1. apply Hids. split.
        - apply (b_covers _ _ A'); [exact Hy|]. apply Hm0 in Hy. apply Hy.
        - apply (c_disj _ _ _ _ C0 y Hy). }
      rewrite Eids1 in H0. destruct H0 as [H0|[]]. congruence. }
    assert (Hnor : d_repairs d0 = []).
    { destruct T0' as [T0'|T0']; [exact T0'|].
      assert ((length (d_missing d0) <= 1)%nat).
      { rewrite <- mkeys_length. change 1%nat with (length [x]).
        apply NoDup_incl_length; [apply ssorted_NoDup, C0|]. intros y Hy. left. symmetry. apply Hmx, Hy. }
      destruct (d_repairs d0); [reflexivity | cbn [length] in T0'; lia]. }
    assert (Hmx1 : miss d1 x) by (apply Hm1; right; left; reflexivity).
    assert (Hlinks : mfind x (d_missing d1) = Some [dr_id r]).
    { pose proof Hmx1 as Hl. apply mfind_keys in Hl. destruct Hl as [l Hl]. rewrite Hl. f_equal.
      destruct (c_links _ _ _ _ C1 x l Hl) as [Hl1 Hl2].
      apply ssorted_ext; [exact Hl1 | apply ssorted_cons; [apply ssorted_nil | intros y []]|].
      intros r0. rewrite Hl2. rewrite Hreps, Hnor. cbn [mset mfind In]. split.
      - intros (rep & Y & _). destruct (r0 =? dr_id r) eqn:Er0; [|discriminate].
        apply N.eqb_eq in Er0. left. congruence.
      - intros [<-|[]]. exists r1. rewrite N.eqb_refl. split; [reflexivity|]. rewrite Eids1. left. reflexivity. }
    pose proof (core_erase f S [] d1 (dr_id r) r1 x C1 Hr1 Eids1 Hlinks) as C2'.
    assert (C2 : core [x] d2).
    { apply core_same with (5 := C2'); try reflexivity.
      unfold d2. cbn [with_repairs with_missing count_decoded with_decoded d_repairs]. rewrite Hid1. reflexivity. }
    assert (Hm2 : forall y, ~ miss d2 y).
    { intros y Hy. assert (Y : miss d1 y /\ y <> x) by (apply merase_keys in Hy; [exact Hy | apply C1]).
      destruct Y as [Y1 Y2]. apply Hm1 in Y1. destruct Y1 as [Y1|[Y1|[]]]; [apply Hmx in Y1|]; congruence. }
    assert (Hxk : ~ K [] d0 x) by (apply (Hids x); left; reflexivity).
    assert (G2 : ge [] d2).
    { intros y [Hy|Hy]; [|destruct (Hm2 y Hy)]. apply (G1 y). left. exact Hy. }
    assert (L2 : logs N.lt [] d2) by (apply logs_same with (2 := L1); repeat split).
    assert (F2 : fresh [] d2 x).
    { split; [intros Y; apply Hxk; unfold d2 in Y; rewrite E1 in Y; exact Y|]. apply (G1 x). right. exact Hmx1. }
    destruct (add_source_spec f S m lim Hlim0 _ [] d2 x d' (or_introl C2) G2 L2 F2 H)
      as ([C3 G3 L3 V3 La3 U3 F3] & Hin3 & Hc3).
    assert (Hm3 : forall y, ~ miss d' y).
    { intros y Hy. apply (e_missing _ _ _ _ V3) in Hy. destruct Hy as [Hy|[]]. apply (Hm2 y Hy). }
    assert (Hset2 : forall y, settled [] d0 y -> settled [] d' y).
    { intros y Hy. apply (e_settled _ _ _ _ V3). unfold d2. rewrite E1. exact Hy. }
    apply Hend.
    + constructor; try assumption. apply idle_dead; [exact C3|].
      destruct (d_missing d') as [|[y l] ms] eqn:E3; [reflexivity|].
      destruct (Hm3 y). unfold miss. rewrite E3. left. reflexivity.
    + constructor.
      * rewrite (e_field _ _ _ _ V3). unfold d2. rewrite E1. reflexivity.
      * rewrite (e_in_order _ _ _ _ V3). unfold d2. rewrite E1. reflexivity.
      * intros y Hy. destruct (Hm3 y Hy).
      * intros y Hy. right. apply Hmx in Hy. subst y. left. left. exact Hin3.
      * exact Hset2.
      * destruct (e_log _ _ _ _ V3) as [new Y]. exists new. rewrite Y. unfold d2. rewrite E1. reflexivity.
    + rewrite La3. unfold d2. rewrite E1. reflexivity.
    + intros y Hy. right. destruct (N.eq_dec y x) as [->|Hne]; [left; left; exact Hin3|].
      apply Hset2. destruct (in_dec N.eq_dec y (mkeys (d_sources d0))) as [Hk|Hk]; [left; left; exact Hk|].
      exfalso. apply Hne. assert (Y : In y [x]); [|destruct Y as [Y|[]]; congruence].
      apply Hids. split; [exact Hy|]. intros [Z|[]]; contradiction.
    + apply Repair_single with x.
      * intros y Hy. destruct (in_dec N.eq_dec y (mkeys (d_sources d0))) as [Hk|Hk]; [right; left; exact Hk|].
        left. assert (Y : In y [x]); [|destruct Y as [Y|[]]; congruence].
        apply Hids. split; [exact Hy|]. intros [Z|[]]; contradiction.
      * apply (Hids x). left. reflexivity.
      * exact Hxk.
      * exact Hin3.
      * assert (Y1 : nsources d2 = nsources d0) by (unfold d2; rewrite E1; reflexivity).
        assert (Y2 : d_decoded d2 = d_decoded d0 + 1) by (unfold d2; rewrite E1; reflexivity).
        lia.
  - pose proof H as Hatt. apply attempt_stepped in H; try assumption. destruct H as [I3 V3 La3 U3 Hc3].
    apply Hend.
    + exact I3.
    + apply evolves_trans with d1; [exact V1|]. apply evolves_widen with (2 := V3). intros x [].
    + rewrite La3, E1. reflexivity.
    + intros x Hx. destruct (Hcov1 x Hx) as [Y|Y].
      * apply (e_keep _ _ _ _ V3), Y.
      * right. apply (e_settled _ _ _ _ V3), Y.
    + apply Repair_pending with d1 r1; [exact El | | exact Hatt].
      apply Nat.eqb_neq in E1l. destruct (dr_ids r1) as [|? [|? ?]]; cbn [length] in *; [right; reflexivity | lia | left; lia].
Qed.

End Step.
