(** * Stored repairs that depend on each other *)
From Coq Require Import NArith PeanoNat List Bool Lia Permutation.
From Verif Require Import Outcome GF GFField Linear Containers ContainersFacts Packetizer
  Matrix MatrixFacts DetailDecoder DecoderAlgebra DecoderInv DecoderStep DecoderFacts DecoderProgress DecoderRecover.
Import ListNotations.
Open Scope N_scope.

(** Repairs, given by their numbers and by the sources they cover, add up to zero
    with weights that are not all zero: one of them says nothing that the others do not
    say. *)
Definition dependent (f : field) (repairs : list (N * list N)) : Prop :=
  NoDup (map fst repairs)
  /\ exists weight : N -> N, (forall i, weight i < 2 ^ wbits f)
     /\ (exists i ids, In (i, ids) repairs /\ weight i <> 0)
     /\ forall x, fold_right N.lxor 0 (map (fun '(i, ids) =>
          if in_dec N.eq_dec x ids then gf_multiply f (weight i) (coefficient f i x) else 0) repairs) = 0.

Lemma dependent_nonempty f repairs : dependent f repairs -> repairs <> [].
Proof. intros (_ & w & _ & (i & ids & H & _) & _) ->. destruct H. Qed.

(** A row combination that is zero excludes a right inverse. *)
Lemma rows_singular f n (A V : view) (u : nat -> N) b : (forall a, elt f (u a)) ->
  eqm n (mm f n A V) one -> (forall k, (k < n)%nat -> sum n (fun a => gmul f (u a) (A a k)) = 0) ->
  (b < n)%nat -> u b = 0.
Proof.
  intros Hu HV HA Hb.
  transitivity (sum n (fun a => gmul f (u a) (mm f n A V a b))).
  - symmetry. rewrite (sum_single n _ b Hb).
    + rewrite HV by exact Hb. unfold one. rewrite Nat.eqb_refl. apply gmul_1_r.
    + intros k Hk Hne. rewrite HV by assumption. unfold one. destruct (Nat.eqb_spec k b); [congruence|]. apply gmul_0_r.
  - unfold mm, sum.
    rewrite (xsum_ext _ (fun a => xsum (fun k => gmul f (gmul f (u a) (A a k)) (V k b)) (seq 0 n))).
    2:{ intros a _. rewrite gmul_xsum_r. apply xsum_ext. intros k _. apply gmul_assoc, Hu. }
    rewrite xsum_swap. rewrite (xsum_ext _ (fun _ => 0)); [apply xsum_0|].
    intros k Hk. apply in_seq in Hk. rewrite <- gmul_xsum_l.
    replace (xsum _ (seq 0 n)) with 0; [apply gmul_0_l|]. symmetry. apply HA. lia.
Qed.

Lemma dependent_singular f reps (D : list (N * drepair)) ms V : msorted reps ->
  length reps = length ms -> (forall p, In p D -> In p reps) -> dependent f (equations D) ->
  eqm (length ms) (mm f (length ms) (at_ (length ms) (coefficients f reps ms)) V) one -> False.
Proof.
  intros Sr Hl Hin (Nd & w & Hw & (i & ids & Hi & Hne) & Hsum) HV.
  set (n := length ms) in *.
  set (key := fun i => existsb (fun p : N * drepair => fst p =? i) D).
  assert (Ek : forall r rep, In (r, rep) reps -> key r = true <-> In (r, rep) D).
  { intros r rep H. unfold key. rewrite existsb_exists. split.
    - intros ([r' rep'] & H1 & H2). cbn [fst] in H2. apply N.eqb_eq in H2. subst r'.
      replace rep with rep'; [exact H1|]. apply Hin in H1. apply in_mfind in H, H1; try exact Sr. congruence.
    - intros H1. exists (r, rep). split; [exact H1 | apply N.eqb_refl]. }
  set (u := fun a => match nth_error reps a with Some (r, _) => if key r then w r else 0 | None => 0 end).
  assert (Hu : forall a, elt f (u a)).
  { intros a. unfold u. destruct (nth_error reps a) as [[r rep]|]; [destruct (key r); [apply Hw | apply elt_0] | apply elt_0]. }
  assert (HA : forall k, (k < n)%nat -> sum n (fun a => gmul f (u a) (at_ n (coefficients f reps ms) a k)) = 0).
  { intros k Hk. set (x := nth k ms 0). rewrite <- (Hsum x), fold_xsum. unfold sum.
    set (g := fun p : N * drepair => if key (fst p) then
        (if in_dec N.eq_dec x (dr_ids (snd p)) then gmul f (w (fst p)) (coefficient f (fst p) x) else 0) else 0).
    rewrite (xsum_ext _ (fun a => match nth_error reps a with Some p => g p | None => 0 end)).
    2:{ intros a Ha. apply in_seq in Ha. unfold u. destruct (nth_error reps a) as [[r rep]|] eqn:Ea; [|apply gmul_0_l].
        unfold n. rewrite (coefficients_at f reps ms a k r rep x Ea) by (apply nth_error_nth'; exact Hk).
        unfold g. cbn [fst snd]. destruct (key r); [|apply gmul_0_l].
        destruct (in_dec N.eq_dec x (dr_ids rep)) as [Y|Y].
        - apply smem_spec in Y. rewrite Y. reflexivity.
        - apply smem_false in Y. rewrite Y. apply gmul_0_r. }
    transitivity (xsum g reps).
    { rewrite <- (xsum_seq_nth g reps (0, {| dr_id := 0; dr_ids := []; dr_enc := 0; dr_buf := []; dr_size := 0 |})).
      rewrite Hl. fold n. apply xsum_ext. intros a Ha. apply in_seq in Ha.
      rewrite (nth_error_nth' reps (0, {| dr_id := 0; dr_ids := []; dr_enc := 0; dr_buf := []; dr_size := 0 |})) by lia. reflexivity. }
    rewrite <- (xsum_filter g (fun p => key (fst p)) reps).
    2:{ intros p _ Hp. unfold g. rewrite Hp. reflexivity. }
    unfold equations. rewrite xsum_map.
    transitivity (xsum g D).
    { apply xsum_perm. apply NoDup_Permutation.
      - apply NoDup_filter, sorted_maps_NoDup, Sr.
      - apply NoDup_map_inv with (f := fst). unfold equations in Nd. rewrite map_map in Nd.
        rewrite (map_ext _ fst) in Nd; [exact Nd|]. intros [r rep]. reflexivity.
      - intros [r rep]. rewrite filter_In. cbn [fst]. split.
        + intros [H1 H2]. apply (Ek r rep H1), H2.
        + intros H1. pose proof (Hin _ H1) as H2. split; [exact H2 | apply (Ek r rep H2), H1]. }
    apply xsum_ext. intros [r rep] Hp. unfold g. cbn [fst snd].
    rewrite (proj2 (Ek r rep (Hin _ Hp)) Hp). destruct (in_dec _ _ _); [symmetry; apply gf_multiply_gmul | reflexivity]. }
  unfold equations in Hi. apply in_map_iff in Hi. destruct Hi as ([r rep] & E & Hi).
  assert (r = i) by congruence. subst r. pose proof (Hin _ Hi) as Hi'.
  destruct (In_nth_error _ _ Hi') as [a Ha].
  assert (Han : (a < n)%nat) by (rewrite <- Hl; apply nth_error_Some; congruence).
  pose proof (rows_singular f n _ V u a Hu HV HA Han) as Z. unfold u in Z. rewrite Ha in Z.
  rewrite (proj2 (Ek i rep Hi') Hi) in Z. contradiction.
Qed.

(** The last of a sorted collection. *)
Lemma last_greatest (l : list (N * drepair)) r rep : msorted l -> In (r, rep) l ->
  (forall r', In r' (mkeys l) -> r' <= r) -> nth_error l (length l - 1) = Some (r, rep).
Proof.
  intros Hs Hin Hmax. destruct (nth_error l (length l - 1)) as [[r' rep']|] eqn:E.
  2:{ apply nth_error_None in E. destruct l; [destruct Hin | cbn [length] in E; lia]. }
  assert (Hle : r <= r').
  { clear Hmax. revert E Hin. induction l as [|[k v] l IH]; [intros _ []|]. intros E Hin.
    unfold msorted, mkeys in Hs. cbn [map fst] in Hs. apply ssorted_cons_inv in Hs. destruct Hs as [H1 H2].
    destruct l as [|p l].
    - cbn [length Nat.sub nth_error] in E. destruct Hin as [Hin|[]]. assert (k = r /\ k = r') as [] by (split; congruence). lia.
    - assert (E' : nth_error (p :: l) (length (p :: l) - 1) = Some (r', rep')).
      { cbn [length] in E |- *. replace (Datatypes.S (Datatypes.S (length l)) - 1)%nat with (Datatypes.S (length l)) in E by lia.
        cbn [nth_error] in E. replace (Datatypes.S (length l) - 1)%nat with (length l) by lia. exact E. }
      destruct Hin as [Hin|Hin]; [|apply IH; assumption].
      assert (k = r) by congruence. subst k. apply nth_error_In in E'. apply (in_map fst) in E'.
      specialize (H2 r' E'). lia. }
  pose proof (nth_error_In _ _ E) as Hin'.
  assert (r' <= r) by (apply Hmax; apply (in_map fst) in Hin'; exact Hin').
  assert (r' = r) by lia. subst r'. apply in_mfind in Hin, Hin'; try exact Hs. congruence.
Qed.

Section Twins.
Variable f : field.
Variable S : N -> list N.
Variable m : mode.
Variable lim : N.
Hypothesis Hlim0 : lim <= LIM.
Hypothesis HS : forall x, good_data f (S x).

Notation core := (core f S).
Notation logs := (logs S lim).
Notation ge := (ge lim).
Notation inv := (inv f S lim).
Notation acceptable := (acceptable f S lim).

(** Full decoding gives up the newest repair. *)
Lemma attempt_dependent d d' r rep D : core [] d -> ge [] d -> logs N.lt [] d ->
  attempt_full_decoding m d = Ok d' ->
  mfind r (d_repairs d) = Some rep -> (forall r', In r' (mkeys (d_repairs d)) -> r' <= r) ->
  (forall p, In p D -> In p (d_repairs d)) -> dependent f (equations D) ->
  d_repairs d' = d_repairs d \/ d_repairs d' = merase r (d_repairs d).
Proof.
  intros C G L H Er Hmax HD Dep. unfold attempt_full_decoding in H. cbv zeta in H.
  destruct (Nat.eqb (length (d_repairs d)) 0 || Nat.eqb (length (d_missing d)) 0) eqn:E0.
  { left. congruence. }
  destruct (Nat.ltb (length (d_repairs d)) (length (d_missing d))) eqn:E1.
  { left. congruence. }
  apply bind_ok in H. destruct H as (u1 & _ & H).
  apply bind_ok in H. destruct H as (u2 & _ & H).
  destruct (Nat.eqb (length (d_missing d)) (length (d_repairs d))) eqn:E2; cbn [negb] in H; [|discriminate].
  apply Nat.eqb_eq in E2. apply orb_false_iff in E0. destruct E0 as [E0 _]. apply Nat.eqb_neq in E0.
  rewrite (c_field _ _ _ _ C) in H.
  set (n := length (d_repairs d)) in *.
  set (co := coefficients f (d_repairs d) (mkeys (d_missing d))) in *.
  assert (Hk : length (mkeys (d_missing d)) = n) by (rewrite mkeys_length; exact E2).
  destruct (invert_spec f n co (repeat 0 (n * n))) as [(m' & v' & I & W1 & W2 & W3 & W4 & W5)|[I _]].
  { exact E0. }
  { apply coefficients_wfm, Hk. }
  { unfold wfm. apply repeat_length. }
  { apply coefficients_eltm, Hk. }
  - exfalso. apply (dependent_singular f (d_repairs d) D (mkeys (d_missing d)) (at_ n v')).
    + apply C.
    + symmetry. exact Hk.
    + exact HD.
    + exact Dep.
    + rewrite Hk. exact W5.
  - rewrite I in H. cbn [bind] in H. unfold failed_decoding in H.
    cbn [with_failed d_repairs] in H.
    unfold n in H. rewrite (last_greatest (d_repairs d) r rep) in H.
    + right. cbv zeta in H. injection H as H. rewrite <- H. reflexivity.
    + apply C.
    + apply mfind_in, Er.
    + exact Hmax.
Qed.

Lemma add_source_no_repairs fuel d x data d' : d_repairs d = [] -> add_source fuel m d x data = Ok d' -> d_repairs d' = [].
Proof.
  intros E H. destruct fuel as [|fuel]; cbn [add_source] in H; [discriminate|].
  apply bind_ok in H. destruct H as (d1 & E1 & H). apply bind_ok in H. destruct H as (d2 & E2 & H).
  apply bind_ok in H. destruct H as (d3 & E3 & H).
  assert (R1 : d_repairs d1 = []).
  { unfold announce in E1. destruct (d_in_order d); cbn [negb] in E1; [destruct (x =? d_first d)|].
    - apply flush_same in E1. destruct E1 as (_ & _ & -> & _). exact E.
    - same E1. exact E.
    - same E1. exact E. }
  assert (R2 : d_repairs d2 = []).
  { unfold no_longer_missing in E2. destruct (mfind x (d_missing d1)) as [rs|]; [|same E2; exact R1].
    apply bind_ok in E2. destruct E2 as (reps & Ex & E2). same E2.
    rewrite R1 in Ex. destruct rs as [|r rs]; cbn [remove_from_repairs] in Ex; [|discriminate].
    cbn [with_missing with_repairs d_repairs]. congruence. }
  assert (R3 : forall ks d', scan (add_source fuel m) m ks d2 = Ok d' -> d' = d2).
  { clear -R2. induction ks as [|k ks IH]; intros d' H; cbn [scan] in H; [congruence|].
    destruct (mfind k (d_missing d2)) as [[|r [|r' l]]|]; try (apply IH, H).
    rewrite R2 in H. discriminate. }
  apply R3 in E3. subst d3. unfold store in H. apply bind_ok in H. destruct H as (u & _ & H). cbv zeta in H. same H.
  destruct (_ && _); exact R2.
Qed.

(** What a repair leaves in the store. *)
Theorem repair_shape d r d' : inv d -> calm d -> acceptable d r -> recv_repair m d r = Ok d' ->
  (forall k rep, mfind k (d_repairs d') = Some rep -> mfind k (d_repairs d) = Some rep \/ k = dr_id r)
  /\ forall D, (forall k, In k (mkeys (d_repairs d)) -> k <= dr_id r) ->
     (forall p, In p D -> In p (d_repairs d)) -> dependent f (equations D) ->
     (forall k rep, In (k, rep) D -> hd 0 (dr_ids r) <= hd 0 (dr_ids rep)) ->
     forall p, In p D -> In p (d_repairs d').
Proof.
  intros I0 Q A H. pose proof I0 as I1. destruct I1 as [C G L T].
  pose proof A as A0. destruct A0 as [B1 B2 B3 B4 B5]. unfold recv_repair in H.
  apply bind_ok in H. destruct H as (u & _ & H).
  destruct (dr_ids r) as [|first ids] eqn:Eids; [discriminate|]. rewrite <- Eids in *.
  assert (Efirst : hd 0 (dr_ids r) = first) by (rewrite Eids; reflexivity).
  destruct (outdated d (last (dr_ids r) 0)) eqn:Eo.
  { assert (d' = d) by congruence. subst d'. auto. }
  destruct (mmem (dr_id r) (d_repairs d)) eqn:Em.
  { assert (d' = d) by congruence. subst d'. auto. }
  apply mmem_false in Em.
  assert (Hfl : hd 0 (dr_ids r) < lim) by (apply B5; rewrite Eids; left; reflexivity).
  apply bind_ok in H. destruct H as (d0 & E0 & H). rewrite <- Efirst in E0.
  pose proof (drop_outdated_spec f S m lim Hlim0 d _ d0 C G L B2 Hfl E0) as D.
  pose proof (acceptable_dropped f S lim d d0 r A D) as A'.
  pose proof (calm_dropped f S lim d d0 _ Q C D) as Q0.
  pose proof D as D'. destruct D' as [C0 G0 L0 V0 La0 Hm0 Hs0 Hr0 _ _ _].
  assert (Kept : forall DD, (forall p, In p DD -> In p (d_repairs d)) ->
     (forall k rep, In (k, rep) DD -> hd 0 (dr_ids r) <= hd 0 (dr_ids rep)) -> forall p, In p DD -> In p (d_repairs d0)).
  { intros DD H1 H2 [k rep] Hp. apply mfind_in, Hr0. split; [apply in_mfind; [apply C | apply H1, Hp] | eapply H2, Hp]. }
  destruct (forallb (fun id => mmem id (d_sources d0)) (dr_ids r)) eqn:Ef.
  { assert (Er : d_repairs d' = d_repairs d0).
    { apply (f_equal (fun x => match x with Ok y => d_repairs y | _ => [] end)) in H. symmetry. exact H. }
    rewrite Er. split; [|intros DD _ H1 _ H2; apply Kept; assumption].
    intros k rep Hk. left. apply Hr0, Hk. }
  apply bind_ok in H. destruct H as (u2 & _ & H). apply bind_ok in H. destruct H as ([d1' r1] & El & H).
  assert (Hnew : ~ In (dr_id r) (mkeys (d_repairs d0))).
  { intros Hin. apply mfind_keys in Hin. destruct Hin as [v Hv]. apply Em, mfind_keys.
    exists v. apply Hr0, Hv. }
  apply (link_spec f S m lim Hlim0) in El; try assumption.
  2: { intros x Hx. apply Hm0 in Hx. apply Hx. }
  cbv zeta in H. set (d1 := with_repairs d1' _) in *.
  destruct El as [C1 G1 (R & M & E1) Hr1 Hreps Hid1 Gn1 Hids Hm1].
  assert (L1 : logs N.lt [] d1) by (apply logs_same with (2 := L0); rewrite E1; repeat split).
  assert (Hcov : forall y, miss d0 y -> In y (dr_ids r1)).
  { intros y Hy. apply Hids. split.
    - apply (b_covers _ _ _ _ _ A'); [exact Hy|]. apply Hm0 in Hy. apply Hy.
    - apply (c_disj _ _ _ _ C0 y Hy). }
  apply bind_ok in H. destruct H as (u3 & _ & H).
  destruct (Nat.eqb (length (dr_ids r1)) 1) eqn:E1l.
  - (* the only unknown source: nothing was stored *)
    apply Nat.eqb_eq in E1l.
    assert (Hnor : d_repairs d0 = []).
    { destruct (calm_fewer f S lim Hlim0 [] d0 C0 Q0) as [X|X]; [exact X|].
      assert ((length (mkeys (d_missing d0)) <= length (dr_ids r1))%nat).
      { apply NoDup_incl_length; [apply ssorted_NoDup, C0|]. intros y Hy. apply Hcov, Hy. }
      rewrite mkeys_length in *. destruct (d_repairs d0); [reflexivity | cbn [length] in X; lia]. }
    split.
    2:{ intros DD _ H1 Dep H2 p Hp. exfalso. specialize (Kept DD H1 H2 p Hp). rewrite Hnor in Kept. destruct Kept. }
    intros k rep Hk.
    apply bind_ok in H. destruct H as ([x data] & _ & H). apply add_source_no_repairs in H.
    { rewrite H in Hk. discriminate. }
    cbn [with_repairs with_missing count_decoded with_decoded d_repairs]. rewrite Hid1, Hreps, Hnor.
    cbn [mset merase]. rewrite N.eqb_refl. reflexivity.
  - (* a full decoding *)
    assert (Old : forall k rep, mfind k (d_repairs d1) = Some rep -> mfind k (d_repairs d) = Some rep \/ k = dr_id r).
    { intros k rep Hk. rewrite Hreps, mfind_mset in Hk. destruct (N.eqb_spec k (dr_id r)) as [->|Hne]; [right; reflexivity|].
      left. apply Hr0, Hk. }
    split.
    + intros k rep Hk.
      destruct (attempt_spec f S m lim Hlim0 HS d1 d' C1 G1 L1 H) as [-> | r' rep' Er' _ -> | d1'' _ _ ->].
      * apply Old, Hk.
      * cbn [with_failed with_repairs with_missing d_repairs] in Hk. rewrite mfind_merase in Hk by apply C1.
        destruct (k =? r'); [discriminate | apply Old, Hk].
      * discriminate.
    + intros DD Hle H1 Dep H2 p Hp.
      assert (Hlt : forall k, In k (mkeys (d_repairs d)) -> k < dr_id r).
      { intros k Hk. pose proof (Hle k Hk). assert (k <> dr_id r) by congruence. lia. }
      assert (Hin1 : forall p, In p DD -> In p (d_repairs d1)).
      { intros [k rep] Hk. apply mfind_in. rewrite Hreps, mfind_mset.
        assert (Hk0 : mfind k (d_repairs d0) = Some rep) by (apply in_mfind; [apply C0 | apply (Kept DD H1 H2), Hk]).
        destruct (N.eqb_spec k (dr_id r)) as [->|]; [|exact Hk0].
        exfalso. apply Hnew, mfind_keys. eauto. }
      destruct (attempt_dependent d1 d' (dr_id r) r1 DD C1 G1 L1 H Hr1) as [E|E]; try assumption.
      * intros k Hk. apply mfind_keys in Hk. destruct Hk as [rep Hk]. apply Old in Hk. destruct Hk as [Hk|Hk]; [|lia].
        apply N.lt_le_incl, Hlt, mfind_keys. eauto.
      * rewrite E. apply Hin1, Hp.
      * rewrite E. destruct p as [k rep]. apply mfind_in. rewrite mfind_merase by apply C1.
        destruct (N.eqb_spec k (dr_id r)) as [->|].
        -- exfalso. assert (dr_id r < dr_id r); [|lia]. apply Hlt. apply (in_map fst) in Hp.
           apply in_map_iff in Hp. destruct Hp as ([k rep0] & Ek & Hp). apply H1 in Hp. apply (in_map fst) in Hp.
           cbn [fst] in *. subst k. exact Hp.
        -- apply in_mfind; [apply C1 | apply Hin1, Hp].
Qed.
End Twins.
