(** * Progress of the decoding algorithm when no packet overtakes another

    The invariant of DecoderInv.v says what holds if a call of the decoder ends
    normally. Here: when calls end normally, in both build modes. *)
From Coq Require Import NArith PeanoNat List Bool Lia Permutation.
From Verif Require Import Outcome GF GFField Linear Containers ContainersFacts Packetizer
  Matrix MatrixFacts DetailDecoder DecoderAlgebra DecoderInv DecoderStep.
Import ListNotations.
Open Scope N_scope.

(** ** Repairs from the newest to the oldest

    Each one covers what the older ones cover, and at least one source more than
    there are repairs up to it. *)

Definition unknowns (p : N * drepair) : list N := dr_ids (snd p).

Fixpoint stair (l : list (N * drepair)) : Prop :=
  match l with
  | [] => True
  | p :: l' => (length l' + 2 <= length (unknowns p))%nat
               /\ (forall q, In q l' -> incl (unknowns q) (unknowns p)) /\ stair l'
  end.

Lemma filter_le {A} (b : A -> bool) l : (length (filter b l) <= length l)%nat.
Proof. induction l as [|a l IH]; cbn [filter]; [reflexivity|]. destruct (b a); cbn [length]; lia. Qed.

Lemma stair_filter b l : stair l -> stair (filter b l).
Proof.
  induction l as [|p l IH]; intros H; [exact I|]. destruct H as (A & B & C). cbn [filter].
  destruct (b p); [|apply IH, C]. cbn [stair]. pose proof (filter_le b l). split; [lia|]. split; [|apply IH, C].
  intros q Hq. apply filter_In in Hq. apply B, Hq.
Qed.

Lemma stair_two l p : stair l -> In p l -> (2 <= length (unknowns p))%nat.
Proof.
  induction l as [|q l IH]; intros H; [intros []|]. destruct H as (A & B & C).
  intros [->|Hp]; [lia | apply IH; assumption].
Qed.

Definition calm (d : ddec) : Prop := exists l, Permutation l (d_repairs d) /\ stair l.

Lemma calm_same d d' : d_repairs d' = d_repairs d -> calm d -> calm d'.
Proof. intros E (l & P & H). exists l. rewrite E. auto. Qed.

Lemma calm_nil d : d_repairs d = [] -> calm d.
Proof. intros E. exists []. rewrite E. split; [constructor | exact I]. Qed.

Lemma calm_two d r rep : calm d -> mfind r (d_repairs d) = Some rep -> (2 <= length (dr_ids rep))%nat.
Proof.
  intros (l & P & H) E. apply (stair_two l (r, rep) H). apply (Permutation_in _ (Permutation_sym P)).
  apply mfind_in, E.
Qed.

Lemma sorted_maps_NoDup {V} (l : list (N * V)) : msorted l -> NoDup l.
Proof. intros H. apply NoDup_map_inv with (f := fst). apply ssorted_NoDup, H. Qed.

(** What remains of a calm collection after a selection. *)
Lemma calm_select d d' (b : N * drepair -> bool) : calm d -> msorted (d_repairs d) -> msorted (d_repairs d') ->
  (forall r rep, mfind r (d_repairs d') = Some rep <-> mfind r (d_repairs d) = Some rep /\ b (r, rep) = true) ->
  calm d'.
Proof.
  intros (l & P & H) Hs Hs' E. exists (filter b l). split; [|apply stair_filter, H].
  assert (N0 : NoDup l) by (eapply Permutation_NoDup; [apply Permutation_sym, P | apply sorted_maps_NoDup, Hs]).
  apply NoDup_Permutation.
  - apply NoDup_filter, N0.
  - apply sorted_maps_NoDup, Hs'.
  - intros [r rep]. rewrite filter_In, (mfind_iff r rep _ Hs'), E.
    assert (X : In (r, rep) l <-> mfind r (d_repairs d) = Some rep).
    { rewrite <- mfind_iff by exact Hs. split; apply Permutation_in; [exact P | apply Permutation_sym, P]. }
    rewrite X. reflexivity.
Qed.

Section Progress.
Variable f : field.
Variable S : N -> list N.
Variable m : mode.
Variable lim : N.
Hypothesis Hlim0 : lim <= LIM.
Hypothesis HS : forall x, good_data f (S x).

Notation core := (core f S).
Notation logs := (logs S lim).
Notation ge := (ge lim).
Notation fresh := (fresh lim).
Notation inv := (inv f S lim).
Notation acceptable := (acceptable f S lim).

Lemma assert_true (b : bool) : b = true -> assert_ m b = Ok tt.
Proof. intros ->. destruct m; reflexivity. Qed.

(** Fewer repairs than missing sources. *)
Lemma calm_fewer P d : core P d -> calm d ->
  d_repairs d = [] \/ (length (d_repairs d) < length (d_missing d))%nat.
Proof.
  intros C (l & Pm & H). destruct l as [|[r rep] l].
  - left. apply Permutation_nil, Pm.
  - right. destruct H as (A & _ & _). unfold unknowns in A. cbn [snd] in A.
    assert (E : mfind r (d_repairs d) = Some rep).
    { apply in_mfind; [apply C|]. apply (Permutation_in _ Pm). left. reflexivity. }
    rewrite <- (Permutation_length Pm). cbn [length].
    assert ((length (dr_ids rep) <= length (mkeys (d_missing d)))%nat).
    { apply NoDup_incl_length.
      - apply ssorted_NoDup. destruct (c_repairs _ _ _ _ C r rep E) as [_ G]. apply G.
      - intros x Hx. apply (c_live _ _ _ _ C r rep x E Hx). }
    rewrite mkeys_length in *. lia.
Qed.

(** ** The scan finds nothing when every repair has two unknown sources *)

Lemma scan_idle P rec keys : forall d, core P d -> calm d -> scan rec m keys d = Ok d.
Proof.
  induction keys as [|k keys IH]; intros d C Q; cbn [scan]; [reflexivity|].
  destruct (mfind k (d_missing d)) as [[|r [|r2 l]]|] eqn:Ek; try (apply IH; assumption).
  destruct (proj2 (c_links _ _ _ _ C k _ Ek) r) as [H _].
  destruct (H (or_introl eq_refl)) as (rep & Er & _). rewrite Er.
  pose proof (calm_two d r rep Q Er).
  replace (Nat.eqb (length (dr_ids rep)) 1) with false by (symmetry; apply Nat.eqb_neq; lia).
  apply IH; assumption.
Qed.

Lemma store_total d x : ~ In x (mkeys (d_sources d)) ->
  exists d', store m d x (S x) = Ok d' /\ d_repairs d' = d_repairs d /\ d_missing d' = d_missing d.
Proof.
  intros H. unfold store. rewrite assert_true.
  2: { apply negb_true_iff, mmem_false, H. }
  cbn [bind]. eexists. split; [reflexivity|].
  destruct (d_in_order _ && _); split; reflexivity.
Qed.

(** A source that is not linked to a repair. *)
Lemma add_source_total P fuel d x : core P d -> ge P d -> logs N.lt P d -> fresh P d x -> calm d -> ~ miss d x ->
  exists d', add_source (Datatypes.S fuel) m d x (S x) = Ok d'
  /\ d_repairs d' = d_repairs d /\ d_missing d' = d_missing d.
Proof.
  intros C G L F Q Hm. cbn [add_source].
  destruct (announce_spec S m lim Hlim0 P d x) as (fi & od & lg & E & _); try assumption.
  { apply C. } { intros y Hy. apply G. left. exact Hy. }
  rewrite E. cbn [bind]. unfold no_longer_missing. cbn [delivery d_missing].
  assert (En : mfind x (d_missing d) = None) by (apply mfind_none; exact Hm). rewrite En. cbn [bind].
  rewrite (scan_idle P).
  - cbn [bind]. apply (store_total (delivery d fi od lg) x). intros Hx. apply (proj1 F). left. exact Hx.
  - apply core_delivery, C.
  - apply calm_same with d; [reflexivity | exact Q].
Qed.

Lemma attempt_less d : d_repairs d = [] \/ (length (d_repairs d) < length (d_missing d))%nat ->
  attempt_full_decoding m d = Ok d.
Proof.
  intros H. unfold attempt_full_decoding. cbv zeta. destruct H as [-> |H]; [reflexivity|].
  destruct (Nat.eqb _ 0 || Nat.eqb _ 0); [reflexivity|]. apply Nat.ltb_lt in H. rewrite H. reflexivity.
Qed.

(** ** A source arrives before the repairs that cover it *)
Theorem source_progress d x : inv d -> calm d -> x < lim -> ~ miss d x ->
  exists d', recv_source m d x (S x) = Ok d' /\ calm d'
  /\ d_repairs d' = d_repairs d /\ d_missing d' = d_missing d.
Proof.
  intros [C G L T] Q Hx Hm. unfold recv_source. destruct (outdated d x) eqn:Eo; [exists d; auto|].
  destruct (mmem x (d_sources d)) eqn:Em; [exists d; auto|]. apply mmem_false in Em.
  apply outdated_false in Eo.
  destruct (add_source_total [] (length (d_missing d)) d x C G L) as (d' & E & Er & Ems); try assumption.
  { split; [intros [Y|[]]; contradiction|]. auto. }
  unfold enough. rewrite E. cbn [bind]. rewrite attempt_less.
  - exists d'. split; [reflexivity|]. split; [apply calm_same with d; assumption | auto].
  - rewrite Er, Ems. apply calm_fewer with []; assumption.
Qed.

(** ** Dropping *)

Lemma drop_repairs_total P id reps : forall d, core P d -> msorted reps ->
  (forall r rep, mfind r reps = Some rep -> mfind r (d_repairs d) = Some rep /\ dr_ids rep <> []) ->
  exists d', drop_repairs m id reps d = Ok d'.
Proof.
  induction reps as [|[r rep] reps IH]; intros d C Hs Hr; cbn [drop_repairs]; [eauto|].
  apply msorted_cons_inv in Hs. destruct Hs as [Hs Hlt].
  destruct (Hr r rep) as [Er Hne]. { cbn [mfind]. rewrite N.eqb_refl. reflexivity. }
  assert (Hnot : mfind r reps = None).
  { apply mfind_none. intros A. apply mfind_keys in A. destruct A as [v A].
    apply mfind_in in A. apply Hlt in A. lia. }
  assert (Hrest : forall r' rep', mfind r' reps = Some rep' ->
    mfind r' (d_repairs d) = Some rep' /\ r' <> r /\ dr_ids rep' <> []).
  { intros r' rep' A. assert (r' <> r) by congruence. destruct (Hr r' rep') as [B1 B2].
    - cbn [mfind]. replace (r' =? r) with false by (symmetry; apply N.eqb_neq; assumption). exact A.
    - auto. }
  destruct (dr_ids rep) as [|first ids] eqn:Eids; [congruence|].
  rewrite assert_true by reflexivity. cbn [bind].
  destruct (first <? id).
  - destruct (core_drop f S P d r rep C Er) as (C1 & _ & Hu). rewrite Eids in C1, Hu. rewrite Hu. cbn [bind].
    apply IH; [exact C1 | exact Hs|]. intros r' rep' A. apply Hrest in A. destruct A as (A1 & A2 & A3).
    split; [|exact A3]. cbn [with_missing with_repairs d_repairs]. rewrite mfind_merase by apply C.
    replace (r' =? r) with false by (symmetry; apply N.eqb_neq; exact A2). exact A1.
  - apply IH; [exact C | exact Hs|]. intros r' rep' A. apply Hrest in A. tauto.
Qed.

Lemma drop_outdated_total d id : core [] d -> ge [] d -> logs N.lt [] d -> calm d ->
  not_outdated d id = true -> id < lim -> exists d', drop_outdated m d id = Ok d'.
Proof.
  intros C G L Q Hid Hlim. unfold drop_outdated. set (d0 := with_last d (Some id)).
  assert (C0 : core [] d0) by (apply core_same with (5 := C); reflexivity).
  destruct (drop_repairs_total [] id (d_repairs d0) d0 C0) as [d1 E1].
  { apply C. }
  { intros r rep Er. split; [exact Er|]. intros E. pose proof (calm_two d r rep Q Er) as T. rewrite E in T.
    cbn in T. lia. }
  rewrite E1. cbn [bind].
  apply (drop_repairs_spec f S m lim Hlim0 [] id (d_repairs d0) d0 d1 C0) in E1; [|apply C | auto].
  destruct E1 as (C1 & Hm1 & (R & M & E1) & Hne & Hr1).
  assert (L1 : logs N.lt [] d1).
  { apply logs_same with (d := d0).
    - rewrite E1. repeat split.
    - apply logs_last; assumption. }
  assert (Hb1 : forall x, K [] d1 x -> x < lim).
  { rewrite E1. intros x Hx. apply G. left. exact Hx. }
  destruct (deliver_part_spec S m lim Hlim0 d1 id) as (fi & od & lg & R1 & _).
  { apply C1. } { exact Hb1. } { exact L1. } { rewrite E1. reflexivity. } { exact Hlim. }
  unfold deliver_part in R1. rewrite R1. cbn [bind]. eauto.
Qed.

Lemma calm_dropped d d' id : calm d -> core [] d -> dropped f S lim d d' id -> calm d'.
Proof.
  intros Q C D. apply (calm_select d d' (fun p => id <=? hd 0 (dr_ids (snd p))) Q).
  - apply C.
  - apply (p_core _ _ _ _ _ _ D).
  - intros r rep. cbn [snd]. rewrite N.leb_le. apply (p_repairs _ _ _ _ _ _ D).
Qed.

(** ** Linking *)

Lemma two_members (l : list N) x y : In x l -> In y l -> x <> y -> (1 < length l)%nat.
Proof.
  intros Hx Hy H. destruct l as [|a [|b l]]; cbn [length]; [destruct Hx | | lia].
  destruct Hx as [<-|[]]. destruct Hy as [<-|[]]. congruence.
Qed.

Lemma link_repair_total ids : forall d r, NoDup ids -> (forall x, In x ids -> In x (dr_ids r)) ->
  genuine f S r -> d_field d = f -> sgen S d ->
  (exists y, In y (dr_ids r) /\ ~ In y (mkeys (d_sources d))) ->
  exists d' r', link_repair m ids d r = Ok (d', r').
Proof.
  induction ids as [|id ids IH]; intros d r Hn Hi G Ef Sg (y & Hy & Hny); cbn [link_repair]; [eauto|].
  apply NoDup_cons_iff in Hn. destruct Hn as [Hn1 Hn2].
  assert (Hid : In id (dr_ids r)) by (apply Hi; left; reflexivity).
  destruct (mfind id (d_sources d)) as [data|] eqn:Es.
  - pose proof (proj2 Sg _ _ Es) as ->. rewrite Ef, (remove_data_spec f S m r id G Hid).
    assert (Hk : In id (mkeys (d_sources d))) by (apply mfind_keys; eauto).
    assert (Hne : id <> y) by congruence.
    rewrite assert_true by (apply Nat.ltb_lt; apply (two_members _ id y); assumption).
    cbn [bind]. apply IH; try assumption.
    + intros x Hx. cbn [with_ids dr_ids minus]. apply serase_in; [apply G|]. split; [apply Hi; right; exact Hx|].
      intros ->. contradiction.
    + change (genuine f S (with_ids (minus f S r id) (serase id (dr_ids r)))). apply minus_genuine; assumption.
    + exists y. cbn [with_ids dr_ids minus]. split; [|exact Hny]. apply serase_in; [apply G|]. auto.
  - apply IH; try assumption.
    + intros x Hx. apply Hi. right. exact Hx.
    + exists y. auto.
Qed.

(** ** Full decoding *)

Lemma attempt_total d : core [] d -> ge [] d -> logs N.lt [] d ->
  length (d_repairs d) = length (d_missing d) -> (2 <= length (d_repairs d))%nat ->
  exists d', attempt_full_decoding m d = Ok d'.
Proof.
  intros C G L E2 Hn. unfold attempt_full_decoding. cbv zeta. rewrite <- E2.
  destruct (length (d_repairs d)) as [|n0] eqn:En; [lia|]. rewrite <- En in *. clear n0 En.
  replace (Nat.eqb (length (d_repairs d)) 0) with false by (symmetry; apply Nat.eqb_neq; lia).
  cbn [orb]. rewrite Nat.ltb_irrefl, Nat.eqb_refl. rewrite assert_true by reflexivity. cbn [bind].
  rewrite assert_true by (apply Nat.ltb_lt; lia). cbn [bind negb].
  rewrite (c_field _ _ _ _ C).
  set (n := length (d_repairs d)) in *.
  set (co := coefficients f (d_repairs d) (mkeys (d_missing d))) in *.
  assert (Hk : length (mkeys (d_missing d)) = length (d_repairs d)) by (rewrite mkeys_length; symmetry; exact E2).
  destruct (invert_spec f n co (repeat 0 (n * n))) as [(m' & v' & I & W1 & W2 & W3 & W4 & W5)|[I _]].
  { lia. }
  { apply coefficients_wfm, Hk. }
  { unfold wfm. apply repeat_length. }
  { apply coefficients_eltm, Hk. }
  - rewrite I. cbn [bind].
    pose proof (decode_all_solvable f S HS d v' C (eq_sym E2) W2 W3 W4) as Hs.
    destruct (decode_all_spec f S m lim Hlim0 n v' (d_repairs d) (mkeys (d_missing d)) Hs (mkeys (d_missing d)) 0 d)
      as (d1 & Ed & D).
    + reflexivity.
    + cbn [plus]. exact Hk.
    + apply ssorted_NoDup, C.
    + apply C.
    + apply C.
    + intros y Hy. apply G. left. exact Hy.
    + exact L.
    + intros x Hx. split; [apply (c_disj _ _ _ _ C x Hx) | apply G; right; exact Hx].
    + rewrite Ed. cbn [bind]. eauto.
  - rewrite I. cbn [bind]. unfold failed_decoding. cbn [with_failed d_repairs].
    destruct (nth_error (d_repairs d) (n - 1)) as [[r rep]|] eqn:En; [eauto|].
    apply nth_error_None in En. fold n in En. lia.
Qed.

(** ** A repair arrives after the older ones *)

Theorem repair_progress d r : inv d -> calm d -> acceptable d r -> dr_ids r <> [] ->
  exists d', recv_repair m d r = Ok d' /\ calm d'.
Proof.
  intros I0 Q A Hne. pose proof I0 as I1. destruct I1 as [C G L T].
  pose proof A as A0. destruct A0 as [B1 B2 B3 B4 B5]. unfold recv_repair.
  rewrite assert_true.
  2: { apply negb_true_iff, Nat.eqb_neq. destruct (dr_ids r); [congruence | discriminate]. }
  cbn [bind]. destruct (dr_ids r) as [|first ids] eqn:Eids; [congruence|]. rewrite <- Eids in *. clear Hne.
  assert (Efirst : hd 0 (dr_ids r) = first) by (rewrite Eids; reflexivity).
  destruct (outdated d (last (dr_ids r) 0)) eqn:Eo; [eauto|].
  destruct (mmem (dr_id r) (d_repairs d)) eqn:Em; [eauto|]. apply mmem_false in Em.
  assert (Hfl : hd 0 (dr_ids r) < lim) by (apply B5; rewrite Eids; left; reflexivity).
  destruct (drop_outdated_total d (hd 0 (dr_ids r)) C G L Q B2 Hfl) as [d0 E0].
  rewrite <- Efirst, E0. cbn [bind].
  pose proof (drop_outdated_spec f S m lim Hlim0 d _ d0 C G L B2 Hfl E0) as D.
  pose proof (acceptable_dropped f S lim d d0 r A D) as A'.
  pose proof (calm_dropped d d0 _ Q C D) as Q0.
  pose proof D as D'. destruct D' as [C0 G0 L0 V0 La0 Hm0 Hs0 Hr0 _ _ _].
  destruct (forallb (fun id => mmem id (d_sources d0)) (dr_ids r)) eqn:Ef.
  { eexists. split; [reflexivity|]. apply calm_same with d0; [reflexivity | exact Q0]. }
  assert (Hunk : exists y, In y (dr_ids r) /\ ~ In y (mkeys (d_sources d0))).
  { clear -Ef. induction (dr_ids r) as [|a l IH]; [discriminate|]. cbn [forallb] in Ef.
    destruct (mmem a (d_sources d0)) eqn:Ea.
    - destruct (IH Ef) as (y & H1 & H2). exists y. split; [right; exact H1 | exact H2].
    - exists a. split; [left; reflexivity|]. apply mmem_false, Ea. }
  assert (Hnew : ~ In (dr_id r) (mkeys (d_repairs d0))).
  { intros Hin. apply mfind_keys in Hin. destruct Hin as [v Hv]. apply Em, mfind_keys.
    exists v. apply Hr0, Hv. }
  rewrite assert_true by (apply negb_true_iff, mmem_false, Hnew). cbn [bind].
  destruct (link_repair_total (rev (dr_ids r)) d0 r) as (d1' & r1 & El).
  { apply NoDup_rev, ssorted_NoDup, B1. }
  { intros x Hx. apply in_rev, Hx. }
  { exact B1. } { apply C0. } { apply C0. } { exact Hunk. }
  rewrite El. cbn [bind]. cbv zeta.
  apply (link_spec f S m lim Hlim0) in El; try assumption.
  2: { intros x Hx. apply Hm0 in Hx. apply Hx. }
  set (d1 := with_repairs d1' _) in *.
  pose proof El as K0. destruct K0 as [C1 G1 (R & M & E1) Hr1 Hreps Hid1 Gn1 Hids Hm1].
  assert (L1 : logs N.lt [] d1) by (apply logs_same with (2 := L0); rewrite E1; repeat split).
  (* everything missing is covered by the new repair *)
  assert (Hcov : forall y, miss d0 y -> In y (dr_ids r1)).
  { intros y Hy. apply Hids. split.
    - apply (b_covers _ _ _ _ _ A'); [exact Hy|]. apply Hm0 in Hy. apply Hy.
    - apply (c_disj _ _ _ _ C0 y Hy). }
  assert (Hn1 : dr_ids r1 <> []).
  { destruct Hunk as (y & Hy1 & Hy2). intros E. assert (Hy : In y (dr_ids r1)).
    { apply Hids. split; [exact Hy1|]. intros [Y|[]]; contradiction. }
    rewrite E in Hy. destruct Hy. }
  rewrite assert_true.
  2: { apply negb_true_iff, Nat.eqb_neq. destruct (dr_ids r1); [congruence | discriminate]. }
  cbn [bind].
  assert (Hlen : length (d_missing d1) = length (dr_ids r1)).
  { rewrite <- mkeys_length. apply Nat.le_antisymm; apply NoDup_incl_length.
    - apply ssorted_NoDup, C1.
    - intros y Hy. apply Hm1 in Hy. destruct Hy as [Hy|Hy]; [apply Hcov, Hy | exact Hy].
    - apply ssorted_NoDup, Gn1.
    - intros y Hy. apply Hm1. right. exact Hy. }
  assert (Hmore : (length (d_missing d0) <= length (dr_ids r1))%nat).
  { rewrite <- mkeys_length. apply NoDup_incl_length; [apply ssorted_NoDup, C0|]. intros y Hy. apply Hcov, Hy. }
  destruct (Nat.eqb (length (dr_ids r1)) 1) eqn:E1l.
  - apply Nat.eqb_eq in E1l.
    destruct (dr_ids r1) as [|x [|x2 l]] eqn:Eids1; try discriminate. clear E1l.
    rewrite (c_field _ _ _ _ C1), (create_source_spec f S m r1 x Gn1 Eids1).
    cbn [bind]. set (d2 := with_repairs (with_missing _ _) _).
    assert (Hnor : d_repairs d0 = []).
    { destruct (calm_fewer [] d0 C0 Q0) as [X|X]; [exact X|].
      cbn [length] in Hmore. destruct (d_repairs d0); [reflexivity | cbn [length] in X; lia]. }
    assert (Hmx1 : miss d1 x) by (apply Hm1; right; left; reflexivity).
    assert (Hlinks : mfind x (d_missing d1) = Some [dr_id r]).
    { pose proof Hmx1 as Hl. apply mfind_keys in Hl. destruct Hl as [l Hl]. rewrite Hl. f_equal.
      destruct (c_links _ _ _ _ C1 x l Hl) as [Hl1 Hl2].
      apply ssorted_ext; [exact Hl1 | apply ssorted_cons; [apply ssorted_nil | intros y []]|].
      intros r0. rewrite Hl2. rewrite Hreps, Hnor. cbn [mset mfind In]. split.
      - intros (rep & Y & _). destruct (r0 =? dr_id r) eqn:Er0; [|discriminate].
        apply N.eqb_eq in Er0. left. congruence.
      - intros [<-|[]]. exists r1. rewrite N.eqb_refl. split; [reflexivity|]. rewrite Eids1. left. reflexivity. }
    pose proof (core_erase f S [] d1 (dr_id r) r1 x C1 Hr1 Eids1 Hlinks) as C2'.
    assert (E2r : d_repairs d2 = []).
    { unfold d2. cbn [with_repairs with_missing count_decoded with_decoded d_repairs]. rewrite Hid1, Hreps, Hnor.
      cbn [mset merase]. rewrite N.eqb_refl. reflexivity. }
    assert (C2 : core [x] d2).
    { apply core_same with (5 := C2'); try reflexivity.
      unfold d2. cbn [with_repairs with_missing count_decoded with_decoded d_repairs]. rewrite Hid1. reflexivity. }
    assert (Hm2 : forall y, ~ miss d2 y).
    { intros y Hy. assert (Y : miss d1 y /\ y <> x) by (apply merase_keys in Hy; [exact Hy | apply C1]).
      destruct Y as [Y1 Y2]. apply Hm1 in Y1. destruct Y1 as [Y1|[Y1|[]]]; [apply Hcov in Y1|]; try congruence.
      destruct Y1 as [Y1|[]]. congruence. }
    assert (Hxk : ~ K [] d0 x) by (apply (Hids x); left; reflexivity).
    assert (Es2 : d_sources d2 = d_sources d0) by (change (d_sources d1 = d_sources d0); rewrite E1; reflexivity).
    assert (L2 : logs N.lt [] d2) by (apply logs_same with (2 := L1); repeat split).
    destruct (announce_spec S m lim Hlim0 [] d2 x) as (fi & od & lg & Ea & _).
    { apply C2. } { intros y Hy. apply G1. left. exact Hy. } { exact L2. }
    { split; [|].
      - intros Y. apply Hxk. destruct Y as [Y|[]]. left. rewrite <- Es2. exact Y.
      - apply G1. right. exact Hmx1. }
    unfold enough. cbn [add_source]. rewrite Ea. cbn [bind]. unfold no_longer_missing. cbn [delivery d_missing].
    assert (En : mfind x (d_missing d2) = None) by (apply mfind_none, Hm2). rewrite En. cbn [bind].
    rewrite (scan_idle [x]).
    + cbn [bind]. destruct (store_total (delivery d2 fi od lg) x) as (d' & Es & Er & _).
      { cbn [delivery d_sources]. intros Y. apply Hxk. left. rewrite <- Es2. exact Y. }
      exists d'. split; [exact Es|]. apply calm_nil. rewrite Er. exact E2r.
    + apply core_delivery, C2.
    + apply calm_nil. exact E2r.
  - apply Nat.eqb_neq in E1l.
    assert (H2 : (2 <= length (dr_ids r1))%nat).
    { destruct (dr_ids r1) as [|a [|b l]]; cbn [length] in *; [congruence | lia | lia]. }
    destruct Q0 as (l0 & P0 & S0).
    assert (P1 : Permutation ((dr_id r, r1) :: l0) (d_repairs d1)).
    { apply NoDup_Permutation.
      - apply NoDup_cons.
        + intros Hin. apply Hnew. apply (Permutation_in _ P0) in Hin. apply (in_map fst) in Hin. exact Hin.
        + eapply Permutation_NoDup; [apply Permutation_sym, P0 | apply sorted_maps_NoDup, C0].
      - apply sorted_maps_NoDup, C1.
      - intros [r' rep']. rewrite (mfind_iff r' rep' _ (c_rsorted _ _ _ _ C1)), Hreps, mfind_mset. cbn [In].
        assert (X : In (r', rep') l0 <-> mfind r' (d_repairs d0) = Some rep').
        { rewrite <- mfind_iff by apply C0. split; apply Permutation_in; [exact P0 | apply Permutation_sym, P0]. }
        rewrite X. destruct (r' =? dr_id r) eqn:E.
        + apply N.eqb_eq in E. subst r'. split.
          * intros [Y|Y]; [congruence|]. exfalso. apply Hnew, mfind_keys. eauto.
          * intros Y. left. congruence.
        + apply N.eqb_neq in E. split; [intros [Y|Y]; [congruence | exact Y] | auto]. }
    assert (Hinc : forall q, In q l0 -> incl (unknowns q) (dr_ids r1)).
    { intros [r' rep'] Hq y Hy. apply Hcov. apply (Permutation_in _ P0) in Hq. apply in_mfind in Hq; [|apply C0].
      apply (c_live _ _ _ _ C0 _ _ _ Hq Hy). }
    assert (Hcnt : (length l0 + 1 <= length (dr_ids r1))%nat).
    { rewrite (Permutation_length P0). destruct (calm_fewer [] d0 C0) as [X|X].
      - exists l0. auto.
      - rewrite X. cbn [length]. lia.
      - lia. }
    pose proof (Permutation_length P1) as Hlr. cbn [length] in Hlr.
    destruct (Nat.eq_dec (length l0 + 1) (length (dr_ids r1))) as [Eq|Ne].
    + destruct (attempt_total d1 C1 G1 L1) as [d' Ed']; [lia | lia|].
      exists d'. split; [exact Ed'|].
      destruct (attempt_spec f S m lim Hlim0 HS d1 d' C1 G1 L1 Ed') as [-> | r' rep' Er' _ -> | d1'' _ _ ->].
      * exfalso. pose proof (attempt_stepped f S m lim Hlim0 HS d1 d1 C1 G1 L1 Ed') as St.
        destruct (i_idle _ _ _ _ (t_inv _ _ _ _ _ _ St)) as [X|[X|(ra & repa & X1 & X2)]].
        -- rewrite X in Hlr. cbn in Hlr. lia.
        -- lia.
        -- assert (Y : In (ra, repa) ((dr_id r, r1) :: l0)).
           { apply (Permutation_in _ (Permutation_sym P1)), mfind_in, X1. }
           destruct Y as [Y|Y]; [congruence|]. apply (stair_two _ _ S0) in Y. unfold unknowns in Y. cbn [snd] in Y.
           rewrite X2 in Y. cbn in Y. lia.
      * (* the removed repair *)
        apply mfind_in in Er'. pose proof (Permutation_in _ (Permutation_sym P1) Er') as Hin.
        set (b := fun p : N * drepair => negb (fst p =? r')).
        assert (Hb : forall (ra : N) repa, mfind ra (merase r' (d_repairs d1)) = Some repa
            <-> mfind ra (d_repairs d1) = Some repa /\ b (ra, repa) = true).
        { intros ra repa. rewrite mfind_merase by apply C1. unfold b. cbn [fst].
          destruct (ra =? r'); cbn [negb]; split; try tauto; try discriminate; intros [_ Y]; discriminate. }
        assert (Pb : Permutation (filter b ((dr_id r, r1) :: l0)) (merase r' (d_repairs d1))).
        { apply NoDup_Permutation.
          - apply NoDup_filter. eapply Permutation_NoDup; [apply Permutation_sym, P1 | apply sorted_maps_NoDup, C1].
          - apply sorted_maps_NoDup, merase_sorted, C1.
          - intros [ra repa]. rewrite filter_In, (mfind_iff ra repa (merase r' (d_repairs d1)) (merase_sorted _ _ (c_rsorted _ _ _ _ C1))), Hb.
            assert (X : In (ra, repa) ((dr_id r, r1) :: l0) <-> mfind ra (d_repairs d1) = Some repa).
            { rewrite <- mfind_iff by apply C1. split; apply Permutation_in; [exact P1 | apply Permutation_sym, P1]. }
            rewrite X. reflexivity. }
        exists (filter b ((dr_id r, r1) :: l0)). split; [exact Pb|].
        cbn [filter]. destruct (b (dr_id r, r1)) eqn:Eb.
        -- cbn [stair]. split; [|split; [intros q Hq; apply filter_In in Hq; apply Hinc, Hq | apply stair_filter, S0]].
           pose proof (Permutation_length Pb) as Hl. cbn [filter] in Hl. rewrite Eb in Hl. cbn [length] in Hl.
           assert (Hk : In r' (mkeys (d_repairs d1))) by (apply (in_map fst) in Er'; exact Er').
           apply merase_length in Hk. unfold unknowns. cbn [snd]. lia.
        -- apply stair_filter, S0.
      * apply calm_nil. reflexivity.
    + exists d1. split.
      * apply attempt_less. right. lia.
      * exists ((dr_id r, r1) :: l0). split; [exact P1|]. cbn [stair]. unfold unknowns at 1 2. cbn [snd].
        split; [lia|]. split; [exact Hinc | exact S0].
Qed.

End Progress.
