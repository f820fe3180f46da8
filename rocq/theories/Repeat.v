(** * The same packet twice, one directly after the other *)
From Coq Require Import NArith Arith List Bool Lia Permutation.
From Verif Require Import Outcome GF Containers ContainersFacts Packetizer Linear Matrix MatrixFacts DetailDecoder
  DecoderAlgebra DecoderInv DecoderStep DecoderHeld DecoderProgress DecoderPrompt.
Import ListNotations.
Open Scope N_scope.
Open Scope outcome_scope.

Section Repeat.
Variable f : field.
Variable S : N -> list N.
Variable m : mode.
Variable lim : N.
Hypothesis Hlim0 : lim <= LIM.
Hypothesis HS : forall x, good_data f (S x).

Notation core := (core f S).
Notation ge := (ge lim).
Notation logs := (logs S lim).
Notation inv := (inv f S lim).
Notation acceptable := (acceptable f S lim).
Notation prompt := (prompt lim).

(** ** Dropping what is older than the same identifier again *)

Lemma drop_repairs_none id reps : forall d,
  (forall r rep, In (r, rep) reps -> dr_ids rep <> [] /\ id <= hd 0 (dr_ids rep)) ->
  drop_repairs m id reps d = Ok d.
Proof.
  induction reps as [|[r rep] reps IH]; intros d H; [reflexivity|]. cbn [drop_repairs].
  destruct (H r rep (or_introl eq_refl)) as [A B]. destruct (dr_ids rep) as [|x l]; [congruence|].
  replace (assert_ m (negb (Nat.eqb (length (x :: l)) 0))) with (Ok tt) by (destruct m; reflexivity).
  cbn [bind]. cbn [hd] in B. apply N.ltb_ge in B. rewrite B. apply IH. intros r' rep' Hr. apply (H r' rep'). right. exact Hr.
Qed.

Lemma filter_all {A} (b : A -> bool) l : (forall x, In x l -> b x = true) -> filter b l = l.
Proof.
  induction l as [|x l IH]; intros H; [reflexivity|]. cbn [filter]. rewrite (H x (or_introl eq_refl)).
  f_equal. apply IH. intros y Hy. apply H. right. exact Hy.
Qed.

Lemma filter_none {A} (b : A -> bool) l : (forall x, In x l -> b x = false) -> filter b l = [].
Proof.
  induction l as [|x l IH]; intros H; [reflexivity|]. cbn [filter]. rewrite (H x (or_introl eq_refl)).
  apply IH. intros y Hy. apply H. right. exact Hy.
Qed.

Lemma mfrom_all {V} id (l : list (N * V)) : (forall x, In x (mkeys l) -> id <= x) -> mfrom id l = l.
Proof.
  intros H. apply filter_all. intros [x v] Hx. apply N.leb_le, H. unfold mkeys. change x with (fst (x, v)).
  apply in_map, Hx.
Qed.

Lemma since d id x : d_last d = Some id -> not_outdated d x = true -> id <= x.
Proof. unfold not_outdated. intros ->. apply N.leb_le. Qed.

Lemma drop_again d id : core [] d -> ge [] d -> calm d -> prompt d -> d_last d = Some id ->
  drop_outdated m d id = Ok d.
Proof.
  intros C G Q P La. unfold drop_outdated.
  assert (E : with_last d (Some id) = d) by (destruct d; cbn in *; subst; reflexivity). rewrite E. clear E.
  rewrite drop_repairs_none.
  2: { intros r rep Hr. destruct Q as (l & Hl & St).
       assert (Two : (2 <= length (unknowns (r, rep)))%nat).
       { apply stair_two with l; [exact St|]. apply Permutation_in with (d_repairs d); [symmetry; exact Hl | exact Hr]. }
       cbn in Two. assert (Hn : dr_ids rep <> []).
       { intros E. unfold unknowns in Two. cbn [snd] in Two. rewrite E in Two. cbn in Two. lia. }
       split; [exact Hn|]. destruct (dr_ids rep) as [|x ids] eqn:Ei; [congruence|]. cbn [hd].
       apply (since d); [exact La|]. apply G. right.
       apply (c_live _ _ _ _ C r rep x); [apply in_mfind; [apply C | exact Hr]|]. rewrite Ei. left. reflexivity. }
  cbn [bind].
  assert (E : (if d_in_order d
      then d <- deliver_outdated (before id (d_ordered d)) d;; flush m (if d_first d <? id then with_first d id else d)
      else Ok d) = Ok d).
  { destruct (d_in_order d) eqn:Eo; [|reflexivity]. destruct (P Eo) as [[R Nx] No].
    pose proof (since d id _ La No) as Hf.
    assert (Eb : before id (d_ordered d) = []).
    { apply filter_none. intros x Hx. apply N.ltb_ge. pose proof (y_after _ _ R x Hx). lia. }
    rewrite Eb. cbn [deliver_outdated bind]. apply N.ltb_ge in Hf. rewrite Hf. unfold flush.
    apply smem_false in Nx. rewrite Nx. reflexivity. }
  rewrite E. cbn [bind]. rewrite mfrom_all.
  2: { intros x Hx. apply (since d); [exact La|]. apply G. left. left. exact Hx. }
  cbv zeta. rewrite mfrom_all.
  2: { intros x Hx. apply (since d); [exact La|]. apply G. right. exact Hx. }
  destruct d; reflexivity.
Qed.

(** ** A decoding that failed fails again *)

Definition shape (reps : list (N * drepair)) : list (N * list N) := map (fun p => (fst p, dr_ids (snd p))) reps.

Lemma shape_coefficients reps reps' ms : shape reps = shape reps' -> coefficients f reps ms = coefficients f reps' ms.
Proof.
  intros H. unfold coefficients. f_equal. revert reps' H.
  induction reps as [|[r rep] reps IH]; intros [|[r' rep'] reps'] H; try discriminate; [reflexivity|].
  cbn [shape map fst snd] in H. injection H as -> E H. cbn [map]. rewrite E. f_equal. apply IH, H.
Qed.

Lemma attempt_again d1 d2 d' : attempt_full_decoding m d1 = Ok d' -> d_missing d' <> [] -> d' <> d1 ->
  d_field d1 = f -> d_field d2 = f -> shape (d_repairs d2) = shape (d_repairs d1) ->
  mkeys (d_missing d2) = mkeys (d_missing d1) ->
  exists k, failed_decoding d1 k = Ok d' /\ attempt_full_decoding m d2 = failed_decoding d2 k.
Proof.
  intros H Hm Hd F1 F2 Hs Hk. unfold attempt_full_decoding in *. cbv zeta in *.
  assert (Lr : length (d_repairs d2) = length (d_repairs d1)).
  { apply (f_equal (@length _)) in Hs. unfold shape in Hs. rewrite !map_length in Hs. exact Hs. }
  assert (Lm : length (d_missing d2) = length (d_missing d1)) by (rewrite <- !mkeys_length, Hk; reflexivity).
  rewrite Lr, Lm, F1, F2, Hk in *. rewrite (shape_coefficients _ _ _ Hs).
  destruct (_ || _); [congruence|]. destruct (Nat.ltb _ _); [congruence|].
  apply bind_ok in H. destruct H as (u1 & A1 & H). apply bind_ok in H. destruct H as (u2 & A2 & H).
  rewrite A1, A2. cbn [bind].
  destruct (negb _); [discriminate|]. apply bind_ok in H. destruct H as (r & A3 & H). rewrite A3. cbn [bind].
  destruct r as [k|[a b]].
  - exists k. split; [exact H | reflexivity].
  - exfalso. apply bind_ok in H. destruct H as (e & _ & H). apply Hm. injection H as <-. reflexivity.
Qed.

Lemma missing_ext d d' : core [] d -> core [] d' -> d_repairs d' = d_repairs d ->
  (forall x, miss d' x <-> miss d x) -> d_missing d' = d_missing d.
Proof.
  intros C C' Er Hm. apply msorted_ext; [apply C' | apply C|]. intros x.
  destruct (mfind x (d_missing d')) as [l'|] eqn:E'; destruct (mfind x (d_missing d)) as [l|] eqn:E.
  - f_equal. destruct (c_links _ _ _ _ C x l E) as [S1 L1]. destruct (c_links _ _ _ _ C' x l' E') as [S2 L2].
    apply ssorted_ext; try assumption. intros r. rewrite L1, L2, Er. reflexivity.
  - exfalso. apply mfind_none in E. apply E, Hm, mfind_keys. eauto.
  - exfalso. apply mfind_none in E'. apply E', Hm, mfind_keys. eauto.
  - reflexivity.
Qed.

Lemma merase_mset_new {V} k (v : V) l : msorted l -> ~ In k (mkeys l) -> merase k (mset k v l) = l.
Proof.
  intros H Hk. apply msorted_ext; [apply merase_sorted, mset_sorted, H | exact H|]. intros x.
  rewrite mfind_merase by (apply mset_sorted, H). rewrite mfind_mset.
  destruct (N.eqb_spec x k) as [->|]; [symmetry; apply mfind_none, Hk | reflexivity].
Qed.

Lemma shape_mset k r1 r2 l : dr_ids r2 = dr_ids r1 -> shape (mset k r2 l) = shape (mset k r1 l).
Proof.
  intros E. induction l as [|[x v] l IH]; cbn [mset shape map fst snd].
  - rewrite E. reflexivity.
  - destruct (k <? x); [cbn [map fst snd]; rewrite E; reflexivity|].
    destruct (k =? x); cbn [map fst snd]; [rewrite E; reflexivity|]. unfold shape in IH. rewrite IH. reflexivity.
Qed.

(** ** The repair *)

(** Nothing but a counter has changed. *)
Definition counted (d d' : ddec) : Prop :=
  d' = d \/ d' = with_useless d (d_useless d + 1) \/ d' = with_failed d (d_failed d + 1).

Lemma hd_least r x : ssorted (dr_ids r) -> In x (dr_ids r) -> hd 0 (dr_ids r) <= x.
Proof.
  intros H Hx. destruct (dr_ids r) as [|y l]; [destruct Hx|]. cbn [hd]. apply ssorted_cons_inv in H.
  destruct Hx as [<-|Hx]; [lia|]. destruct H as [_ H]. specialize (H x Hx). lia.
Qed.

(** What the first arrival left: all data are known, or the repair is stored, or
    it was given up. *)
Lemma after_first d0 d' r : (forall x, In x (dr_ids r) -> settled [] d0 x -> In x (mkeys (d_sources d'))) ->
  core [] d0 -> ge [] d0 -> logs N.lt [] d0 ->
  repaired f S m lim d0 d' r ->
  (forall x, In x (dr_ids r) -> In x (mkeys (d_sources d')))
  \/ In (dr_id r) (mkeys (d_repairs d'))
  \/ exists d1 r1, linked f S lim d0 r d1 r1 /\ ((2 <= length (dr_ids r1))%nat \/ dr_ids r1 = [])
     /\ attempt_full_decoding m d1 = Ok d'
     /\ d' = with_failed (with_repairs (with_missing d1 (unlink_or_create (dr_id r) (dr_ids r1) (d_missing d1)))
           (merase (dr_id r) (d_repairs d1))) (d_failed d1 + 1).
Proof.
  intros Hset C0 G0 L0 [H ->|x H1 H2 H3 H4 H5|d1 r1 Lk Two At].
  - left. intros x Hx. destruct (H x Hx) as [A|[]]. exact A.
  - left. intros y Hy. destruct (H1 y Hy) as [->|A]; [exact H4|]. apply Hset; [exact Hy | left; exact A].
  - pose proof Lk as [C1 G1 (R & M & E1) Hr1 Hreps Hid1 Gn1 Hids Hm1].
    assert (L1 : logs N.lt [] d1).
    { rewrite E1. destruct L0 as [A1 A2 A3 A4]. constructor; try assumption. intros Ho. destruct (A4 Ho).
      constructor; assumption. }
    pose proof (attempt_spec f S m lim Hlim0 HS d1 d' C1 G1 L1 At) as Sp.
    destruct Sp as [->|r2 rep2 F2 Le ->|d2 Le Dc ->].
    + right. left. apply mfind_keys. eauto.
    + destruct (N.eq_dec r2 (dr_id r)) as [->|Ne].
      * right. right. exists d1, r1. assert (rep2 = r1) by congruence. subst rep2. auto.
      * right. left. cbn [with_failed with_repairs d_repairs]. apply merase_keys; [apply C1|].
        split; [|congruence]. apply mfind_keys. eauto.
    + left. intros x Hx. cbn [with_missing with_repairs count_decoded with_decoded d_sources].
      destruct (in_dec N.eq_dec x (mkeys (d_sources d0))) as [Kn|Un].
      * assert (A : K [] d2 x) by (apply (q_known _ _ _ _ _ Dc); left; left; rewrite E1; exact Kn).
        destruct A as [A|[]]. exact A.
      * assert (A : K [] d2 x).
        { apply (q_known _ _ _ _ _ Dc). right. apply Hm1. right. apply Hids. split; [exact Hx|]. intros [A|[]]. contradiction. }
        destruct A as [A|[]]. exact A.
Qed.

Theorem repair_again d r d' : inv d -> calm d -> prompt d -> acceptable d r -> dr_ids r <> [] ->
  recv_repair m d r = Ok d' -> acceptable d' r ->
  exists d'', recv_repair m d' r = Ok d'' /\ counted d' d''.
Proof.
  intros I Q P A Hne H A'.
  destruct (recv_repair_spec f S m lim Hlim0 HS d r d' I A H) as (I' & V & Same & Other).
  destruct (repair_progress f S m lim Hlim0 HS d r I Q A Hne) as (d'0 & E'0 & Q'). assert (d'0 = d') by congruence. subst d'0.
  destruct (repair_prompt f S m lim Hlim0 d r d' I Q P A H) as [P' _].
  destruct (repair_progress f S m lim Hlim0 HS d' r I' Q' A' Hne) as (d'' & E'' & Q'').
  exists d''. split; [exact E''|].
  destruct (recv_repair_spec f S m lim Hlim0 HS d' r d'' I' A' E'') as (I'' & V' & Same' & Other').
  destruct (outdated d (last (dr_ids r) 0)) eqn:Eo.
  { left. assert (d' = d) by (apply Same; auto). subst d'. congruence. }
  destruct (in_dec N.eq_dec (dr_id r) (mkeys (d_repairs d))) as [Hin|Hin].
  { left. assert (d' = d) by (apply Same; auto). subst d'. congruence. }
  destruct (outdated d' (last (dr_ids r) 0)) eqn:Eo'; [left; apply Same'; auto|].
  destruct (in_dec N.eq_dec (dr_id r) (mkeys (d_repairs d'))) as [Hin'|Hin']; [left; apply Same'; auto|].
  destruct (Other eq_refl Hin) as (Ev & La & d0 & D & Ed & Rp). clear Same Other Same'.
  destruct (Other' eq_refl Hin') as (Ev' & La' & d0' & D' & Ed' & Rp'). clear Other'.
  pose proof I' as [C' G' L' _]. pose proof I'' as [C'' G'' L'' _].
  rewrite (drop_again d' _ C' G' Q' P' La) in Ed'. injection Ed' as <-.
  pose proof (p_core _ _ _ _ _ _ D) as C0. pose proof (p_ge _ _ _ _ _ _ D) as G0. pose proof (p_logs _ _ _ _ _ _ D) as L0.
  assert (Srt : ssorted (dr_ids r)) by apply A.
  assert (Keep : forall x, In x (dr_ids r) -> ~ outdated d' x = true).
  { intros x Hx. unfold outdated, not_outdated. rewrite La. pose proof (hd_least r x Srt Hx) as Hh.
    apply N.leb_le in Hh. rewrite Hh. discriminate. }
  assert (Cov : (forall x, In x (dr_ids r) -> In x (mkeys (d_sources d'))) -> counted d' d'').
  { intros Hall. right. left. unfold recv_repair in E''. apply bind_ok in E''. destruct E'' as (u & _ & E'').
    destruct (dr_ids r) as [|first ids] eqn:Eids; [discriminate|]. rewrite <- Eids in *.
    assert (Ef : hd 0 (dr_ids r) = first) by (rewrite Eids; reflexivity). rewrite Eo' in E''.
    apply mmem_false in Hin'. rewrite Hin' in E''. rewrite <- Ef, (drop_again d' _ C' G' Q' P' La) in E''. cbn [bind] in E''.
    assert (Fa : forallb (fun id => mmem id (d_sources d')) (dr_ids r) = true).
    { apply forallb_forall. intros x Hx. apply mmem_spec, Hall, Hx. }
    rewrite Fa in E''. congruence. }
  destruct (after_first d0 d' r) as [Hall|[Hst|(d1 & r1 & Lk & Two & At & Ed1)]]; try assumption.
  { intros x Hx St. assert (St' : settled [] d' x).
    { apply (e_settled _ _ _ _ V). destruct St as [[Kn|[]]|Ou].
      - left. left. rewrite (p_sources _ _ _ _ _ _ D) in Kn. apply mfrom_keys in Kn. apply Kn.
      - exfalso. unfold outdated, not_outdated in Ou. rewrite (p_last _ _ _ _ _ _ D) in Ou.
        pose proof (hd_least r x Srt Hx) as Hh. apply N.leb_le in Hh. rewrite Hh in Ou. discriminate. }
    destruct St' as [[Kn|[]]|Ou]; [exact Kn | destruct (Keep x Hx Ou)]. }
  { apply Cov, Hall. }
  { contradiction. }
  pose proof Lk as [C1 G1 (R & M & E1) Hr1 Hreps Hid1 Gn1 Hids Hm1].
  assert (Hd0 : ~ In (dr_id r) (mkeys (d_repairs d0))).
  { intros Hx. apply mfind_keys in Hx. destruct Hx as [v Hv]. apply (p_repairs _ _ _ _ _ _ D) in Hv. apply Hin, mfind_keys.
    exists v. apply Hv. }
  assert (Er' : d_repairs d' = d_repairs d0).
  { rewrite Ed1. cbn [with_failed with_repairs d_repairs]. rewrite Hreps. apply merase_mset_new; [apply C0 | exact Hd0]. }
  assert (Es' : d_sources d' = d_sources d0) by (rewrite Ed1, E1; reflexivity).
  assert (Sk : forall x, K [] d' x <-> K [] d0 x) by (intros x; unfold K; rewrite Es'; reflexivity).
  destruct Two as [Two|Two].
  2: { apply Cov. intros x Hx. destruct (in_dec N.eq_dec x (mkeys (d_sources d'))) as [Kn|Un]; [exact Kn|]. exfalso.
       assert (Hx1 : In x (dr_ids r1)) by (apply Hids; split; [exact Hx|]; rewrite <- Sk; intros [Kn|[]]; contradiction).
       rewrite Two in Hx1. destruct Hx1. }
  clear Cov. destruct Rp' as [_ Eq|x Hall Hx Nx _ _|d2 r2 Lk2 Two2 At2].
  { right. left. exact Eq. }
  { exfalso. assert (Hx1 : In x (dr_ids r1)) by (apply Hids; split; [exact Hx|]; rewrite <- Sk; exact Nx).
    assert (Nd : NoDup (dr_ids r1)) by (apply ssorted_NoDup, Gn1).
    assert (One : forall y, In y (dr_ids r1) -> y = x).
    { intros y Hy. apply Hids in Hy. destruct Hy as [Hy Ny]. destruct (Hall y Hy) as [->|Ky]; [reflexivity|].
      exfalso. apply Ny, Sk, Ky. }
    destruct (dr_ids r1) as [|a [|b l]]; [cbn in Two; lia | cbn in Two; lia|].
    pose proof (One a (or_introl eq_refl)). pose proof (One b (or_intror (or_introl eq_refl))). subst a b.
    inversion Nd as [|? ? N1 _]. apply N1. left. reflexivity. }
  pose proof Lk2 as [C2 G2 (R2 & M2 & E2) Hr2 Hreps2 Hid2 Gn2 Hids2 Hm2].
  assert (Ids : dr_ids r2 = dr_ids r1).
  { apply ssorted_ext; [apply Gn2 | apply Gn1|]. intros x. rewrite Hids, Hids2, Sk. reflexivity. }
  assert (Sh : shape (d_repairs d2) = shape (d_repairs d1)).
  { rewrite Hreps, Hreps2, Er'. apply shape_mset. exact Ids. }
  assert (Miss' : forall x, miss d' x <-> miss d1 x).
  { intros x. split.
    - intros Hx. destruct (e_missing _ _ _ _ V x Hx) as [Hm|Hi].
      + apply Hm1. left. apply (p_missing _ _ _ _ _ _ D). split; [exact Hm|]. apply (since d'); [exact La|].
        apply G'. right. exact Hx.
      + apply Hm1. right. apply Hids. split; [exact Hi|]. rewrite <- Sk. apply (c_disj _ _ _ _ C'), Hx.
    - intros Hx. apply Hm1 in Hx. destruct Hx as [Hx|Hx].
      + apply (p_missing _ _ _ _ _ _ D) in Hx. destruct Hx as [Hx Hge]. destruct (e_keep _ _ _ _ V x Hx) as [Hk|[Hk|Hk]].
        * exact Hk.
        * exfalso. apply Sk in Hk. apply (c_disj _ _ _ _ C0 x); [|exact Hk]. apply (p_missing _ _ _ _ _ _ D). auto.
        * exfalso. unfold outdated, not_outdated in Hk. rewrite La in Hk. apply N.leb_le in Hge. rewrite Hge in Hk. discriminate.
      + apply Hids in Hx. destruct Hx as [Hx Nx]. destruct (Ev x Hx) as [Hk|[Hk|Hk]].
        * exact Hk.
        * exfalso. apply Nx, Sk, Hk.
        * destruct (Keep x Hx Hk). }
  assert (Mk : mkeys (d_missing d2) = mkeys (d_missing d1)).
  { apply ssorted_ext; [apply C2 | apply C1|]. intros x. change (miss d2 x <-> miss d1 x). rewrite Hm2, Ids, Miss'.
    split; [|tauto]. intros [Hx|Hx]; [exact Hx|]. apply Hm1. right. exact Hx. }
  destruct (attempt_again d1 d2 d' At) as (k & F1 & F2).
  { intros E. destruct (dr_ids r1) as [|x l] eqn:Er1; [cbn in Two; lia|]. assert (Hx : miss d1 x).
    { apply Hm1. right. left. reflexivity. }
    apply Miss' in Hx. unfold miss in Hx. rewrite E in Hx. destruct Hx. }
  { intros ->. apply Hin', mfind_keys. eauto. }
  { apply C1. } { apply C2. } { exact Sh. } { exact Mk. }
  rewrite F2 in At2. unfold failed_decoding in F1, At2. cbn [with_failed d_repairs] in F1, At2.
  destruct (nth_error (d_repairs d1) k) as [[a rep]|] eqn:N1; [|discriminate].
  assert (N2 : exists rep2, nth_error (d_repairs d2) k = Some (a, rep2)).
  { apply (f_equal (fun l => nth_error l k)) in Sh. unfold shape in Sh. rewrite !nth_error_map, N1 in Sh.
    destruct (nth_error (d_repairs d2) k) as [[b rep2]|]; [|discriminate]. cbn in Sh. injection Sh as <- _. eauto. }
  destruct N2 as [rep2 N2]. rewrite N2 in At2. cbv zeta in At2, F1.
  assert (a = dr_id r).
  { destruct (N.eq_dec a (dr_id r)) as [E|Ne]; [exact E|]. exfalso. apply Hin'. injection F1 as <-.
    cbn [with_repairs d_repairs]. apply merase_keys; [apply C1|]. split; [apply mfind_keys; eauto | congruence]. }
  subst a. right. right.
  assert (Er'' : d_repairs d'' = d_repairs d').
  { injection At2 as <-. cbn [with_repairs d_repairs]. rewrite Hreps2. apply merase_mset_new; [apply C' | exact Hin']. }
  assert (Es'' : d_sources d'' = d_sources d') by (injection At2 as <-; rewrite E2; reflexivity).
  assert (Em'' : d_missing d'' = d_missing d').
  { apply missing_ext; try assumption. intros x. split.
    - intros Hx. destruct (e_missing _ _ _ _ V' x Hx) as [Hm|Hi]; [exact Hm|].
      destruct (Ev x Hi) as [Hk|[[Hk|[]]|Hk]]; [exact Hk | | destruct (Keep x Hi Hk)].
      exfalso. apply (c_disj _ _ _ _ C'' x Hx). left. rewrite Es''. exact Hk.
    - intros Hx. destruct (e_keep _ _ _ _ V' x Hx) as [Hk|[[Hk|[]]|Hk]]; [exact Hk | |].
      + exfalso. apply (c_disj _ _ _ _ C' x Hx). left. rewrite <- Es''. exact Hk.
      + exfalso. destruct (G' x (or_intror Hx)) as [Hn _]. unfold outdated, not_outdated in Hk, Hn.
        rewrite La' in Hk. rewrite La in Hn. rewrite Hn in Hk. discriminate. }
  assert (Ex : exists M3 R3, d'' = with_failed (with_repairs (with_missing d' M3) R3) (d_failed d' + 1)).
  { injection At2 as <-. rewrite E2. eexists. eexists. reflexivity. }
  destruct Ex as (M3 & R3 & Ex). rewrite Ex in Er'', Em''. cbn in Er'', Em''. subst M3 R3. rewrite Ex. destruct d'; reflexivity.
Qed.

End Repeat.
