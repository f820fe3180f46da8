(** * Invariant of the decoding algorithm

    Arrivals are genuine, sources come in any order, repairs do not overtake each
    other. [S] gives the datum of each identifier. All statements are about
    calls that return: the invariant does not exclude faults. *)
From Coq Require Import NArith PeanoNat List Bool Lia Permutation.
From Verif Require Import Outcome GF GFField GFRegion Linear Containers
  ContainersFacts Packetizer Matrix MatrixFacts DetailDecoder DecoderAlgebra.
Import ListNotations.
Open Scope N_scope.

Definition LIM : N := 4294967295.

Lemma outdated_true d x : outdated d x = true <-> not_outdated d x = false.
Proof. unfold outdated. destruct (not_outdated d x); cbn; intuition congruence. Qed.

Lemma outdated_false d x : outdated d x = false <-> not_outdated d x = true.
Proof. unfold outdated. destruct (not_outdated d x); cbn; intuition congruence. Qed.

(** Changes of the ordered sources, of the first missing source and of the log. *)
Definition delivery (d : ddec) (fi : N) (od : list N) (lg : list event) : ddec :=
  {| d_field := d_field d; d_in_order := d_in_order d; d_first := fi; d_ordered := od;
     d_repairs := d_repairs d; d_sources := d_sources d; d_last := d_last d;
     d_missing := d_missing d; d_useless := d_useless d; d_failed := d_failed d;
     d_decoded := d_decoded d; d_log := lg |}.

Lemma NoDup_app_one {A} (l : list A) x : NoDup l -> ~ In x l -> NoDup (l ++ [x]).
Proof.
  intros H1 H2. apply (Permutation_NoDup (Permutation_cons_append l x)).
  constructor; assumption.
Qed.

Section Inv.
Variable f : field.
Variable S : N -> list N.
Variable m : mode.
(** All identifiers are below [lim]. *)
Variable lim : N.
Hypothesis Hlim0 : lim <= LIM.
Hypothesis HS : forall x, good_data f (S x).

(** Known identifiers; [P] are the ones being added. *)
Definition K (P : list N) (d : ddec) (x : N) : Prop := In x (mkeys (d_sources d)) \/ In x P.

Definition miss (d : ddec) (x : N) : Prop := In x (mkeys (d_missing d)).

Definition sgen (d : ddec) : Prop :=
  msorted (d_sources d) /\ forall x data, mfind x (d_sources d) = Some data -> data = S x.

Record core (P : list N) (d : ddec) : Prop := {
  c_field : d_field d = f;
  c_sources : sgen d;
  c_rsorted : msorted (d_repairs d);
  c_repairs : forall r rep, mfind r (d_repairs d) = Some rep -> dr_id rep = r /\ genuine f S rep;
  c_msorted : msorted (d_missing d);
  c_links : forall x l, mfind x (d_missing d) = Some l ->
    ssorted l /\ forall r, In r l <-> exists rep, mfind r (d_repairs d) = Some rep /\ In x (dr_ids rep);
  c_live : forall r rep x, mfind r (d_repairs d) = Some rep -> In x (dr_ids rep) -> miss d x;
  c_disj : forall x, miss d x -> ~ K P d x;
  c_pend : forall x, In x P -> ~ In x (mkeys (d_sources d));
  (* a missing source that a repair does not encode is newer than the repair *)
  c_newer : forall r rep x y, mfind r (d_repairs d) = Some rep -> miss d y ->
    ~ In y (dr_ids rep) -> In x (dr_ids rep) -> x < y
}.

Definition ge (P : list N) (d : ddec) : Prop :=
  forall x, K P d x \/ miss d x -> not_outdated d x = true /\ x < lim.

Record order (lt : N -> N -> Prop) (P : list N) (d : ddec) : Prop := {
  o_sorted : ssorted (d_ordered d);
  o_known : forall x, In x (d_ordered d) -> In x (mkeys (d_sources d));
  o_after : forall x, In x (d_ordered d) -> lt (d_first d) x;
  o_log : ssorted (map v_id (d_log d));
  o_log_lt : forall v, In v (d_log d) -> v_id v < d_first d;
  o_gap : forall y, not_outdated d y = true -> y < d_first d -> K P d y;
  o_lim : d_first d <= lim
}.

Record logs (lt : N -> N -> Prop) (P : list N) (d : ddec) : Prop := {
  l_gen : forall v, In v (d_log d) -> v_data v = S (v_id v) /\ v_id v < lim;
  l_settled : forall v x, In v (d_log d) -> x = v_id v \/ In x (v_known v) ->
    K P d x \/ outdated d x = true;
  l_nodup : NoDup (map v_id (d_log d));
  l_order : d_in_order d = true -> order lt P d
}.

(** ** Flushing *)

Lemma ssorted_snoc l x : ssorted l -> (forall y, In y l -> y < x) -> ssorted (l ++ [x]).
Proof.
  intros H1 H2. apply ssorted_app; [exact H1 | apply ssorted_cons; [apply ssorted_nil | contradiction]|].
  intros a b Ha [<-|[]]. apply H2, Ha.
Qed.

Lemma sgen_find d x : sgen d -> In x (mkeys (d_sources d)) -> mfind x (d_sources d) = Some (S x).
Proof.
  intros [_ H] Hx. apply mfind_keys in Hx. destruct Hx as [v Hv]. rewrite (H _ _ Hv) in Hv. exact Hv.
Qed.

Lemma u32_succ x : x < lim -> u32 (x + 1) = x + 1.
Proof. intros H. unfold u32. apply N.mod_small. unfold LIM in Hlim0. lia. Qed.

Lemma log_snoc d P id : d_in_order d = true -> order N.le P d -> logs N.le P d ->
  In id (mkeys (d_sources d)) \/ In id P -> d_first d <= id -> id < lim ->
  forall od fi, ssorted od -> (forall x, In x od -> In x (d_ordered d) /\ fi <= x) ->
  id < fi -> fi <= lim -> (forall y, not_outdated d y = true -> y < fi -> K P d y) ->
  logs N.le P (delivery d fi od
    (d_log d ++ [{| v_id := id; v_data := S id; v_known := mkeys (d_sources d) |}])).
Proof.
  intros Hin O L Hid Hfi Hlim od fi Hs Hod Hlt Hfl Hgap.
  assert (Ho : order N.le P (delivery d fi od
    (d_log d ++ [{| v_id := id; v_data := S id; v_known := mkeys (d_sources d) |}]))).
  { constructor; cbn [delivery d_ordered d_sources d_first d_log d_last].
    - exact Hs.
    - intros x Hx. apply (o_known _ _ _ O), Hod, Hx.
    - intros x Hx. apply Hod, Hx.
    - rewrite map_app. cbn [map v_id]. apply ssorted_snoc; [apply O|].
      intros y Hy. apply in_map_iff in Hy. destruct Hy as [v [<- Hv]].
      pose proof (o_log_lt _ _ _ O v Hv). lia.
    - intros v Hv. apply in_app_iff in Hv. destruct Hv as [Hv|[<-|[]]].
      + pose proof (o_log_lt _ _ _ O v Hv). lia.
      + exact Hlt.
    - exact Hgap.
    - exact Hfl. }
  constructor.
  - cbn [delivery d_log]. intros v Hv. apply in_app_iff in Hv. destruct Hv as [Hv|[<-|[]]].
    + apply (l_gen _ _ _ L), Hv.
    + split; [reflexivity | exact Hlim].
  - cbn [delivery d_log d_sources]. intros v x Hv Hx. apply in_app_iff in Hv. destruct Hv as [Hv|[<-|[]]].
    + apply (l_settled _ _ _ L v x Hv Hx).
    + left. destruct Hx as [->|Hx]; [exact Hid | left; exact Hx].
  - apply ssorted_NoDup, Ho.
  - intros _. exact Ho.
Qed.

Lemma flush_loop_spec P l : forall d,
  d_in_order d = true -> sgen d -> (forall x, K P d x -> x < lim) -> logs N.le P d ->
  d_ordered d = l -> hd (d_first d) l = d_first d ->
  exists fi od lg, flush_loop m l d = Ok (delivery d fi od lg)
  /\ d_first d <= fi /\ logs N.lt P (delivery d fi od lg).
Proof.
  induction l as [|id l IH]; intros d Hin Hg Hb L Hl Hh.
  - cbn [flush_loop]. exists (d_first d), (d_ordered d), (d_log d).
    replace (delivery d (d_first d) (d_ordered d) (d_log d)) with d by (destruct d; reflexivity).
    split; [reflexivity|]. split; [lia|].
    destruct L as [L1 L2 L3 L4]. constructor; try assumption.
    intros H. destruct (L4 H) as [O1 O2 O3 O4 O5 O6 O7]. constructor; try assumption.
    rewrite Hl. intros x [].
  - cbn [hd] in Hh. subst id. cbn [flush_loop].
    rewrite N.eqb_refl. replace (assert_ m true) with (Ok tt) by (destruct m; reflexivity).
    cbn [bind]. pose proof (l_order _ _ _ L Hin) as O.
    assert (Hk : In (d_first d) (mkeys (d_sources d)))
      by (apply (o_known _ _ _ O); rewrite Hl; left; reflexivity).
    unfold callback_ordered. rewrite (sgen_find d _ Hg Hk). cbn [bind].
    assert (Hlim : d_first d < lim) by (apply Hb; left; exact Hk).
    pose proof (o_sorted _ _ _ O) as Hs. rewrite Hl in Hs.
    apply ssorted_cons_inv in Hs. destruct Hs as [Hs Hlt].
    set (d1 := with_first _ _).
    assert (E1 : d1 = delivery d (d_first d + 1) l
        (d_log d ++ [{| v_id := d_first d; v_data := S (d_first d); v_known := mkeys (d_sources d) |}])).
    { unfold d1, with_first, with_ordered, callback, delivery.
      cbn [d_ordered d_first d_log d_field d_in_order d_repairs d_sources d_last d_missing d_useless d_failed d_decoded].
      rewrite Hl. cbn [serase]. rewrite N.eqb_refl, u32_succ by exact Hlim. reflexivity. }
    assert (L1 : logs N.le P d1).
    { rewrite E1. apply log_snoc; try assumption; try lia.
      - left. exact Hk.
      - intros x Hx. rewrite Hl. split; [right; exact Hx|]. specialize (Hlt x Hx). lia.
      - intros y Hy Hy2. destruct (N.eq_dec y (d_first d)) as [->|Hne]; [left; exact Hk|].
        apply (o_gap _ _ _ O); [exact Hy | lia]. }
    destruct l as [|id' l'].
    + exists (d_first d1), (d_ordered d1), (d_log d1).
      rewrite E1. cbn [delivery d_first d_ordered d_log].
      split; [reflexivity|]. split; [lia|].
      rewrite E1 in L1. destruct L1 as [A1 A2 A3 A4]. constructor; try assumption.
      intros H. destruct (A4 H) as [O1 O2 O3 O4 O5 O6 O7]. constructor; try assumption.
      cbn [delivery d_ordered]. intros x [].
    + assert (F1 : d_first d1 = d_first d + 1) by (rewrite E1; reflexivity).
      destruct (d_first d1 <? id') eqn:E.
      * apply N.ltb_lt in E. rewrite F1 in E.
        exists (d_first d1), (d_ordered d1), (d_log d1).
        rewrite E1. cbn [delivery d_first d_ordered d_log].
        split; [reflexivity|]. split; [lia|].
        rewrite E1 in L1. destruct L1 as [A1 A2 A3 A4]. constructor; try assumption.
        intros H. destruct (A4 H) as [O1 O2 O3 O4 O5 O6 O7]. constructor; try assumption.
        cbn [delivery d_ordered d_first]. intros x [<-|Hx]; [exact E|].
        apply ssorted_cons_inv in Hs. destruct Hs as [_ Hs]. specialize (Hs x Hx). lia.
      * apply N.ltb_ge in E. specialize (Hlt id' (or_introl eq_refl)).
        destruct (IH d1) as (fi & od & lg & R1 & R2 & R3).
        -- rewrite E1. exact Hin.
        -- rewrite E1. exact Hg.
        -- rewrite E1. exact Hb.
        -- exact L1.
        -- rewrite E1. reflexivity.
        -- cbn [hd]. rewrite F1 in *. lia.
        -- exists fi, od, lg. rewrite E1 in R1, R2, R3 |- *.
           cbn [delivery d_first] in R2.
           split; [exact R1|]. split; [lia | exact R3].
Qed.

Lemma flush_spec P d :
  d_in_order d = true -> sgen d -> (forall x, K P d x -> x < lim) -> logs N.le P d ->
  exists fi od lg, flush m d = Ok (delivery d fi od lg)
  /\ d_first d <= fi /\ logs N.lt P (delivery d fi od lg).
Proof.
  intros Hin Hg Hb L. unfold flush. pose proof (l_order _ _ _ L Hin) as O.
  destruct (smem (d_first d) (d_ordered d)) eqn:E.
  - apply smem_spec in E.
    assert (Hf' : from (d_first d) (d_ordered d) = d_ordered d).
    { unfold from. pose proof (o_after _ _ _ O) as Ha. clear - Ha.
      induction (d_ordered d) as [|x l IH]; [reflexivity|]. cbn [filter].
      replace (d_first d <=? x) with true
        by (symmetry; apply N.leb_le, Ha; left; reflexivity).
      f_equal. apply IH. intros y Hy. apply Ha. right. exact Hy. }
    rewrite Hf'. apply flush_loop_spec; try assumption; [reflexivity|].
    pose proof (o_sorted _ _ _ O) as Hs. pose proof (o_after _ _ _ O) as Ha.
    destruct (d_ordered d) as [|x l]; [contradiction|]. cbn [hd].
    destruct E as [E|E]; [exact E|].
    apply ssorted_cons_inv in Hs. destruct Hs as [_ Hs]. specialize (Hs _ E).
    specialize (Ha x (or_introl eq_refl)). lia.
  - apply smem_false in E. exists (d_first d), (d_ordered d), (d_log d).
    replace (delivery d (d_first d) (d_ordered d) (d_log d)) with d by (destruct d; reflexivity).
    split; [reflexivity|]. split; [lia|].
    destruct L as [L1 L2 L3 L4]. constructor; try assumption.
    intros H. destruct (L4 H) as [O1 O2 O3 O4 O5 O6 O7]. constructor; try assumption.
    intros x Hx. specialize (O3 x Hx). destruct (N.eq_dec x (d_first d)) as [->|Hne]; [contradiction | lia].
Qed.

(** ** Announcing a new source *)

Definition fresh (P : list N) (d : ddec) (x : N) : Prop :=
  ~ K P d x /\ not_outdated d x = true /\ x < lim.

Lemma logs_weaken P d : logs N.lt P d -> logs N.le P d.
Proof.
  intros [L1 L2 L3 L4]. constructor; try assumption.
  intros H. destruct (L4 H) as [O1 O2 O3 O4 O5 O6 O7]. constructor; try assumption.
  intros x Hx. specialize (O3 x Hx). lia.
Qed.

(** The identifier becomes known: what was known stays known. *)
Lemma logs_more lt P P' d : (forall x, In x P -> In x P') -> logs lt P d -> logs lt P' d.
Proof.
  intros Hi [L1 L2 L3 L4]. constructor; try assumption.
  - intros v x Hv Hx. destruct (L2 v x Hv Hx) as [[H|H]|H].
    + left; left; exact H.
    + left; right; apply Hi, H.
    + right; exact H.
  - intros H. destruct (L4 H) as [O1 O2 O3 O4 O5 O6 O7]. constructor; try assumption.
    intros y Hy Hy2. destruct (O6 y Hy Hy2) as [A|A]; [left; exact A | right; apply Hi, A].
Qed.

Lemma fresh_not_in_log lt P d x v : logs lt P d -> fresh P d x -> In v (d_log d) -> v_id v <> x.
Proof.
  intros L [H1 [H2 _]] Hv <-. destruct (l_settled _ _ _ L v _ Hv (or_introl eq_refl)) as [H|H]; [contradiction|].
  apply outdated_true in H. congruence.
Qed.

Lemma fresh_ge_first lt P d x : logs lt P d -> d_in_order d = true -> fresh P d x -> d_first d <= x.
Proof.
  intros L Hin [H1 [H2 _]]. apply N.le_ngt. intros Hlt.
  apply H1, (o_gap _ _ _ (l_order _ _ _ L Hin)); assumption.
Qed.

Lemma announce_spec P d x : sgen d -> (forall y, K P d y -> y < lim) -> logs N.lt P d ->
  fresh P d x ->
  exists fi od lg, announce m d x (S x) = Ok (delivery d fi od lg)
  /\ logs N.lt (x :: P) (delivery d fi od lg).
Proof.
  intros Hg Hb L Hfr. unfold announce. destruct (d_in_order d) eqn:Hin; cbn [negb].
  - destruct (x =? d_first d) eqn:E.
    + apply N.eqb_eq in E. subst x.
      set (d0 := with_first _ _).
      assert (E0 : d0 = delivery d (d_first d + 1) (d_ordered d)
        (d_log d ++ [{| v_id := d_first d; v_data := S (d_first d); v_known := mkeys (d_sources d) |}])).
      { unfold d0, with_first, callback, delivery.
        cbn [d_ordered d_first d_log d_field d_in_order d_repairs d_sources d_last d_missing d_useless d_failed d_decoded].
        rewrite u32_succ by apply Hfr. reflexivity. }
      pose proof (logs_more _ P (d_first d :: P) d (fun y Hy => or_intror Hy) L) as L'.
      pose proof (l_order _ _ _ L' Hin) as O.
      assert (Hlim : d_first d < lim) by apply Hfr.
      destruct (flush_spec (d_first d :: P) d0) as (fi & od & lg & R1 & R2 & R3).
      * rewrite E0. exact Hin.
      * rewrite E0. exact Hg.
      * rewrite E0. intros y [Hy|[<-|Hy]]; [apply Hb; left; exact Hy | exact Hlim | apply Hb; right; exact Hy].
      * rewrite E0. apply log_snoc; try assumption; try lia.
        -- apply l_order with (1 := logs_weaken _ _ L'). exact Hin.
        -- apply logs_weaken, L'.
        -- right. left. reflexivity.
        -- apply O.
        -- intros y Hy. split; [exact Hy|]. pose proof (o_after _ _ _ O y Hy). lia.
        -- intros y Hy Hy2. destruct (N.eq_dec y (d_first d)) as [->|Hne]; [right; left; reflexivity|].
           apply (o_gap _ _ _ O); [exact Hy | lia].
      * exists fi, od, lg. rewrite R1, E0. rewrite E0 in R2, R3. cbn [delivery d_first] in R2.
        split; [reflexivity | exact R3].
    + apply N.eqb_neq in E. exists (d_first d), (d_ordered d), (d_log d).
      replace (delivery d (d_first d) (d_ordered d) (d_log d)) with d by (destruct d; reflexivity).
      split; [reflexivity|].
      apply logs_more with (2 := L). intros y Hy. right. exact Hy.
  - exists (d_first d), (d_ordered d),
      (d_log d ++ [{| v_id := x; v_data := S x; v_known := mkeys (d_sources d) |}]).
    split; [reflexivity|].
    constructor; cbn [delivery d_log d_sources d_in_order].
    + intros v Hv. apply in_app_iff in Hv. destruct Hv as [Hv|[<-|[]]].
      * apply (l_gen _ _ _ L), Hv.
      * split; [reflexivity | apply Hfr].
    + intros v y Hv Hy. apply in_app_iff in Hv. destruct Hv as [Hv|[<-|[]]].
      * destruct (l_settled _ _ _ L v y Hv Hy) as [[A|A]|A];
          [left; left; exact A | left; right; right; exact A | right; exact A].
      * left. destruct Hy as [->|Hy]; [right; left; reflexivity | left; exact Hy].
    + rewrite map_app. cbn [map v_id].
      apply NoDup_app_one.
      * apply L.
      * intros Hi. apply in_map_iff in Hi. destruct Hi as [v [E Hv]].
        apply (fresh_not_in_log _ _ _ _ _ L Hfr Hv E).
    + congruence.
Qed.


Lemma flush_loop_log l : forall d d', flush_loop m l d = Ok d' -> exists new, d_log d' = d_log d ++ new.
Proof.
  induction l as [|id l IH]; intros d d' H; cbn [flush_loop] in H.
  - assert (d' = d) by congruence. subst. exists []. rewrite app_nil_r. reflexivity.
  - apply bind_ok in H. destruct H as (u & _ & H).
    apply bind_ok in H. destruct H as (d1 & E1 & H). unfold callback_ordered in E1.
    destruct (mfind id (d_sources d)) as [data|]; [|discriminate].
    assert (E : d1 = callback d id data) by congruence. subst d1. clear E1.
    set (v := {| v_id := id; v_data := data; v_known := mkeys (d_sources d) |}).
    assert (Hb : forall e, (exists new, d_log d' = d_log e ++ new) -> d_log e = d_log d ++ [v] ->
       exists new, d_log d' = d_log d ++ new).
    { intros e [new En] Ee. exists (v :: new). rewrite En, Ee, <- app_assoc. reflexivity. }
    destruct l as [|id' l'].
    + assert (E : d_log d' = d_log d ++ [v]) by (injection H as <-; reflexivity). eexists; exact E.
    + destruct (_ <? id').
      * assert (E : d_log d' = d_log d ++ [v]) by (injection H as <-; reflexivity). eexists; exact E.
      * eapply Hb; [eapply IH; exact H | reflexivity].
Qed.

Lemma flush_log d d' : flush m d = Ok d' -> exists new, d_log d' = d_log d ++ new.
Proof.
  unfold flush. destruct (smem _ _); intros H; [eapply flush_loop_log, H|].
  assert (d' = d) by congruence. subst. exists []. rewrite app_nil_r. reflexivity.
Qed.

Lemma announce_log d x data fi od lg : announce m d x data = Ok (delivery d fi od lg) ->
  exists new, lg = d_log d ++ new.
Proof.
  unfold announce. intros H. change lg with (d_log (delivery d fi od lg)).
  destruct (negb (d_in_order d)).
  - assert (E : delivery d fi od lg = callback d x data) by congruence. rewrite E.
    eexists. reflexivity.
  - destruct (x =? d_first d).
    + apply flush_log in H. destruct H as [new E]. rewrite E. cbn [with_first callback d_log].
      rewrite <- app_assoc. eexists. reflexivity.
    + assert (E : delivery d fi od lg = d) by congruence. rewrite E.
      exists []. rewrite app_nil_r. reflexivity.
Qed.

(** ** Removing a source from the repairs *)

Definition removed (x : N) (rep : drepair) : drepair :=
  with_ids (minus f S rep x) (serase x (dr_ids rep)).

Lemma remove_source_spec rep x rep' : genuine f S rep -> In x (dr_ids rep) ->
  remove_source m f x (S x) rep = Ok rep' -> rep' = removed x rep.
Proof.
  intros G Hx H. unfold remove_source in H.
  rewrite (remove_data_spec f S m rep x G Hx) in H.
  destruct (assert_ m (Nat.ltb 1 (length (dr_ids rep)))); cbn [bind] in H; try discriminate.
  cbn [minus dr_ids] in H.
  replace (smem x (dr_ids rep)) with true in H by (symmetry; apply smem_spec; exact Hx).
  replace (assert_ m true) with (Ok tt) in H by (destruct m; reflexivity).
  cbn [bind] in H. injection H as <-. reflexivity.
Qed.

Lemma remove_from_repairs_spec x rs : NoDup rs -> forall reps reps',
  (forall r, In r rs -> exists rep, mfind r reps = Some rep /\ genuine f S rep /\ In x (dr_ids rep)) ->
  msorted reps ->
  remove_from_repairs m f x (S x) rs reps = Ok reps' ->
  msorted reps' /\ forall r, mfind r reps' = if smem r rs
     then match mfind r reps with Some rep => Some (removed x rep) | None => None end
     else mfind r reps.
Proof.
  induction rs as [|r rs IH]; intros Hnd reps reps' Hrs Hs H; cbn [remove_from_repairs] in H.
  - injection H as <-. split; [exact Hs|]. reflexivity.
  - apply NoDup_cons_iff in Hnd. destruct Hnd as [Hr Hnd].
    destruct (Hrs r (or_introl eq_refl)) as (rep & E & G & Hx). rewrite E in H.
    apply bind_ok in H. destruct H as (rep' & E1 & H).
    apply (remove_source_spec rep x rep' G Hx) in E1. subst rep'.
    apply IH in H.
    + destruct H as [H1 H2]. split; [exact H1|]. intros r'. rewrite H2, mfind_mset.
      cbn [smem]. destruct (r' =? r) eqn:Er.
      * apply N.eqb_eq in Er. subst r'. cbn [orb].
        replace (smem r rs) with false by (symmetry; apply smem_false; exact Hr).
        rewrite E. reflexivity.
      * cbn [orb]. reflexivity.
    + exact Hnd.
    + intros r' Hr'. rewrite mfind_mset. destruct (r' =? r) eqn:Er.
      * apply N.eqb_eq in Er. subst r'. contradiction.
      * apply Hrs. right. exact Hr'.
    + apply mset_sorted, Hs.
Qed.

Definition same_delivery (d d' : ddec) : Prop :=
  d_first d' = d_first d /\ d_ordered d' = d_ordered d /\ d_log d' = d_log d
  /\ d_in_order d' = d_in_order d /\ d_sources d' = d_sources d /\ d_last d' = d_last d.

Lemma logs_same lt P d d' : same_delivery d d' -> logs lt P d -> logs lt P d'.
Proof.
  intros (E1 & E2 & E3 & E4 & E5 & E6) [L1 L2 L3 L4].
  assert (Hn : forall x, not_outdated d' x = not_outdated d x)
    by (intros x; unfold not_outdated; rewrite E6; reflexivity).
  assert (Ho : forall x, outdated d' x = outdated d x)
    by (intros x; unfold outdated; rewrite Hn; reflexivity).
  constructor; rewrite ?E3, ?E4; try assumption.
  - intros v x Hv. unfold K. rewrite E5, Ho. apply L2, Hv.
  - intros H. destruct (L4 H) as [O1 O2 O3 O4 O5 O6 O7].
    constructor; rewrite ?E1, ?E2, ?E3, ?E5; try assumption.
    intros y. rewrite Hn. unfold K. rewrite E5. apply O6.
Qed.

(** The frame of a step: nothing unknown is forgotten, unless outdated. *)
Definition settled (P : list N) (d : ddec) (x : N) : Prop := K P d x \/ outdated d x = true.

Record evolves (P W : list N) (d d' : ddec) : Prop := {
  e_field : d_field d' = d_field d;
  e_in_order : d_in_order d' = d_in_order d;
  e_missing : forall x, miss d' x -> miss d x \/ In x W;
  e_keep : forall x, miss d x -> miss d' x \/ settled P d' x;
  e_settled : forall x, settled P d x -> settled P d' x;
  e_log : exists new, d_log d' = d_log d ++ new
}.

Lemma evolves_refl P W d : evolves P W d d.
Proof.
  constructor; auto. exists []. rewrite app_nil_r. reflexivity.
Qed.

Lemma evolves_trans P W d1 d2 d3 : evolves P W d1 d2 -> evolves P W d2 d3 -> evolves P W d1 d3.
Proof.
  intros [A1 A2 A3 A4 A5 A6] [B1 B2 B3 B4 B5 B6]. constructor; try congruence.
  - intros x H. destruct (B3 x H) as [H'|H']; [apply A3, H' | right; exact H'].
  - intros x H. destruct (A4 x H) as [H'|H']; [apply B4, H' | right; apply B5, H'].
  - auto.
  - destruct A6 as [n1 E1], B6 as [n2 E2]. exists (n1 ++ n2). rewrite E2, E1, app_assoc. reflexivity.
Qed.

Lemma K_delivery P d fi od lg x : K P (delivery d fi od lg) x <-> K P d x.
Proof. reflexivity. Qed.

Lemma core_delivery P d fi od lg : core P (delivery d fi od lg) <-> core P d.
Proof. split; intros [C1 C2 C3 C4 C5 C6 C7 C8 C9 C10]; constructor; assumption. Qed.

Lemma core_same P d d' : d_field d' = d_field d -> d_repairs d' = d_repairs d ->
  d_sources d' = d_sources d -> d_missing d' = d_missing d -> core P d -> core P d'.
Proof.
  intros E1 E2 E3 E4 [C1 C2 C3 C4 C5 C6 C7 C8 C9 C10].
  constructor; unfold sgen, miss, K in *; rewrite ?E1, ?E2, ?E3, ?E4; assumption.
Qed.

(** An identifier that is not missing becomes known. *)
Lemma core_known P d x : ~ miss d x -> ~ K P d x -> core P d -> core (x :: P) d.
Proof.
  intros Hx Hk [C1 C2 C3 C4 C5 C6 C7 C8 C9 C10]. constructor; try assumption.
  - intros y Hy [H|[<-|H]]; [|contradiction|].
    + apply (C8 y Hy). left. exact H.
    + apply (C8 y Hy). right. exact H.
  - intros y [<-|Hy]; [intros H; apply Hk; left; exact H | apply C9, Hy].
Qed.

(** The repairs lose the sources that are no longer missing, and nothing else. A
    repair without a missing source may be forgotten. *)
Definition shrinks (d d' : ddec) : Prop := forall r rep, mfind r (d_repairs d) = Some rep ->
  (exists rep', mfind r (d_repairs d') = Some rep'
     /\ forall y, In y (dr_ids rep') <-> In y (dr_ids rep) /\ miss d' y)
  \/ (forall y, In y (dr_ids rep) -> ~ miss d' y).

Lemma shrinks_same P d d' : core P d -> d_repairs d' = d_repairs d -> d_missing d' = d_missing d ->
  shrinks d d'.
Proof.
  intros C E1 E2 r rep Hr. left. exists rep. rewrite E1. split; [exact Hr|]. intros y. unfold miss. rewrite E2.
  split; [|tauto]. intros Hy. split; [exact Hy|]. eapply (c_live _ _ C); eassumption.
Qed.

Lemma shrinks_trans d1 d2 d3 : (forall y, miss d3 y -> miss d2 y) ->
  shrinks d1 d2 -> shrinks d2 d3 -> shrinks d1 d3.
Proof.
  intros Hm A B r rep Hr. destruct (A r rep Hr) as [(rep2 & E2 & H2)|H2].
  - destruct (B r rep2 E2) as [(rep3 & E3 & H3)|H3].
    + left. exists rep3. split; [exact E3|]. intros y. rewrite H3, H2. specialize (Hm y). tauto.
    + right. intros y Hy Hy3. apply (H3 y); [|exact Hy3]. apply H2. split; [exact Hy | apply Hm, Hy3].
  - right. intros y Hy Hy3. apply (H2 y Hy), Hm, Hy3.
Qed.

Lemma no_longer_missing_spec P d x d' : core P d -> ~ K P d x -> no_longer_missing m d x (S x) = Ok d' ->
  core (x :: P) d' /\ ~ miss d' x /\ same_delivery d d' /\ d_field d' = d_field d
  /\ (forall y, miss d' y <-> miss d y /\ y <> x)
  /\ d_decoded d' = d_decoded d /\ d_useless d' = d_useless d /\ d_failed d' = d_failed d
  /\ (miss d x \/ d' = d) /\ shrinks d d'.
Proof.
  intros C Hk H. unfold no_longer_missing in H.
  destruct (mfind x (d_missing d)) as [rs|] eqn:E.
  - apply bind_ok in H. destruct H as (reps & Er & H).
    assert (H' : d' = with_missing (with_repairs d reps) (merase x (d_missing d))) by congruence.
    clear H. subst d'.
    rewrite (c_field _ _ C) in Er.
    destruct (c_links _ _ C x rs E) as [Hls Hl].
    apply remove_from_repairs_spec in Er.
    + destruct Er as [Hs Hr].
      assert (Hfind : forall r rep, mfind r reps = Some rep ->
         (exists rep0, mfind r (d_repairs d) = Some rep0 /\ In x (dr_ids rep0) /\ rep = removed x rep0)
         \/ (mfind r (d_repairs d) = Some rep /\ ~ In x (dr_ids rep))).
      { intros r rep Hrep. rewrite Hr in Hrep. destruct (smem r rs) eqn:Em.
        - apply smem_spec, Hl in Em. destruct Em as (rep0 & E0 & Hx). rewrite E0 in Hrep.
          injection Hrep as <-. left. exists rep0. auto.
        - right. split; [exact Hrep|]. intros Hx. apply smem_false in Em. apply Em, Hl.
          exists rep. auto. }
      assert (Hids : forall r rep y, mfind r reps = Some rep -> (In y (dr_ids rep) <->
         y <> x /\ exists rep0, mfind r (d_repairs d) = Some rep0 /\ In y (dr_ids rep0))).
      { intros r rep y Hrep. destruct (Hfind r rep Hrep) as [(rep0 & E0 & Hx & ->)|[E0 Hx]].
        - unfold removed, with_ids. cbn [dr_ids].
          destruct (c_repairs _ _ C r rep0 E0) as [_ G].
          rewrite serase_in by apply G. split.
          + intros [A B]. split; [exact B|]. exists rep0. auto.
          + intros (A & rep1 & E1 & B). split; [congruence | exact A].
        - split.
          + intros A. split; [intros ->; contradiction|]. exists rep. auto.
          + intros (A & rep1 & E1 & B). congruence. }
      assert (Hmiss : forall y, In y (mkeys (merase x (d_missing d))) <-> miss d y /\ y <> x)
        by (intros y; apply merase_keys, C).
      split; [|split; [|split; [|split; [|split; [|split; [|split; [|split; [|split]]]]]]]].
      * constructor; unfold sgen, miss, K;
          cbn [with_missing with_repairs d_field d_sources d_repairs d_missing].
        -- apply C.
        -- apply C.
        -- exact Hs.
        -- intros r rep Hrep. destruct (Hfind r rep Hrep) as [(rep0 & E0 & Hx & ->)|[E0 Hx]].
           ++ destruct (c_repairs _ _ C r rep0 E0) as [Hid G]. split.
              ** unfold removed, with_ids, minus. cbn [dr_id]. exact Hid.
              ** apply minus_genuine; assumption.
           ++ apply (c_repairs _ _ C), E0.
        -- apply merase_sorted, C.
        -- intros y l Hy. rewrite mfind_merase in Hy by apply C.
           destruct (y =? x) eqn:Eyx; [discriminate|]. apply N.eqb_neq in Eyx.
           destruct (c_links _ _ C y l Hy) as [Hyl Hyr]. split; [exact Hyl|].
           intros r. rewrite Hyr. split.
           ++ intros (rep & E1 & Hin).
              assert (Hsome : exists rep', mfind r reps = Some rep').
              { rewrite Hr, E1. destruct (smem r rs); eauto. }
              destruct Hsome as [rep' E2]. exists rep'. split; [exact E2|].
              apply (Hids r rep' y E2). split; [exact Eyx|]. exists rep. auto.
           ++ intros (rep & E1 & Hin). apply (Hids r rep y E1) in Hin. apply Hin.
        -- intros r rep y Hrep Hy. apply (Hids r rep y Hrep) in Hy.
           destruct Hy as (Hne & rep0 & E0 & Hy). apply Hmiss. split; [|exact Hne].
           eapply (c_live _ _ C); eassumption.
        -- intros y Hy. apply Hmiss in Hy. destruct Hy as [Hy Hne].
           intros [A|[A|A]]; [|congruence|].
           ++ apply (c_disj _ _ C y Hy). left. exact A.
           ++ apply (c_disj _ _ C y Hy). right. exact A.
        -- intros y [<-|Hy]; [intros A; apply Hk; left; exact A | apply (c_pend _ _ C), Hy].
        -- intros r rep a b Hrep Hb Hnb Ha. apply Hmiss in Hb. destruct Hb as [Hb Hbx].
           apply (Hids r rep a Hrep) in Ha. destruct Ha as (Hne & rep0 & E0 & Ha).
           eapply (c_newer _ _ C); try eassumption. intros Hbr. apply Hnb.
           apply (Hids r rep b Hrep). split; [exact Hbx|]. exists rep0. auto.
      * unfold miss. cbn [with_missing d_missing]. rewrite Hmiss. tauto.
      * repeat split.
      * reflexivity.
      * exact Hmiss.
      * reflexivity.
      * reflexivity.
      * reflexivity.
      * left. apply mfind_keys. eauto.
      * intros r rep E1. left.
        assert (Hsome : exists rep', mfind r reps = Some rep').
        { rewrite Hr, E1. destruct (smem r rs); eauto. }
        destruct Hsome as [rep' E2]. exists rep'. split; [exact E2|]. intros y. rewrite (Hids r rep' y E2).
        unfold miss. cbn [with_missing d_missing]. rewrite Hmiss. split.
        -- intros (Hne & rep0 & E0 & Hy). assert (rep0 = rep) by congruence. subst rep0.
           split; [exact Hy|]. split; [eapply (c_live _ _ C); eassumption | exact Hne].
        -- intros (Hy & _ & Hne). split; [exact Hne|]. exists rep. auto.
    + apply ssorted_NoDup, Hls.
    + intros r Hr. apply Hl in Hr. destruct Hr as (rep & E1 & Hx). exists rep.
      split; [exact E1|]. split; [apply (c_repairs _ _ C r rep E1) | exact Hx].
    + apply C.
  - assert (H' : d' = d) by congruence. clear H. subst d'.
    apply mfind_none in E.
    split; [apply core_known; assumption|]. split; [exact E|].
    split; [repeat split|]. split; [reflexivity|]. split.
    + intros y. split; [intros Hy; split; [exact Hy | intros ->; contradiction] | tauto].
    + split; [reflexivity|]. split; [reflexivity|]. split; [reflexivity|]. split; [right; reflexivity|].
      eapply shrinks_same; [exact C | reflexivity | reflexivity].
Qed.

(** ** Adding a source *)

(** A repair that encodes one source, which no other repair encodes. *)
Lemma core_erase P d r rep k : core P d -> mfind r (d_repairs d) = Some rep ->
  dr_ids rep = [k] -> mfind k (d_missing d) = Some [r] ->
  core (k :: P) (with_missing (with_repairs d (merase r (d_repairs d))) (merase k (d_missing d))).
Proof.
  intros C Er Eids Ek.
  assert (Hk : miss d k) by (apply mfind_keys; eauto).
  assert (Hmiss : forall y, In y (mkeys (merase k (d_missing d))) <-> miss d y /\ y <> k)
    by (intros y; apply merase_keys, C).
  assert (Hrep : forall r' rep', mfind r' (merase r (d_repairs d)) = Some rep' ->
     mfind r' (d_repairs d) = Some rep' /\ r' <> r /\ ~ In k (dr_ids rep')).
  { intros r' rep' H. rewrite mfind_merase in H by apply C.
    destruct (r' =? r) eqn:E; [discriminate|]. apply N.eqb_neq in E.
    split; [exact H|]. split; [exact E|]. intros Hin.
    destruct (c_links _ _ C k [r] Ek) as [_ Hl].
    assert (Hr' : In r' [r]) by (apply Hl; eauto).
    destruct Hr' as [Hr'|[]]. congruence. }
  constructor; unfold sgen, miss, K;
    cbn [with_missing with_repairs d_field d_sources d_repairs d_missing].
  - apply C.
  - apply C.
  - apply merase_sorted, C.
  - intros r' rep' H. apply Hrep in H. apply (c_repairs _ _ C), H.
  - apply merase_sorted, C.
  - intros y l Hy. rewrite mfind_merase in Hy by apply C.
    destruct (y =? k) eqn:E; [discriminate|]. apply N.eqb_neq in E.
    destruct (c_links _ _ C y l Hy) as [H1 H2]. split; [exact H1|].
    intros r'. rewrite H2. split.
    + intros (rep' & E1 & Hin). exists rep'. split; [|exact Hin].
      rewrite mfind_merase by apply C. destruct (r' =? r) eqn:Err; [|exact E1].
      apply N.eqb_eq in Err. subst r'. rewrite Er in E1. injection E1 as <-.
      rewrite Eids in Hin. destruct Hin as [Hin|[]]. congruence.
    + intros (rep' & E1 & Hin). apply Hrep in E1. exists rep'. split; [apply E1 | exact Hin].
  - intros r' rep' y H Hy. apply Hrep in H. destruct H as (H & Hne & Hnk).
    apply Hmiss. split; [eapply (c_live _ _ C); eassumption|]. intros ->. contradiction.
  - intros y Hy. apply Hmiss in Hy. destruct Hy as [Hy Hne]. intros [A|[A|A]]; [|congruence|].
    + apply (c_disj _ _ C y Hy). left. exact A.
    + apply (c_disj _ _ C y Hy). right. exact A.
  - intros y [<-|Hy].
    + intros A. apply (c_disj _ _ C k Hk). left. exact A.
    + apply (c_pend _ _ C), Hy.
  - intros r' rep' a b H Hb Hnb Ha. apply Hrep in H. apply Hmiss in Hb.
    eapply (c_newer _ _ C); [apply H | apply Hb | exact Hnb | exact Ha].
Qed.

Record grown (P : list N) (d d' : ddec) : Prop := {
  w_core : core P d';
  w_ge : ge P d';
  w_logs : logs N.lt P d';
  w_evolves : evolves P [] d d';
  w_last : d_last d' = d_last d;
  w_useless : d_useless d' = d_useless d;
  w_failed : d_failed d' = d_failed d;
  w_shrinks : shrinks d d'
}.

Definition nsources (d : ddec) : N := N.of_nat (length (d_sources d)).

Lemma grown_trans P d1 d2 d3 : grown P d1 d2 -> grown P d2 d3 -> grown P d1 d3.
Proof.
  intros [A1 A2 A3 A4 A5 A6 A7 A8] [B1 B2 B3 B4 B5 B6 B7 B8]. constructor; try assumption; try congruence.
  - eapply evolves_trans; eassumption.
  - apply shrinks_trans with d2; try assumption. intros y Hy. destruct (e_missing _ _ _ _ B4 y Hy) as [Hy'|[]]. exact Hy'.
Qed.

Lemma grown_refl P d : core P d -> ge P d -> logs N.lt P d -> grown P d d.
Proof.
  intros. constructor; auto using evolves_refl. eapply shrinks_same; [eassumption | reflexivity | reflexivity].
Qed.

Definition rec_spec (rec : ddec -> N -> list N -> outcome ddec) : Prop :=
  forall P d x d', core (x :: P) d -> ge P d -> logs N.lt P d -> fresh P d x ->
  rec d x (S x) = Ok d' ->
  grown P d d' /\ In x (mkeys (d_sources d')) /\
  d_decoded d' + nsources d + 1 = d_decoded d + nsources d'.

Lemma not_outdated_same d d' x : d_last d' = d_last d -> not_outdated d' x = not_outdated d x.
Proof. intros E. unfold not_outdated. rewrite E. reflexivity. Qed.

Lemma scan_spec rec P : rec_spec rec -> forall keys d d',
  core P d -> ge P d -> logs N.lt P d -> scan rec m keys d = Ok d' ->
  grown P d d' /\ d_decoded d' + nsources d = d_decoded d + nsources d'.
Proof.
  intros Hrec. induction keys as [|k keys IH]; intros d d' C G L H; cbn [scan] in H.
  { assert (d' = d) by congruence. subst d'. split; [apply grown_refl; assumption | reflexivity]. }
  destruct (mfind k (d_missing d)) as [[|r [|r2 rs]]|] eqn:Ek;
    try (apply IH in H; assumption).
  destruct (mfind r (d_repairs d)) as [rep|] eqn:Er; [|discriminate].
  destruct (Nat.eqb (length (dr_ids rep)) 1) eqn:El; [|apply IH in H; assumption].
  apply Nat.eqb_eq in El.
  destruct (c_links _ _ C k [r] Ek) as [_ Hl].
  assert (Hin : exists rep0, mfind r (d_repairs d) = Some rep0 /\ In k (dr_ids rep0))
    by (apply Hl; left; reflexivity).
  destruct Hin as (rep0 & E0 & Hin). rewrite Er in E0. injection E0 as <-.
  assert (Eids : dr_ids rep = [k]).
  { destruct (dr_ids rep) as [|a [|b l]]; cbn [length] in El; try discriminate.
    destruct Hin as [->|[]]. reflexivity. }
  apply bind_ok in H. destruct H as (u1 & _ & H).
  apply bind_ok in H. destruct H as (u2 & _ & H).
  destruct (c_repairs _ _ C r rep Er) as [_ Gen].
  rewrite (c_field _ _ C), (create_source_spec f S m rep k Gen Eids) in H. cbn [bind] in H.
  apply bind_ok in H. destruct H as (d2 & E2 & H).
  set (d1 := with_missing _ _) in *.
  assert (Hk : miss d k) by (apply mfind_keys; eauto).
  assert (C1 : core (k :: P) d1).
  { apply core_same with (d := with_missing (with_repairs d (merase r (d_repairs d)))
                                 (merase k (d_missing d))); try reflexivity.
    eapply core_erase; eassumption. }
  assert (Hm1 : forall y, miss d1 y <-> miss d y /\ y <> k)
    by (intros y; apply merase_keys, C).
  assert (G1 : ge P d1).
  { intros y Hy. change (not_outdated d1 y) with (not_outdated d y). apply G.
    destruct Hy as [Hy|Hy]; [left; exact Hy | right; apply Hm1, Hy]. }
  assert (L1 : logs N.lt P d1) by (apply logs_same with (2 := L); repeat split).
  assert (F1 : fresh P d1 k).
  { split; [exact (c_disj _ _ C k Hk)|]. change (not_outdated d1 k) with (not_outdated d k).
    apply G. right. exact Hk. }
  destruct (Hrec P d1 k d2 C1 G1 L1 F1 E2) as (W & Hks & Hc).
  assert (W0 : grown P d d2).
  { destruct W as [A1 A2 A3 A4 A5 A6 A7 A8]. constructor; try assumption.
    2:{ apply shrinks_trans with d1; [|intros r0 rep0 E0|exact A8].
        - intros y Hy. destruct (e_missing _ _ _ _ A4 y Hy) as [Hy'|[]]. exact Hy'.
        - destruct (N.eq_dec r0 r) as [->|Hne].
          + assert (rep0 = rep) by congruence. subst rep0. right. rewrite Eids. intros y [<-|[]] Hy.
            apply Hm1 in Hy. destruct Hy as [_ Hy]. congruence.
          + left. exists rep0. split.
            * change (mfind r0 (merase r (d_repairs d)) = Some rep0). rewrite mfind_merase by apply C.
              replace (r0 =? r) with false by (symmetry; apply N.eqb_neq; exact Hne). exact E0.
            * intros y. rewrite Hm1. split; [|tauto]. intros Hy. split; [exact Hy|].
              split; [eapply (c_live _ _ C); eassumption|]. intros ->.
              assert (Hr0 : In r0 [r]) by (apply Hl; exists rep0; auto). destruct Hr0 as [->|[]]. congruence. }
    destruct A4 as [B1 B2 B3 B4 B5 B6]. constructor; try assumption.
    - intros y Hy. destruct (B3 y Hy) as [Hy'|Hy']; [left; apply Hm1, Hy' | right; exact Hy'].
    - intros y Hy. destruct (N.eq_dec y k) as [->|Hne].
      + right. left. left. exact Hks.
      + apply B4, Hm1. auto. }
  assert (Hc0 : d_decoded d2 + nsources d = d_decoded d + nsources d2).
  { assert (nsources d1 = nsources d) by reflexivity.
    assert (d_decoded d1 = d_decoded d + 1) by reflexivity. lia. }
  destruct (find (fun k' => mmem k' (d_missing d1)) keys) as [k'|] eqn:En.
  - destruct (mmem k' (d_missing d2)) eqn:Em; [|discriminate].
    apply IH in H; try apply W0. destruct H as [H1 H2]. split; [eapply grown_trans; eassumption | lia].
  - assert (d' = d2) by congruence. subst d'. split; [exact W0 | exact Hc0].
Qed.

Lemma mput_length {V} k (v : V) l : ~ In k (mkeys l) -> length (mput k v l) = Datatypes.S (length l).
Proof.
  intros H. unfold mput. replace (mfind k l) with (@None V) by (symmetry; apply mfind_none; exact H).
  induction l as [|[k' v'] l IH]; [reflexivity|]. cbn [mset].
  assert (k <> k') by (intros ->; apply H; left; reflexivity).
  assert (~ In k (mkeys l)) by (intros A; apply H; right; exact A).
  destruct (k <? k'); [reflexivity|].
  replace (k =? k') with false by (symmetry; apply N.eqb_neq; assumption).
  cbn [length]. rewrite IH by assumption. reflexivity.
Qed.

Lemma store_spec P d x d' : core (x :: P) d -> ge (x :: P) d -> logs N.lt (x :: P) d ->
  ~ In x P ->
  store m d x (S x) = Ok d' ->
  grown P d d' /\ In x (mkeys (d_sources d')) /\ d_decoded d' = d_decoded d
  /\ nsources d' = nsources d + 1 /\ (forall y, K P d' y <-> K (x :: P) d y)
  /\ d_missing d' = d_missing d.
Proof.
  intros C G L Hx H. unfold store in H. apply bind_ok in H. destruct H as (u & _ & H).
  set (d1 := with_sources d (mput x (S x) (d_sources d))) in *.
  assert (Hns : ~ In x (mkeys (d_sources d))) by (apply (c_pend _ _ C); left; reflexivity).
  assert (Hk1 : forall y, In y (mkeys (mput x (S x) (d_sources d))) <-> y = x \/ In y (mkeys (d_sources d)))
    by (intros y; apply mput_keys).
  assert (HK : forall y, K P d1 y <-> K (x :: P) d y).
  { intros y. unfold K, d1. cbn [with_sources d_sources In]. rewrite Hk1. intuition congruence. }
  assert (Hsg : sgen d1).
  { destruct (c_sources _ _ C) as [S1 S2]. split; [apply mput_sorted, S1|].
    unfold d1. cbn [with_sources d_sources]. intros y data Hy. rewrite mput_find in Hy.
    destruct (mfind y (d_sources d)) as [w|] eqn:E.
    - injection Hy as <-. apply S2, E.
    - destruct (y =? x) eqn:Eyx; [|discriminate]. apply N.eqb_eq in Eyx. subst y. congruence. }
  assert (C1 : core P d1).
  { destruct C as [C1 C2 C3 C4 C5 C6 C7 C8 C9 C10]. constructor; try assumption.
    - intros y Hy A. apply HK in A. apply (C8 y Hy A).
    - intros y Hy A. apply Hk1 in A. destruct A as [->|A]; [contradiction|].
      apply (C9 y); [right; exact Hy | exact A]. }
  assert (G1 : ge P d1).
  { intros y Hy. change (not_outdated d1 y) with (not_outdated d y). apply G.
    destruct Hy as [Hy|Hy]; [left; apply HK, Hy | right; exact Hy]. }
  assert (L1 : logs N.lt P d1).
  { destruct L as [L1 L2 L3 L4]. constructor; try assumption.
    - intros v y Hv Hy. destruct (L2 v y Hv Hy) as [A|A]; [left; apply HK, A | right; exact A].
    - intros A. destruct (L4 A) as [O1 O2 O3 O4 O5 O6 O7]. constructor; try assumption.
      + intros y Hy. unfold d1. cbn [with_sources d_sources]. apply Hk1. right. apply O2, Hy.
      + intros y Hy Hy2. apply HK. apply O6; assumption. }
  assert (Hn : nsources d1 = nsources d + 1).
  { unfold nsources, d1. cbn [with_sources d_sources]. rewrite mput_length by exact Hns. lia. }
  assert (E1 : evolves P [] d d1).
  { constructor; try reflexivity.
    - intros y Hy. left. exact Hy.
    - intros y Hy. left. exact Hy.
    - intros y [A|A]; [left | right; exact A]. apply HK.
      destruct A as [A|A]; [left; exact A | right; right; exact A].
    - exists []. rewrite app_nil_r. reflexivity. }
  assert (Hx1 : In x (mkeys (d_sources d1))) by (apply Hk1; left; reflexivity).
  destruct (d_in_order d1 && (d_first d1 <? x)) eqn:E.
  - apply andb_true_iff in E. destruct E as [Ei Ef]. apply N.ltb_lt in Ef.
    assert (d' = with_ordered d1 (sinsert x (d_ordered d1))) by congruence. subst d'.
    split; [|split; [exact Hx1 | split; [reflexivity | split; [exact Hn | split; [exact HK | reflexivity]]]]].
    constructor; try reflexivity; [| |  | |eapply shrinks_same; [exact C | reflexivity | reflexivity]].
    + apply core_same with (5 := C1); reflexivity.
    + exact G1.
    + destruct L1 as [A1 A2 A3 A4]. constructor; try assumption.
      intros A. destruct (A4 A) as [O1 O2 O3 O4 O5 O6 O7]. constructor; try assumption.
      * cbn [with_ordered d_ordered]. apply sinsert_sorted, O1.
      * cbn [with_ordered d_ordered d_sources]. intros y Hy. apply sinsert_in in Hy.
        destruct Hy as [->|Hy]; [exact Hx1 | apply O2, Hy].
      * cbn [with_ordered d_ordered d_first]. intros y Hy. apply sinsert_in in Hy.
        destruct Hy as [->|Hy]; [exact Ef | apply O3, Hy].
    + destruct E1 as [B1 B2 B3 B4 B5 B6]. constructor; assumption.
  - assert (d' = d1) by congruence. subst d'.
    split; [|split; [exact Hx1 | split; [reflexivity | split; [exact Hn | split; [exact HK | reflexivity]]]]].
    constructor; try reflexivity; try assumption. eapply shrinks_same; [exact C | reflexivity | reflexivity].
Qed.

Lemma add_source_spec fuel : forall P d x d',
  core (x :: P) d \/ core P d -> ge P d -> logs N.lt P d -> fresh P d x ->
  add_source fuel m d x (S x) = Ok d' ->
  grown P d d' /\ In x (mkeys (d_sources d')) /\
  d_decoded d' + nsources d + 1 = d_decoded d + nsources d'.
Proof.
  induction fuel as [|fuel IH]; intros P d x d' C G L Fr H; cbn [add_source] in H; [discriminate|].
  assert (Hsg : sgen d) by (destruct C as [C|C]; apply C).
  destruct (announce_spec P d x Hsg) as (fi & od & lg & Ea & La); try assumption.
  { intros y Hy. apply G. left. exact Hy. }
  rewrite Ea in H. cbn [bind] in H. set (d1 := delivery d fi od lg) in *.
  apply bind_ok in H. destruct H as (d2 & E2 & H).
  assert (H2 : core (x :: P) d2 /\ same_delivery d1 d2 /\ d_field d2 = d_field d1
     /\ (forall y, miss d2 y <-> miss d1 y /\ y <> x)
     /\ d_decoded d2 = d_decoded d1 /\ d_useless d2 = d_useless d1 /\ d_failed d2 = d_failed d1
     /\ shrinks d d2).
  { destruct C as [C|C].
    - assert (Hn : ~ miss d x).
      { intros A. apply (c_disj _ _ C x A). right. left. reflexivity. }
      unfold no_longer_missing in E2.
      replace (mfind x (d_missing d1)) with (@None (list N)) in E2
        by (symmetry; apply mfind_none; exact Hn).
      assert (d2 = d1) by congruence. subst d2.
      split; [apply core_delivery, C|]. split; [repeat split|]. split; [reflexivity|].
      split; [|repeat (split; [reflexivity|]); eapply shrinks_same; [exact C | reflexivity | reflexivity]].
      intros y. split; [|tauto]. intros Hy. split; [exact Hy|]. intros ->. contradiction.
    - apply no_longer_missing_spec with (P := P) in E2; [|apply core_delivery, C | apply Fr].
      tauto. }
  destruct H2 as (C2 & Sd & Ef & Hm & Hd & Hu & Hfl & Sh2).
  assert (L2 : logs N.lt (x :: P) d2) by (apply logs_same with (1 := Sd); exact La).
  destruct Sd as (Sf & So & Sl & Si & Ss & Sla).
  assert (G2 : ge (x :: P) d2).
  { intros y Hy. rewrite (not_outdated_same d d2) by exact Sla.
    destruct Hy as [[Hy|[<-|Hy]]|Hy].
    - apply G. left. left. rewrite Ss in Hy. exact Hy.
    - split; apply Fr.
    - apply G. left. right. exact Hy.
    - apply G. right. apply Hm in Hy. apply Hy. }
  apply bind_ok in H. destruct H as (d3 & E3 & H).
  assert (Hrec : rec_spec (add_source fuel m)).
  { intros P' e y e' C' G' L' F' E'. apply (IH P' e y e'); auto. }
  destruct (scan_spec _ (x :: P) Hrec _ _ _ C2 G2 L2 E3) as [W3 Hc3].
  destruct W3 as [C3 G3 L3 V3 La3 U3 F3 Sh3].
  assert (HxP : ~ In x P) by (intros A; apply Fr; right; exact A).
  destruct (store_spec P d3 x d' C3 G3 L3 HxP H) as (W4 & Hx4 & Hd4 & Hn4 & HK4 & Hm4).
  assert (Hns : nsources d2 = nsources d) by (unfold nsources; rewrite Ss; reflexivity).
  assert (Hdd : d_decoded d2 = d_decoded d) by (rewrite Hd; reflexivity).
  split; [|split; [exact Hx4 | lia]].
  destruct W4 as [C4 G4 L4 V4 La4 U4 F4 Sh4].
  assert (Elast : d_last d' = d_last d) by (rewrite La4, La3, Sla; reflexivity).
  constructor; try assumption.
  - constructor.
    + rewrite (e_field _ _ _ _ V4), (e_field _ _ _ _ V3), Ef. reflexivity.
    + rewrite (e_in_order _ _ _ _ V4), (e_in_order _ _ _ _ V3), Si. reflexivity.
    + intros y Hy. left. apply (e_missing _ _ _ _ V4) in Hy. destruct Hy as [Hy|[]].
      apply (e_missing _ _ _ _ V3) in Hy. destruct Hy as [Hy|[]]. apply Hm in Hy. apply Hy.
    + intros y Hy. destruct (N.eq_dec y x) as [->|Hne].
      * right. left. left. exact Hx4.
      * assert (Hy2 : miss d2 y) by (apply Hm; split; [exact Hy | exact Hne]).
        apply (e_keep _ _ _ _ V3) in Hy2. destruct Hy2 as [Hy2|Hy2].
        -- apply (e_keep _ _ _ _ V4), Hy2.
        -- right. destruct Hy2 as [A|A]; [left; apply HK4, A|].
           right. unfold outdated in A |- *. rewrite (not_outdated_same d3 d') by exact La4. exact A.
    + intros y Hy.
      assert (Hy2 : settled (x :: P) d2 y).
      { destruct Hy as [[A|A]|A].
        - left. left. rewrite Ss. exact A.
        - left. right. right. exact A.
        - right. unfold outdated in A |- *. rewrite (not_outdated_same d d2) by exact Sla. exact A. }
      apply (e_settled _ _ _ _ V3) in Hy2. destruct Hy2 as [A|A]; [left; apply HK4, A|].
      right. unfold outdated in A |- *. rewrite (not_outdated_same d3 d') by exact La4. exact A.
    + destruct (e_log _ _ _ _ V3) as [n3 E3'], (e_log _ _ _ _ V4) as [n4 E4'].
      assert (exists n1, lg = d_log d ++ n1) as [n1 E1'].
      { eapply announce_log; exact Ea. }
      exists (n1 ++ n3 ++ n4). rewrite E4', E3', Sl. cbn [d1 delivery d_log]. rewrite E1'.
      rewrite <- !app_assoc. reflexivity.
  - rewrite U4, U3, Hu. reflexivity.
  - rewrite F4, F3, Hfl. reflexivity.
  - apply shrinks_trans with d3; [|apply shrinks_trans with d2; [|exact Sh2 | exact Sh3]|exact Sh4].
    + intros y Hy. destruct (e_missing _ _ _ _ V4 y Hy) as [Hy'|[]]. exact Hy'.
    + intros y Hy. destruct (e_missing _ _ _ _ V3 y Hy) as [Hy'|[]]. exact Hy'.
Qed.

End Inv.
