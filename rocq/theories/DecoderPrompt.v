(** * Ordered delivery without overtaking: nothing is withheld *)
From Coq Require Import NArith Arith List Bool Lia.
From Verif Require Import Outcome GF Containers ContainersFacts Packetizer Linear Matrix MatrixFacts DetailDecoder
  DecoderAlgebra DecoderInv DecoderStep DecoderHeld DecoderProgress.
Import ListNotations.
Open Scope N_scope.
Open Scope outcome_scope.

Section Prompt.
Variable lim : N.
Hypothesis Hlim0 : lim <= LIM.

Notation keys d := (mkeys (d_sources d)).

(** Before [flush]: the next source may wait. *)
Record ready (d : ddec) : Prop := {
  y_sorted : ssorted (d_ordered d);
  y_after : forall x, In x (d_ordered d) -> d_first d <= x;
  y_known : forall x, In x (d_ordered d) -> In x (keys d);
  y_lim : forall x, In x (keys d) -> x < lim;
  y_old : forall x, In x (keys d) -> x < d_first d -> In x (handed d);
  y_wait : forall x, In x (keys d) -> d_first d <= x -> In x (d_ordered d)
}.

Record settled_order (d : ddec) : Prop := {
  p_ready : ready d;
  p_next : ~ In (d_first d) (d_ordered d)
}.

Definition grows (d d' : ddec) : Prop :=
  (forall x, In x (keys d) -> In x (keys d') \/ In x (handed d')) /\ incl (handed d) (handed d')
  /\ d_first d <= d_first d' /\ d_in_order d' = d_in_order d.

Lemma grows_refl d : grows d d.
Proof. clear Hlim0. split; [auto|]. split; [apply incl_refl|]. split; [lia | reflexivity]. Qed.

Lemma grows_trans a b c : grows a b -> grows b c -> grows a c.
Proof. clear Hlim0.
  intros (A1 & A2 & A3 & A4) (B1 & B2 & B3 & B4). split; [|split; [|split]].
  - intros x Hx. destruct (A1 x Hx) as [H|H]; [apply B1, H | right; apply B2, H].
  - eapply incl_tran; eassumption.
  - lia.
  - congruence.
Qed.

Definition same_order (d d' : ddec) : Prop :=
  d_ordered d' = d_ordered d /\ d_first d' = d_first d /\ d_sources d' = d_sources d /\ d_log d' = d_log d
  /\ d_in_order d' = d_in_order d.

Lemma same_ready d d' : same_order d d' -> ready d -> ready d'.
Proof. clear Hlim0.
  intros (E1 & E2 & E3 & E4 & E5) [A B C D E F]. unfold handed in *.
  constructor; unfold handed; rewrite ?E1, ?E2, ?E3, ?E4; assumption.
Qed.

Lemma same_settled d d' : same_order d d' -> settled_order d -> settled_order d'.
Proof. clear Hlim0.
  intros E [A B]. constructor; [eapply same_ready; eassumption|]. destruct E as (E1 & E2 & _). rewrite E1, E2. exact B.
Qed.

Lemma same_grows d d' : same_order d d' -> grows d d'.
Proof. clear Hlim0.
  intros (E1 & E2 & E3 & E4 & E5). split; [|split; [|split]].
  - intros x Hx. left. rewrite E3. exact Hx.
  - unfold handed. rewrite E4. apply incl_refl.
  - rewrite E2. lia.
  - exact E5.
Qed.

(** What [flush] does: a run of waiting sources without a hole is delivered. *)
Record flushed (d d' : ddec) : Prop := {
  fl_settled : settled_order d';
  fl_grows : grows d d';
  fl_sources : d_sources d' = d_sources d;
  fl_last : d_last d' = d_last d;
  fl_stop : forall y, d_first d <= y -> ~ In y (keys d) -> d_first d' <= y
}.

Lemma flushed_none d : ready d -> ~ In (d_first d) (d_ordered d) -> flushed d d.
Proof. clear Hlim0. intros R H. constructor; try reflexivity; [split; assumption | apply grows_refl | auto]. Qed.

Lemma flush_loop_flushed m l : forall d d', ready d -> d_ordered d = l -> hd (d_first d + 1) l = d_first d ->
  flush_loop m l d = Ok d' -> flushed d d'.
Proof.
  induction l as [|id l IH]; intros d d' R El Hh H; cbn [hd] in Hh; [lia|]. subst id. cbn [flush_loop] in H.
  pose proof R as [R1 R2 R3 R4 R5 R6].
  apply bind_ok in H. destruct H as (u & _ & H). apply bind_ok in H. destruct H as (d1 & E1 & H).
  unfold callback_ordered in E1. destruct (mfind (d_first d) (d_sources d)) as [data|] eqn:Ed; [|discriminate].
  assert (E : d1 = callback d (d_first d) data) by congruence. subst d1. clear E1.
  set (d2 := with_first _ _) in H.
  assert (Hk : In (d_first d) (keys d)) by (apply R3; rewrite El; left; reflexivity).
  assert (Hu : u32 (d_first d + 1) = d_first d + 1).
  { unfold u32. apply N.mod_small. pose proof (R4 _ Hk). unfold LIM in Hlim0. lia. }
  pose proof R1 as Rs. rewrite El in Rs. apply ssorted_cons_inv in Rs. destruct Rs as [Rs Rlt].
  assert (E2o : d_ordered d2 = l).
  { unfold d2. cbn [with_first with_ordered callback d_ordered]. rewrite El. cbn [serase]. rewrite N.eqb_refl. reflexivity. }
  assert (E2f : d_first d2 = d_first d + 1) by exact Hu.
  assert (E2s : d_sources d2 = d_sources d) by reflexivity.
  assert (E2h : handed d2 = handed d ++ [d_first d]).
  { unfold d2, handed. cbn [with_first with_ordered callback d_log]. rewrite map_app. reflexivity. }
  assert (Rd2 : ready d2).
  { constructor; rewrite ?E2o, ?E2f, ?E2s, ?E2h.
    - exact Rs.
    - intros x Hx. specialize (Rlt x Hx). lia.
    - intros x Hx. apply R3. rewrite El. right. exact Hx.
    - exact R4.
    - intros x Hx Hlt. apply in_app_iff. destruct (N.eq_dec x (d_first d)) as [->|Hne]; [right; left; reflexivity|].
      left. apply R5; [exact Hx | lia].
    - intros x Hx Hge. assert (Ho : In x (d_ordered d)) by (apply R6; [exact Hx | lia]). rewrite El in Ho.
      destruct Ho as [Ho|Ho]; [lia | exact Ho]. }
  assert (G2 : grows d d2).
  { split; [|split; [|split]].
    - intros x Hx. left. exact Hx.
    - rewrite E2h. apply incl_appl, incl_refl.
    - lia.
    - reflexivity. }
  assert (Stop : forall d3, flushed d2 d3 -> flushed d d3).
  { intros d3 [F1 F2 F3 F4 F5]. constructor; try assumption.
    - eapply grows_trans; eassumption.
    - intros y Hy Hn. apply F5; [|exact Hn]. rewrite E2f. assert (y <> d_first d) by congruence. lia. }
  destruct l as [|id' l'].
  - assert (d' = d2) by congruence. subst d'. apply Stop, flushed_none; [exact Rd2|]. rewrite E2o. intros [].
  - destruct (d_first d2 <? id') eqn:E.
    + apply N.ltb_lt in E. assert (d' = d2) by congruence. subst d'. apply Stop, flushed_none; [exact Rd2|].
      rewrite E2o. apply ssorted_cons_inv in Rs. destruct Rs as [_ Rs]. intros [X|X]; [lia|]. specialize (Rs _ X). lia.
    + apply N.ltb_ge in E. apply Stop. apply IH; try assumption. cbn [hd].
      specialize (Rlt id' (or_introl eq_refl)). lia.
Qed.

Lemma flush_flushed m d d' : ready d -> flush m d = Ok d' -> flushed d d'.
Proof.
  intros R H. unfold flush in H. destruct (smem (d_first d) (d_ordered d)) eqn:E.
  - apply smem_spec in E. pose proof R as [R1 R2 R3 R4 R5 R6].
    assert (Hf' : from (d_first d) (d_ordered d) = d_ordered d).
    { unfold from. clear - R2. induction (d_ordered d) as [|x l IH]; [reflexivity|]. cbn [filter].
      replace (d_first d <=? x) with true by (symmetry; apply N.leb_le, R2; left; reflexivity).
      f_equal. apply IH. intros y Hy. apply R2. right. exact Hy. }
    rewrite Hf' in H. apply flush_loop_flushed with (4 := H); try assumption; [reflexivity|].
    destruct (d_ordered d) as [|x l]; [destruct E|]. cbn [hd]. destruct E as [E|E]; [exact E|].
    apply ssorted_cons_inv in R1. destruct R1 as [_ R1]. specialize (R1 _ E). specialize (R2 x (or_introl eq_refl)). lia.
  - apply smem_false in E. assert (d' = d) by congruence. subst. apply flushed_none; assumption.
Qed.

(** ** The invariant *)

Definition prompt (d : ddec) : Prop := d_in_order d = true ->
  settled_order d /\ not_outdated d (d_first d) = true.

Lemma not_outdated_up d d' x y : d_last d' = d_last d -> not_outdated d x = true -> x <= y -> not_outdated d' y = true.
Proof. clear Hlim0. unfold not_outdated. intros ->. destruct (d_last d); [|reflexivity]. rewrite !N.leb_le. lia. Qed.

Lemma prompt_same d d' : same_order d d' -> d_last d' = d_last d -> prompt d -> prompt d'.
Proof. clear Hlim0.
  intros E El P Hi. pose proof E as (E1 & E2 & E3 & E4 & E5). destruct (P (eq_trans (eq_sym E5) Hi)) as [A B].
  split; [eapply same_settled; eassumption|]. rewrite E2. eapply not_outdated_up; [exact El | exact B | lia].
Qed.

(** The next source is delivered and what follows it. *)
Lemma deliver_next m d x data d' : ssorted (d_ordered d) -> (forall y, In y (d_ordered d) -> d_first d <= y) ->
  (forall y, In y (d_ordered d) -> In y (keys d)) -> (forall y, In y (keys d) -> y < lim) ->
  (forall y, In y (keys d) -> y < d_first d -> In y (handed d)) ->
  (forall y, In y (keys d) -> d_first d < y -> In y (d_ordered d)) ->
  x = d_first d -> x < lim -> ~ In x (d_ordered d) ->
  flush m (with_first (callback d x data) (u32 (d_first d + 1))) = Ok d' ->
  flushed (with_first (callback d x data) (x + 1)) d'
  /\ In x (handed d') /\ x < d_first d' /\ grows d d'.
Proof.
  intros R1 R2 R3 R4 R5 R6 -> Hx Hno H.
  assert (Hu : u32 (d_first d + 1) = d_first d + 1).
  { unfold u32. apply N.mod_small. unfold LIM in Hlim0. lia. }
  rewrite Hu in H. set (d1 := with_first _ _) in *.
  assert (E1h : handed d1 = handed d ++ [d_first d]).
  { unfold d1, handed. cbn [with_first callback d_log]. rewrite map_app. reflexivity. }
  assert (Rd : ready d1).
  { constructor; unfold d1; cbn [with_first callback d_ordered d_first d_sources]; fold d1.
    - exact R1.
    - intros x Hx'. specialize (R2 x Hx'). assert (x <> d_first d) by congruence. lia.
    - exact R3.
    - exact R4.
    - intros x Hk Hlt. rewrite E1h. apply in_app_iff. destruct (N.eq_dec x (d_first d)) as [->|Hne]; [right; left; reflexivity|].
      left. apply R5; [exact Hk | lia].
    - intros x Hk Hge. apply R6; [exact Hk | lia]. }
  apply flush_flushed in H; [|exact Rd]. split; [exact H|]. destruct H as [F1 F2 F3 F4 F5].
  assert (G : grows d d1).
  { split; [|split; [|split]].
    - intros x Hk. left. exact Hk.
    - rewrite E1h. apply incl_appl, incl_refl.
    - unfold d1. cbn [with_first d_first]. lia.
    - reflexivity. }
  split; [|split].
  - apply F2. rewrite E1h. apply in_app_iff. right. left. reflexivity.
  - destruct F2 as (_ & _ & F2 & _). unfold d1 in F2. cbn [with_first d_first] in F2. lia.
  - eapply grows_trans; eassumption.
Qed.

(** ** A new source: lines 252-263 and 325-335 *)

Lemma announce_store m d x data d1 d2 d3 : prompt d -> (d_in_order d = true -> d_first d <= x) -> x < lim ->
  ~ In x (keys d) -> announce m d x data = Ok d1 -> same_order d1 d2 -> d_last d2 = d_last d1 ->
  store m d2 x data = Ok d3 ->
  prompt d3 /\ (d_in_order d = true -> grows d d3) /\ d_last d3 = d_last d /\ d_in_order d3 = d_in_order d
  /\ (forall y, In y (keys d3) <-> y = x \/ In y (keys d)).
Proof.
  intros P Hge Hx Hk Ha Hs Hl Hst. unfold store in Hst. apply bind_ok in Hst. destruct Hst as (u & _ & Hst). clear u.
  pose proof Hs as (S1 & S2 & S3 & S4 & S5).
  unfold announce in Ha. destruct (d_in_order d) eqn:Hi; cbn [negb] in Ha.
  2: { assert (d1 = callback d x data) by congruence. subst d1. cbn [callback d_in_order d_sources d_last] in *.
       rewrite Hi in S5. cbn [with_sources d_in_order] in Hst. rewrite S5 in Hst. cbn [andb] in Hst.
       assert (d3 = with_sources d2 (mput x data (d_sources d2))) by congruence. subst d3.
       cbn [with_sources d_last d_in_order d_sources]. split; [|split; [discriminate|split; [exact Hl|split; [exact S5|]]]].
       - intros Y. cbn [with_sources d_in_order] in Y. congruence.
       - intros y. rewrite S3. apply mput_keys. }
  specialize (Hge eq_refl). destruct (P Hi) as [[R Hn] Hno]. pose proof R as [R1 R2 R3 R4 R5 R6].
  assert (Hkk : forall y, In y (mkeys (mput x data (d_sources d))) <-> y = x \/ In y (keys d)).
  { intros y. apply mput_keys. }
  destruct (x =? d_first d) eqn:Ex.
  - apply N.eqb_eq in Ex. destruct (deliver_next m d x data d1 R1 R2 R3 R4 R5) as (F & Hh & Hlt & G); try assumption.
    { intros y Hy Hlt. apply R6; [exact Hy | lia]. }
    { rewrite Ex. exact Hn. }
    pose proof F as [F1 F2 F3 F4 F5]. pose proof F1 as [[T1 T2 T3 T4 T5 T6] T].
    cbn [with_first callback d_sources d_last] in F3, F4.
    cbn [with_sources d_in_order d_first] in Hst. rewrite S2 in Hst.
    replace (d_first d1 <? x) with false in Hst by (symmetry; apply N.ltb_ge; lia). rewrite andb_false_r in Hst.
    assert (E3 : d3 = with_sources d2 (mput x data (d_sources d2))) by congruence.
    assert (Es3 : d_sources d3 = mput x data (d_sources d)) by (rewrite E3; cbn [with_sources d_sources]; congruence).
    assert (Eo3 : d_ordered d3 = d_ordered d1) by (rewrite E3; exact S1).
    assert (Ef3 : d_first d3 = d_first d1) by (rewrite E3; exact S2).
    assert (El3 : d_last d3 = d_last d) by (rewrite E3; cbn [with_sources d_last]; congruence).
    assert (Eg3 : handed d3 = handed d1) by (rewrite E3; unfold handed; cbn [with_sources d_log]; rewrite S4; reflexivity).
    assert (Ei3 : d_in_order d3 = d_in_order d1) by (rewrite E3; exact S5).
    destruct G as (G1 & G2 & G3 & G4).
    split; [|split; [|split; [exact El3|split; [congruence|]]]].
    + intros _. split.
      * constructor; [|rewrite Eo3, Ef3; exact T].
        constructor; rewrite ?Eo3, ?Ef3, ?Es3, ?Eg3.
        -- exact T1.
        -- exact T2.
        -- intros y Hy. apply Hkk. right. rewrite <- F3. apply T3, Hy.
        -- intros y Hy. apply Hkk in Hy. destruct Hy as [->|Hy]; [exact Hx | apply R4, Hy].
        -- intros y Hy Hlt'. apply Hkk in Hy. destruct Hy as [->|Hy]; [exact Hh|]. apply T5; [rewrite F3; exact Hy | exact Hlt'].
        -- intros y Hy Hge'. apply Hkk in Hy. destruct Hy as [->|Hy]; [lia|]. apply T6; [rewrite F3; exact Hy | exact Hge'].
      * rewrite Ef3. eapply not_outdated_up; [exact El3 | exact Hno | exact G3].
    + intros _. split; [|split; [|split]].
      * intros y Hy. left. rewrite Es3. apply Hkk. right. exact Hy.
      * rewrite Eg3. exact G2.
      * rewrite Ef3. exact G3.
      * congruence.
    + intros y. rewrite Es3. apply Hkk.
  - apply N.eqb_neq in Ex. assert (d1 = d) by congruence. subst d1.
    assert (Hlt : d_first d < x) by lia.
    cbn [with_sources d_in_order d_first] in Hst. rewrite S2, S5, Hi in Hst.
    apply N.ltb_lt in Hlt. rewrite Hlt in Hst. apply N.ltb_lt in Hlt. cbn [andb] in Hst.
    set (d3' := with_ordered _ _) in Hst. assert (E3 : d3 = d3') by congruence. clear Hst.
    assert (Es3 : d_sources d3 = mput x data (d_sources d)).
    { rewrite E3. unfold d3'. cbn [with_ordered with_sources d_sources]. congruence. }
    assert (Eo3 : d_ordered d3 = sinsert x (d_ordered d)).
    { rewrite E3. unfold d3'. cbn [with_ordered with_sources d_ordered]. rewrite S1. reflexivity. }
    assert (Ef3 : d_first d3 = d_first d) by (rewrite E3; exact S2).
    assert (El3 : d_last d3 = d_last d) by (rewrite E3; exact Hl).
    assert (Eg3 : handed d3 = handed d).
    { rewrite E3. unfold handed, d3'. cbn [with_ordered with_sources d_log]. rewrite S4. reflexivity. }
    assert (Ei3 : d_in_order d3 = d_in_order d) by (rewrite E3; exact S5).
    split; [|split; [|split; [exact El3|split; [congruence|]]]].
    + intros _. split.
      * constructor.
        -- constructor; rewrite ?Eo3, ?Ef3, ?Es3, ?Eg3.
           ++ apply sinsert_sorted, R1.
           ++ intros y Hy. apply sinsert_in in Hy. destruct Hy as [->|Hy]; [lia | apply R2, Hy].
           ++ intros y Hy. apply Hkk. apply sinsert_in in Hy. destruct Hy as [->|Hy]; [left; reflexivity | right; apply R3, Hy].
           ++ intros y Hy. apply Hkk in Hy. destruct Hy as [->|Hy]; [exact Hx | apply R4, Hy].
           ++ intros y Hy Hlt'. apply Hkk in Hy. destruct Hy as [->|Hy]; [lia | apply R5; assumption].
           ++ intros y Hy Hge'. apply sinsert_in. apply Hkk in Hy. destruct Hy as [->|Hy]; [left; reflexivity | right; apply R6; assumption].
        -- rewrite Eo3, Ef3. intros Y. apply sinsert_in in Y. destruct Y as [Y|Y]; [lia | contradiction].
      * rewrite Ef3. eapply not_outdated_up; [exact El3 | exact Hno | lia].
    + intros _. split; [|split; [|split]].
      * intros y Hy. left. rewrite Es3. apply Hkk. right. exact Hy.
      * rewrite Eg3. apply incl_refl.
      * rewrite Ef3. lia.
      * congruence.
    + intros y. rewrite Es3. apply Hkk.
Qed.

End Prompt.

Section Steps.
Variable f : field.
Variable S : N -> list N.
Variable m : mode.
Variable lim : N.
Hypothesis Hlim0 : lim <= LIM.
Hypothesis HS : forall x, good_data f (S x).

Notation keys d := (mkeys (d_sources d)).
Notation prompt := (prompt lim).

(** What a step keeps: known data stay known or have been delivered. *)
Definition keeps (d d' : ddec) : Prop := d_in_order d' = d_in_order d /\ (d_in_order d = true -> grows d d').

Lemma keeps_trans a b c : keeps a b -> keeps b c -> keeps a c.
Proof.
  intros [A1 A2] [B1 B2]. split; [congruence|]. intros H. eapply grows_trans; [apply A2, H | apply B2; congruence].
Qed.

Lemma keeps_same d d' : same_order d d' -> keeps d d'.
Proof. intros E. split; [apply E | intros _; apply same_grows, E]. Qed.

(** ** A source, lines 34-50 *)

Lemma add_source_prompt P fuel d x d' : core f S P d -> ge lim P d -> logs S lim N.lt P d -> fresh lim P d x -> calm d ->
  ~ miss d x -> prompt d -> add_source (Datatypes.S fuel) m d x (S x) = Ok d' ->
  prompt d' /\ keeps d d'.
Proof.
  intros C G L F Q Hm Pr H. cbn [add_source] in H.
  destruct (announce_spec S m lim Hlim0 P d x) as (fi & od & lg & E & _); try assumption.
  { apply C. } { intros y Hy. apply G. left. exact Hy. }
  rewrite E in H. cbn [bind] in H. unfold no_longer_missing in H. cbn [delivery d_missing] in H.
  assert (En : mfind x (d_missing d) = None) by (apply mfind_none; exact Hm). rewrite En in H. cbn [bind] in H.
  rewrite (scan_idle f S m lim Hlim0 P) in H.
  2: { apply core_delivery, C. }
  2: { apply calm_same with d; [reflexivity | exact Q]. }
  cbn [bind] in H.
  destruct (announce_store lim Hlim0 m d x (S x) (delivery d fi od lg) (delivery d fi od lg) d') as (A1 & A2 & A3 & A4 & _);
    try assumption; try reflexivity.
  - intros Hi. eapply fresh_ge_first; eassumption.
  - apply F.
  - intros Hx. apply (proj1 F). left. exact Hx.
  - repeat split.
  - split; [exact A1 | split; [exact A4 | exact A2]].
Qed.

Theorem source_prompt d x d' : inv f S lim d -> calm d -> prompt d -> x < lim -> ~ miss d x ->
  recv_source m d x (S x) = Ok d' -> prompt d' /\ keeps d d'.
Proof.
  intros I Q P Hx Hm H. pose proof I as I'. destruct I' as [C G L T]. unfold recv_source in H.
  assert (Same : d' = d -> prompt d' /\ keeps d d').
  { intros ->. split; [exact P | apply keeps_same; repeat split]. }
  destruct (outdated d x) eqn:Eo; [apply Same; congruence|].
  destruct (mmem x (d_sources d)) eqn:Em; [apply Same; congruence|]. apply mmem_false in Em. apply outdated_false in Eo.
  assert (Fr : fresh lim [] d x) by (split; [intros [Y|[]]; contradiction | auto]).
  destruct (add_source_total f S m lim Hlim0 [] (length (d_missing d)) d x C G L Fr Q Hm) as (d1 & E & Er & Ems).
  unfold enough in H. rewrite E in H. cbn [bind] in H.
  rewrite attempt_less in H.
  - assert (d' = d1) by congruence. subst d'. eapply add_source_prompt; eassumption.
  - rewrite Er, Ems. apply calm_fewer with f S lim []; assumption.
Qed.

(** ** Dropping, lines 341-389 *)

Lemma drop_prompt d id d' : core f S [] d -> ge lim [] d -> logs S lim N.lt [] d -> calm d -> prompt d ->
  not_outdated d id = true -> id < lim -> drop_outdated m d id = Ok d' ->
  prompt d' /\ keeps d d'.
Proof.
  intros C G L Q Pr Hid Hlim H. unfold drop_outdated in H. set (d0 := with_last d (Some id)) in H.
  assert (C0 : core f S [] d0) by (apply core_same with (5 := C); reflexivity).
  apply bind_ok in H. destruct H as (d1 & E1 & H).
  apply (drop_repairs_spec f S m lim Hlim0 [] id (d_repairs d0) d0 d1 C0) in E1; [|apply C | auto].
  destruct E1 as (C1 & Hm1 & (R & M & E1) & _).
  assert (L1 : logs S lim N.lt [] d1).
  { apply logs_same with (d := d0).
    - rewrite E1. repeat split.
    - apply logs_last; assumption. }
  assert (Hb1 : forall x, K [] d1 x -> x < lim).
  { rewrite E1. intros x Hx. apply G. left. exact Hx. }
  assert (Ei : d_in_order d1 = d_in_order d) by (rewrite E1; reflexivity).
  assert (Es : d_sources d1 = d_sources d) by (rewrite E1; reflexivity).
  assert (Eo : d_ordered d1 = d_ordered d) by (rewrite E1; reflexivity).
  assert (Efi : d_first d1 = d_first d) by (rewrite E1; reflexivity).
  assert (Elg : d_log d1 = d_log d) by (rewrite E1; reflexivity).
  assert (Ela : d_last d1 = Some id) by (rewrite E1; reflexivity).
  destruct (d_in_order d1) eqn:Ein.
  2: { cbn [bind] in H. assert (Ed : d' = with_missing (with_sources d1 (mfrom id (d_sources d1))) (mfrom id (d_missing d1))).
       { cbn [with_sources d_missing] in H. congruence. }
       split.
       - intros Hi. rewrite Ed in Hi. cbn [with_missing with_sources d_in_order] in Hi. congruence.
       - split; [rewrite Ed; cbn [with_missing with_sources d_in_order]; congruence | congruence]. }
  destruct (Pr (eq_sym Ei)) as [[[R1 R2 R3 R4 R5 R6] Rn] Ro].
  rewrite (deliver_outdated_spec S (before id (d_ordered d1)) d1) in H.
  2: { apply C1. }
  2: { rewrite Eo. exact R1. }
  2: { unfold before. apply ssorted_filter. rewrite Eo. exact R1. }
  2: { intros x Hx. apply before_spec in Hx. rewrite Es. apply R3. rewrite <- Eo. apply Hx. }
  cbn [bind] in H. set (d2 := delivery _ _ _ _) in H.
  set (d3 := if d_first d2 <? id then with_first d2 id else d2) in H.
  apply bind_ok in H. destruct H as (d4 & E4 & H).
  assert (E2f : d_first d2 = d_first d) by exact Efi.
  assert (E3f : d_first d3 = N.max (d_first d) id).
  { unfold d3. rewrite E2f. destruct (d_first d <? id) eqn:E; [apply N.ltb_lt in E | apply N.ltb_ge in E].
    - cbn [with_first d_first]. lia.
    - rewrite E2f. lia. }
  assert (E3 : d_ordered d3 = d_ordered d2 /\ d_sources d3 = d_sources d2 /\ d_log d3 = d_log d2
     /\ d_in_order d3 = d_in_order d2 /\ d_last d3 = d_last d2).
  { unfold d3. destruct (_ <? _); repeat split. }
  destruct E3 as (E3o & E3s & E3l & E3i & E3a).
  assert (E3s' : d_sources d3 = d_sources d) by (rewrite E3s; exact Es).
  assert (E3o' : forall y, In y (d_ordered d3) <-> In y (d_ordered d) /\ id <= y).
  { intros y. rewrite E3o. unfold d2. cbn [delivery d_ordered]. rewrite filter_In, Eo, negb_true_iff, smem_false, before_spec.
    split.
    - intros [A B]. split; [exact A|]. apply N.le_ngt. intros X. apply B. auto.
    - intros [A B]. split; [exact A|]. intros [_ X]. lia. }
  assert (E3h : handed d3 = handed d ++ before id (d_ordered d)).
  { unfold handed. rewrite E3l. unfold d2. cbn [delivery d_log]. rewrite map_app, Elg, Eo. f_equal. rewrite map_map.
    cbn [ev v_id]. apply map_id. }
  assert (Rd : ready lim d3).
  { constructor.
    - rewrite E3o. unfold d2. cbn [delivery d_ordered]. apply ssorted_filter. rewrite Eo. exact R1.
    - intros x Hx. apply E3o' in Hx. rewrite E3f. pose proof (R2 x (proj1 Hx)). lia.
    - intros x Hx. apply E3o' in Hx. rewrite E3s'. apply R3, Hx.
    - rewrite E3s'. exact R4.
    - intros x Hx Hlt. rewrite E3s' in Hx. rewrite E3f in Hlt. rewrite E3h. apply in_app_iff.
      destruct (N.lt_ge_cases x (d_first d)) as [A|A]; [left; apply R5; assumption|].
      right. apply before_spec. split; [apply R6; assumption | lia].
    - intros x Hx Hge. rewrite E3s' in Hx. rewrite E3f in Hge. apply E3o'. split; [apply R6; [exact Hx | lia] | lia]. }
  apply (flush_flushed lim Hlim0) in E4; [|exact Rd]. destruct E4 as [F1 F2 F3 F4 F5].
  set (d5 := with_missing _ _) in H. assert (d' = d5) by congruence. subst d'. clear H.
  pose proof F1 as [[T1 T2 T3 T4 T5 T6] T].
  assert (Hfid : id <= d_first d4).
  { destruct F2 as (_ & _ & F2 & _). rewrite E3f in F2. lia. }
  assert (E5s : d_sources d5 = mfrom id (d_sources d4)) by reflexivity.
  assert (E5i : d_in_order d5 = d_in_order d).
  { change (d_in_order d4 = d_in_order d). destruct F2 as (_ & _ & _ & F2). rewrite F2, E3i. unfold d2. cbn [delivery d_in_order].
    congruence. }
  split.
  - intros _. split.
    + constructor; [|exact T]. constructor.
      * exact T1.
      * exact T2.
      * intros x Hx. rewrite E5s. apply mfrom_keys. split; [apply T3, Hx|]. specialize (T2 x Hx). lia.
      * intros x Hx. rewrite E5s in Hx. apply mfrom_keys in Hx. apply T4, Hx.
      * intros x Hx Hlt. rewrite E5s in Hx. apply mfrom_keys in Hx. apply (T5 x (proj1 Hx) Hlt).
      * intros x Hx Hge. rewrite E5s in Hx. apply mfrom_keys in Hx. apply (T6 x (proj1 Hx) Hge).
    + unfold not_outdated. change (d_last d5) with (d_last d4). change (d_first d5) with (d_first d4).
      rewrite F4, E3a. unfold d2. cbn [delivery d_last]. rewrite Ela. apply N.leb_le. exact Hfid.
  - split; [exact E5i|]. intros _. destruct F2 as (G1 & G2 & G3 & G4). split; [|split; [|split]].
    + intros x Hx. destruct (N.lt_ge_cases x id) as [A|A].
      * right. change (handed d5) with (handed d4). apply T5; [rewrite F3, E3s'; exact Hx | lia].
      * left. rewrite E5s. apply mfrom_keys. split; [rewrite F3, E3s'; exact Hx | exact A].
    + change (handed d5) with (handed d4). eapply incl_tran; [|exact G2]. rewrite E3h. apply incl_appl, incl_refl.
    + change (d_first d5) with (d_first d4). lia.
    + exact E5i.
Qed.

(** ** Full decoding, lines 412-566 *)

Lemma add_decoded_prompt d x d' data : prompt d -> (d_in_order d = true -> d_first d <= x) -> x < lim ->
  ~ In x (keys d) -> add_decoded m d x data = Ok d' ->
  prompt d' /\ keeps d d' /\ (forall y, In y (keys d') <-> y = x \/ In y (keys d))
  /\ (d_in_order d = true -> forall y, d_first d <= y -> y <> x -> ~ In y (keys d) -> d_first d' <= y).
Proof.
  intros P Hge Hx Hk H. unfold add_decoded in H. apply bind_ok in H. destruct H as (u & _ & H). clear u.
  replace (mfind x (d_sources d)) with (@None (list N)) in H by (symmetry; apply mfind_none; exact Hk).
  set (d0 := with_sources d (mput x data (d_sources d))) in H. cbv zeta in H.
  assert (Hkk : forall y, In y (keys d0) <-> y = x \/ In y (keys d)) by (intros y; apply mput_keys).
  change (d_in_order d0) with (d_in_order d) in H. destruct (d_in_order d) eqn:Hi; cbn [negb] in H.
  2: { assert (Ed : d' = callback d0 x data) by congruence. subst d'.
       split; [|split; [|split]].
       - intros Y. change (d_in_order d = true) in Y. congruence.
       - split; [reflexivity | congruence].
       - exact Hkk.
       - discriminate. }
  specialize (Hge eq_refl). destruct (P Hi) as [[[R1 R2 R3 R4 R5 R6] Rn] Ro].
  change (d_first d0) with (d_first d) in H. destruct (x =? d_first d) eqn:Ex.
  - apply N.eqb_eq in Ex. change (d_first (callback d0 x data)) with (d_first d0) in H.
    destruct (deliver_next lim Hlim0 m d0 x data d') as (F & Hh & Hlt & G); try assumption.
    { intros y Hy. apply Hkk. right. apply R3, Hy. }
    { intros y Hy. apply Hkk in Hy. destruct Hy as [->|Hy]; [exact Hx | apply R4, Hy]. }
    { intros y Hy Hlt. change (handed d0) with (handed d). change (d_first d0) with (d_first d) in Hlt.
      apply Hkk in Hy. destruct Hy as [->|Hy]; [lia | apply R5; assumption]. }
    { intros y Hy Hlt. change (d_ordered d0) with (d_ordered d). change (d_first d0) with (d_first d) in Hlt.
      apply Hkk in Hy. destruct Hy as [->|Hy]; [lia | apply R6; [exact Hy | lia]]. }
    { change (d_ordered d0) with (d_ordered d). rewrite Ex. exact Rn. }
    pose proof F as [F1 F2 F3 F4 F5]. destruct G as (G1 & G2 & G3 & G4).
    assert (Es : d_sources d' = d_sources d0) by exact F3.
    split; [|split; [|split]].
    + intros _. split; [exact F1|]. eapply not_outdated_up; [exact F4 | exact Ro | exact G3].
    + split; [exact G4|]. intros _. split; [|split; [exact G2 | split; [exact G3 | exact G4]]].
      intros y Hy. left. rewrite Es. apply Hkk. right. exact Hy.
    + intros y. rewrite Es. apply Hkk.
    + intros _ y Hy Hne Hny. apply F5.
      * cbn [with_first d_first]. lia.
      * cbn [with_first callback d_sources]. intros Y. apply Hkk in Y. destruct Y; contradiction.
  - apply N.eqb_neq in Ex. set (d2 := with_ordered _ _) in H. assert (d' = d2) by congruence. subst d'. clear H.
    assert (Eo : d_ordered d2 = sinsert x (d_ordered d)) by reflexivity.
    assert (Efi : d_first d2 = d_first d) by reflexivity.
    assert (Es : d_sources d2 = d_sources d0) by reflexivity.
    split; [|split; [|split]].
    + intros _. split; [|exact Ro]. constructor.
      * constructor; rewrite ?Eo, ?Efi, ?Es; change (handed d2) with (handed d).
        -- apply sinsert_sorted, R1.
        -- intros y Hy. apply sinsert_in in Hy. destruct Hy as [->|Hy]; [lia | apply R2, Hy].
        -- intros y Hy. apply Hkk. apply sinsert_in in Hy. destruct Hy as [->|Hy]; [left; reflexivity | right; apply R3, Hy].
        -- intros y Hy. apply Hkk in Hy. destruct Hy as [->|Hy]; [exact Hx | apply R4, Hy].
        -- intros y Hy Hlt. apply Hkk in Hy. destruct Hy as [->|Hy]; [lia | apply R5; assumption].
        -- intros y Hy Hge'. apply sinsert_in. apply Hkk in Hy. destruct Hy as [->|Hy]; [left; reflexivity | right; apply R6; assumption].
      * rewrite Eo, Efi. intros Y. apply sinsert_in in Y. destruct Y as [Y|Y]; [lia | contradiction].
    + split; [reflexivity|]. intros _. split; [|split; [apply incl_refl | split; [rewrite Efi; lia | reflexivity]]].
      intros y Hy. left. rewrite Es. apply Hkk. right. exact Hy.
    + exact Hkk.
    + intros _ y Hy _ _. exact Hy.
Qed.

Lemma decode_all_prompt n inv reps todo : forall col d d', NoDup todo ->
  (forall x, In x todo -> ~ In x (keys d) /\ x < lim /\ (d_in_order d = true -> d_first d <= x)) ->
  prompt d -> decode_all m n inv reps col todo d = Ok d' -> prompt d' /\ keeps d d'.
Proof.
  induction todo as [|x todo IH]; intros col d d' Hn Ht P H; cbn [decode_all] in H.
  - assert (d' = d) by congruence. subst. split; [exact P | apply keeps_same; repeat split].
  - cbv zeta in H. apply bind_ok in H. destruct H as (data & _ & H). apply bind_ok in H. destruct H as (d1 & E1 & H).
    apply NoDup_cons_iff in Hn. destruct Hn as [Hn1 Hn2].
    destruct (Ht x (or_introl eq_refl)) as (A1 & A2 & A3).
    destruct (add_decoded_prompt d x d1 data P A3 A2 A1 E1) as (P1 & K1 & Hk & Hst).
    destruct (IH (Datatypes.S col) d1 d' Hn2) as [P2 K2]; try assumption.
    + intros y Hy. destruct (Ht y (or_intror Hy)) as (B1 & B2 & B3). assert (y <> x) by congruence.
      split; [|split; [exact B2|]].
      * intros Y. apply Hk in Y. destruct Y; contradiction.
      * intros Hi. destruct K1 as [K1 _]. rewrite K1 in Hi. apply Hst; auto.
    + split; [exact P2 | eapply keeps_trans; eassumption].
Qed.

Lemma attempt_prompt d d' : core f S [] d -> ge lim [] d -> logs S lim N.lt [] d -> prompt d ->
  attempt_full_decoding m d = Ok d' -> prompt d' /\ keeps d d'.
Proof.
  intros C G L P H. unfold attempt_full_decoding in H. cbv zeta in H.
  assert (Same : forall e, same_order d e -> d_last e = d_last d -> prompt e /\ keeps d e).
  { intros e E El. split; [eapply prompt_same; eassumption | apply keeps_same, E]. }
  assert (Done : d' = d -> prompt d' /\ keeps d d') by (intros ->; apply Same; repeat split).
  destruct (_ || _); [apply Done; congruence|]. destruct (Nat.ltb _ _); [apply Done; congruence|].
  apply bind_ok in H. destruct H as (u1 & _ & H). apply bind_ok in H. destruct H as (u2 & _ & H).
  destruct (negb _); [discriminate|].
  apply bind_ok in H. destruct H as (r & _ & H). destruct r as [k|[a inv0]].
  - unfold failed_decoding in H. cbn [with_failed d_repairs] in H.
    destruct (nth_error (d_repairs d) k) as [[r rep]|]; [|discriminate].
    match type of H with Ok ?e = _ => assert (Ed : d' = e) by congruence end. rewrite Ed. apply Same; repeat split.
  - apply bind_ok in H. destruct H as (d1 & E1 & H).
    apply decode_all_prompt in E1; try assumption.
    + destruct E1 as [P1 K1].
      match type of H with Ok ?e = _ => assert (Ed : d' = e) by congruence end.
      assert (E : same_order d1 d') by (rewrite Ed; repeat split).
      split.
      * apply prompt_same with d1; [exact E | rewrite Ed; reflexivity | exact P1].
      * eapply keeps_trans; [exact K1 | apply keeps_same, E].
    + apply ssorted_NoDup, C.
    + intros x Hx. assert (F : fresh lim [] d x).
      { split; [apply (c_disj _ _ _ _ C x Hx) | apply G; right; exact Hx]. }
      split; [intros Y; apply F; left; exact Y|]. split; [apply F|]. intros Hi. eapply fresh_ge_first; eassumption.
Qed.

(** ** A repair, lines 54-152 *)

Theorem repair_prompt d r d' : inv f S lim d -> calm d -> prompt d -> acceptable f S lim d r ->
  recv_repair m d r = Ok d' -> prompt d' /\ keeps d d'.
Proof.
  intros I0 Q P A H. pose proof I0 as I1. destruct I1 as [C G L T].
  pose proof A as A0. destruct A0 as [B1 B2 B3 B4 B5]. unfold recv_repair in H.
  apply bind_ok in H. destruct H as (u & _ & H). clear u.
  destruct (dr_ids r) as [|first ids] eqn:Eids; [discriminate|]. rewrite <- Eids in *.
  assert (Efirst : hd 0 (dr_ids r) = first) by (rewrite Eids; reflexivity).
  assert (Done : d' = d -> prompt d' /\ keeps d d') by (intros ->; split; [exact P | apply keeps_same; repeat split]).
  destruct (outdated d (last (dr_ids r) 0)) eqn:Eo; [apply Done; congruence|].
  destruct (mmem (dr_id r) (d_repairs d)) eqn:Em; [apply Done; congruence|]. apply mmem_false in Em.
  assert (Hfl : hd 0 (dr_ids r) < lim) by (apply B5; rewrite Eids; left; reflexivity).
  apply bind_ok in H. destruct H as (d0 & E0 & H). rewrite <- Efirst in E0.
  pose proof (drop_outdated_spec f S m lim Hlim0 d _ d0 C G L B2 Hfl E0) as D.
  pose proof (acceptable_dropped f S lim d d0 r A D) as A'.
  pose proof (calm_dropped f S lim d d0 _ Q C D) as Q0.
  destruct (drop_prompt d _ d0 C G L Q P B2 Hfl E0) as [P0 K0].
  pose proof D as D'. destruct D' as [C0 G0 L0 V0 La0 Hm0 Hs0 Hr0 _ _ _].
  assert (Next : forall e, prompt e /\ keeps d0 e -> prompt e /\ keeps d e).
  { intros e [X Y]. split; [exact X | eapply keeps_trans; eassumption]. }
  apply Next. clear Next.
  destruct (forallb (fun id => mmem id (d_sources d0)) (dr_ids r)) eqn:Ef.
  { assert (Ed : d' = with_useless d0 (d_useless d0 + 1)) by congruence. subst d'.
    split; [apply prompt_same with d0; try reflexivity; [repeat split | exact P0] | apply keeps_same; repeat split]. }
  apply bind_ok in H. destruct H as (u & _ & H). clear u.
  assert (Hnew : ~ In (dr_id r) (mkeys (d_repairs d0))).
  { intros Hin. apply mfind_keys in Hin. destruct Hin as [v Hv]. apply Em, mfind_keys. exists v. apply Hr0, Hv. }
  apply bind_ok in H. destruct H as ([d1' r1] & El & H). cbv zeta in H.
  apply (link_spec f S m lim Hlim0) in El; try assumption.
  2: { intros x Hx. apply Hm0 in Hx. apply Hx. }
  set (d1 := with_repairs d1' _) in *.
  pose proof El as K1. destruct K1 as [C1 G1 (R & M & E1) Hr1 Hreps Hid1 Gn1 Hids Hm1].
  assert (L1 : logs S lim N.lt [] d1) by (apply logs_same with (2 := L0); rewrite E1; repeat split).
  assert (P1 : prompt d1) by (apply prompt_same with d0; [rewrite E1; repeat split | rewrite E1; reflexivity | exact P0]).
  assert (K1 : keeps d0 d1) by (apply keeps_same; rewrite E1; repeat split).
  assert (Next : forall e, prompt e /\ keeps d1 e -> prompt e /\ keeps d0 e).
  { intros e [X Y]. split; [exact X | eapply keeps_trans; eassumption]. }
  apply Next. clear Next.
  assert (Hcov : forall y, miss d0 y -> In y (dr_ids r1)).
  { intros y Hy. apply Hids. split.
    - apply (b_covers _ _ _ _ _ A'); [exact Hy|]. apply Hm0 in Hy. apply Hy.
    - apply (c_disj _ _ _ _ C0 y Hy). }
  apply bind_ok in H. destruct H as (u & _ & H). clear u.
  destruct (Nat.eqb (length (dr_ids r1)) 1) eqn:E1l; [|eapply attempt_prompt; eassumption].
  apply Nat.eqb_eq in E1l.
  destruct (dr_ids r1) as [|x [|x2 l]] eqn:Eids1; try discriminate. clear E1l.
  assert (Hmore : (length (d_missing d0) <= 1)%nat).
  { rewrite <- mkeys_length. change 1%nat with (length [x]). apply NoDup_incl_length; [apply ssorted_NoDup, C0|].
    intros y Hy. apply Hcov, Hy. }
  rewrite (c_field _ _ _ _ C1), (create_source_spec f S m r1 x Gn1 Eids1) in H.
  cbn [bind] in H. set (d2 := with_repairs (with_missing _ _) _) in H.
  assert (Hnor : d_repairs d0 = []).
  { destruct (calm_fewer f S lim Hlim0 [] d0 C0 Q0) as [X|X]; [exact X|].
    destruct (d_repairs d0); [reflexivity | cbn [length] in X; lia]. }
  assert (Hmx1 : miss d1 x) by (apply Hm1; right; left; reflexivity).
  assert (Hlinks : mfind x (d_missing d1) = Some [dr_id r]).
  { pose proof Hmx1 as Hl. apply mfind_keys in Hl. destruct Hl as [l Hl]. rewrite Hl. f_equal.
    destruct (c_links _ _ _ _ C1 x l Hl) as [Hl1 Hl2].
    apply ssorted_ext; [exact Hl1 | apply ssorted_cons; [apply ssorted_nil | intros y []]|].
    intros r0. rewrite Hl2. rewrite Hreps, Hnor. cbn [mset mfind In]. split.
    - intros (rep & Y & _). destruct (r0 =? dr_id r) eqn:Er0; [|discriminate].
      apply N.eqb_eq in Er0. left. congruence.
    - intros [<-|[]]. exists r1. rewrite N.eqb_refl. split; [reflexivity|]. rewrite Eids1. left. reflexivity. }
  pose proof (core_erase f S [] d1 (dr_id r) r1 x C1 Hr1 Eids1 Hlinks) as C2'.
  assert (E2r : d_repairs d2 = []).
  { unfold d2. cbn [with_repairs with_missing count_decoded with_decoded d_repairs]. rewrite Hid1, Hreps, Hnor.
    cbn [mset merase]. rewrite N.eqb_refl. reflexivity. }
  assert (C2 : core f S [x] d2).
  { apply core_same with (5 := C2'); try reflexivity.
    unfold d2. cbn [with_repairs with_missing count_decoded with_decoded d_repairs]. rewrite Hid1. reflexivity. }
  assert (Hm2 : forall y, ~ miss d2 y).
  { intros y Hy. assert (Y : miss d1 y /\ y <> x) by (apply merase_keys in Hy; [exact Hy | apply C1]).
    destruct Y as [Y1 Y2]. apply Hm1 in Y1. destruct Y1 as [Y1|[Y1|[]]]; [apply Hcov in Y1|]; try congruence.
    destruct Y1 as [Y1|[]]. congruence. }
  assert (Hxk : ~ K [] d0 x) by (apply (Hids x); left; reflexivity).
  assert (Es2 : d_sources d2 = d_sources d0) by (change (d_sources d1 = d_sources d0); rewrite E1; reflexivity).
  assert (L2 : logs S lim N.lt [] d2) by (apply logs_same with (2 := L1); repeat split).
  assert (F2 : fresh lim [] d2 x).
  { split; [|].
    - intros Y. apply Hxk. destruct Y as [Y|[]]. left. rewrite <- Es2. exact Y.
    - apply G1. right. exact Hmx1. }
  assert (E12 : same_order d1 d2) by repeat split.
  assert (P2 : prompt d2) by (apply prompt_same with d1; [exact E12 | reflexivity | exact P1]).
  assert (Next : forall e, prompt e /\ keeps d2 e -> prompt e /\ keeps d1 e).
  { intros e [X Y]. split; [exact X | eapply keeps_trans; [apply keeps_same, E12 | exact Y]]. }
  apply Next. clear Next.
  unfold enough in H. cbn [add_source] in H.
  destruct (announce_spec S m lim Hlim0 [] d2 x) as (fi & od & lg & Ea & _); try assumption.
  { apply C2. } { intros y Hy. apply G1. left. exact Hy. }
  rewrite Ea in H. cbn [bind] in H. unfold no_longer_missing in H. cbn [delivery d_missing] in H.
  assert (En : mfind x (d_missing d2) = None) by (apply mfind_none, Hm2). rewrite En in H. cbn [bind] in H.
  rewrite (scan_idle f S m lim Hlim0 [x]) in H.
  2: { apply core_delivery, C2. }
  2: { apply calm_nil. exact E2r. }
  cbn [bind] in H.
  destruct (announce_store lim Hlim0 m d2 x (S x) (delivery d2 fi od lg) (delivery d2 fi od lg) d') as (A1 & A2 & A3 & A4 & _);
    try assumption; try reflexivity.
  - intros Hi. eapply fresh_ge_first; eassumption.
  - apply F2.
  - intros Hx. apply (proj1 F2). left. exact Hx.
  - repeat split.
  - split; [exact A1 | split; [exact A4 | exact A2]].
Qed.

End Steps.
