(** * The counters of useless repairs and of failed decodings influence nothing *)
From Coq Require Import NArith Arith List Bool Lia.
From Verif Require Import Outcome GF Containers ContainersFacts Packetizer Matrix DetailDecoder.
Import ListNotations.
Open Scope N_scope.
Open Scope outcome_scope.

Definition omap {A B} (h : A -> B) (x : outcome A) : outcome B :=
  match x with Ok a => Ok (h a) | Throw e => Throw e | Fault e => Fault e end.

Lemma bind_omap {A B C} (h : A -> B) (g : B -> outcome C) x : bind (omap h x) g = bind x (fun v => g (h v)).
Proof. destruct x; reflexivity. Qed.

Lemma omap_bind {A B C} (h : B -> C) (g : A -> outcome B) x : omap h (bind x g) = bind x (fun v => omap h (g v)).
Proof. destruct x; reflexivity. Qed.

Lemma bind_same {A B} (x : outcome A) (g g' : A -> outcome B) : (forall v, g v = g' v) -> bind x g = bind x g'.
Proof. intros H. destruct x; cbn; auto. Qed.

(** Other values of the two counters. *)
Definition set (a b : N) (d : ddec) : ddec := with_failed (with_useless d a) b.

Section Set_.
Variables (m : mode) (a b : N).
Notation set := (set a b).

Ltac step := repeat (rewrite omap_bind || rewrite bind_omap); apply bind_same; intros ?.

Lemma callback_ordered_set d id : callback_ordered (set d) id = omap set (callback_ordered d id).
Proof.
  unfold callback_ordered. change (d_sources (set d)) with (d_sources d).
  destruct (mfind id (d_sources d)); reflexivity.
Qed.

Lemma flush_loop_set l : forall d, flush_loop m l (set d) = omap set (flush_loop m l d).
Proof.
  induction l as [|id l IH]; intros d; [reflexivity|]. cbn [flush_loop].
  change (d_first (set d)) with (d_first d). step. rewrite callback_ordered_set. step. cbv zeta.
  change (d_first (with_first (with_ordered (set v0) (serase id (d_ordered (set v0))))
       (u32 (d_first (with_ordered (set v0) (serase id (d_ordered (set v0)))) + 1))))
    with (d_first (with_first (with_ordered v0 (serase id (d_ordered v0)))
       (u32 (d_first (with_ordered v0 (serase id (d_ordered v0))) + 1)))).
  destruct l as [|id' l']; [reflexivity|]. destruct (_ <? _); [reflexivity|]. rewrite <- IH. reflexivity.
Qed.

Lemma flush_set d : flush m (set d) = omap set (flush m d).
Proof.
  unfold flush. change (d_first (set d)) with (d_first d). change (d_ordered (set d)) with (d_ordered d).
  destruct (smem _ _); [apply flush_loop_set | reflexivity].
Qed.

Lemma announce_set d id data : announce m (set d) id data = omap set (announce m d id data).
Proof.
  unfold announce. change (d_first (set d)) with (d_first d). change (d_in_order (set d)) with (d_in_order d).
  destruct (negb _); [reflexivity|]. destruct (_ =? _); [|reflexivity]. cbv zeta. rewrite <- flush_set. reflexivity.
Qed.

Lemma no_longer_missing_set d id data : no_longer_missing m (set d) id data = omap set (no_longer_missing m d id data).
Proof.
  unfold no_longer_missing. change (d_missing (set d)) with (d_missing d). change (d_field (set d)) with (d_field d).
  change (d_repairs (set d)) with (d_repairs d).
  destruct (mfind id (d_missing d)); [|reflexivity]. step. reflexivity.
Qed.

Lemma scan_set rec : (forall d id data, rec (set d) id data = omap set (rec d id data)) ->
  forall keys d, scan rec m keys (set d) = omap set (scan rec m keys d).
Proof.
  intros Hr. induction keys as [|k keys IH]; intros d; [reflexivity|]. cbn [scan].
  change (d_missing (set d)) with (d_missing d).
  destruct (mfind k (d_missing d)) as [[|r [|r2 l]]|]; try apply IH.
  change (d_repairs (set d)) with (d_repairs d). destruct (mfind r (d_repairs d)) as [rep|]; [|reflexivity].
  destruct (Nat.eqb _ 1); [|apply IH].
  change (not_outdated (set d) (hd 0 (dr_ids rep))) with (not_outdated d (hd 0 (dr_ids rep))).
  change (d_sources (set d)) with (d_sources d). change (d_field (set d)) with (d_field d).
  step. step. step. destruct v1 as [id data]. cbv zeta.
  set (d3 := with_missing (with_repairs (count_decoded d 1) (merase r (d_repairs (count_decoded d 1))))
    (merase k (d_missing (with_repairs (count_decoded d 1) (merase r (d_repairs (count_decoded d 1))))))).
  match goal with |- bind (rec ?e _ _) _ = _ => change e with (set d3) end. rewrite Hr. step.
  change (d_missing (set d3)) with (d_missing d3).
  destruct (find _ keys) as [k'|]; [|reflexivity].
  change (d_missing (set v1)) with (d_missing v1). destruct (mmem k' (d_missing v1)); [apply IH | reflexivity].
Qed.

Lemma store_set d id data : store m (set d) id data = omap set (store m d id data).
Proof.
  unfold store. change (d_sources (set d)) with (d_sources d). step. cbv zeta. cbn [omap]. f_equal.
  change (d_in_order (with_sources (set d) (mput id data (d_sources d)))) with (d_in_order (with_sources d (mput id data (d_sources d)))).
  change (d_first (with_sources (set d) (mput id data (d_sources d)))) with (d_first (with_sources d (mput id data (d_sources d)))).
  destruct (_ && _); reflexivity.
Qed.

Lemma add_source_set n : forall d id data, add_source n m (set d) id data = omap set (add_source n m d id data).
Proof.
  induction n as [|n IH]; intros d id data; [reflexivity|]. cbn [add_source].
  rewrite announce_set. step. rewrite no_longer_missing_set. step.
  change (d_missing (set v0)) with (d_missing v0). rewrite scan_set by exact IH. step. apply store_set.
Qed.

Lemma drop_repairs_set id reps : forall d, drop_repairs m id reps (set d) = omap set (drop_repairs m id reps d).
Proof.
  induction reps as [|[r rep] reps IH]; intros d; [reflexivity|]. cbn [drop_repairs]. step.
  destruct (dr_ids rep) as [|first l]; [reflexivity|]. destruct (first <? id); [|apply IH].
  change (d_missing (set d)) with (d_missing d). step. rewrite <- IH. reflexivity.
Qed.

Lemma deliver_outdated_set l : forall d, deliver_outdated l (set d) = omap set (deliver_outdated l d).
Proof.
  induction l as [|id l IH]; intros d; [reflexivity|]. cbn [deliver_outdated]. rewrite callback_ordered_set. step.
  rewrite <- IH. reflexivity.
Qed.

Lemma drop_outdated_set d id : drop_outdated m (set d) id = omap set (drop_outdated m d id).
Proof.
  unfold drop_outdated. cbv zeta. change (with_last (set d) (Some id)) with (set (with_last d (Some id))).
  change (d_repairs (set (with_last d (Some id)))) with (d_repairs (with_last d (Some id))).
  rewrite drop_repairs_set. step. change (d_in_order (set v)) with (d_in_order v).
  assert (E : (if d_in_order v
     then d <- deliver_outdated (before id (d_ordered (set v))) (set v);; flush m (if d_first d <? id then with_first d id else d)
     else Ok (set v)) = omap set (if d_in_order v
     then d <- deliver_outdated (before id (d_ordered v)) v;; flush m (if d_first d <? id then with_first d id else d)
     else Ok v)).
  { destruct (d_in_order v); [|reflexivity]. change (d_ordered (set v)) with (d_ordered v).
    rewrite deliver_outdated_set. step. rewrite <- flush_set. change (d_first (set v0)) with (d_first v0).
    destruct (_ <? _); reflexivity. }
  rewrite E. step. reflexivity.
Qed.

Lemma add_decoded_set d id data : add_decoded m (set d) id data = omap set (add_decoded m d id data).
Proof.
  unfold add_decoded. change (d_sources (set d)) with (d_sources d). step. cbv zeta.
  set (x := match mfind id (d_sources d) with None => data | Some old => old end).
  change (with_sources (set d) (mput id x (d_sources d))) with (set (with_sources d (mput id x (d_sources d)))).
  set (e := with_sources d (mput id x (d_sources d))).
  change (d_first (set e)) with (d_first e). change (d_in_order (set e)) with (d_in_order e).
  destruct (negb _); [reflexivity|]. destruct (_ =? _); [rewrite <- flush_set; reflexivity | reflexivity].
Qed.

Lemma decode_all_set n inv reps ms : forall col d,
  decode_all m n inv reps col ms (set d) = omap set (decode_all m n inv reps col ms d).
Proof.
  induction ms as [|id ms IH]; intros col d; [reflexivity|]. cbn [decode_all]. cbv zeta.
  change (d_field (set d)) with (d_field d). step. rewrite add_decoded_set. step. apply IH.
Qed.

Lemma link_repair_set ids : forall d r,
  link_repair m ids (set d) r = omap (fun x => (set (fst x), snd x)) (link_repair m ids d r).
Proof.
  induction ids as [|id ids IH]; intros d r; [reflexivity|]. cbn [link_repair].
  change (d_sources (set d)) with (d_sources d). change (d_field (set d)) with (d_field d).
  destruct (mfind id (d_sources d)); [step; apply IH|]. cbv zeta. rewrite <- IH. reflexivity.
Qed.
End Set_.

(** Equal up to the two counters. *)
Definition tallied (d d' : ddec) : Prop := exists a b, d' = set a b d.

Definition agree (x y : outcome ddec) : Prop :=
  match x, y with
  | Ok d, Ok d' => tallied d d'
  | Throw e, Throw e' => e = e'
  | Fault e, Fault e' => e = e'
  | _, _ => False
  end.

Lemma agree_omap a b x : agree x (omap (set a b) x).
Proof. destruct x; cbn; [exists a, b|..]; reflexivity. Qed.

Lemma agree_bind (x y : outcome ddec) g : agree x y -> (forall d d', tallied d d' -> agree (g d) (g d')) ->
  agree (bind x g) (bind y g).
Proof. destruct x, y; cbn; try contradiction; auto. Qed.

Lemma agree_same {A} (x : outcome A) g g' : (forall v, agree (g v) (g' v)) -> agree (bind x g) (bind x g').
Proof. intros H. destruct x; cbn; auto. Qed.

Lemma attempt_agree m a b d : agree (attempt_full_decoding m d) (attempt_full_decoding m (set a b d)).
Proof.
  unfold attempt_full_decoding. cbv zeta.
  change (d_repairs (set a b d)) with (d_repairs d). change (d_missing (set a b d)) with (d_missing d).
  change (d_field (set a b d)) with (d_field d).
  destruct (_ || _); [exists a, b; reflexivity|]. destruct (Nat.ltb _ _); [exists a, b; reflexivity|].
  apply agree_same. intros _. apply agree_same. intros _. destruct (negb _); [reflexivity|].
  apply agree_same. intros [k|[v inv]].
  - unfold failed_decoding. cbv zeta.
    change (d_repairs (with_failed (set a b d) (d_failed (set a b d) + 1))) with (d_repairs (with_failed d (d_failed d + 1))).
    destruct (nth_error _ k) as [[r rep]|]; [|reflexivity]. exists a, (b + 1). reflexivity.
  - rewrite decode_all_set, bind_omap. apply agree_same. intros e. exists a, b. reflexivity.
Qed.

Theorem recv_source_agree m a b d id data : agree (recv_source m d id data) (recv_source m (set a b d) id data).
Proof.
  unfold recv_source. change (outdated (set a b d) id) with (outdated d id).
  change (d_sources (set a b d)) with (d_sources d). change (enough (set a b d)) with (enough d).
  destruct (outdated d id); [exists a, b; reflexivity|]. destruct (mmem _ _); [exists a, b; reflexivity|].
  rewrite add_source_set, bind_omap. apply agree_same. intros e. apply attempt_agree.
Qed.

Theorem recv_repair_agree m a b d r : agree (recv_repair m d r) (recv_repair m (set a b d) r).
Proof.
  unfold recv_repair. apply agree_same. intros _. destruct (dr_ids r) as [|first l] eqn:Er; [reflexivity|]. rewrite <- Er.
  change (outdated (set a b d) (last (dr_ids r) 0)) with (outdated d (last (dr_ids r) 0)).
  change (d_repairs (set a b d)) with (d_repairs d).
  destruct (outdated _ _); [exists a, b; reflexivity|]. destruct (mmem _ _); [exists a, b; reflexivity|].
  rewrite drop_outdated_set, bind_omap. apply agree_same. intros e.
  change (d_sources (set a b e)) with (d_sources e). change (d_repairs (set a b e)) with (d_repairs e).
  destruct (forallb _ _); [exists (a + 1), b; reflexivity|]. apply agree_same. intros _.
  rewrite link_repair_set, bind_omap. apply agree_same. intros [e1 r1]. cbn [fst snd]. cbv zeta.
  apply agree_same. intros _. destruct (Nat.eqb _ 1).
  - change (d_field (with_repairs (set a b e1) (mset (dr_id r1) r1 (d_repairs (set a b e1)))))
      with (d_field (with_repairs e1 (mset (dr_id r1) r1 (d_repairs e1)))).
    apply agree_same. intros [id data].
    match goal with |- agree (add_source (enough ?x) _ _ _ _) (add_source (enough ?y) _ _ _ _) =>
      change y with (set a b x); change (enough (set a b x)) with (enough x) end.
    rewrite add_source_set. apply agree_omap.
  - apply (attempt_agree m a b (with_repairs e1 (mset (dr_id r1) r1 (d_repairs e1)))).
Qed.
