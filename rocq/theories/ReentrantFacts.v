(** * Facts about the receiver when its data handler calls it *)
From Coq Require Import ZArith NArith PeanoNat List Bool Lia.
From Verif Require Import Outcome GF Containers Packetizer Matrix Encoder DetailDecoder Decoder DecoderHandlersFacts Reentrant.
Import ListNotations.
Open Scope N_scope.
Open Scope outcome_scope.

(** ** The calls leave the decoding state *)

Section Sim.
Context {T : Type}.
Variable cb : T -> ddec -> event -> outcome (T * ddec * bool).
Variable R : list event -> T -> Prop.
Hypothesis quiet : forall l t c v, R l t -> mkeys (d_sources c) = v_known v ->
  exists t', cb t c v = Ok (t', c, false) /\ R (l ++ [v]) t'.
Variable L : list event.

Definition good (t : T) (d : ddec) : Prop := exists l, d_log d = L ++ l /\ R l t.

Definition sim (x : outcome (T * ddec)) (y : outcome ddec) : Prop :=
  match y with
  | Ok d => exists t, x = Ok (t, d) /\ good t d
  | Throw e => x = Throw e
  | Fault e => x = Fault e
  end.

Lemma sim_ret t d : good t d -> sim (Ok (t, d)) (Ok d).
Proof. intros G. exists t. auto. Qed.

Lemma sim_bind x y k k' : sim x y -> (forall t d, good t d -> sim (k (t, d)) (k' d)) -> sim (bind x k) (bind y k').
Proof.
  destruct y; cbn [sim bind]; intros H K.
  - destruct H as (t & -> & G). apply K, G.
  - rewrite H. reflexivity.
  - rewrite H. reflexivity.
Qed.

Lemma sim_lift {A} (o : outcome A) k k' : (forall a, o = Ok a -> sim (k a) (k' a)) -> sim (bind o k) (bind o k').
Proof. destruct o; cbn [bind sim]; auto. Qed.

Lemma good_same t d d' : d_log d' = d_log d -> good t d -> good t d'.
Proof. intros E (l & El & H). exists l. rewrite E. auto. Qed.

Lemma called t d id x : good t d ->
  exists t', cb t (callback d id x) {| v_id := id; v_data := x; v_known := mkeys (d_sources d) |} = Ok (t', callback d id x, false)
  /\ good t' (callback d id x).
Proof.
  intros (l & El & H). destruct (quiet l t (callback d id x) {| v_id := id; v_data := x; v_known := mkeys (d_sources d) |} H eq_refl) as (t' & E & E').
  exists t'. split; [exact E|]. exists (l ++ [{| v_id := id; v_data := x; v_known := mkeys (d_sources d) |}]).
  split; [cbn [callback d_log]; rewrite El, app_assoc; reflexivity | exact E'].
Qed.

Lemma re_callback_sim t d id x : good t d -> sim (re_callback cb t d id x) (Ok (callback d id x)).
Proof. intros G. destruct (called t d id x G) as (t' & E & G'). unfold re_callback. rewrite E. cbn [bind]. apply sim_ret, G'. Qed.

Lemma re_callback_held_sim t d id x : good t d -> sim (re_callback_held cb t d id x) (Ok (callback d id x)).
Proof. intros G. destruct (called t d id x G) as (t' & E & G'). unfold re_callback_held. rewrite E. cbn [bind]. apply sim_ret, G'. Qed.

Lemma re_callback_ordered_sim t d id : good t d -> sim (re_callback_ordered cb t d id) (callback_ordered d id).
Proof.
  intros G. unfold re_callback_ordered, callback_ordered. destruct (mfind id (d_sources d)); [|reflexivity].
  apply re_callback_held_sim, G.
Qed.

Lemma re_flush_loop_sim m l : forall t d, good t d -> sim (re_flush_loop cb m l t d) (flush_loop m l d).
Proof.
  induction l as [|id l IH]; intros t d G; cbn [re_flush_loop flush_loop]; [apply sim_ret, G|].
  apply sim_lift. intros _ _. apply sim_bind; [apply re_callback_ordered_sim, G|].
  clear t d G. intros t d G. cbv zeta. destruct l as [|id' l'].
  - apply sim_ret. revert G. apply good_same. reflexivity.
  - destruct (d_first _ <? id').
    + apply sim_ret. revert G. apply good_same. reflexivity.
    + apply IH. revert G. apply good_same. reflexivity.
Qed.

Lemma re_flush_sim m t d : good t d -> sim (re_flush cb m t d) (flush m d).
Proof.
  intros G. unfold re_flush, flush. destruct (smem _ _); [apply re_flush_loop_sim, G | apply sim_ret, G].
Qed.

Lemma first_sim (call : T -> ddec -> N -> list N -> outcome (T * ddec)) m t d id x :
  sim (call t d id x) (Ok (callback d id x)) ->
  sim ('(t, d) <- call t d id x ;; re_flush cb m t (with_first d (u32 (d_first d + 1))))
      (let d := callback d id x in flush m (with_first d (u32 (d_first d + 1)))).
Proof.
  intros (t' & E & G). rewrite E. cbn [bind]. cbv zeta. apply re_flush_sim. revert G. apply good_same. reflexivity.
Qed.

Lemma re_announce_sim (call : T -> ddec -> N -> list N -> outcome (T * ddec)) m t d id x :
  sim (call t d id x) (Ok (callback d id x)) -> good t d ->
  sim (re_announce cb call m t d id x) (announce m d id x).
Proof.
  intros H G. unfold re_announce, announce. destruct (negb _); [exact H|].
  destruct (id =? _); [|apply sim_ret, G]. apply first_sim, H.
Qed.

Lemma re_scan_sim rec rec' m keys : (forall t d id x, good t d -> sim (rec t d id x) (rec' d id x)) ->
  forall t d, good t d -> sim (re_scan rec m keys t d) (scan rec' m keys d).
Proof.
  intros Hrec. induction keys as [|k keys IH]; intros t d G; cbn [re_scan scan]; [apply sim_ret, G|].
  destruct (mfind k (d_missing d)) as [[|r [|r2 rs]]|]; auto.
  destruct (mfind r (d_repairs d)) as [rep|]; [|reflexivity]. destruct (Nat.eqb _ 1); auto.
  apply sim_lift. intros _ _. apply sim_lift. intros _ _. apply sim_lift. intros [id x] _. cbv zeta.
  apply sim_bind; [apply Hrec; revert G; apply good_same; reflexivity|].
  intros t' d' G'. destruct (find _ _) as [k'|]; [|apply sim_ret, G']. destruct (mmem k' _); [auto | reflexivity].
Qed.

Lemma re_settle_sim rec rec' m t d id x : (forall t d id x, good t d -> sim (rec t d id x) (rec' d id x)) -> good t d ->
  sim (re_settle rec m t d id x)
      (d <- no_longer_missing m d id x ;; d <- scan rec' m (mkeys (d_missing d)) d ;; store m d id x).
Proof.
  intros Hrec G. unfold re_settle. apply sim_lift. intros d1 E1. apply no_longer_missing_log in E1. apply (good_same t d d1 E1) in G.
  apply sim_bind; [apply re_scan_sim; [exact Hrec | exact G]|]. clear t d d1 E1 G. intros t d G.
  rewrite <- (bind_ret_r (store m d id x)) at 2. apply sim_lift. intros d1 E1. apply store_log in E1.
  apply sim_ret. exact (good_same t d d1 E1 G).
Qed.

Lemma re_add_source_sim m fuel : forall t d id x, good t d ->
  sim (re_add_source cb fuel m t d id x) (add_source fuel m d id x).
Proof.
  induction fuel as [|fuel IH]; intros t d id x G; cbn [re_add_source add_source]; [reflexivity|].
  apply sim_bind; [apply re_announce_sim; [apply re_callback_held_sim, G | exact G]|]. clear t d G. intros t d G.
  apply re_settle_sim; [exact IH | exact G].
Qed.

Lemma flush_loop_missing m l : forall d d', flush_loop m l d = Ok d' -> d_missing d' = d_missing d.
Proof.
  induction l as [|id l IH]; intros d d' H; cbn [flush_loop] in H; [congruence|].
  apply bind_ok in H. destruct H as (_ & _ & H). apply bind_ok in H. destruct H as (d1 & E & H).
  unfold callback_ordered in E. destruct (mfind id (d_sources d)) as [y|]; [|discriminate]. injection E as <-.
  cbv zeta in H. destruct l as [|id' l']; [injection H as <-; reflexivity|].
  destruct (_ <? id'); [injection H as <-; reflexivity|]. apply IH in H. exact H.
Qed.

Lemma flush_missing m d d' : flush m d = Ok d' -> d_missing d' = d_missing d.
Proof. unfold flush. destruct (smem _ _); [apply flush_loop_missing | congruence]. Qed.

Lemma announce_missing m d id x d' : announce m d id x = Ok d' -> d_missing d' = d_missing d.
Proof.
  unfold announce. destruct (negb _); [intros H; injection H as <-; reflexivity|]. destruct (_ =? _); [|congruence].
  cbv zeta. intros H. apply flush_missing in H. exact H.
Qed.

Lemma re_add_first_sim m t d id x : good t d ->
  sim (re_add_first cb m t d id x) (add_source (enough d) m d id x).
Proof.
  intros G. unfold re_add_first, enough. cbn [add_source].
  pose proof (re_announce_sim (re_callback cb) m t d id x (re_callback_sim t d id x G) G) as H.
  destruct (announce m d id x) as [d1|e|e] eqn:E; cbn [sim bind] in *.
  - destruct H as (t1 & E1 & G1). rewrite E1. cbn [bind]. rewrite <- (announce_missing _ _ _ _ _ E).
    apply re_settle_sim; [intros; apply re_add_source_sim; assumption | exact G1].
  - rewrite H. reflexivity.
  - rewrite H. reflexivity.
Qed.

Lemma re_deliver_outdated_sim l : forall t d, good t d -> sim (re_deliver_outdated cb l t d) (deliver_outdated l d).
Proof.
  induction l as [|id l IH]; intros t d G; cbn [re_deliver_outdated deliver_outdated]; [apply sim_ret, G|].
  apply sim_bind; [apply re_callback_ordered_sim, G|]. clear t d G. intros t d G. apply IH. revert G. apply good_same. reflexivity.
Qed.

Lemma re_drop_outdated_sim m t d id : good t d -> sim (re_drop_outdated cb m t d id) (drop_outdated m d id).
Proof.
  intros G. unfold re_drop_outdated, drop_outdated. cbv zeta.
  apply sim_lift. intros d1 E1. apply drop_repairs_log in E1. cbn in E1. apply (good_same t d d1 E1) in G.
  apply sim_bind.
  - destruct (d_in_order d1); [|apply sim_ret, G]. apply sim_bind; [apply re_deliver_outdated_sim, G|].
    clear t d d1 E1 G. intros t d G. apply re_flush_sim. destruct (_ <? _); [|exact G]. revert G. apply good_same. reflexivity.
  - clear t d d1 E1 G. intros t d G. apply sim_ret. revert G. apply good_same. reflexivity.
Qed.

Lemma re_add_decoded_sim m t d id x : good t d -> sim (re_add_decoded cb m t d id x) (add_decoded m d id x).
Proof.
  intros G. unfold re_add_decoded, add_decoded. apply sim_lift. intros _ _. cbv zeta.
  set (d1 := with_sources d _). assert (G1 : good t d1) by (revert G; apply good_same; reflexivity). clearbody d1.
  destruct (negb _); [apply re_callback_held_sim, G1|]. destruct (id =? _); [|apply sim_ret; revert G1; apply good_same; reflexivity].
  apply first_sim, re_callback_held_sim, G1.
Qed.

Lemma re_decode_all_sim m n inv reps missing : forall col t d, good t d ->
  sim (re_decode_all cb m n inv reps col missing t d) (decode_all m n inv reps col missing d).
Proof.
  induction missing as [|id missing IH]; intros col t d G; cbn [re_decode_all decode_all]; [apply sim_ret, G|]. cbv zeta.
  apply sim_lift. intros x _. apply sim_bind; [apply re_add_decoded_sim, G|]. clear t d G. intros t d G. apply IH, G.
Qed.

Lemma re_attempt_sim m t d : good t d -> sim (re_attempt cb m t d) (attempt_full_decoding m d).
Proof.
  intros G. unfold re_attempt, attempt_full_decoding. cbv zeta. destruct (_ || _); [apply sim_ret, G|].
  destruct (Nat.ltb _ _); [apply sim_ret, G|]. apply sim_lift. intros _ _. apply sim_lift. intros _ _.
  destruct (negb _); [reflexivity|]. apply sim_lift. intros [k|[mat inv]] _.
  - rewrite <- (bind_ret_r (failed_decoding d k)) at 2. apply sim_lift. intros d1 E1. apply failed_decoding_log in E1.
    apply sim_ret. exact (good_same t d d1 E1 G).
  - apply sim_bind; [apply re_decode_all_sim, G|]. clear t G. intros t d' G. apply sim_ret. revert G. apply good_same. reflexivity.
Qed.

Lemma re_recv_source_sim m t d id x : good t d -> sim (re_recv_source cb m t d id x) (recv_source m d id x).
Proof.
  intros G. unfold re_recv_source, recv_source. destruct (outdated d id); [apply sim_ret, G|]. destruct (mmem _ _); [apply sim_ret, G|].
  apply sim_bind; [apply re_add_first_sim, G|]. clear t d G. intros t d G. apply re_attempt_sim, G.
Qed.

Lemma re_recv_repair_sim m t d r : good t d -> sim (re_recv_repair cb m t d r) (recv_repair m d r).
Proof.
  intros G. unfold re_recv_repair, recv_repair. apply sim_lift. intros _ _. destruct (dr_ids r) as [|x l] eqn:Ei; [reflexivity|].
  destruct (outdated _ _); [apply sim_ret, G|]. destruct (mmem _ _); [apply sim_ret, G|].
  apply sim_bind; [apply re_drop_outdated_sim, G|]. clear t d G. intros t d G. destruct (forallb _ _).
  { apply sim_ret. revert G. apply good_same. reflexivity. }
  apply sim_lift. intros _ _. apply sim_lift. intros [d1 r1] E1. apply link_repair_log in E1. apply (good_same t d d1 E1) in G.
  cbv zeta. apply sim_lift. intros _ _. destruct (Nat.eqb _ 1).
  - apply sim_lift. intros [id y] _. cbv zeta. apply re_add_first_sim. revert G. apply good_same. reflexivity.
  - apply re_attempt_sim. revert G. apply good_same. reflexivity.
Qed.

End Sim.
