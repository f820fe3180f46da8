(** * Facts about the receiver with its handlers *)
From Coq Require Import ZArith NArith PeanoNat List Bool Lia.
From Verif Require Import Outcome GF Containers Packetizer Matrix Encoder Handlers DetailDecoder Decoder
  DecoderThrow DecoderHandlers.
Import ListNotations.
Open Scope N_scope.
Open Scope outcome_scope.

Lemma bind_ret_r {A} (x : outcome A) : bind x (fun a => Ok a) = x.
Proof. destruct x; reflexivity. Qed.

(** ** Steps without callback leave the log *)

Lemma no_longer_missing_log m d id data d' : no_longer_missing m d id data = Ok d' -> d_log d' = d_log d.
Proof.
  unfold no_longer_missing. destruct (mfind id (d_missing d)); [|congruence].
  intros H. apply bind_ok in H. destruct H as (reps & _ & H).
  assert (E : d' = with_missing (with_repairs d reps) (merase id (d_missing d))) by congruence. rewrite E. reflexivity.
Qed.

Lemma store_log m d id data d' : store m d id data = Ok d' -> d_log d' = d_log d.
Proof.
  unfold store. intros H. apply bind_ok in H. destruct H as (_ & _ & H). cbv zeta in H.
  destruct (_ && _); injection H as <-; reflexivity.
Qed.

Lemma drop_repairs_log m id reps : forall d d', drop_repairs m id reps d = Ok d' -> d_log d' = d_log d.
Proof.
  induction reps as [|[r rep] reps IH]; intros d d' H; cbn [drop_repairs] in H; [congruence|].
  apply bind_ok in H. destruct H as (_ & _ & H). destruct (dr_ids rep) as [|x l]; [discriminate|].
  destruct (x <? id); [|apply IH, H]. apply bind_ok in H. destruct H as (ms & _ & H). apply IH in H. exact H.
Qed.

Lemma link_repair_log m ids : forall d r d' r', link_repair m ids d r = Ok (d', r') -> d_log d' = d_log d.
Proof.
  induction ids as [|i ids IH]; intros d r d' r' H; cbn [link_repair] in H; [congruence|].
  destruct (mfind i (d_sources d)).
  - apply bind_ok in H. destruct H as (r1 & _ & H). apply IH in H. exact H.
  - apply IH in H. exact H.
Qed.

Lemma failed_decoding_log d k d' : failed_decoding d k = Ok d' -> d_log d' = d_log d.
Proof.
  unfold failed_decoding. cbv zeta. destruct (nth_error _ _) as [[r rep]|]; [|discriminate]. intros H. injection H as <-. reflexivity.
Qed.

(** ** Without exceptions, the calls are those of the log *)

Section Sim.
Context {T : Type}.
Variable cb : T -> event -> T * bool.

(** The callback on each of the events; none throws. *)
Inductive runs : T -> list event -> T -> Prop :=
| Runs_nil t : runs t [] t
| Runs_snoc t l t1 v t2 : runs t l t1 -> cb t1 v = (t2, false) -> runs t (l ++ [v]) t2.

Variables (t0 : T) (L : list event).

Definition good (t : T) (d : ddec) : Prop := exists l, d_log d = L ++ l /\ runs t0 l t.

(** Some callback threw. *)
Definition threw (t : T) : Prop := exists l t1 v, runs t0 l t1 /\ cb t1 v = (t, true).

Definition sim (x : tres T) (y : outcome ddec) : Prop :=
  match x with
  | TOk t d => y = Ok d /\ good t d
  | TThrew t _ => threw t
  | TError e => y = Throw e
  | TTerminate => exists t, threw t
  | TFault e => y = Fault e
  end.

Lemma sim_bind x y k k' : sim x y -> (forall t d, good t d -> sim (k t d) (k' d)) -> sim (tbind x k) (bind y k').
Proof.
  destruct x; cbn [tbind sim]; intros H K.
  - destruct H as [-> G]. cbn [bind]. apply K, G.
  - exact H.
  - rewrite H. reflexivity.
  - exact H.
  - rewrite H. reflexivity.
Qed.

Lemma sim_lift {A} (o : outcome A) k k' : (forall a, o = Ok a -> sim (k a) (k' a)) -> sim (tlift o k) (bind o k').
Proof. destruct o; cbn [tlift bind sim]; auto. Qed.

Lemma good_same t d d' : d_log d' = d_log d -> good t d -> good t d'.
Proof. intros E (l & El & R). exists l. rewrite E. auto. Qed.

Lemma tcallback_sim t d id data : good t d -> sim (tcallback cb t d id data) (Ok (callback d id data)).
Proof.
  intros (l & El & R). unfold tcallback. destruct (cb t _) as [t' []] eqn:E; cbn [sim].
  - exists l, t, {| v_id := id; v_data := data; v_known := mkeys (d_sources d) |}. auto.
  - split; [reflexivity|]. exists (l ++ [{| v_id := id; v_data := data; v_known := mkeys (d_sources d) |}]).
    split; [cbn [callback d_log]; rewrite El, app_assoc; reflexivity|]. econstructor; eassumption.
Qed.

Lemma tcallback_ordered_sim t d id : good t d -> sim (tcallback_ordered cb t d id) (callback_ordered d id).
Proof.
  intros G. unfold tcallback_ordered, callback_ordered. destruct (mfind id (d_sources d)); [|reflexivity].
  apply tcallback_sim, G.
Qed.

Lemma tflush_loop_sim m l : forall t d, good t d -> sim (tflush_loop cb m l t d) (flush_loop m l d).
Proof.
  induction l as [|id l IH]; intros t d G; cbn [tflush_loop flush_loop]; [split; auto|].
  apply sim_lift. intros _ _. apply sim_bind; [apply tcallback_ordered_sim, G|].
  clear t d G. intros t d G. cbv zeta. destruct l as [|id' l'].
  - split; [reflexivity|]. revert G. apply good_same. reflexivity.
  - destruct (d_first _ <? id').
    + split; [reflexivity|]. revert G. apply good_same. reflexivity.
    + apply IH. revert G. apply good_same. reflexivity.
Qed.

Lemma tflush_sim m t d : good t d -> sim (tflush cb m t d) (flush m d).
Proof.
  intros G. unfold tflush, flush. destruct (smem _ _); [apply tflush_loop_sim, G | split; auto].
Qed.

Lemma first_sim m t d id data : good t d ->
  sim (tbind (tcallback cb t d id data) (fun t d => tflush cb m t (with_first d (u32 (d_first d + 1)))))
      (let d := callback d id data in flush m (with_first d (u32 (d_first d + 1)))).
Proof.
  intros G. pose proof (tcallback_sim t d id data G) as H. cbv zeta.
  destruct (tcallback cb t d id data) as [t' d'| | | |]; cbn [sim tbind] in *; try discriminate; auto.
  destruct H as [H G']. injection H as ->. apply tflush_sim. revert G'. apply good_same. reflexivity.
Qed.

Lemma tannounce_sim m t d id data : good t d -> sim (tannounce cb m t d id data) (announce m d id data).
Proof.
  intros G. unfold tannounce, announce. destruct (negb _); [apply tcallback_sim, G|].
  destruct (id =? _); [|split; auto]. apply first_sim, G.
Qed.

Lemma tscan_sim rec rec' m keys : (forall t d id data, good t d -> sim (rec t d id data) (rec' d id data)) ->
  forall t d, good t d -> sim (tscan rec m keys t d) (scan rec' m keys d).
Proof.
  intros Hrec. induction keys as [|k keys IH]; intros t d G; cbn [tscan scan]; [split; auto|].
  destruct (mfind k (d_missing d)) as [[|r [|r2 rs]]|]; auto.
  destruct (mfind r (d_repairs d)) as [rep|]; [|reflexivity]. destruct (Nat.eqb _ 1); auto.
  apply sim_lift. intros _ _. apply sim_lift. intros _ _. apply sim_lift. intros [id data] _. cbv zeta.
  apply sim_bind; [apply Hrec; revert G; apply good_same; reflexivity|].
  intros t' d' G'. destruct (find _ _) as [k'|]; [|split; auto]. destruct (mmem k' _); [auto | reflexivity].
Qed.

Lemma tadd_source_sim m fuel : forall t d id data, good t d ->
  sim (tadd_source cb fuel m t d id data) (add_source fuel m d id data).
Proof.
  induction fuel as [|fuel IH]; intros t d id data G; cbn [tadd_source add_source]; [reflexivity|].
  apply sim_bind; [apply tannounce_sim, G|]. clear t d G. intros t d G.
  apply sim_lift. intros d1 E1. apply no_longer_missing_log in E1. apply (good_same t d d1 E1) in G.
  apply sim_bind; [apply tscan_sim; [exact IH | exact G]|]. clear t d d1 E1 G. intros t d G.
  rewrite <- (bind_ret_r (store m d id data)) at 2. apply sim_lift. intros d1 E1. apply store_log in E1.
  split; [reflexivity|]. exact (good_same t d d1 E1 G).
Qed.

Lemma tdeliver_outdated_sim l : forall t d, good t d -> sim (tdeliver_outdated cb l t d) (deliver_outdated l d).
Proof.
  induction l as [|id l IH]; intros t d G; cbn [tdeliver_outdated deliver_outdated]; [split; auto|].
  apply sim_bind; [apply tcallback_ordered_sim, G|]. clear t d G. intros t d G. apply IH. revert G. apply good_same. reflexivity.
Qed.

Lemma tdrop_outdated_sim m t d id : good t d -> sim (tdrop_outdated cb m t d id) (drop_outdated m d id).
Proof.
  intros G. unfold tdrop_outdated, drop_outdated. cbv zeta.
  assert (N : forall x y, sim x y -> (forall e, y <> Throw e) -> sim (tnoexcept x) y).
  { intros x y H Hy. destruct x; cbn [tnoexcept sim] in *; eauto. now apply Hy in H. }
  apply N.
  - apply sim_lift. intros d1 E1. apply drop_repairs_log in E1. cbn in E1. apply (good_same t d d1 E1) in G.
    apply sim_bind.
    + destruct (d_in_order d1); [|split; auto]. apply sim_bind; [apply tdeliver_outdated_sim, G|].
      clear t d d1 E1 G. intros t d G. apply tflush_sim. destruct (_ <? _); [|exact G]. revert G. apply good_same. reflexivity.
    + clear t d d1 E1 G. intros t d G. split; [reflexivity|]. revert G. apply good_same. reflexivity.
  - intros e. apply (quiet_drop_outdated m d id).
Qed.

Lemma tadd_decoded_sim m t d id data : good t d -> sim (tadd_decoded cb m t d id data) (add_decoded m d id data).
Proof.
  intros G. unfold tadd_decoded, add_decoded. apply sim_lift. intros _ _. cbv zeta.
  set (d1 := with_sources d _). assert (G1 : good t d1) by (revert G; apply good_same; reflexivity). clearbody d1.
  destruct (negb _); [apply tcallback_sim, G1|]. destruct (id =? _); [|split; [reflexivity|]; revert G1; apply good_same; reflexivity].
  apply first_sim, G1.
Qed.

Lemma tdecode_all_sim m n inv reps missing : forall col t d, good t d ->
  sim (tdecode_all cb m n inv reps col missing t d) (decode_all m n inv reps col missing d).
Proof.
  induction missing as [|id missing IH]; intros col t d G; cbn [tdecode_all decode_all]; [split; auto|]. cbv zeta.
  apply sim_lift. intros data _. apply sim_bind; [apply tadd_decoded_sim, G|]. clear t d G. intros t d G. apply IH, G.
Qed.

Lemma tattempt_sim m t d : good t d -> sim (tattempt cb m t d) (attempt_full_decoding m d).
Proof.
  intros G. unfold tattempt, attempt_full_decoding. cbv zeta. destruct (_ || _); [split; auto|].
  destruct (Nat.ltb _ _); [split; auto|]. apply sim_lift. intros _ _. apply sim_lift. intros _ _.
  destruct (negb _); [reflexivity|]. apply sim_lift. intros [k|[mat inv]] _.
  - rewrite <- (bind_ret_r (failed_decoding d k)) at 2. apply sim_lift. intros d1 E1. apply failed_decoding_log in E1.
    split; [reflexivity|]. exact (good_same t d d1 E1 G).
  - apply sim_bind; [apply tdecode_all_sim, G|]. clear t G. intros t d' G. split; [reflexivity|]. revert G. apply good_same. reflexivity.
Qed.

Lemma trecv_source_sim m t d id data : good t d -> sim (trecv_source cb m t d id data) (recv_source m d id data).
Proof.
  intros G. unfold trecv_source, recv_source. destruct (outdated d id); [split; auto|]. destruct (mmem _ _); [split; auto|].
  apply sim_bind; [apply tadd_source_sim, G|]. clear t d G. intros t d G. apply tattempt_sim, G.
Qed.

Lemma trecv_repair_sim m t d r : good t d -> sim (trecv_repair cb m t d r) (recv_repair m d r).
Proof.
  intros G. unfold trecv_repair, recv_repair. apply sim_lift. intros _ _. destruct (dr_ids r) as [|x l] eqn:Ei; [reflexivity|].
  destruct (outdated _ _); [split; auto|]. destruct (mmem _ _); [split; auto|].
  apply sim_bind; [apply tdrop_outdated_sim, G|]. clear t d G. intros t d G. destruct (forallb _ _).
  { split; [reflexivity|]. revert G. apply good_same. reflexivity. }
  apply sim_lift. intros _ _. apply sim_lift. intros [d1 r1] E1. apply link_repair_log in E1. apply (good_same t d d1 E1) in G.
  cbv zeta. apply sim_lift. intros _ _. destruct (Nat.eqb _ 1).
  - apply sim_lift. intros [id data] _. cbv zeta. apply tadd_source_sim. revert G. apply good_same. reflexivity.
  - apply tattempt_sim. revert G. apply good_same. reflexivity.
Qed.

End Sim.

(** ** Where std::terminate is called *)

Section Terminate.
Context {T : Type}.
Variable cb : T -> event -> T * bool.

Definition lives (x : tres T) : Prop := x <> TTerminate.

Lemma lives_bind x k : lives x -> (forall t d, lives (k t d)) -> lives (tbind x k).
Proof. intros H K. destruct x; cbn [tbind]; try discriminate; [apply K | exact H]. Qed.

Lemma lives_lift {A} (o : outcome A) k : (forall a, lives (k a)) -> lives (tlift o k).
Proof. intros K. destruct o; cbn [tlift]; try discriminate. apply K. Qed.

Lemma tcallback_lives t d id data : lives (tcallback cb t d id data).
Proof. unfold tcallback. destruct (cb t _) as [t' []]; discriminate. Qed.

Lemma tcallback_ordered_lives t d id : lives (tcallback_ordered cb t d id).
Proof. unfold tcallback_ordered. destruct (mfind _ _); [apply tcallback_lives | discriminate]. Qed.

Lemma tflush_lives m t d : lives (tflush cb m t d).
Proof.
  unfold tflush. destruct (smem _ _); [|discriminate]. generalize (from (d_first d) (d_ordered d)). intros l. revert t d.
  induction l as [|id l IH]; intros t d; cbn [tflush_loop]; [discriminate|].
  apply lives_lift. intros _. apply lives_bind; [apply tcallback_ordered_lives|]. intros t1 d1. cbv zeta.
  destruct l as [|id' l']; [discriminate|]. destruct (_ <? _); [discriminate | apply IH].
Qed.

Lemma tannounce_lives m t d id data : lives (tannounce cb m t d id data).
Proof.
  unfold tannounce. destruct (negb _); [apply tcallback_lives|]. destruct (_ =? _); [|discriminate].
  apply lives_bind; [apply tcallback_lives|]. intros. apply tflush_lives.
Qed.

Lemma tadd_source_lives m fuel : forall t d id data, lives (tadd_source cb fuel m t d id data).
Proof.
  induction fuel as [|fuel IH]; intros t d id data; cbn [tadd_source]; [discriminate|].
  apply lives_bind; [apply tannounce_lives|]. intros t1 d1. apply lives_lift. intros d2. apply lives_bind.
  - generalize (mkeys (d_missing d2)). intros ks. revert t1 d2. induction ks as [|k ks IHk]; intros t1 d2; cbn [tscan]; [discriminate|].
    destruct (mfind k (d_missing d2)) as [[|r [|r2 rs]]|]; auto.
    destruct (mfind r (d_repairs d2)) as [rep|]; [|discriminate]. destruct (Nat.eqb _ 1); auto.
    apply lives_lift. intros _. apply lives_lift. intros _. apply lives_lift. intros [i dt]. cbv zeta. apply lives_bind; [apply IH|].
    intros t3 d3. destruct (find _ _); [|discriminate]. destruct (mmem _ _); [apply IHk | discriminate].
  - intros t3 d3. apply lives_lift. discriminate.
Qed.

Lemma tattempt_lives m t d : lives (tattempt cb m t d).
Proof.
  unfold tattempt. cbv zeta. destruct (_ || _); [discriminate|]. destruct (Nat.ltb _ _); [discriminate|].
  apply lives_lift. intros _. apply lives_lift. intros _. destruct (negb _); [discriminate|]. apply lives_lift. intros [k|[mat inv]].
  - apply lives_lift. discriminate.
  - apply lives_bind; [|discriminate]. generalize 0%nat at 1. generalize (mkeys (d_missing d)) at 1. intros ks. 
    generalize d at 3. revert t. induction ks as [|k ks IH]; intros t d1 col; cbn [tdecode_all]; [discriminate|]. cbv zeta.
    apply lives_lift. intros data. apply lives_bind; [|intros; apply IH]. unfold tadd_decoded. apply lives_lift. intros _. cbv zeta.
    destruct (negb _); [apply tcallback_lives|]. destruct (_ =? _); [|discriminate].
    apply lives_bind; [apply tcallback_lives|]. intros. apply tflush_lives.
Qed.

Lemma trecv_source_lives m t d id data : lives (trecv_source cb m t d id data).
Proof.
  unfold trecv_source. destruct (outdated _ _); [discriminate|]. destruct (mmem _ _); [discriminate|].
  apply lives_bind; [apply tadd_source_lives|]. intros. apply tattempt_lives.
Qed.

Lemma drop_repairs_order m id reps : forall d d', drop_repairs m id reps d = Ok d' -> d_in_order d' = d_in_order d.
Proof.
  induction reps as [|[r rep] reps IH]; intros d d' H; cbn [drop_repairs] in H; [congruence|].
  apply bind_ok in H. destruct H as (_ & _ & H). destruct (dr_ids rep) as [|x l]; [discriminate|].
  destruct (x <? id); [|apply IH, H]. apply bind_ok in H. destruct H as (ms & _ & H). apply IH in H. exact H.
Qed.

Lemma tdrop_outdated_lives m t d id : d_in_order d = false -> lives (tdrop_outdated cb m t d id).
Proof.
  intros Ho. unfold tdrop_outdated. cbv zeta. destruct (drop_repairs _ _ _ _) as [d1|e|e] eqn:E; cbn [tlift]; [|exfalso; revert E; apply quiet_drop_repairs|discriminate].
  apply drop_repairs_order in E. cbn in E. rewrite E, Ho. discriminate.
Qed.

Lemma trecv_repair_lives m t d r : d_in_order d = false -> lives (trecv_repair cb m t d r).
Proof.
  intros Ho. unfold trecv_repair. apply lives_lift. intros _. destruct (dr_ids r) as [|x l]; [discriminate|].
  destruct (outdated _ _); [discriminate|]. destruct (mmem _ _); [discriminate|].
  apply lives_bind; [apply tdrop_outdated_lives, Ho|]. intros t1 d1. destruct (forallb _ _); [discriminate|].
  apply lives_lift. intros _. apply lives_lift. intros [d2 r2]. cbv zeta. apply lives_lift. intros _. destruct (Nat.eqb _ 1).
  - apply lives_lift. intros [i dt]. apply tadd_source_lives.
  - apply tattempt_lives.
Qed.

End Terminate.
