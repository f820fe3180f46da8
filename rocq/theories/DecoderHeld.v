(** * Without ordering, what is known was delivered

    For all packets, genuine or not. *)
From Coq Require Import NArith List Bool Lia.
From Verif Require Import Outcome GF Containers ContainersFacts Packetizer DetailDecoder
  DecoderStep DecoderFacts.
Import ListNotations.
Open Scope N_scope.

Definition handed (d : ddec) : list N := map v_id (d_log d).

Definition tells (d d' : ddec) : Prop := d_in_order d = false ->
  d_in_order d' = false /\ incl (handed d) (handed d')
  /\ (incl (keys d) (handed d) -> incl (keys d') (handed d')).

Lemma tells_same d d' : d_in_order d' = d_in_order d -> incl (keys d') (keys d) -> d_log d' = d_log d -> tells d d'.
Proof.
  intros A B C H. unfold handed. rewrite A, C. split; [exact H|]. split; [apply incl_refl|].
  intros X. eapply incl_tran; eassumption.
Qed.

Lemma tells_trans a b c : tells a b -> tells b c -> tells a c.
Proof.
  intros H1 H2 Ho. destruct (H1 Ho) as (A1 & A2 & A3). destruct (H2 A1) as (B1 & B2 & B3).
  split; [exact B1|]. split; [eapply incl_tran; eassumption | auto].
Qed.

Lemma callback_tells d id data : tells d (callback d id data).
Proof.
  intros H. split; [exact H|]. assert (I : incl (handed d) (handed (callback d id data))).
  { unfold handed. cbn [callback d_log]. rewrite map_app. apply incl_appl, incl_refl. }
  split; [exact I|]. intros X. eapply incl_tran; [exact X | exact I].
Qed.

Lemma announce_tells m d id data d' : d_in_order d = false -> announce m d id data = Ok d' ->
  tells d d' /\ In id (handed d').
Proof.
  intros Ho H. unfold announce in H. rewrite Ho in H. cbn [negb] in H.
  assert (E : d' = callback d id data) by congruence. subst. split; [apply callback_tells|].
  unfold handed. cbn [callback d_log]. rewrite map_app. apply in_app_iff. right. left. reflexivity.
Qed.

Ltac same H := match type of H with Ok ?x = Ok ?y => assert (y = x) by congruence; subst y; clear H end.
Ltac still := apply tells_same; [reflexivity | apply incl_refl | reflexivity].

Lemma no_longer_missing_tells m d id data d' : no_longer_missing m d id data = Ok d' -> tells d d'.
Proof.
  unfold no_longer_missing. destruct (mfind id (d_missing d)); intros H.
  - apply bind_ok in H. destruct H as (reps & _ & H). same H. still.
  - same H. still.
Qed.

Lemma scan_tells rec m : (forall d x data d', rec d x data = Ok d' -> tells d d') ->
  forall ks d d', scan rec m ks d = Ok d' -> tells d d'.
Proof.
  intros Hrec. induction ks as [|k ks IH]; intros d d' H; cbn [scan] in H.
  { same H. still. }
  destruct (mfind k (d_missing d)) as [[|r [|r2 rs]]|]; try (apply IH in H; exact H).
  destruct (mfind r (d_repairs d)) as [rep|]; [|discriminate].
  destruct (Nat.eqb (length (dr_ids rep)) 1); [|apply IH in H; exact H].
  apply bind_ok in H. destruct H as (u1 & _ & H).
  apply bind_ok in H. destruct H as (u2 & _ & H).
  apply bind_ok in H. destruct H as ([id data] & _ & H).
  apply bind_ok in H. destruct H as (d2 & E2 & H). apply Hrec in E2.
  apply tells_trans with d2; [eapply tells_trans; [|exact E2]; still|].
  destruct (find _ ks) as [k'|]; [|same H; still].
  destruct (mmem k' (d_missing d2)); [apply IH, H | discriminate].
Qed.

(** A known identifier is put after its delivery. *)
Lemma put_tells d id data : In id (handed d) -> tells d (with_sources d (mput id data (d_sources d))).
Proof.
  intros Hi Ho. split; [exact Ho|]. split; [apply incl_refl|]. intros X x Hx.
  apply mput_keys in Hx. destruct Hx as [->|Hx]; [exact Hi | apply X, Hx].
Qed.

Lemma store_tells m d id data d' : In id (handed d) -> store m d id data = Ok d' -> tells d d'.
Proof.
  unfold store. intros Hi H. apply bind_ok in H. destruct H as (u & _ & H). same H.
  eapply tells_trans; [apply put_tells, Hi|]. destruct (_ && _); still.
Qed.

Lemma add_source_tells m fuel : forall d id data d', add_source fuel m d id data = Ok d' -> tells d d'.
Proof.
  induction fuel as [|fuel IH]; intros d id data d' H; cbn [add_source] in H; [discriminate|].
  intros Ho. revert Ho. enough (d_in_order d = false -> tells d d') as X by (intros Ho; apply X; exact Ho). intros Ho.
  apply bind_ok in H. destruct H as (d1 & E1 & H). apply announce_tells in E1; [|exact Ho]. destruct E1 as [E1 Hi].
  apply bind_ok in H. destruct H as (d2 & E2 & H). apply no_longer_missing_tells in E2.
  apply bind_ok in H. destruct H as (d3 & E3 & H). apply scan_tells in E3; [|exact IH].
  assert (Hi3 : In id (handed d3)).
  { destruct (E1 Ho) as (O1 & _). destruct (E2 O1) as (O2 & I2 & _). destruct (E3 O2) as (_ & I3 & _).
    apply I3, I2, Hi. }
  apply store_tells in H; [|exact Hi3].
  eapply tells_trans; [exact E1|]. eapply tells_trans; [exact E2|]. eapply tells_trans; eassumption.
Qed.

Lemma add_decoded_tells m d id data d' : add_decoded m d id data = Ok d' -> tells d d'.
Proof.
  intros H Ho. unfold add_decoded in H. apply bind_ok in H. destruct H as (u & _ & H).
  cbn [with_sources d_in_order] in H. rewrite Ho in H. cbn [negb] in H. same H.
  split; [exact Ho|]. unfold handed. cbn [callback d_log with_sources]. rewrite map_app.
  split; [apply incl_appl, incl_refl|]. intros X x Hx. apply mput_keys in Hx. apply in_app_iff.
  destruct Hx as [->|Hx]; [right; left; reflexivity | left; apply X, Hx].
Qed.

Lemma decode_all_tells m n inv reps ms : forall col d d',
  decode_all m n inv reps col ms d = Ok d' -> tells d d'.
Proof.
  induction ms as [|id ms IH]; intros col d d' H; cbn [decode_all] in H.
  - same H. still.
  - apply bind_ok in H. destruct H as (data & _ & H).
    apply bind_ok in H. destruct H as (d1 & E1 & H). apply add_decoded_tells in E1. apply IH in H.
    eapply tells_trans; eassumption.
Qed.

Lemma attempt_tells m d d' : attempt_full_decoding m d = Ok d' -> tells d d'.
Proof.
  unfold attempt_full_decoding. cbv zeta. intros H.
  destruct (_ || _); [same H; still|].
  destruct (Nat.ltb _ _); [same H; still|].
  apply bind_ok in H. destruct H as (u1 & _ & H).
  apply bind_ok in H. destruct H as (u2 & _ & H).
  destruct (negb _); [discriminate|].
  apply bind_ok in H. destruct H as ([k|[a inv]] & _ & H).
  - unfold failed_decoding in H. cbv zeta in H. destruct (nth_error _ k) as [[r rep]|]; [|discriminate].
    same H. still.
  - apply bind_ok in H. destruct H as (d1 & E1 & H). same H. apply decode_all_tells in E1.
    eapply tells_trans; [exact E1|]. still.
Qed.

Lemma recv_source_tells m d id data d' : recv_source m d id data = Ok d' -> tells d d'.
Proof.
  unfold recv_source. destruct (outdated d id); [intros H; same H; still|].
  destruct (mmem id (d_sources d)); [intros H; same H; still|]. intros H.
  apply bind_ok in H. destruct H as (d1 & E1 & H). apply add_source_tells in E1. apply attempt_tells in H.
  eapply tells_trans; eassumption.
Qed.

Lemma drop_outdated_tells m d id d' : drop_outdated m d id = Ok d' -> tells d d'.
Proof.
  intros H Ho. apply drop_outdated_parts in H. destruct H as (d1 & d2 & E1 & E2 & ->).
  apply drop_repairs_moves in E1. destruct E1 as (V1 & L1 & S1 & _). pose proof (mv_in_order _ _ V1) as I1. cbn [with_last d_log d_sources d_in_order] in *.
  unfold deliver_part in E2. assert (O1 : d_in_order d1 = false) by (rewrite I1; exact Ho).
  rewrite O1 in E2. same E2. unfold handed, keys. cbn [with_missing with_sources d_log d_in_order d_sources].
  rewrite L1, S1. split; [exact O1|]. split; [apply incl_refl|]. intros X x Hx. apply X.
  apply mfrom_keys in Hx. apply Hx.
Qed.

Lemma link_repair_tells m ids : forall d r d' r', link_repair m ids d r = Ok (d', r') -> tells d d'.
Proof.
  induction ids as [|id ids IH]; intros d r d' r' H; cbn [link_repair] in H.
  - assert (E : d' = d) by congruence. subst. still.
  - destruct (mfind id (d_sources d)) as [data|].
    + apply bind_ok in H. destruct H as (r1 & _ & H). apply IH in H. exact H.
    + apply IH in H. exact H.
Qed.

Lemma recv_repair_tells m d r d' : recv_repair m d r = Ok d' -> tells d d'.
Proof.
  unfold recv_repair. intros H. apply bind_ok in H. destruct H as (u & _ & H).
  destruct (dr_ids r) as [|first rest] eqn:Er; [discriminate|]. rewrite <- Er in H.
  destruct (outdated d _); [same H; still|].
  destruct (mmem (dr_id r) (d_repairs d)); [same H; still|].
  apply bind_ok in H. destruct H as (d1 & E1 & H). apply drop_outdated_tells in E1.
  eapply tells_trans; [exact E1|].
  destruct (forallb _ _); [same H; still|].
  apply bind_ok in H. destruct H as (u1 & _ & H).
  apply bind_ok in H. destruct H as ([d2 r2] & E2 & H). apply link_repair_tells in E2.
  eapply tells_trans; [exact E2|]. cbv zeta in H.
  apply bind_ok in H. destruct H as (u2 & _ & H).
  destruct (Nat.eqb _ 1).
  - apply bind_ok in H. destruct H as ([id data] & _ & H). apply add_source_tells in H.
    eapply tells_trans; [|exact H]. still.
  - apply attempt_tells in H. eapply tells_trans; [|exact H]. still.
Qed.
