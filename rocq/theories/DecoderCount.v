(** * How many sources a call adds, and how many of them nb_decoded() counts *)
From Coq Require Import NArith List Bool Lia Arith.
From Verif Require Import Outcome GF Containers ContainersFacts Packetizer DetailDecoder Decoder DecoderFacts.
Import ListNotations.
Open Scope N_scope.
Open Scope outcome_scope.

Definition nsrc (d : ddec) : N := N.of_nat (length (d_sources d)).

(** At most, and with assertions exactly, [k] more known sources than recovered ones. *)
Definition stocks (m : mode) (k : N) (d d' : ddec) : Prop :=
  d_decoded d <= d_decoded d'
  /\ nsrc d' + d_decoded d <= nsrc d + d_decoded d' + k
  /\ (m = Debug -> nsrc d' + d_decoded d = nsrc d + d_decoded d' + k).

Lemma stocks_trans m a b d1 d2 d3 : stocks m a d1 d2 -> stocks m b d2 d3 -> stocks m (a + b) d1 d3.
Proof. intros (A0 & A1 & A2) (B0 & B1 & B2). split; [lia|]. split; [lia|]. intros E. specialize (A2 E). specialize (B2 E). lia. Qed.

Lemma stocks_same m d d' : d_sources d' = d_sources d -> d_decoded d' = d_decoded d -> stocks m 0 d d'.
Proof. intros A B. unfold stocks, nsrc. rewrite A, B. lia. Qed.

Lemma mset_length {V} k (v : V) l : mfind k l = None -> length (mset k v l) = Datatypes.S (length l).
Proof.
  induction l as [|[x w] l IH]; intros H; [reflexivity|]. cbn [mset]. cbn [mfind] in H.
  destruct (k =? x) eqn:E1; [discriminate|]. destruct (k <? x); [reflexivity|]. cbn [length]. rewrite IH by exact H. reflexivity.
Qed.

Lemma put_stocks m d id data : (m = Debug -> mmem id (d_sources d) = false) ->
  stocks m 1 d (with_sources d (mput id data (d_sources d))).
Proof.
  intros H. unfold stocks, nsrc, mput. cbn [with_sources d_sources d_decoded]. unfold mmem in H.
  destruct (mfind id (d_sources d)) eqn:E.
  - split; [lia|]. split; [lia|]. intros X. specialize (H X). discriminate.
  - rewrite mset_length by exact E. lia.
Qed.

Lemma flush_stocks m d d' : flush m d = Ok d' -> stocks m 0 d d'.
Proof. intros H. apply flush_same in H. apply stocks_same; apply H. Qed.

Lemma announce_stocks m d id data d' : announce m d id data = Ok d' -> stocks m 0 d d'.
Proof.
  unfold announce. intros H. destruct (negb _); [same H; apply stocks_same; reflexivity|].
  destruct (_ =? _); [|same H; apply stocks_same; reflexivity]. cbv zeta in H. apply flush_stocks in H. exact H.
Qed.

Lemma no_longer_missing_stocks m d id data d' : no_longer_missing m d id data = Ok d' -> stocks m 0 d d'.
Proof.
  unfold no_longer_missing. destruct (mfind id (d_missing d)); intros H.
  - apply bind_ok in H. destruct H as (reps & _ & H). same H. apply stocks_same; reflexivity.
  - same H. apply stocks_same; reflexivity.
Qed.

Lemma scan_stocks rec m : (forall d x data d', rec d x data = Ok d' -> stocks m 1 d d') ->
  forall keys d d', scan rec m keys d = Ok d' -> stocks m 0 d d'.
Proof.
  intros Hrec. induction keys as [|k keys IH]; intros d d' H; cbn [scan] in H.
  { same H. apply stocks_same; reflexivity. }
  destruct (mfind k (d_missing d)) as [[|r [|r2 rs]]|]; try (apply IH in H; exact H).
  destruct (mfind r (d_repairs d)) as [rep|]; [|discriminate].
  destruct (Nat.eqb (length (dr_ids rep)) 1); [|apply IH in H; exact H].
  apply bind_ok in H. destruct H as (u1 & _ & H).
  apply bind_ok in H. destruct H as (u2 & _ & H).
  apply bind_ok in H. destruct H as ([id data] & _ & H).
  apply bind_ok in H. destruct H as (d2 & E2 & H). apply Hrec in E2.
  assert (E : stocks m 0 d d2).
  { destruct E2 as (Z & A & B). unfold nsrc in *. cbn [with_missing with_repairs count_decoded with_decoded d_sources d_decoded] in Z, A, B.
    split; unfold nsrc; [lia|]. split; [lia|]. intros X. specialize (B X). lia. }
  change 0 with (0 + 0). apply stocks_trans with d2; [exact E|].
  destruct (find _ keys) as [k'|]; [|same H; apply stocks_same; reflexivity].
  destruct (mmem k' (d_missing d2)); [apply IH, H | discriminate].
Qed.

Lemma asserted m b (u : unit) : assert_ m (negb b) = Ok u -> m = Debug -> b = false.
Proof. intros H ->. destruct b; [discriminate | reflexivity]. Qed.

Lemma store_stocks m d id data d' : store m d id data = Ok d' -> stocks m 1 d d'.
Proof.
  unfold store. intros H. apply bind_ok in H. destruct H as (u & A & H). cbv zeta in H. same H.
  pose proof (put_stocks m d id data (asserted _ _ _ A)) as P. destruct (_ && _); exact P.
Qed.

Lemma add_source_stocks m fuel : forall d id data d', add_source fuel m d id data = Ok d' -> stocks m 1 d d'.
Proof.
  induction fuel as [|fuel IH]; intros d id data d' H; cbn [add_source] in H; [discriminate|].
  apply bind_ok in H. destruct H as (d1 & E1 & H). apply announce_stocks in E1.
  apply bind_ok in H. destruct H as (d2 & E2 & H). apply no_longer_missing_stocks in E2.
  apply bind_ok in H. destruct H as (d3 & E3 & H). apply scan_stocks in E3; [|exact IH].
  apply store_stocks in H. change 1 with (0 + (0 + (0 + 1))).
  eapply stocks_trans; [exact E1|]. eapply stocks_trans; [exact E2|]. eapply stocks_trans; eassumption.
Qed.

Lemma add_decoded_stocks m d id data d' : add_decoded m d id data = Ok d' -> stocks m 1 d d'.
Proof.
  unfold add_decoded. intros H. apply bind_ok in H. destruct H as (u & A & H). cbv zeta in H.
  pose proof (fun v => put_stocks m d id v (asserted _ _ _ A)) as P. clear A.
  destruct (negb _); [same H; exact (P _)|].
  destruct (_ =? _); [|same H; exact (P _)].
  apply flush_stocks in H. change 1 with (1 + 0). eapply stocks_trans; [|exact H]. exact (P _).
Qed.

Lemma decode_all_stocks m n inv reps ms : forall col d d',
  decode_all m n inv reps col ms d = Ok d' -> stocks m (N.of_nat (length ms)) d d'.
Proof.
  induction ms as [|id ms IH]; intros col d d' H; cbn [decode_all] in H.
  - same H. apply stocks_same; reflexivity.
  - apply bind_ok in H. destruct H as (data & _ & H).
    apply bind_ok in H. destruct H as (d1 & E1 & H). apply add_decoded_stocks in E1. apply IH in H.
    cbn [length]. rewrite Nat2N.inj_succ, <- N.add_1_l. eapply stocks_trans; eassumption.
Qed.

Lemma attempt_stocks m d d' : attempt_full_decoding m d = Ok d' -> stocks m 0 d d'.
Proof.
  unfold attempt_full_decoding. cbv zeta. intros H.
  destruct (_ || _); [same H; apply stocks_same; reflexivity|].
  destruct (Nat.ltb _ _); [same H; apply stocks_same; reflexivity|].
  apply bind_ok in H. destruct H as (u1 & _ & H).
  apply bind_ok in H. destruct H as (u2 & _ & H).
  destruct (negb _); [discriminate|].
  apply bind_ok in H. destruct H as ([k|[a inv]] & _ & H).
  - unfold failed_decoding in H. cbv zeta in H. destruct (nth_error _ k) as [[r rep]|]; [|discriminate].
    same H. apply stocks_same; reflexivity.
  - apply bind_ok in H. destruct H as (d1 & E1 & H). same H. apply decode_all_stocks in E1.
    rewrite mkeys_length in E1. destruct E1 as (Z & A & B). unfold stocks, nsrc in *.
    cbn [with_missing with_repairs count_decoded with_decoded d_sources d_decoded].
    split; [lia|]. split; [lia|]. intros X. specialize (B X). lia.
Qed.

Lemma recv_source_stocks m d id data d' : recv_source m d id data = Ok d' ->
  outdated d id = false -> ~ In id (mkeys (d_sources d)) -> stocks m 1 d d'.
Proof.
  unfold recv_source. intros H Ho Hk. rewrite Ho in H.
  replace (mmem id (d_sources d)) with false in H by (symmetry; apply mmem_false; exact Hk).
  apply bind_ok in H. destruct H as (d1 & E1 & H). apply attempt_stocks in H. apply add_source_stocks in E1.
  change 1 with (1 + 0). eapply stocks_trans; eassumption.
Qed.

(** A repair first drops what is older than its oldest source. *)
Lemma recv_repair_stocks m d r d' : good 0 d -> recv_repair m d r = Ok d' ->
  d' = d \/ d_sources d' = d_sources d /\ d_decoded d' = d_decoded d
  \/ exists d1, d_sources d1 = mfrom (hd 0 (dr_ids r)) (d_sources d) /\ ~ In (dr_id r) (mkeys (d_repairs d)) /\ outdated d (last (dr_ids r) 0) = false
     /\ d_decoded d1 = d_decoded d /\ good (hd 0 (dr_ids r)) d1 /\ stocks m 0 d1 d' /\ grows d1 d'.
Proof.
  intros G H. unfold recv_repair in H. apply bind_ok in H. destruct H as (u0 & _ & H).
  destruct (dr_ids r) as [|first l]; [discriminate|].
  destruct (outdated d _) eqn:Eo; [same H; right; left; split; reflexivity|].
  destruct (mmem _ _) eqn:Em; [same H; right; left; split; reflexivity|]. apply mmem_false in Em.
  apply bind_ok in H. destruct H as (d1 & E1 & H).
  apply drop_outdated_good in E1; [|exact G]. destruct E1 as (G1 & _ & S1 & _ & Dd & _).
  right. right. exists d1. cbn [hd]. split; [exact S1|]. split; [exact Em|]. split; [reflexivity|]. split; [exact Dd|]. split; [exact G1|].
  destruct (forallb _ _); [same H; split; [apply stocks_same | apply grows_same]; reflexivity|].
  apply bind_ok in H. destruct H as (u1 & _ & H).
  apply bind_ok in H. destruct H as ([d2 r2] & E2 & H). pose proof (link_repair_sources _ _ _ _ _ _ E2) as [Ls Ll].
  apply link_repair_moves in E2. destruct E2 as [[M Em2] _].
  assert (Ed : d_decoded d2 = d_decoded d1) by (rewrite Em2; reflexivity). clear Em2.
  apply bind_ok in H. destruct H as (u2 & _ & H).
  destruct (Nat.eqb _ _).
  - apply bind_ok in H. destruct H as ([id data] & _ & H). split.
    + apply add_source_stocks in H. destruct H as (Z & A & B). unfold stocks, nsrc in *.
      cbn [with_missing with_repairs count_decoded with_decoded d_sources d_decoded] in Z, A, B. rewrite Ls, ?Ed in *.
      split; [lia|]. split; [lia|]. intros X. specialize (B X). lia.
    + apply add_source_grows in H. eapply grows_trans; [|exact H]. apply grows_same; [exact Ls | exact Ll].
  - split.
    + apply attempt_stocks in H. unfold stocks, nsrc in *. cbn [with_missing with_repairs d_sources d_decoded] in H. rewrite Ls, ?Ed in H. exact H.
    + apply attempt_grows in H. eapply grows_trans; [|exact H]. apply grows_same; [exact Ls | exact Ll].
Qed.
