(** * Facts about the decoding algorithm that hold for all states and packets *)
From Coq Require Import NArith PeanoNat List Bool Lia.
From Verif Require Import Outcome GF Containers ContainersFacts Packetizer Matrix
  DetailDecoder DecoderInv DecoderStep.
Import ListNotations.
Open Scope N_scope.

Ltac same H := let E := fresh in
  match type of H with
  | Ok ?a = Ok ?b => assert (E : b = a) by (cbv zeta in H; injection H as H; symmetry; exact H); subst b; clear H
  end.

(** ** The log only grows *)

Record moves (d d' : ddec) : Prop := {
  mv_field : d_field d' = d_field d;
  mv_in_order : d_in_order d' = d_in_order d;
  mv_log : exists new, d_log d' = d_log d ++ new
}.

Lemma moves_refl d : moves d d.
Proof. constructor; try reflexivity. exists []. rewrite app_nil_r. reflexivity. Qed.

Lemma moves_trans a b c : moves a b -> moves b c -> moves a c.
Proof.
  intros [A1 A2 [n1 A3]] [B1 B2 [n2 B3]]. constructor; try congruence.
  exists (n1 ++ n2). rewrite B3, A3, app_assoc. reflexivity.
Qed.

Lemma moves_same d d' : d_field d' = d_field d -> d_in_order d' = d_in_order d ->
  d_log d' = d_log d -> moves d d'.
Proof. intros A B C. constructor; try assumption. exists []. rewrite app_nil_r. exact C. Qed.

Lemma callback_moves d id data : moves d (callback d id data).
Proof. constructor; try reflexivity. eexists. reflexivity. Qed.

Lemma callback_ordered_moves d id d' : callback_ordered d id = Ok d' -> moves d d'.
Proof.
  unfold callback_ordered. destruct (mfind id (d_sources d)); intros H; [|discriminate].
  same H. apply callback_moves.
Qed.

Lemma flush_loop_moves m l : forall d d', flush_loop m l d = Ok d' -> moves d d'.
Proof.
  induction l as [|id l IH]; intros d d' H; cbn [flush_loop] in H.
  - same H. apply moves_refl.
  - apply bind_ok in H. destruct H as (u & _ & H).
    apply bind_ok in H. destruct H as (d1 & E1 & H). apply callback_ordered_moves in E1.
    apply moves_trans with d1; [exact E1|].
    set (d2 := with_first _ _) in H.
    assert (E2 : moves d1 d2) by (apply moves_same; reflexivity).
    destruct l as [|id' l'].
    + same H. exact E2.
    + destruct (d_first d2 <? id'); [same H; exact E2|].
      apply moves_trans with d2; [exact E2 | apply IH, H].
Qed.

Lemma flush_moves m d d' : flush m d = Ok d' -> moves d d'.
Proof.
  unfold flush. destruct (smem _ _); intros H; [eapply flush_loop_moves, H|]. same H. apply moves_refl.
Qed.

Lemma announce_moves m d id data d' : announce m d id data = Ok d' -> moves d d'.
Proof.
  unfold announce. destruct (d_in_order d); cbn [negb]; [destruct (id =? d_first d)|]; intros H.
  - apply flush_moves in H. eapply moves_trans; [|exact H].
    apply moves_trans with (callback d id data); [apply callback_moves | apply moves_same; reflexivity].
  - same H. apply moves_refl.
  - same H. apply callback_moves.
Qed.

Lemma no_longer_missing_moves m d id data d' : no_longer_missing m d id data = Ok d' -> moves d d'.
Proof.
  unfold no_longer_missing. destruct (mfind id (d_missing d)); intros H.
  - apply bind_ok in H. destruct H as (reps & _ & H). same H. apply moves_same; reflexivity.
  - same H. apply moves_refl.
Qed.

Lemma scan_moves rec m : (forall d x data d', rec d x data = Ok d' -> moves d d') ->
  forall keys d d', scan rec m keys d = Ok d' -> moves d d'.
Proof.
  intros Hrec. induction keys as [|k keys IH]; intros d d' H; cbn [scan] in H.
  { same H. apply moves_refl. }
  destruct (mfind k (d_missing d)) as [[|r [|r2 rs]]|]; try (apply IH in H; exact H).
  destruct (mfind r (d_repairs d)) as [rep|]; [|discriminate].
  destruct (Nat.eqb (length (dr_ids rep)) 1); [|apply IH in H; exact H].
  apply bind_ok in H. destruct H as (u1 & _ & H).
  apply bind_ok in H. destruct H as (u2 & _ & H).
  apply bind_ok in H. destruct H as ([id data] & _ & H).
  apply bind_ok in H. destruct H as (d2 & E2 & H). apply Hrec in E2.
  apply moves_trans with d2.
  - eapply moves_trans; [|exact E2]. apply moves_same; reflexivity.
  - destruct (find _ keys) as [k'|]; [|same H; apply moves_refl].
    destruct (mmem k' (d_missing d2)); [apply IH, H | discriminate].
Qed.

Lemma store_moves m d id data d' : store m d id data = Ok d' -> moves d d'.
Proof.
  unfold store. intros H. apply bind_ok in H. destruct H as (u & _ & H). same H.
  destruct (_ && _); apply moves_same; reflexivity.
Qed.

Lemma add_source_moves m fuel : forall d id data d', add_source fuel m d id data = Ok d' -> moves d d'.
Proof.
  induction fuel as [|fuel IH]; intros d id data d' H; cbn [add_source] in H; [discriminate|].
  apply bind_ok in H. destruct H as (d1 & E1 & H). apply announce_moves in E1.
  apply bind_ok in H. destruct H as (d2 & E2 & H). apply no_longer_missing_moves in E2.
  apply bind_ok in H. destruct H as (d3 & E3 & H). apply scan_moves in E3; [|exact IH].
  apply store_moves in H.
  eapply moves_trans; [exact E1|]. eapply moves_trans; [exact E2|]. eapply moves_trans; eassumption.
Qed.

Lemma drop_repairs_moves m id reps : forall d d', drop_repairs m id reps d = Ok d' -> moves d d'
  /\ d_log d' = d_log d /\ d_sources d' = d_sources d /\ d_last d' = d_last d
  /\ d_ordered d' = d_ordered d /\ d_first d' = d_first d
  /\ d_decoded d' = d_decoded d /\ d_useless d' = d_useless d /\ d_failed d' = d_failed d.
Proof.
  induction reps as [|[r rep] reps IH]; intros d d' H; cbn [drop_repairs] in H.
  - same H. split; [apply moves_refl | repeat split].
  - apply bind_ok in H. destruct H as (u & _ & H).
    destruct (dr_ids rep) as [|first l]; [discriminate|].
    destruct (first <? id); [|apply IH, H].
    apply bind_ok in H. destruct H as (ms & _ & H). apply IH in H. destruct H as [H1 H2].
    split; [|exact H2]. eapply moves_trans; [|exact H1]. apply moves_same; reflexivity.
Qed.

Lemma deliver_outdated_moves l : forall d d', deliver_outdated l d = Ok d' -> moves d d'.
Proof.
  induction l as [|id l IH]; intros d d' H; cbn [deliver_outdated] in H.
  - same H. apply moves_refl.
  - apply bind_ok in H. destruct H as (d1 & E1 & H). apply callback_ordered_moves in E1.
    apply IH in H. eapply moves_trans; [exact E1|]. eapply moves_trans; [|exact H].
    apply moves_same; reflexivity.
Qed.

Lemma deliver_part_moves m d id d' : deliver_part m d id = Ok d' -> moves d d'.
Proof.
  unfold deliver_part. destruct (d_in_order d); intros H; [|same H; apply moves_refl].
  apply bind_ok in H. destruct H as (d1 & E1 & H).
  apply deliver_outdated_moves in E1. apply flush_moves in H.
  eapply moves_trans; [exact E1|]. eapply moves_trans; [|exact H].
  destruct (_ <? _); apply moves_same; reflexivity.
Qed.

(** The parts of [drop_outdated]. *)
Lemma drop_outdated_parts m d id d' : drop_outdated m d id = Ok d' ->
  exists d1 d2, drop_repairs m id (d_repairs d) (with_last d (Some id)) = Ok d1
  /\ deliver_part m d1 id = Ok d2
  /\ d' = with_missing (with_sources d2 (mfrom id (d_sources d2))) (mfrom id (d_missing d2)).
Proof.
  unfold drop_outdated. intros H. apply bind_ok in H. destruct H as (d1 & E1 & H).
  apply bind_ok in H. destruct H as (d2 & E2 & H). exists d1, d2.
  split; [exact E1|]. split; [exact E2|]. same H. reflexivity.
Qed.

Lemma drop_outdated_moves m d id d' : drop_outdated m d id = Ok d' -> moves d d'.
Proof.
  intros H. apply drop_outdated_parts in H. destruct H as (d1 & d2 & E1 & E2 & ->).
  apply drop_repairs_moves in E1. destruct E1 as [E1 _]. apply deliver_part_moves in E2.
  apply moves_trans with (with_last d (Some id)); [apply moves_same; reflexivity|].
  eapply moves_trans; [exact E1|]. eapply moves_trans; [exact E2|]. apply moves_same; reflexivity.
Qed.

Lemma add_decoded_moves m d id data d' : add_decoded m d id data = Ok d' -> moves d d'.
Proof.
  unfold add_decoded. intros H. apply bind_ok in H. destruct H as (u & _ & H).
  set (data' := match mfind id (d_sources d) with None => data | Some old => old end) in H.
  set (d1 := with_sources _ _) in H.
  apply moves_trans with d1; [apply moves_same; reflexivity|].
  destruct (d_in_order d1); cbn [negb] in H; [destruct (id =? d_first d1)|].
  - apply flush_moves in H. eapply moves_trans; [|exact H].
    apply moves_trans with (callback d1 id data'); [apply callback_moves | apply moves_same; reflexivity].
  - same H. apply moves_same; reflexivity.
  - same H. apply callback_moves.
Qed.

Lemma decode_all_moves m n inv reps ms : forall col d d',
  decode_all m n inv reps col ms d = Ok d' -> moves d d'.
Proof.
  induction ms as [|id ms IH]; intros col d d' H; cbn [decode_all] in H.
  - same H. apply moves_refl.
  - apply bind_ok in H. destruct H as (data & _ & H).
    apply bind_ok in H. destruct H as (d1 & E1 & H). apply add_decoded_moves in E1.
    apply IH in H. eapply moves_trans; eassumption.
Qed.

Lemma failed_decoding_moves d k d' : failed_decoding d k = Ok d' -> moves d d'.
Proof.
  unfold failed_decoding. cbv zeta. destruct (nth_error _ k) as [[r rep]|]; intros H; [|discriminate].
  same H. apply moves_same; reflexivity.
Qed.

Lemma attempt_moves m d d' : attempt_full_decoding m d = Ok d' -> moves d d'.
Proof.
  unfold attempt_full_decoding. cbv zeta. intros H.
  destruct (_ || _); [same H; apply moves_refl|].
  destruct (Nat.ltb _ _); [same H; apply moves_refl|].
  apply bind_ok in H. destruct H as (u1 & _ & H).
  apply bind_ok in H. destruct H as (u2 & _ & H).
  destruct (negb _); [discriminate|].
  apply bind_ok in H. destruct H as ([k|[a inv]] & _ & H).
  - eapply failed_decoding_moves, H.
  - apply bind_ok in H. destruct H as (d1 & E1 & H). same H.
    apply decode_all_moves in E1. eapply moves_trans; [exact E1|]. apply moves_same; reflexivity.
Qed.

Lemma recv_source_moves m d id data d' : recv_source m d id data = Ok d' -> moves d d'.
Proof.
  unfold recv_source. destruct (outdated d id); [|destruct (mmem id (d_sources d))]; intros H.
  - same H. apply moves_refl.
  - same H. apply moves_refl.
  - apply bind_ok in H. destruct H as (d1 & E1 & H).
    apply add_source_moves in E1. apply attempt_moves in H. eapply moves_trans; eassumption.
Qed.

Lemma link_repair_moves m ids : forall d r d' r', link_repair m ids d r = Ok (d', r') ->
  (exists M, d' = with_missing d M) /\ dr_id r' = dr_id r.
Proof.
  induction ids as [|id ids IH]; intros d r d' r' H; cbn [link_repair] in H.
  - assert (d' = d /\ r' = r) as [-> ->] by (split; congruence).
    split; [exists (d_missing d); destruct d; reflexivity | reflexivity].
  - destruct (mfind id (d_sources d)) as [data|].
    + apply bind_ok in H. destruct H as (r1 & E1 & H). apply IH in H. destruct H as [H1 H2].
      split; [exact H1|]. rewrite H2. unfold remove_data in E1.
      apply bind_ok in E1. destruct E1 as (u1 & _ & E1).
      apply bind_ok in E1. destruct E1 as (u2 & _ & E1).
      apply bind_ok in E1. destruct E1 as (buf & _ & E1). same E1. reflexivity.
    + apply IH in H. destruct H as [[M H1] H2]. split; [exists M; rewrite H1; reflexivity | exact H2].
Qed.

Lemma recv_repair_moves m d r d' : recv_repair m d r = Ok d' -> moves d d'.
Proof.
  unfold recv_repair. intros H. apply bind_ok in H. destruct H as (u0 & _ & H).
  destruct (dr_ids r) as [|first l]; [discriminate|].
  destruct (outdated d _); [same H; apply moves_refl|].
  destruct (mmem _ _); [same H; apply moves_refl|].
  apply bind_ok in H. destruct H as (d1 & E1 & H). apply drop_outdated_moves in E1.
  apply moves_trans with d1; [exact E1|].
  destruct (forallb _ _); [same H; apply moves_same; reflexivity|].
  apply bind_ok in H. destruct H as (u1 & _ & H).
  apply bind_ok in H. destruct H as ([d2 r2] & E2 & H). apply link_repair_moves in E2.
  destruct E2 as [[M ->] _].
  apply bind_ok in H. destruct H as (u2 & _ & H).
  destruct (Nat.eqb _ _).
  - apply bind_ok in H. destruct H as ([id data] & _ & H). apply add_source_moves in H.
    eapply moves_trans; [|exact H]. apply moves_same; reflexivity.
  - apply attempt_moves in H. eapply moves_trans; [|exact H]. apply moves_same; reflexivity.
Qed.

(** ** The containers stay sorted, and above a floor *)

Record good (b : N) (d : ddec) : Prop := {
  gd_sources : msorted (d_sources d);
  gd_sources_b : forall x, In x (mkeys (d_sources d)) -> b <= x;
  gd_repairs : msorted (d_repairs d);
  gd_repairs_b : forall r rep, mfind r (d_repairs d) = Some rep ->
    ssorted (dr_ids rep) /\ forall x, In x (dr_ids rep) -> b <= x;
  gd_missing : msorted (d_missing d);
  gd_missing_b : forall x, In x (mkeys (d_missing d)) -> b <= x;
  gd_ordered : ssorted (d_ordered d)
}.

Lemma good_new f o : good 0 (new_ddec f o).
Proof. constructor; try apply ssorted_nil; cbn; try (intros; lia); try apply msorted_nil; discriminate. Qed.

Lemma good_weaken b b' d : b' <= b -> good b d -> good b' d.
Proof.
  intros Hb [G1 G2 G3 G4 G5 G6 G7]. constructor; try assumption.
  - intros x Hx. specialize (G2 x Hx). lia.
  - intros r rep Hr. destruct (G4 r rep Hr) as [A B]. split; [exact A|]. intros x Hx. specialize (B x Hx). lia.
  - intros x Hx. specialize (G6 x Hx). lia.
Qed.

Lemma good_same b d d' : d_sources d' = d_sources d -> d_repairs d' = d_repairs d ->
  d_missing d' = d_missing d -> ssorted (d_ordered d') -> good b d -> good b d'.
Proof.
  intros E1 E2 E3 E4 [G1 G2 G3 G4 G5 G6 G7].
  constructor; rewrite ?E1, ?E2, ?E3; assumption.
Qed.

Lemma flush_loop_good b m l : forall d d', good b d -> flush_loop m l d = Ok d' -> good b d'.
Proof.
  induction l as [|id l IH]; intros d d' G H; cbn [flush_loop] in H.
  - same H. exact G.
  - apply bind_ok in H. destruct H as (u & _ & H).
    apply bind_ok in H. destruct H as (d1 & E1 & H). unfold callback_ordered in E1.
    destruct (mfind id (d_sources d)) as [data|]; [|discriminate]. same E1.
    set (d2 := with_first _ _) in H.
    assert (E2 : good b d2) by (apply good_same with (5 := G); try reflexivity; apply serase_sorted, G).
    destruct l as [|id' l']; [same H; exact E2|].
    destruct (d_first d2 <? id'); [same H; exact E2|]. apply (IH _ _ E2 H).
Qed.

Lemma flush_good b m d d' : good b d -> flush m d = Ok d' -> good b d'.
Proof.
  intros G. unfold flush. destruct (smem _ _); intros H; [eapply flush_loop_good; eassumption|].
  same H. exact G.
Qed.

Lemma announce_good b m d id data d' : good b d -> announce m d id data = Ok d' -> good b d'.
Proof.
  intros G. unfold announce. destruct (d_in_order d); cbn [negb]; [destruct (id =? d_first d)|]; intros H.
  - apply flush_good with (b := b) in H; [exact H|]. apply good_same with (5 := G); try reflexivity; apply G.
  - same H. exact G.
  - same H. apply good_same with (5 := G); try reflexivity; apply G.
Qed.

Lemma remove_source_ids m f id data r r' : remove_source m f id data r = Ok r' ->
  dr_ids r' = serase id (dr_ids r) /\ dr_id r' = dr_id r.
Proof.
  unfold remove_source. intros H. apply bind_ok in H. destruct H as (r1 & E1 & H).
  unfold remove_data in E1.
  apply bind_ok in E1. destruct E1 as (u1 & _ & E1).
  apply bind_ok in E1. destruct E1 as (u2 & _ & E1).
  apply bind_ok in E1. destruct E1 as (buf & _ & E1). same E1.
  apply bind_ok in H. destruct H as (u3 & _ & H).
  destruct (smem _ _); [|discriminate]. same H. split; reflexivity.
Qed.

Lemma serase_incl_in x y l : In y (serase x l) -> In y l.
Proof.
  induction l as [|a l IH]; cbn [serase]; [auto|].
  destruct (x =? a); intros H; [right; exact H|]. destruct H as [->|H]; [left; reflexivity | right; apply IH, H].
Qed.

Lemma remove_from_repairs_good b m f id data rs : forall reps reps', msorted reps ->
  (forall r rep, mfind r reps = Some rep -> ssorted (dr_ids rep) /\ forall x, In x (dr_ids rep) -> b <= x) ->
  remove_from_repairs m f id data rs reps = Ok reps' -> msorted reps' /\
  (forall r rep, mfind r reps' = Some rep -> ssorted (dr_ids rep) /\ forall x, In x (dr_ids rep) -> b <= x).
Proof.
  induction rs as [|r rs IH]; intros reps reps' Hs Hb H; cbn [remove_from_repairs] in H.
  - same H. auto.
  - destruct (mfind r reps) as [rep|] eqn:Er; [|discriminate].
    apply bind_ok in H. destruct H as (rep' & E1 & H). apply remove_source_ids in E1. destruct E1 as [E1 _].
    destruct (Hb r rep Er) as [B1 B2].
    apply IH in H; [exact H | apply mset_sorted, Hs|].
    intros r0 rep0 H0. rewrite mfind_mset in H0. destruct (r0 =? r); [|apply (Hb r0), H0].
    assert (rep0 = rep') by congruence. subst rep0. rewrite E1.
    split; [apply serase_sorted, B1|]. intros x Hx. apply B2. eapply serase_incl_in, Hx.
Qed.

Lemma no_longer_missing_good b m d id data d' : good b d -> no_longer_missing m d id data = Ok d' -> good b d'.
Proof.
  intros G. unfold no_longer_missing. destruct (mfind id (d_missing d)); intros H.
  - apply bind_ok in H. destruct H as (reps & E & H). same H.
    destruct G as [G1 G2 G3 G4 G5 G6 G7].
    apply remove_from_repairs_good with (b := b) in E; [|exact G3 | exact G4]. destruct E as [A B].
    constructor; cbn [with_missing with_repairs d_sources d_repairs d_missing d_ordered]; try assumption.
    + apply merase_sorted, G5.
    + intros x Hx. apply merase_keys in Hx; [|exact G5]. apply G6, Hx.
  - same H. exact G.
Qed.

Lemma create_source_id m f r id data : create_source m f r = Ok (id, data) -> In id (dr_ids r).
Proof.
  unfold create_source. intros H. apply bind_ok in H. destruct H as (u & _ & H).
  destruct (dr_ids r) as [|a l]; [discriminate|]. apply bind_ok in H. destruct H as (x & _ & H).
  left. congruence.
Qed.

Lemma good_erase b d r k n : good b d ->
  good b (with_missing (with_repairs (count_decoded d n) (merase r (d_repairs d))) (merase k (d_missing d))).
Proof.
  intros [G1 G2 G3 G4 G5 G6 G7].
  constructor; cbn [with_missing with_repairs count_decoded with_decoded d_sources d_repairs d_missing d_ordered];
    try assumption.
  - apply merase_sorted, G3.
  - intros r0 rep0 H0. rewrite mfind_merase in H0 by exact G3.
    destruct (r0 =? r); [discriminate | apply (G4 r0), H0].
  - apply merase_sorted, G5.
  - intros x Hx. apply merase_keys in Hx; [|exact G5]. apply G6, Hx.
Qed.

Lemma scan_good b rec m : (forall d x data d', good b d -> b <= x -> rec d x data = Ok d' -> good b d') ->
  forall keys d d', good b d -> scan rec m keys d = Ok d' -> good b d'.
Proof.
  intros Hrec. induction keys as [|k keys IH]; intros d d' G H; cbn [scan] in H.
  { same H. exact G. }
  destruct (mfind k (d_missing d)) as [[|r [|r2 rs]]|]; try (apply (IH _ _ G H)).
  destruct (mfind r (d_repairs d)) as [rep|] eqn:Er; [|discriminate].
  destruct (Nat.eqb (length (dr_ids rep)) 1); [|apply (IH _ _ G H)].
  apply bind_ok in H. destruct H as (u1 & _ & H).
  apply bind_ok in H. destruct H as (u2 & _ & H).
  apply bind_ok in H. destruct H as ([id data] & Ec & H). apply create_source_id in Ec.
  apply bind_ok in H. destruct H as (d2 & E2 & H).
  apply Hrec in E2; [|exact (good_erase b d r k 1 G) | apply (gd_repairs_b _ _ G r rep Er), Ec].
  destruct (find _ keys) as [k'|]; [|same H; exact E2].
  destruct (mmem k' (d_missing d2)); [apply (IH _ _ E2 H) | discriminate].
Qed.

Lemma good_store b d id data : good b d -> b <= id -> good b (with_sources d (mput id data (d_sources d))).
Proof.
  intros [G1 G2 G3 G4 G5 G6 G7] Hb. constructor; cbn [with_sources d_sources d_repairs d_missing d_ordered];
    try assumption.
  - apply mput_sorted, G1.
  - intros x Hx. apply mput_keys in Hx. destruct Hx as [->|Hx]; [exact Hb | apply G2, Hx].
Qed.

Lemma store_good b m d id data d' : good b d -> b <= id -> store m d id data = Ok d' -> good b d'.
Proof.
  intros G Hb. unfold store. intros H. apply bind_ok in H. destruct H as (u & _ & H). same H.
  pose proof (good_store b d id data G Hb) as G1.
  destruct (_ && _); [|exact G1]. apply good_same with (5 := G1); try reflexivity.
  apply sinsert_sorted, G.
Qed.

Lemma add_source_good b m fuel : forall d id data d', good b d -> b <= id ->
  add_source fuel m d id data = Ok d' -> good b d'.
Proof.
  induction fuel as [|fuel IH]; intros d id data d' G Hb H; cbn [add_source] in H; [discriminate|].
  apply bind_ok in H. destruct H as (d1 & E1 & H). apply announce_good with (b := b) in E1; [|exact G].
  apply bind_ok in H. destruct H as (d2 & E2 & H). apply no_longer_missing_good with (b := b) in E2; [|exact E1].
  apply bind_ok in H. destruct H as (d3 & E3 & H). apply scan_good with (b := b) in E3; [|exact IH | exact E2].
  eapply store_good; eassumption.
Qed.

Lemma unlink_good b r ids : forall ms ms', msorted ms -> (forall x, In x (mkeys ms) -> b <= x) ->
  unlink r ids ms = Ok ms' -> msorted ms' /\ (forall x, In x (mkeys ms') <-> In x (mkeys ms)).
Proof.
  induction ids as [|id ids IH]; intros ms ms' Hs Hb H; cbn [unlink] in H.
  - same H. split; [exact Hs | reflexivity].
  - destruct (mfind id ms) as [l|] eqn:E; [|discriminate].
    assert (Hk : forall x, In x (mkeys (mset id (serase r l) ms)) <-> In x (mkeys ms)).
    { intros x. rewrite mset_keys. split; [|auto]. intros [->|Hx]; [|exact Hx]. apply mfind_keys. eauto. }
    apply IH in H.
    + destruct H as [H1 H2]. split; [exact H1|]. intros x. rewrite H2. apply Hk.
    + apply mset_sorted, Hs.
    + intros x Hx. apply Hb, Hk, Hx.
Qed.

(** The loop on the repairs: the remaining ones are above the floor. *)
Lemma drop_repairs_good m id reps : forall d d', good 0 d -> msorted reps ->
  (forall r rep, mfind r (d_repairs d) = Some rep -> mfind r reps = Some rep \/ id <= hd 0 (dr_ids rep)) ->
  drop_repairs m id reps d = Ok d' -> good 0 d'
  /\ (forall x, In x (mkeys (d_missing d')) <-> In x (mkeys (d_missing d)))
  /\ (forall r rep, mfind r (d_repairs d') = Some rep -> id <= hd 0 (dr_ids rep)).
Proof.
  induction reps as [|[r rep] reps IH]; intros d d' G Hs Hr H; cbn [drop_repairs] in H.
  - same H. split; [exact G|]. split; [reflexivity|]. intros r rep E.
    destruct (Hr r rep E) as [A|A]; [discriminate | exact A].
  - apply bind_ok in H. destruct H as (u & _ & H).
    apply msorted_cons_inv in Hs. destruct Hs as [Hs _].
    destruct (dr_ids rep) as [|first l] eqn:Eids; [discriminate|].
    destruct (first <? id) eqn:Ef.
    + apply bind_ok in H. destruct H as (ms & Eu & H).
      destruct G as [G1 G2 G3 G4 G5 G6 G7].
      apply (unlink_good 0) in Eu; [|exact G5 | exact G6]. destruct Eu as [U1 U2].
      apply IH in H.
      * destruct H as (H1 & H2 & H3). split; [exact H1|]. split; [|exact H3].
        intros x. rewrite H2. apply U2.
      * constructor; cbn [with_missing with_repairs d_sources d_repairs d_missing d_ordered];
          try assumption.
        -- apply merase_sorted, G3.
        -- intros r0 rep0 E. rewrite mfind_merase in E by exact G3.
           destruct (r0 =? r); [discriminate | apply (G4 r0), E].
        -- intros x Hx. lia.
      * exact Hs.
      * cbn [with_missing with_repairs d_repairs]. intros r0 rep0 E. rewrite mfind_merase in E by exact G3.
        destruct (r0 =? r) eqn:Er; [discriminate|].
        destruct (Hr r0 rep0 E) as [A|A]; [|right; exact A]. cbn [mfind] in A. rewrite Er in A. left. exact A.
    + apply IH in H; [exact H | exact G | exact Hs |].
      intros r0 rep0 E. destruct (Hr r0 rep0 E) as [A|A]; [|right; exact A].
      cbn [mfind] in A. destruct (r0 =? r) eqn:Er; [|left; exact A].
      right. assert (rep0 = rep) by congruence. subst rep0. rewrite Eids. apply N.ltb_ge in Ef. exact Ef.
Qed.

Lemma deliver_outdated_good b l : forall d d', good b d -> deliver_outdated l d = Ok d' -> good b d'
  /\ d_sources d' = d_sources d /\ d_missing d' = d_missing d /\ d_repairs d' = d_repairs d
  /\ d_last d' = d_last d.
Proof.
  induction l as [|id l IH]; intros d d' G H; cbn [deliver_outdated] in H.
  - same H. auto.
  - apply bind_ok in H. destruct H as (d1 & E1 & H). unfold callback_ordered in E1.
    destruct (mfind id (d_sources d)) as [data|]; [|discriminate]. same E1.
    apply IH in H; [exact H|]. apply good_same with (5 := G); try reflexivity. apply serase_sorted, G.
Qed.

Lemma flush_loop_same m l : forall d d', flush_loop m l d = Ok d' ->
  d_sources d' = d_sources d /\ d_missing d' = d_missing d /\ d_repairs d' = d_repairs d
  /\ d_last d' = d_last d /\ d_decoded d' = d_decoded d.
Proof.
  induction l as [|id l IH]; intros d d' H; cbn [flush_loop] in H.
  - same H. auto.
  - apply bind_ok in H. destruct H as (u & _ & H).
    apply bind_ok in H. destruct H as (d1 & E1 & H). unfold callback_ordered in E1.
    destruct (mfind id (d_sources d)) as [data|]; [|discriminate]. same E1.
    destruct l as [|id' l']; [same H; repeat split|].
    destruct (_ <? id'); [same H; repeat split|]. apply IH in H. exact H.
Qed.

Lemma flush_same m d d' : flush m d = Ok d' ->
  d_sources d' = d_sources d /\ d_missing d' = d_missing d /\ d_repairs d' = d_repairs d
  /\ d_last d' = d_last d /\ d_decoded d' = d_decoded d.
Proof.
  unfold flush. destruct (smem _ _); intros H; [eapply flush_loop_same, H|]. same H. auto.
Qed.

Lemma deliver_part_good b m d id d' : good b d -> deliver_part m d id = Ok d' -> good b d'
  /\ d_sources d' = d_sources d /\ d_missing d' = d_missing d /\ d_repairs d' = d_repairs d
  /\ d_last d' = d_last d.
Proof.
  intros G. unfold deliver_part. destruct (d_in_order d); intros H; [|same H; auto].
  apply bind_ok in H. destruct H as (d1 & E1 & H).
  apply deliver_outdated_good with (b := b) in E1; [|exact G]. destruct E1 as (G1 & A1 & A2 & A3 & A4).
  set (d2 := if d_first d1 <? id then with_first d1 id else d1) in H.
  assert (G2 : good b d2) by (unfold d2; destruct (_ <? _); [apply good_same with (5 := G1); try reflexivity; apply G1 | exact G1]).
  assert (E2 : d_sources d2 = d_sources d1 /\ d_missing d2 = d_missing d1 /\ d_repairs d2 = d_repairs d1
     /\ d_last d2 = d_last d1) by (unfold d2; destruct (_ <? _); auto).
  pose proof (flush_good b m d2 d' G2 H) as G3. apply flush_same in H.
  destruct E2 as (B1 & B2 & B3 & B4), H as (D1 & D2 & D3 & D4 & _).
  split; [exact G3|]. repeat split; congruence.
Qed.

(** [drop_outdated], for all states. *)
Lemma drop_outdated_good m d id d' : good 0 d -> drop_outdated m d id = Ok d' ->
  good id d' /\ d_last d' = Some id
  /\ d_sources d' = mfrom id (d_sources d)
  /\ (forall x, In x (mkeys (d_missing d')) <-> In x (mkeys (d_missing d)) /\ id <= x)
  /\ d_decoded d' = d_decoded d /\ d_useless d' = d_useless d /\ d_failed d' = d_failed d
  /\ (d_in_order d = false -> d_log d' = d_log d).
Proof.
  intros G H. apply drop_outdated_parts in H. destruct H as (d1 & d2 & E1 & E2 & ->).
  pose proof (drop_repairs_moves _ _ _ _ _ E1) as (M1 & L1 & S1 & La1 & O1 & F1 & D1 & U1 & Fa1).
  assert (G0 : good 0 (with_last d (Some id))) by (apply good_same with (5 := G); try reflexivity; apply G).
  apply drop_repairs_good in E1; [|exact G0 | apply G | intros r rep E; left; exact E].
  destruct E1 as (G1 & K1 & R1).
  pose proof E2 as E2'. apply deliver_part_good with (b := 0) in E2; [|exact G1].
  destruct E2 as (G2 & A1 & A2 & A3 & A4).
  assert (C2 : d_decoded d2 = d_decoded d1 /\ d_useless d2 = d_useless d1 /\ d_failed d2 = d_failed d1
     /\ (d_in_order d1 = false -> d_log d2 = d_log d1)).
  { clear - E2'. unfold deliver_part in E2'. destruct (d_in_order d1) eqn:Hin; [|same E2'; auto].
    apply bind_ok in E2'. destruct E2' as (d3 & E3 & H).
    assert (X : d_decoded d3 = d_decoded d1 /\ d_useless d3 = d_useless d1 /\ d_failed d3 = d_failed d1).
    { clear - E3. revert E3. generalize (before id (d_ordered d1)) as l. intros l. revert d1.
      induction l as [|y l IH]; intros d1 E3; cbn [deliver_outdated] in E3.
      - same E3. auto.
      - apply bind_ok in E3. destruct E3 as (d4 & E4 & E3). unfold callback_ordered in E4.
        destruct (mfind y (d_sources d1)); [|discriminate]. same E4. apply IH in E3. exact E3. }
    set (d4 := if d_first d3 <? id then with_first d3 id else d3) in H.
    assert (Y : d_decoded d4 = d_decoded d3 /\ d_useless d4 = d_useless d3 /\ d_failed d4 = d_failed d3)
      by (unfold d4; destruct (_ <? _); auto).
    assert (Z : d_decoded d2 = d_decoded d4 /\ d_useless d2 = d_useless d4 /\ d_failed d2 = d_failed d4).
    { clear - H. unfold flush in H. destruct (smem _ _); [|same H; auto].
      revert H. generalize (from (d_first d4) (d_ordered d4)) as l. intros l. generalize d4 as d5. clear d4.
      induction l as [|y l IH]; intros d4 H; cbn [flush_loop] in H.
      - same H. auto.
      - apply bind_ok in H. destruct H as (u & _ & H).
        apply bind_ok in H. destruct H as (d5 & E5 & H). unfold callback_ordered in E5.
        destruct (mfind y (d_sources d4)); [|discriminate]. same E5.
        destruct l as [|y' l']; [same H; repeat split|].
        destruct (_ <? y'); [same H; repeat split|]. apply IH in H. exact H. }
    destruct X as (X1 & X2 & X3), Y as (Y1 & Y2 & Y3), Z as (Z1 & Z2 & Z3).
    split; [congruence|]. split; [congruence|]. split; congruence. }
  destruct C2 as (C2 & C3 & C4 & C5).
  split.
  - destruct G2 as [H1 H2 H3 H4 H5 H6 H7].
    constructor; cbn [with_missing with_sources d_sources d_repairs d_missing d_ordered]; try assumption.
    + apply mfrom_sorted, H1.
    + intros x Hx. apply mfrom_keys in Hx. apply Hx.
    + intros r rep E. destruct (H4 r rep E) as [B1 B2]. split; [exact B1|].
      intros x Hx. rewrite A3 in E. apply R1 in E. pose proof (sorted_hd _ x B1 Hx). lia.
    + apply mfrom_sorted, H5.
    + intros x Hx. apply mfrom_keys in Hx. apply Hx.
  - cbn [with_missing with_sources d_sources d_last d_missing d_decoded d_useless d_failed d_log].
    split; [rewrite A4; exact La1|]. split; [rewrite A1, S1; reflexivity|].
    split; [intros x; rewrite mfrom_keys, A2, K1; reflexivity|].
    split; [rewrite C2; exact D1|]. split; [rewrite C3; exact U1|]. split; [rewrite C4; exact Fa1|].
    intros Hin. rewrite C5; [exact L1|]. rewrite (mv_in_order _ _ M1). exact Hin.
Qed.

Lemma add_decoded_good b m d id data d' : good b d -> b <= id -> add_decoded m d id data = Ok d' -> good b d'
  /\ d_missing d' = d_missing d /\ d_repairs d' = d_repairs d.
Proof.
  intros G Hb. unfold add_decoded. intros H. apply bind_ok in H. destruct H as (u & _ & H).
  set (data' := match mfind id (d_sources d) with None => data | Some old => old end) in H.
  pose proof (good_store b d id data' G Hb) as G1. set (d1 := with_sources _ _) in *.
  destruct (d_in_order d1); cbn [negb] in H; [destruct (id =? d_first d1)|].
  - pose proof (flush_same _ _ _ H) as (A1 & A2 & A3 & _).
    apply flush_good with (b := b) in H.
    + split; [exact H|]. split; [exact A2 | exact A3].
    + apply good_same with (5 := G1); try reflexivity; apply G1.
  - same H. split; [|auto]. apply good_same with (5 := G1); try reflexivity. apply sinsert_sorted, G.
  - same H. split; [|auto]. apply good_same with (5 := G1); try reflexivity; apply G1.
Qed.

Lemma decode_all_good b m n inv reps ms : forall col d d', good b d -> (forall x, In x ms -> b <= x) ->
  decode_all m n inv reps col ms d = Ok d' -> good b d' /\ d_missing d' = d_missing d /\ d_repairs d' = d_repairs d.
Proof.
  induction ms as [|id ms IH]; intros col d d' G Hb H; cbn [decode_all] in H.
  - same H. auto.
  - apply bind_ok in H. destruct H as (data & _ & H).
    apply bind_ok in H. destruct H as (d1 & E1 & H).
    apply add_decoded_good with (b := b) in E1; [|exact G | apply Hb; left; reflexivity].
    destruct E1 as (G1 & A1 & A2). apply IH in H; [|exact G1 | intros x Hx; apply Hb; right; exact Hx].
    destruct H as (G2 & B1 & B2). split; [exact G2|]. split; congruence.
Qed.

Lemma unlink_or_create_good r ids : forall ms, msorted ms -> msorted (unlink_or_create r ids ms)
  /\ (forall x, In x (mkeys (unlink_or_create r ids ms)) <-> In x (mkeys ms) \/ In x ids).
Proof.
  induction ids as [|id ids IH]; intros ms Hs; cbn [unlink_or_create].
  - split; [exact Hs|]. intros x. cbn [In]. tauto.
  - set (ms1 := mset id _ ms). destruct (IH ms1) as [A B]; [apply mset_sorted, Hs|].
    split; [exact A|]. intros x. rewrite B. unfold ms1. rewrite mset_keys. cbn [In]. intuition congruence.
Qed.

Lemma failed_decoding_good b d k d' : good b d -> failed_decoding d k = Ok d' -> good b d'.
Proof.
  intros [G1 G2 G3 G4 G5 G6 G7]. unfold failed_decoding. cbv zeta.
  destruct (nth_error _ k) as [[r rep]|] eqn:E; intros H; [|discriminate]. same H.
  cbn [with_failed d_repairs] in E. apply nth_error_In in E. apply in_mfind in E; [|exact G3].
  destruct (unlink_or_create_good r (dr_ids rep) (d_missing d) G5) as [A B].
  constructor; cbn [with_missing with_repairs with_failed d_sources d_repairs d_missing d_ordered]; try assumption.
  - apply merase_sorted, G3.
  - intros r0 rep0 E0. rewrite mfind_merase in E0 by exact G3.
    destruct (r0 =? r); [discriminate | apply (G4 r0), E0].
  - intros x Hx. apply B in Hx. destruct Hx as [Hx|Hx]; [apply G6, Hx | apply (G4 r rep E), Hx].
Qed.

Lemma attempt_good b m d d' : good b d -> attempt_full_decoding m d = Ok d' -> good b d'.
Proof.
  intros G. unfold attempt_full_decoding. cbv zeta. intros H.
  destruct (_ || _); [same H; exact G|].
  destruct (Nat.ltb _ _); [same H; exact G|].
  apply bind_ok in H. destruct H as (u1 & _ & H).
  apply bind_ok in H. destruct H as (u2 & _ & H).
  destruct (negb _); [discriminate|].
  apply bind_ok in H. destruct H as ([k|[a inv]] & _ & H).
  - eapply failed_decoding_good; eassumption.
  - apply bind_ok in H. destruct H as (d1 & E1 & H). same H.
    apply decode_all_good with (b := b) in E1; [|exact G | apply G]. destruct E1 as ([G1 G2 G3 G4 G5 G6 G7] & _).
    constructor; cbn [with_missing with_repairs count_decoded with_decoded d_sources d_repairs d_missing d_ordered];
      try assumption; try apply msorted_nil; try discriminate. intros x [].
Qed.

Lemma recv_source_good m d id data d' : good 0 d -> recv_source m d id data = Ok d' -> good 0 d'.
Proof.
  intros G. unfold recv_source. destruct (outdated d id); [|destruct (mmem id (d_sources d))]; intros H.
  - same H. exact G.
  - same H. exact G.
  - apply bind_ok in H. destruct H as (d1 & E1 & H).
    apply add_source_good with (b := 0) in E1; [|exact G | lia]. eapply attempt_good; eassumption.
Qed.

Lemma link_repair_good b m ids : forall d r d' r', good b d -> ssorted (dr_ids r) ->
  (forall x, In x (dr_ids r) -> b <= x) -> (forall x, In x ids -> b <= x) ->
  link_repair m ids d r = Ok (d', r') -> good b d' /\ ssorted (dr_ids r') /\ (forall x, In x (dr_ids r') -> b <= x).
Proof.
  induction ids as [|id ids IH]; intros d r d' r' G Hs Hr Hi H; cbn [link_repair] in H.
  - assert (d' = d /\ r' = r) as [-> ->] by (split; congruence). auto.
  - destruct (mfind id (d_sources d)) as [data|].
    + apply bind_ok in H. destruct H as (r1 & E1 & H).
      assert (E : dr_ids r1 = dr_ids r).
      { unfold remove_data in E1.
        apply bind_ok in E1. destruct E1 as (u1 & _ & E1).
        apply bind_ok in E1. destruct E1 as (u2 & _ & E1).
        apply bind_ok in E1. destruct E1 as (buf & _ & E1). same E1. reflexivity. }
      apply IH in H; [exact H | exact G | | | intros x Hx; apply Hi; right; exact Hx].
      * cbn [with_ids dr_ids]. rewrite E. apply serase_sorted, Hs.
      * cbn [with_ids dr_ids]. rewrite E. intros x Hx. apply Hr. eapply serase_incl_in, Hx.
    + apply IH in H; [exact H | | exact Hs | exact Hr | intros x Hx; apply Hi; right; exact Hx].
      destruct G as [G1 G2 G3 G4 G5 G6 G7].
      constructor; cbn [with_missing d_sources d_repairs d_missing d_ordered]; try assumption.
      * apply mset_sorted, G5.
      * intros x Hx. apply mset_keys in Hx. destruct Hx as [->|Hx]; [apply Hi; left; reflexivity | apply G6, Hx].
Qed.

(** [operator()(decoder_repair&&)] on a repair that is neither outdated nor a duplicate. *)
Lemma recv_repair_good m d r d' : good 0 d -> ssorted (dr_ids r) -> recv_repair m d r = Ok d' ->
  good 0 d' /\ (outdated d (last (dr_ids r) 0) = false -> ~ In (dr_id r) (mkeys (d_repairs d)) ->
     good (hd 0 (dr_ids r)) d').
Proof.
  intros G Hs H. unfold recv_repair in H. apply bind_ok in H. destruct H as (u0 & _ & H).
  destruct (dr_ids r) as [|first l] eqn:Eids; [discriminate|].
  destruct (outdated d _).
  { same H. split; [exact G | discriminate]. }
  destruct (mmem (dr_id r) (d_repairs d)) eqn:Em.
  { same H. split; [exact G|]. intros _ A. apply mmem_spec in Em. contradiction. }
  rewrite <- Eids in H. cbn [hd].
  assert (X : good first d'); [|split; [apply good_weaken with (2 := X); lia | auto]].
  apply bind_ok in H. destruct H as (d1 & E1 & H).
  apply drop_outdated_good in E1; [|exact G]. destruct E1 as (G1 & _).
  destruct (forallb _ _); [same H; apply good_same with (5 := G1); try reflexivity; apply G1|].
  apply bind_ok in H. destruct H as (u1 & _ & H).
  apply bind_ok in H. destruct H as ([d2 r2] & E2 & H).
  assert (Hge : forall x, In x (dr_ids r) -> first <= x).
  { intros x Hx. rewrite Eids in Hx. apply sorted_hd in Hx; [exact Hx | exact Hs]. }
  apply link_repair_good with (b := first) in E2; try assumption.
  2: { rewrite Eids. exact Hs. }
  2: { intros x Hx. apply in_rev in Hx. apply Hge, Hx. }
  destruct E2 as (G2 & Hs2 & Hb2).
  set (d3 := with_repairs d2 _) in H.
  assert (G3 : good first d3).
  { destruct G2 as [A1 A2 A3 A4 A5 A6 A7].
    constructor; cbn [d3 with_repairs d_sources d_repairs d_missing d_ordered]; try assumption.
    - apply mset_sorted, A3.
    - intros r0 rep0 E. rewrite mfind_mset in E. destruct (r0 =? dr_id r2); [|apply (A4 r0), E].
      assert (rep0 = r2) by congruence. subst rep0. auto. }
  apply bind_ok in H. destruct H as (u2 & _ & H).
  destruct (Nat.eqb (length (dr_ids r2)) 1).
  - apply bind_ok in H. destruct H as ([id data] & Ec & H). apply create_source_id in Ec.
    apply add_source_good with (b := first) in H; [exact H | | apply Hb2, Ec].
    pose proof (good_erase first d3 (dr_id r2) id 1 G3) as G4.
    destruct G4 as [A1 A2 A3 A4 A5 A6 A7]. constructor; assumption.
  - eapply attempt_good; eassumption.
Qed.

(** ** Deliveries of a decoder that does not order *)

Definition nlog (d : ddec) : N := N.of_nat (length (d_log d)).

(** [k] more deliveries than recovered sources. *)
Definition delivers (k : N) (d d' : ddec) : Prop :=
  d_in_order d = false -> d_in_order d' = false /\ nlog d' + d_decoded d = nlog d + d_decoded d' + k.

Lemma delivers_trans a b d1 d2 d3 : delivers a d1 d2 -> delivers b d2 d3 -> delivers (a + b) d1 d3.
Proof.
  intros H1 H2 Hi. destruct (H1 Hi) as [A1 A2]. destruct (H2 A1) as [B1 B2]. split; [exact B1 | lia].
Qed.

Lemma delivers_same d d' : d_in_order d' = d_in_order d -> d_log d' = d_log d -> d_decoded d' = d_decoded d ->
  delivers 0 d d'.
Proof. intros A B C Hi. split; [congruence|]. unfold nlog. rewrite B, C. lia. Qed.

Lemma callback_delivers d id data : delivers 1 d (callback d id data).
Proof.
  intros Hi. split; [exact Hi|]. unfold nlog. cbn [callback d_log d_decoded]. rewrite app_length. cbn [length]. lia.
Qed.

Lemma announce_delivers m d id data d' : announce m d id data = Ok d' -> delivers 1 d d'.
Proof.
  unfold announce. intros H Hi. rewrite Hi in H. cbn [negb] in H. same H. apply callback_delivers, Hi.
Qed.

Lemma no_longer_missing_delivers m d id data d' : no_longer_missing m d id data = Ok d' -> delivers 0 d d'.
Proof.
  unfold no_longer_missing. destruct (mfind id (d_missing d)); intros H.
  - apply bind_ok in H. destruct H as (reps & _ & H). same H. apply delivers_same; reflexivity.
  - same H. apply delivers_same; reflexivity.
Qed.

Lemma scan_delivers rec m : (forall d x data d', rec d x data = Ok d' -> delivers 1 d d') ->
  forall keys d d', scan rec m keys d = Ok d' -> delivers 0 d d'.
Proof.
  intros Hrec. induction keys as [|k keys IH]; intros d d' H; cbn [scan] in H.
  { same H. apply delivers_same; reflexivity. }
  destruct (mfind k (d_missing d)) as [[|r [|r2 rs]]|]; try (apply IH in H; exact H).
  destruct (mfind r (d_repairs d)) as [rep|]; [|discriminate].
  destruct (Nat.eqb (length (dr_ids rep)) 1); [|apply IH in H; exact H].
  apply bind_ok in H. destruct H as (u1 & _ & H).
  apply bind_ok in H. destruct H as (u2 & _ & H).
  apply bind_ok in H. destruct H as ([id data] & _ & H).
  apply bind_ok in H. destruct H as (d2 & E2 & H). apply Hrec in E2.
  assert (E : delivers 0 d d2).
  { intros Hi. destruct (E2 Hi) as [A B]. split; [exact A|].
    unfold nlog in *. cbn [with_missing with_repairs count_decoded with_decoded d_log d_decoded] in B. lia. }
  change 0 with (0 + 0). apply delivers_trans with d2; [exact E|].
  destruct (find _ keys) as [k'|]; [|same H; apply delivers_same; reflexivity].
  destruct (mmem k' (d_missing d2)); [apply IH, H | discriminate].
Qed.

Lemma store_delivers m d id data d' : store m d id data = Ok d' -> delivers 0 d d'.
Proof.
  unfold store. intros H. apply bind_ok in H. destruct H as (u & _ & H). same H.
  destruct (_ && _); apply delivers_same; reflexivity.
Qed.

Lemma add_source_delivers m fuel : forall d id data d', add_source fuel m d id data = Ok d' -> delivers 1 d d'.
Proof.
  induction fuel as [|fuel IH]; intros d id data d' H; cbn [add_source] in H; [discriminate|].
  apply bind_ok in H. destruct H as (d1 & E1 & H). apply announce_delivers in E1.
  apply bind_ok in H. destruct H as (d2 & E2 & H). apply no_longer_missing_delivers in E2.
  apply bind_ok in H. destruct H as (d3 & E3 & H). apply scan_delivers in E3; [|exact IH].
  apply store_delivers in H. change 1 with (1 + (0 + (0 + 0))).
  eapply delivers_trans; [exact E1|]. eapply delivers_trans; [exact E2|]. eapply delivers_trans; eassumption.
Qed.

(** The source is the first thing to be delivered. *)
Lemma add_source_first m fuel d id data d' : d_in_order d = false -> add_source fuel m d id data = Ok d' ->
  exists rest, d_log d' = d_log d ++ {| v_id := id; v_data := data; v_known := mkeys (d_sources d) |} :: rest.
Proof.
  intros Hi. destruct fuel as [|fuel]; cbn [add_source]; intros H; [discriminate|].
  apply bind_ok in H. destruct H as (d1 & E1 & H). unfold announce in E1. rewrite Hi in E1. cbn [negb] in E1.
  same E1. apply bind_ok in H. destruct H as (d2 & E2 & H). apply no_longer_missing_moves in E2.
  apply bind_ok in H. destruct H as (d3 & E3 & H).
  apply scan_moves in E3; [|intros ? ? ? ? X; eapply add_source_moves, X]. apply store_moves in H.
  destruct E2 as [_ _ [n2 E2]], E3 as [_ _ [n3 E3]], H as [_ _ [n4 H]].
  exists (n2 ++ n3 ++ n4). rewrite H, E3, E2. cbn [callback d_log]. rewrite <- !app_assoc. reflexivity.
Qed.

Lemma add_decoded_delivers m d id data d' : add_decoded m d id data = Ok d' -> delivers 1 d d'.
Proof.
  unfold add_decoded. intros H Hi. apply bind_ok in H. destruct H as (u & _ & H).
  cbn [with_sources d_in_order] in H. rewrite Hi in H. cbn [negb] in H. same H.
  split; [exact Hi|]. unfold nlog. cbn [callback with_sources d_log d_decoded]. rewrite app_length. cbn [length]. lia.
Qed.

Lemma decode_all_delivers m n inv reps ms : forall col d d',
  decode_all m n inv reps col ms d = Ok d' -> delivers (N.of_nat (length ms)) d d'.
Proof.
  induction ms as [|id ms IH]; intros col d d' H; cbn [decode_all] in H.
  - same H. apply delivers_same; reflexivity.
  - apply bind_ok in H. destruct H as (data & _ & H).
    apply bind_ok in H. destruct H as (d1 & E1 & H). apply add_decoded_delivers in E1. apply IH in H.
    cbn [length]. rewrite Nat2N.inj_succ, <- N.add_1_l. eapply delivers_trans; eassumption.
Qed.

Lemma attempt_delivers m d d' : attempt_full_decoding m d = Ok d' -> delivers 0 d d'.
Proof.
  unfold attempt_full_decoding. cbv zeta. intros H.
  destruct (_ || _); [same H; apply delivers_same; reflexivity|].
  destruct (Nat.ltb _ _); [same H; apply delivers_same; reflexivity|].
  apply bind_ok in H. destruct H as (u1 & _ & H).
  apply bind_ok in H. destruct H as (u2 & _ & H).
  destruct (negb _); [discriminate|].
  apply bind_ok in H. destruct H as ([k|[a inv]] & _ & H).
  - unfold failed_decoding in H. cbv zeta in H. destruct (nth_error _ k) as [[r rep]|]; [|discriminate].
    same H. apply delivers_same; reflexivity.
  - apply bind_ok in H. destruct H as (d1 & E1 & H). same H. apply decode_all_delivers in E1.
    rewrite mkeys_length in E1. intros Hi. destruct (E1 Hi) as [A B]. split; [exact A|].
    unfold nlog in *. cbn [with_missing with_repairs count_decoded with_decoded d_log d_decoded]. lia.
Qed.

Lemma recv_repair_delivers m d r d' : good 0 d -> recv_repair m d r = Ok d' -> delivers 0 d d'.
Proof.
  intros G H. unfold recv_repair in H. apply bind_ok in H. destruct H as (u0 & _ & H).
  destruct (dr_ids r) as [|first l]; [discriminate|].
  destruct (outdated d _); [same H; apply delivers_same; reflexivity|].
  destruct (mmem _ _); [same H; apply delivers_same; reflexivity|].
  apply bind_ok in H. destruct H as (d1 & E1 & H).
  pose proof (drop_outdated_moves _ _ _ _ E1) as M1.
  apply drop_outdated_good in E1; [|exact G]. destruct E1 as (_ & _ & _ & _ & Dd & _ & _ & Dl).
  assert (D1 : delivers 0 d d1).
  { intros Hi. split; [rewrite (mv_in_order _ _ M1); exact Hi|]. unfold nlog. rewrite (Dl Hi), Dd. lia. }
  change 0 with (0 + 0). apply delivers_trans with d1; [exact D1|].
  destruct (forallb _ _); [same H; apply delivers_same; reflexivity|].
  apply bind_ok in H. destruct H as (u1 & _ & H).
  apply bind_ok in H. destruct H as ([d2 r2] & E2 & H). apply link_repair_moves in E2.
  destruct E2 as [[M ->] _].
  apply bind_ok in H. destruct H as (u2 & _ & H).
  destruct (Nat.eqb _ _).
  - apply bind_ok in H. destruct H as ([id data] & _ & H). apply add_source_delivers in H.
    intros Hi. destruct (H Hi) as [A B]. split; [exact A|].
    unfold nlog in *. cbn [with_missing with_repairs count_decoded with_decoded d_log d_decoded] in B. lia.
  - apply attempt_delivers in H. intros Hi. apply (H Hi).
Qed.

(** A source that is neither outdated nor known. *)
Lemma recv_source_new m d id data d' : recv_source m d id data = Ok d' ->
  outdated d id = false -> ~ In id (mkeys (d_sources d)) ->
  delivers 1 d d' /\ (d_in_order d = false ->
  exists rest, d_log d' = d_log d ++ {| v_id := id; v_data := data; v_known := mkeys (d_sources d) |} :: rest).
Proof.
  unfold recv_source. intros H Ho Hk. rewrite Ho in H.
  replace (mmem id (d_sources d)) with false in H by (symmetry; apply mmem_false; exact Hk).
  apply bind_ok in H. destruct H as (d1 & E1 & H).
  pose proof (attempt_moves _ _ _ H) as [_ _ [n2 M2]]. apply attempt_delivers in H.
  pose proof (add_source_delivers _ _ _ _ _ _ E1) as D1.
  split; [change 1 with (1 + 0); eapply delivers_trans; eassumption|].
  intros Hi. apply add_source_first in E1; [|exact Hi]. destruct E1 as [rest E1].
  exists (rest ++ n2). rewrite M2, E1, <- app_assoc. reflexivity.
Qed.

Lemma recv_source_old m d id data : outdated d id = true \/ In id (mkeys (d_sources d)) ->
  recv_source m d id data = Ok d.
Proof.
  intros H. unfold recv_source. destruct (outdated d id); [reflexivity|].
  destruct H as [H|H]; [discriminate|]. apply mmem_spec in H. rewrite H. reflexivity.
Qed.

(** ** What the callback can read of the known sources *)

Definition keys (d : ddec) : list N := mkeys (d_sources d).

Definition seen (lo hi : list N) (v : event) : Prop :=
  ssorted (v_known v) /\ incl lo (v_known v) /\ incl (v_known v) hi.

Definition grows (d d' : ddec) : Prop :=
  msorted (d_sources d) -> msorted (d_sources d') /\ incl (keys d) (keys d')
  /\ exists new, d_log d' = d_log d ++ new /\ Forall (seen (keys d) (keys d')) new.

Lemma seen_weaken lo hi lo' hi' v : incl lo' lo -> incl hi hi' -> seen lo hi v -> seen lo' hi' v.
Proof. intros A B (H1 & H2 & H3). split; [exact H1|]. split; eapply incl_tran; eassumption. Qed.

Lemma grows_same d d' : d_sources d' = d_sources d -> d_log d' = d_log d -> grows d d'.
Proof.
  intros A B Hs. unfold keys. rewrite A, B. split; [exact Hs|]. split; [apply incl_refl|].
  exists []. split; [symmetry; apply app_nil_r | constructor].
Qed.

Lemma grows_trans a b c : grows a b -> grows b c -> grows a c.
Proof.
  intros H1 H2 Hs. destruct (H1 Hs) as (S1 & I1 & n1 & L1 & F1).
  destruct (H2 S1) as (S2 & I2 & n2 & L2 & F2).
  split; [exact S2|]. split; [eapply incl_tran; eassumption|].
  exists (n1 ++ n2). split; [rewrite L2, L1, app_assoc; reflexivity|].
  apply Forall_app. split.
  - eapply Forall_impl; [|exact F1]. intros v. apply seen_weaken; [apply incl_refl | exact I2].
  - eapply Forall_impl; [|exact F2]. intros v. apply seen_weaken; [exact I1 | apply incl_refl].
Qed.

Lemma callback_grows d id data : grows d (callback d id data).
Proof.
  intros Hs. split; [exact Hs|]. split; [apply incl_refl|]. eexists. split; [reflexivity|].
  constructor; [|constructor]. split; [exact Hs|]. split; apply incl_refl.
Qed.

Lemma flush_loop_grows m l : forall d d', flush_loop m l d = Ok d' -> grows d d'.
Proof.
  induction l as [|id l IH]; intros d d' H; cbn [flush_loop] in H.
  - same H. apply grows_same; reflexivity.
  - apply bind_ok in H. destruct H as (u & _ & H).
    apply bind_ok in H. destruct H as (d1 & E1 & H). unfold callback_ordered in E1.
    destruct (mfind id (d_sources d)) as [data|]; [|discriminate]. same E1.
    apply grows_trans with (callback d id data); [apply callback_grows|].
    destruct l as [|id' l']; [same H; apply grows_same; reflexivity|].
    destruct (_ <? _); [same H; apply grows_same; reflexivity|].
    apply IH in H. eapply grows_trans; [|exact H]. apply grows_same; reflexivity.
Qed.

Lemma flush_grows m d d' : flush m d = Ok d' -> grows d d'.
Proof.
  unfold flush. destruct (smem _ _); intros H; [eapply flush_loop_grows, H|].
  same H. apply grows_same; reflexivity.
Qed.

Lemma announce_grows m d id data d' : announce m d id data = Ok d' -> grows d d'.
Proof.
  unfold announce. destruct (d_in_order d); cbn [negb]; [destruct (id =? d_first d)|]; intros H.
  - apply flush_grows in H. eapply grows_trans; [apply callback_grows|].
    eapply grows_trans; [|exact H]. apply grows_same; reflexivity.
  - same H. apply grows_same; reflexivity.
  - same H. apply callback_grows.
Qed.

Lemma no_longer_missing_grows m d id data d' : no_longer_missing m d id data = Ok d' -> grows d d'.
Proof.
  unfold no_longer_missing. destruct (mfind id (d_missing d)); intros H.
  - apply bind_ok in H. destruct H as (reps & _ & H). same H. apply grows_same; reflexivity.
  - same H. apply grows_same; reflexivity.
Qed.

Lemma scan_grows rec m : (forall d x data d', rec d x data = Ok d' -> grows d d') ->
  forall ks d d', scan rec m ks d = Ok d' -> grows d d'.
Proof.
  intros Hrec. induction ks as [|k ks IH]; intros d d' H; cbn [scan] in H.
  { same H. apply grows_same; reflexivity. }
  destruct (mfind k (d_missing d)) as [[|r [|r2 rs]]|]; try (apply IH in H; exact H).
  destruct (mfind r (d_repairs d)) as [rep|]; [|discriminate].
  destruct (Nat.eqb (length (dr_ids rep)) 1); [|apply IH in H; exact H].
  apply bind_ok in H. destruct H as (u1 & _ & H).
  apply bind_ok in H. destruct H as (u2 & _ & H).
  apply bind_ok in H. destruct H as ([id data] & _ & H).
  apply bind_ok in H. destruct H as (d2 & E2 & H). apply Hrec in E2.
  apply grows_trans with d2; [eapply grows_trans; [|exact E2]; apply grows_same; reflexivity|].
  destruct (find _ ks) as [k'|]; [|same H; apply grows_same; reflexivity].
  destruct (mmem k' (d_missing d2)); [apply IH, H | discriminate].
Qed.

Lemma put_grows d id data : grows d (with_sources d (mput id data (d_sources d))).
Proof.
  intros Hs. split; [apply mput_sorted, Hs|]. split.
  - intros x Hx. apply mput_keys. right. exact Hx.
  - exists []. split; [symmetry; apply app_nil_r | constructor].
Qed.

Lemma store_grows m d id data d' : store m d id data = Ok d' -> grows d d'.
Proof.
  unfold store. intros H. apply bind_ok in H. destruct H as (u & _ & H). same H.
  eapply grows_trans; [apply put_grows|]. destruct (_ && _); apply grows_same; reflexivity.
Qed.

Lemma add_source_grows m fuel : forall d id data d', add_source fuel m d id data = Ok d' -> grows d d'.
Proof.
  induction fuel as [|fuel IH]; intros d id data d' H; cbn [add_source] in H; [discriminate|].
  apply bind_ok in H. destruct H as (d1 & E1 & H). apply announce_grows in E1.
  apply bind_ok in H. destruct H as (d2 & E2 & H). apply no_longer_missing_grows in E2.
  apply bind_ok in H. destruct H as (d3 & E3 & H). apply scan_grows in E3; [|exact IH].
  apply store_grows in H.
  eapply grows_trans; [exact E1|]. eapply grows_trans; [exact E2|]. eapply grows_trans; eassumption.
Qed.

Lemma add_decoded_grows m d id data d' : add_decoded m d id data = Ok d' -> grows d d'.
Proof.
  unfold add_decoded. intros H. apply bind_ok in H. destruct H as (u & _ & H).
  cbn [with_sources d_in_order d_first d_ordered] in H.
  eapply grows_trans; [apply put_grows|].
  destruct (d_in_order d); cbn [negb] in H; [destruct (id =? d_first d)|].
  - apply flush_grows in H. eapply grows_trans; [apply callback_grows|].
    eapply grows_trans; [|exact H]. apply grows_same; reflexivity.
  - same H. apply grows_same; reflexivity.
  - same H. apply callback_grows.
Qed.

Lemma decode_all_grows m n inv reps ms : forall col d d',
  decode_all m n inv reps col ms d = Ok d' -> grows d d'.
Proof.
  induction ms as [|id ms IH]; intros col d d' H; cbn [decode_all] in H.
  - same H. apply grows_same; reflexivity.
  - apply bind_ok in H. destruct H as (data & _ & H).
    apply bind_ok in H. destruct H as (d1 & E1 & H). apply add_decoded_grows in E1. apply IH in H.
    eapply grows_trans; eassumption.
Qed.

Lemma attempt_grows m d d' : attempt_full_decoding m d = Ok d' -> grows d d'.
Proof.
  unfold attempt_full_decoding. cbv zeta. intros H.
  destruct (_ || _); [same H; apply grows_same; reflexivity|].
  destruct (Nat.ltb _ _); [same H; apply grows_same; reflexivity|].
  apply bind_ok in H. destruct H as (u1 & _ & H).
  apply bind_ok in H. destruct H as (u2 & _ & H).
  destruct (negb _); [discriminate|].
  apply bind_ok in H. destruct H as ([k|[a inv]] & _ & H).
  - unfold failed_decoding in H. cbv zeta in H. destruct (nth_error _ k) as [[r rep]|]; [|discriminate].
    same H. apply grows_same; reflexivity.
  - apply bind_ok in H. destruct H as (d1 & E1 & H). same H. apply decode_all_grows in E1.
    eapply grows_trans; [exact E1|]. apply grows_same; reflexivity.
Qed.

Lemma link_repair_sources m ids : forall d r d' r', link_repair m ids d r = Ok (d', r') ->
  d_sources d' = d_sources d /\ d_log d' = d_log d.
Proof.
  induction ids as [|id ids IH]; intros d r d' r' H; cbn [link_repair] in H.
  - assert (E : d' = d) by congruence. subst. auto.
  - destruct (mfind id (d_sources d)) as [data|].
    + apply bind_ok in H. destruct H as (r1 & _ & H). apply IH in H. exact H.
    + apply IH in H. exact H.
Qed.

Lemma flush_loop_log m l : forall d d', flush_loop m l d = Ok d' ->
  d_sources d' = d_sources d
  /\ exists new, d_log d' = d_log d ++ new /\ Forall (fun v => v_known v = keys d /\ mfind (v_id v) (d_sources d) = Some (v_data v)) new.
Proof.
  induction l as [|id l IH]; intros d d' H; cbn [flush_loop] in H.
  - same H. split; [reflexivity|]. exists []. split; [symmetry; apply app_nil_r | constructor].
  - apply bind_ok in H. destruct H as (u & _ & H).
    apply bind_ok in H. destruct H as (d1 & E1 & H). unfold callback_ordered in E1.
    destruct (mfind id (d_sources d)) as [data|] eqn:Ed; [|discriminate]. same E1.
    assert (X : d_sources d' = d_sources d /\ exists new,
      d_log d' = (d_log d ++ [{| v_id := id; v_data := data; v_known := keys d |}]) ++ new
      /\ Forall (fun v => v_known v = keys d /\ mfind (v_id v) (d_sources d) = Some (v_data v)) new).
    { destruct l as [|id' l'].
      - same H. split; [reflexivity|]. exists []. split; [symmetry; apply app_nil_r | constructor].
      - destruct (_ <? _).
        + same H. split; [reflexivity|]. exists []. split; [symmetry; apply app_nil_r | constructor].
        + apply IH in H. exact H. }
    destruct X as (X1 & new & X2 & X3). split; [exact X1|].
    exists ({| v_id := id; v_data := data; v_known := keys d |} :: new).
    split; [rewrite X2, <- app_assoc; reflexivity|]. constructor; [split; [reflexivity | exact Ed] | exact X3].
Qed.

Lemma deliver_outdated_log l : forall d d', deliver_outdated l d = Ok d' ->
  d_sources d' = d_sources d
  /\ exists new, d_log d' = d_log d ++ new /\ Forall (fun v => v_known v = keys d /\ mfind (v_id v) (d_sources d) = Some (v_data v)) new.
Proof.
  induction l as [|id l IH]; intros d d' H; cbn [deliver_outdated] in H.
  - same H. split; [reflexivity|]. exists []. split; [symmetry; apply app_nil_r | constructor].
  - apply bind_ok in H. destruct H as (d1 & E1 & H). unfold callback_ordered in E1.
    destruct (mfind id (d_sources d)) as [data|] eqn:Ed; [|discriminate]. same E1.
    apply IH in H. destruct H as (X1 & new & X2 & X3). split; [exact X1|].
    exists ({| v_id := id; v_data := data; v_known := keys d |} :: new).
    split; [|constructor; [split; [reflexivity | exact Ed] | exact X3]].
    rewrite X2. cbn [with_ordered callback d_log]. rewrite <- app_assoc. reflexivity.
Qed.

(** The deliveries of [drop_outdated] come before the pruning. *)
Lemma drop_outdated_log m d id d' : drop_outdated m d id = Ok d' ->
  exists new, d_log d' = d_log d ++ new /\ Forall (fun v => v_known v = keys d /\ mfind (v_id v) (d_sources d) = Some (v_data v)) new.
Proof.
  intros H. apply drop_outdated_parts in H. destruct H as (d1 & d2 & E1 & E2 & ->).
  apply drop_repairs_moves in E1. destruct E1 as (_ & L1 & S1 & _). cbn [with_last d_log d_sources] in L1, S1.
  cbn [with_missing with_sources d_log].
  unfold deliver_part in E2. destruct (d_in_order d1).
  - apply bind_ok in E2. destruct E2 as (d3 & E2 & E3). apply deliver_outdated_log in E2.
    destruct E2 as (S3 & n3 & L3 & F3).
    assert (X : exists new, d_log d2 = d_log d3 ++ new /\ Forall (fun v => v_known v = keys d3 /\ mfind (v_id v) (d_sources d3) = Some (v_data v)) new).
    { unfold flush in E3. destruct (smem _ _).
      - apply flush_loop_log in E3. destruct E3 as (_ & n & L & F). exists n.
        destruct (_ <? _) in L, F; split; assumption.
      - same E3. exists []. split; [|constructor]. destruct (_ <? _); symmetry; apply app_nil_r. }
    destruct X as (n2 & L2 & F2). exists (n3 ++ n2). split; [rewrite L2, L3, L1, app_assoc; reflexivity|].
    unfold keys in *. rewrite S3 in F2. rewrite S1 in F2, F3. apply Forall_app. split; assumption.
  - same E2. exists []. rewrite L1. split; [symmetry; apply app_nil_r | constructor].
Qed.

(** Between what was known at both ends of the call and what was known at one of them. *)
Definition observed (d d' : ddec) (v : event) : Prop :=
  ssorted (v_known v)
  /\ (forall x, In x (keys d) -> In x (keys d') -> In x (v_known v))
  /\ (forall x, In x (v_known v) -> In x (keys d) \/ In x (keys d')).

Lemma grows_observed d d' : good 0 d -> grows d d' ->
  exists new, d_log d' = d_log d ++ new /\ Forall (observed d d') new.
Proof.
  intros G H. destruct (H (gd_sources _ _ G)) as (_ & I & new & L & F). exists new. split; [exact L|].
  eapply Forall_impl; [|exact F]. intros v (A & B & C). split; [exact A|]. split; auto.
Qed.

Lemma recv_source_observed m d id data d' : good 0 d -> recv_source m d id data = Ok d' ->
  exists new, d_log d' = d_log d ++ new /\ Forall (observed d d') new.
Proof.
  intros G H. apply grows_observed; [exact G|]. unfold recv_source in H.
  destruct (outdated d id); [same H; apply grows_same; reflexivity|].
  destruct (mmem id (d_sources d)); [same H; apply grows_same; reflexivity|].
  apply bind_ok in H. destruct H as (d1 & E1 & H).
  eapply grows_trans; [eapply add_source_grows, E1 | eapply attempt_grows, H].
Qed.

Lemma recv_repair_observed m d r d' : good 0 d -> ssorted (dr_ids r) -> recv_repair m d r = Ok d' ->
  exists new, d_log d' = d_log d ++ new /\ Forall (observed d d') new.
Proof.
  intros G Hr H. pose proof (recv_repair_good _ _ _ _ G Hr H) as [G' Gb].
  assert (Same : d' = d -> exists new, d_log d' = d_log d ++ new /\ Forall (observed d d') new).
  { intros ->. exists []. split; [symmetry; apply app_nil_r | constructor]. }
  unfold recv_repair in H. apply bind_ok in H. destruct H as (u0 & _ & H).
  destruct (dr_ids r) as [|first l] eqn:El; [discriminate|].
  destruct (outdated d _) eqn:Eo; [apply Same; congruence|].
  destruct (mmem _ _) eqn:Ed; [apply Same; congruence|].
  assert (Gf : good first d').
  { apply Gb; [reflexivity|]. apply mmem_false, Ed. }
  apply bind_ok in H. destruct H as (d1 & E1 & H).
  pose proof (drop_outdated_log _ _ _ _ E1) as (n1 & L1 & F1).
  apply drop_outdated_good in E1; [|exact G]. destruct E1 as (G1 & _ & S1 & _).
  assert (X : grows d1 d').
  { destruct (forallb _ _); [same H; apply grows_same; reflexivity|].
    apply bind_ok in H. destruct H as (u1 & _ & H).
    apply bind_ok in H. destruct H as ([d2 r2] & E2 & H). apply link_repair_sources in E2.
    destruct E2 as [Es El2].
    apply bind_ok in H. destruct H as (u2 & _ & H).
    assert (Y : grows d1 d2) by (apply grows_same; assumption). eapply grows_trans; [exact Y|].
    destruct (Nat.eqb _ _).
    - apply bind_ok in H. destruct H as ([id data] & _ & H). apply add_source_grows in H.
      eapply grows_trans; [|exact H]. apply grows_same; reflexivity.
    - apply attempt_grows in H. eapply grows_trans; [|exact H]. apply grows_same; reflexivity. }
  destruct (X (gd_sources _ _ G1)) as (S' & I & n2 & L2 & F2).
  exists (n1 ++ n2). split; [rewrite L2, L1, app_assoc; reflexivity|]. apply Forall_app. split.
  - eapply Forall_impl; [|exact F1]. intros v [Hv _]. unfold observed. rewrite Hv.
    split; [apply (gd_sources _ _ G)|]. split; auto.
  - assert (K1 : forall x, In x (keys d1) <-> In x (keys d) /\ first <= x).
    { intros x. unfold keys. rewrite S1. apply mfrom_keys. }
    eapply Forall_impl; [|exact F2]. intros v (A & B & C). split; [exact A|]. split.
    + intros x Hx Hx'. apply B, K1. split; [exact Hx|]. apply (gd_sources_b _ _ Gf), Hx'.
    + intros x Hx. right. apply C, Hx.
Qed.

(** ** The counters of failures and of useless repairs *)

Definition quiet (d d' : ddec) : Prop := d_failed d' = d_failed d /\ d_useless d' = d_useless d.

Lemma quiet_refl d : quiet d d.
Proof. split; reflexivity. Qed.
Lemma quiet_trans a b c : quiet a b -> quiet b c -> quiet a c.
Proof. intros [A1 A2] [B1 B2]. split; congruence. Qed.

Lemma flush_loop_quiet m l : forall d d', flush_loop m l d = Ok d' -> quiet d d'.
Proof.
  induction l as [|id l IH]; intros d d' H; cbn [flush_loop] in H.
  - same H. apply quiet_refl.
  - apply bind_ok in H. destruct H as (u & _ & H).
    apply bind_ok in H. destruct H as (d1 & E1 & H). unfold callback_ordered in E1.
    destruct (mfind id (d_sources d)) as [data|]; [|discriminate]. same E1.
    destruct l as [|id' l']; [same H; split; reflexivity|].
    destruct (_ <? _); [same H; split; reflexivity|]. apply IH in H. exact H.
Qed.

Lemma flush_quiet m d d' : flush m d = Ok d' -> quiet d d'.
Proof.
  unfold flush. destruct (smem _ _); intros H; [eapply flush_loop_quiet, H|]. same H. apply quiet_refl.
Qed.

Lemma announce_quiet m d id data d' : announce m d id data = Ok d' -> quiet d d'.
Proof.
  unfold announce. destruct (d_in_order d); cbn [negb]; [destruct (id =? d_first d)|]; intros H.
  - apply flush_quiet in H. exact H.
  - same H. apply quiet_refl.
  - same H. split; reflexivity.
Qed.

Lemma no_longer_missing_quiet m d id data d' : no_longer_missing m d id data = Ok d' -> quiet d d'.
Proof.
  unfold no_longer_missing. destruct (mfind id (d_missing d)); intros H.
  - apply bind_ok in H. destruct H as (reps & _ & H). same H. split; reflexivity.
  - same H. apply quiet_refl.
Qed.

Lemma scan_quiet rec m : (forall d x data d', rec d x data = Ok d' -> quiet d d') ->
  forall ks d d', scan rec m ks d = Ok d' -> quiet d d'.
Proof.
  intros Hrec. induction ks as [|k ks IH]; intros d d' H; cbn [scan] in H.
  { same H. apply quiet_refl. }
  destruct (mfind k (d_missing d)) as [[|r [|r2 rs]]|]; try (apply IH in H; exact H).
  destruct (mfind r (d_repairs d)) as [rep|]; [|discriminate].
  destruct (Nat.eqb (length (dr_ids rep)) 1); [|apply IH in H; exact H].
  apply bind_ok in H. destruct H as (u1 & _ & H).
  apply bind_ok in H. destruct H as (u2 & _ & H).
  apply bind_ok in H. destruct H as ([id data] & _ & H).
  apply bind_ok in H. destruct H as (d2 & E2 & H). apply Hrec in E2.
  apply quiet_trans with d2; [exact E2|].
  destruct (find _ ks) as [k'|]; [|same H; apply quiet_refl].
  destruct (mmem k' (d_missing d2)); [apply IH, H | discriminate].
Qed.

Lemma store_quiet m d id data d' : store m d id data = Ok d' -> quiet d d'.
Proof.
  unfold store. intros H. apply bind_ok in H. destruct H as (u & _ & H). same H.
  destruct (_ && _); split; reflexivity.
Qed.

Lemma add_source_quiet m fuel : forall d id data d', add_source fuel m d id data = Ok d' -> quiet d d'.
Proof.
  induction fuel as [|fuel IH]; intros d id data d' H; cbn [add_source] in H; [discriminate|].
  apply bind_ok in H. destruct H as (d1 & E1 & H). apply announce_quiet in E1.
  apply bind_ok in H. destruct H as (d2 & E2 & H). apply no_longer_missing_quiet in E2.
  apply bind_ok in H. destruct H as (d3 & E3 & H). apply scan_quiet in E3; [|exact IH].
  apply store_quiet in H.
  eapply quiet_trans; [exact E1|]. eapply quiet_trans; [exact E2|]. eapply quiet_trans; eassumption.
Qed.

Lemma add_decoded_quiet m d id data d' : add_decoded m d id data = Ok d' -> quiet d d'.
Proof.
  unfold add_decoded. intros H. apply bind_ok in H. destruct H as (u & _ & H).
  cbn [with_sources d_in_order d_first d_ordered] in H.
  destruct (d_in_order d); cbn [negb] in H; [destruct (id =? d_first d)|].
  - apply flush_quiet in H. exact H.
  - same H. split; reflexivity.
  - same H. split; reflexivity.
Qed.

Lemma decode_all_quiet m n inv reps ms : forall col d d',
  decode_all m n inv reps col ms d = Ok d' -> quiet d d'.
Proof.
  induction ms as [|id ms IH]; intros col d d' H; cbn [decode_all] in H.
  - same H. apply quiet_refl.
  - apply bind_ok in H. destruct H as (data & _ & H).
    apply bind_ok in H. destruct H as (d1 & E1 & H). apply add_decoded_quiet in E1. apply IH in H.
    eapply quiet_trans; eassumption.
Qed.

(** A failure removes one repair and only touches the links of the missing sources. *)
Definition gave_up (d d' : ddec) : Prop :=
  exists r rep, In (r, rep) (d_repairs d)
  /\ d' = with_repairs (with_missing (with_failed d (d_failed d + 1))
            (unlink_or_create r (dr_ids rep) (d_missing d))) (merase r (d_repairs d)).

Lemma attempt_quiet m d d' : attempt_full_decoding m d = Ok d' -> quiet d d' \/ gave_up d d'.
Proof.
  unfold attempt_full_decoding. cbv zeta. intros H.
  destruct (_ || _); [left; same H; apply quiet_refl|].
  destruct (Nat.ltb _ _); [left; same H; apply quiet_refl|].
  apply bind_ok in H. destruct H as (u1 & _ & H).
  apply bind_ok in H. destruct H as (u2 & _ & H).
  destruct (negb _); [discriminate|].
  apply bind_ok in H. destruct H as ([k|[a inv]] & _ & H).
  - right. unfold failed_decoding in H. cbv zeta in H. cbn [with_failed d_repairs] in H.
    destruct (nth_error (d_repairs d) k) as [[r rep]|] eqn:E; [|discriminate].
    same H. exists r, rep. split; [eapply nth_error_In, E | reflexivity].
  - left. apply bind_ok in H. destruct H as (d1 & E1 & H). same H. apply decode_all_quiet in E1. exact E1.
Qed.

Lemma remove_data_ids m f id data r r' : remove_data m f id data r = Ok r' -> dr_ids r' = dr_ids r /\ dr_id r' = dr_id r.
Proof.
  unfold remove_data. intros H. apply bind_ok in H. destruct H as (u1 & _ & H).
  apply bind_ok in H. destruct H as (u2 & _ & H). cbv zeta in H.
  apply bind_ok in H. destruct H as (b & _ & H). same H. split; reflexivity.
Qed.

(** The sources of a repair that are not known become missing, the others leave it. *)
Lemma link_repair_ids m ids : forall d r d' r', ssorted (dr_ids r) -> link_repair m ids d r = Ok (d', r') ->
  (forall x, In x (mkeys (d_missing d')) <-> In x (mkeys (d_missing d)) \/ (In x ids /\ ~ In x (keys d)))
  /\ ssorted (dr_ids r')
  /\ (forall x, In x (dr_ids r') <-> In x (dr_ids r) /\ ~ (In x ids /\ In x (keys d))).
Proof.
  induction ids as [|id ids IH]; intros d r d' r' Hs H; cbn [link_repair] in H.
  - assert (d' = d /\ r' = r) as [-> ->] by (split; congruence).
    split; [intros x; cbn; tauto|]. split; [exact Hs|]. intros x. cbn. tauto.
  - destruct (mfind id (d_sources d)) as [data|] eqn:E.
    + apply bind_ok in H. destruct H as (r1 & E1 & H). apply remove_data_ids in E1. destruct E1 as [E1 _].
      assert (Hk : In id (keys d)) by (apply mfind_keys; eauto).
      apply IH in H; [|cbn [with_ids dr_ids]; apply serase_sorted; rewrite E1; exact Hs].
      destruct H as (A & B & C). cbn [with_ids dr_ids] in C. rewrite E1 in C.
      split; [intros x; rewrite A; cbn [In]; split; [tauto|]; intros [X|[[<-|X] Y]]; tauto|].
      split; [exact B|]. intros x. rewrite C, serase_in by exact Hs. cbn [In]. split.
      * intros [[X Y] Z]. split; [exact X|]. intros [[W|W] W']; [congruence | tauto].
      * intros [X Y]. split; [split; [exact X|]; intros ->; tauto | tauto].
    + assert (Hk : ~ In id (keys d)).
      { intros X. apply mfind_keys in X. destruct X as [v X]. congruence. }
      apply IH in H; [|exact Hs]. destruct H as (A & B & C).
      cbn [with_missing d_missing] in A. change (keys (with_missing d _)) with (keys d) in A, C.
      split.
      { intros x. rewrite A, mset_keys. cbn [In]. split.
        - intros [[->|X]|[X Y]]; tauto.
        - intros [X|[[<-|X] Y]]; tauto. }
      split; [exact B|]. intros x. rewrite C. cbn [In]. split; [|tauto].
      intros [X Y]. split; [exact X|]. intros [[<-|W] W']; tauto.
Qed.

(** The repairs that start before the floor are removed, the others stay. *)
Lemma drop_repairs_exact m id reps : forall d d', msorted (d_repairs d) -> msorted reps ->
  (forall r rep, mfind r reps = Some rep -> mfind r (d_repairs d) = Some rep) ->
  drop_repairs m id reps d = Ok d' ->
  msorted (d_repairs d') /\
  forall r rep, mfind r (d_repairs d') = Some rep <->
    mfind r (d_repairs d) = Some rep /\ (mfind r reps = Some rep -> id <= hd 0 (dr_ids rep)).
Proof.
  induction reps as [|[r rep] reps IH]; intros d d' Sd Hs Hi H; cbn [drop_repairs] in H.
  - same H. split; [exact Sd|]. intros r rep. cbn [mfind]. split; [intros E; split; [exact E | discriminate] | tauto].
  - apply bind_ok in H. destruct H as (u & _ & H).
    pose proof Hs as Hs0. apply msorted_cons_inv in Hs. destruct Hs as [Hs Hlt].
    destruct (dr_ids rep) as [|first l] eqn:Eids; [discriminate|].
    assert (Hnot : forall rp, mfind r reps = Some rp -> False).
    { intros rp E. apply mfind_in in E. apply Hlt in E. lia. }
    destruct (first <? id) eqn:Ef.
    + apply bind_ok in H. destruct H as (ms & Eu & H).
      apply IH in H; cbn [with_missing with_repairs d_repairs] in *.
      * destruct H as [S' H]. split; [exact S'|].
        intros i rp. rewrite H, mfind_merase by exact Sd. cbn [mfind].
        destruct (N.eqb_spec i r) as [->|Hne].
        { split; [intros [X _]; discriminate|]. intros [X Y]. exfalso.
          assert (mfind r (d_repairs d) = Some rep) as Z by (apply Hi; cbn [mfind]; now rewrite N.eqb_refl).
          assert (rp = rep) by congruence. subst rp. specialize (Y eq_refl). rewrite Eids in Y. cbn [hd] in Y.
          apply N.ltb_lt in Ef. lia. }
        { reflexivity. }
      * apply merase_sorted, Sd.
      * exact Hs.
      * intros i rp E. rewrite mfind_merase by exact Sd. destruct (N.eqb_spec i r) as [->|Hne].
        { exfalso. exact (Hnot rp E). }
        { apply Hi. cbn [mfind]. destruct (N.eqb_spec i r); [contradiction | exact E]. }
    + apply IH in H; [|exact Sd | exact Hs |].
      * destruct H as [S' H]. split; [exact S'|]. intros i rp. rewrite H. cbn [mfind].
        destruct (N.eqb_spec i r) as [->|Hne]; [|reflexivity].
        split; intros [X Y]; (split; [exact X|]).
        { intros E. assert (rp = rep) by congruence. subst rp. rewrite Eids. cbn [hd]. apply N.ltb_ge in Ef. exact Ef. }
        { intros E. exfalso. exact (Hnot rp E). }
      * intros i rp E. apply Hi. cbn [mfind]. destruct (N.eqb_spec i r) as [->|Hne]; [|exact E].
        exfalso. exact (Hnot rp E).
Qed.

Lemma drop_outdated_repairs m d id d' : good 0 d -> drop_outdated m d id = Ok d' ->
  forall r rep, mfind r (d_repairs d') = Some rep <->
    mfind r (d_repairs d) = Some rep /\ id <= hd 0 (dr_ids rep).
Proof.
  intros G H. apply drop_outdated_parts in H. destruct H as (d1 & d2 & E1 & E2 & ->).
  cbn [with_missing with_sources d_repairs].
  assert (G0 : good 0 (with_last d (Some id))) by (apply good_same with (5 := G); try reflexivity; apply G).
  pose proof E1 as E1'.
  apply drop_repairs_good in E1; [|exact G0 | apply G | intros r rep E; left; exact E].
  apply deliver_part_good with (b := 0) in E2; [|apply E1]. destruct E2 as (_ & _ & _ & -> & _).
  apply drop_repairs_exact in E1'; [|apply G | apply G | auto].
  destruct E1' as [_ X]. intros r rep. rewrite X. cbn [with_last d_repairs]. tauto.
Qed.

(** A call for a repair that ends in a failure. *)
Lemma recv_repair_failed m d r d' : good 0 d -> ssorted (dr_ids r) ->
  (forall i rep x, mfind i (d_repairs d) = Some rep -> In x (dr_ids rep) -> In x (mkeys (d_missing d))) ->
  recv_repair m d r = Ok d' -> d_failed d' <> d_failed d ->
  let first := hd 0 (dr_ids r) in
  let candidate i := i = dr_id r \/ exists rep, mfind i (d_repairs d) = Some rep /\ first <= hd 0 (dr_ids rep) in
  d_failed d' = d_failed d + 1 /\ d_useless d' = d_useless d /\ d_decoded d' = d_decoded d
  /\ (forall x, In x (keys d') <-> In x (keys d) /\ first <= x)
  /\ (forall x, In x (mkeys (d_missing d')) <->
        (In x (mkeys (d_missing d)) /\ first <= x) \/ (In x (dr_ids r) /\ ~ In x (keys d)))
  /\ (exists lost, candidate lost /\ forall i, In i (mkeys (d_repairs d')) <-> candidate i /\ i <> lost)
  /\ exists d1, drop_outdated m d first = Ok d1 /\ d_log d' = d_log d1.
Proof.
  intros G Hs Hp H Hf. unfold recv_repair in H. apply bind_ok in H. destruct H as (u0 & _ & H).
  destruct (dr_ids r) as [|first l] eqn:El; [discriminate|]. cbn [hd]. cbv zeta.
  destruct (outdated d _); [same H; contradiction Hf; reflexivity|].
  destruct (mmem _ _); [same H; contradiction Hf; reflexivity|].
  apply bind_ok in H. destruct H as (d1 & E1 & H). pose proof E1 as E1'. pose proof E1 as E1r.
  apply drop_outdated_good in E1; [|exact G]. destruct E1 as (G1 & L1 & S1 & M1 & Dd & Du & Df & _).
  pose proof (drop_outdated_repairs _ _ _ _ G E1r) as R1.
  destruct (forallb _ _); [same H; contradiction Hf; exact Df|].
  apply bind_ok in H. destruct H as (u1 & _ & H).
  apply bind_ok in H. destruct H as ([d2 r2] & E2 & H).
  pose proof E2 as E2m. apply link_repair_moves in E2m. destruct E2m as [[M EM] Hid].
  pose proof E2 as E2g.
  apply link_repair_good with (b := first) in E2g;
    [|exact G1 | rewrite El; exact Hs | intros x Hx; rewrite El in Hx; exact (sorted_hd _ x Hs Hx)
     |intros x Hx; apply in_rev in Hx; exact (sorted_hd _ x Hs Hx)].
  destruct E2g as (G2 & _ & _). subst d2.
  apply link_repair_ids in E2; [|rewrite El; exact Hs]. destruct E2 as (A & B & C). rewrite El in C.
  cbn [with_missing d_missing] in A.
  assert (A' : forall x, In x (mkeys M) <-> (In x (mkeys (d_missing d)) /\ first <= x) \/ (In x (first :: l) /\ ~ In x (keys d))).
  { intros x. rewrite A, M1, <- in_rev. unfold keys. rewrite S1, mfrom_keys. split; [|tauto].
    intros [X|[X Y]]; [left; exact X|]. right. split; [exact X|]. intros Z. apply Y. split; [exact Z|].
    exact (sorted_hd _ x Hs X). }
  apply bind_ok in H. destruct H as (u2 & _ & H).
  destruct (Nat.eqb _ _).
  { exfalso. apply bind_ok in H. destruct H as ([id data] & _ & H). apply add_source_quiet in H.
    destruct H as [H _]. apply Hf. rewrite H. exact Df. }
  apply attempt_quiet in H. destruct H as [[H _]|(ri & rep & Hin & ->)].
  { exfalso. apply Hf. rewrite H. exact Df. }
  cbn [with_repairs with_missing with_failed d_failed d_useless d_decoded d_missing d_repairs d_log d_sources] in *.
  pose proof (gd_missing _ _ G2) as Sm. cbn [with_missing d_missing] in Sm.
  pose proof (gd_repairs _ _ G1) as Sr.
  assert (Sr' : msorted (mset (dr_id r2) r2 (d_repairs d1))) by (apply mset_sorted, Sr).
  assert (Cand : forall i, In i (mkeys (mset (dr_id r2) r2 (d_repairs d1))) <->
     i = dr_id r \/ exists rp, mfind i (d_repairs d) = Some rp /\ first <= hd 0 (dr_ids rp)).
  { intros i. rewrite mset_keys, Hid. split; (intros [X|X]; [left; exact X|right]).
    - apply mfind_keys in X. destruct X as [rp X]. exists rp. apply R1, X.
    - destruct X as [rp X]. apply R1 in X. apply mfind_keys. eauto. }
  split; [rewrite Df; reflexivity|]. split; [exact Du|]. split; [exact Dd|].
  split; [intros x; unfold keys; cbn [with_repairs with_missing with_failed d_sources]; rewrite S1; apply mfrom_keys|].
  split; [|split].
  - intros x. destruct (unlink_or_create_good ri (dr_ids rep) M Sm) as [_ U]. rewrite U, <- A'.
    split; [|auto]. intros [X|X]; [exact X|]. apply A'.
    apply in_mfind in Hin; [|exact Sr']. rewrite mfind_mset in Hin. destruct (N.eqb_spec ri (dr_id r2)) as [->|Hne].
    + assert (rep = r2) by congruence. subst rep. apply C in X. destruct X as [X Y]. right. split; [exact X|].
      intros Z. apply Y. split; [apply in_rev in X; exact X|]. unfold keys. rewrite S1. apply mfrom_keys. split; [exact Z|].
      exact (sorted_hd _ x Hs X).
    + apply R1 in Hin. destruct Hin as [Hin Hle]. left. split; [eapply Hp; eassumption|].
      destruct (gd_repairs_b _ _ G ri rep Hin) as [Sp _]. pose proof (sorted_hd _ x Sp X). lia.
  - exists ri. split; [apply Cand; apply in_map_iff; exists (ri, rep); auto|].
    intros i. rewrite merase_keys by exact Sr'. rewrite Cand. reflexivity.
  - exists d1. split; [exact E1'|reflexivity].
Qed.
