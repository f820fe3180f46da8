(** * Bytes behind the end of a packet do not change the decoding *)
From Coq Require Import NArith List Bool Lia Arith.
From Verif Require Import Outcome GF GFRegion Containers ContainersFacts Packetizer Matrix DetailDecoder.
Import ListNotations.
Open Scope N_scope.
Open Scope outcome_scope.

(** If the first run succeeds, so does the second, with a related result; if it
    throws, so does the second. *)
Definition impo {A B} (R : A -> B -> Prop) (x : outcome A) (y : outcome B) : Prop :=
  match x with
  | Ok a => exists b, y = Ok b /\ R a b
  | Throw e => y = Throw e
  | Fault _ => True
  end.

Lemma impo_bind {A B C D} (R : A -> B -> Prop) (Q : C -> D -> Prop) x y k k' :
  impo R x y -> (forall a b, R a b -> impo Q (k a) (k' b)) -> impo Q (bind x k) (bind y k').
Proof.
  intros H K. destruct x as [a|e|e]; cbn [bind impo] in *; [|rewrite H; reflexivity|exact I].
  destruct H as (b & -> & Rab). cbn [bind]. exact (K a b Rab).
Qed.

Lemma impo_eq {A C D} (Q : C -> D -> Prop) (x : outcome A) k k' :
  (forall a, impo Q (k a) (k' a)) -> impo Q (bind x k) (bind x k').
Proof.
  intros K. apply (impo_bind eq); [|intros a b <-; apply K].
  destruct x as [a|e|e]; cbn; [exists a; split; reflexivity|reflexivity|exact I].
Qed.

Lemma impo_ok {A B} (R : A -> B -> Prop) a b : R a b -> impo R (Ok a) (Ok b).
Proof. intros H. exists b. split; [reflexivity|exact H]. Qed.

Lemma impo_fault {A B} (R : A -> B -> Prop) x y : impo R (Fault x) y.
Proof. exact I. Qed.

(** The same repair in a longer packet. *)
Definition ext (r r' : drepair) : Prop :=
  dr_id r' = dr_id r /\ dr_ids r' = dr_ids r /\ dr_enc r' = dr_enc r /\ dr_size r' = dr_size r
  /\ exists t, dr_buf r' = dr_buf r ++ t.

Definition exts : list (N * drepair) -> list (N * drepair) -> Prop :=
  Forall2 (fun a b => fst b = fst a /\ ext (snd a) (snd b)).

(** The same decoder, except for the bytes behind the symbols. *)
Definition like (d d' : ddec) : Prop := exists reps, d' = with_repairs d reps /\ exts (d_repairs d) reps.

Lemma ext_refl r : ext r r.
Proof. repeat split. exists []. rewrite app_nil_r. reflexivity. Qed.

Lemma exts_refl l : exts l l.
Proof. induction l as [|[i r] l IH]; constructor; auto. split; [reflexivity|apply ext_refl]. Qed.

Lemma like_refl d : like d d.
Proof. exists (d_repairs d). split; [destruct d; reflexivity|apply exts_refl]. Qed.

Lemma like_intro d reps : exts (d_repairs d) reps -> like d (with_repairs d reps).
Proof. intros H. exists reps. split; [reflexivity|exact H]. Qed.

(** ** Maps *)

Lemma exts_find l l' k : exts l l' ->
  match mfind k l, mfind k l' with
  | Some r, Some r' => ext r r'
  | None, None => True
  | _, _ => False
  end.
Proof.
  induction 1 as [|[i r] [i' r'] l l' [E1 E2] H IH]; cbn; [exact I|]. cbn in E1, E2. subst i'.
  destruct (k =? i); [exact E2|exact IH].
Qed.

Lemma exts_mem l l' k : exts l l' -> mmem k l' = mmem k l.
Proof. intros H. pose proof (exts_find l l' k H) as E. unfold mmem. destruct (mfind k l), (mfind k l'); try contradiction; reflexivity. Qed.

Lemma exts_set l l' k r r' : exts l l' -> ext r r' -> exts (mset k r l) (mset k r' l').
Proof.
  intros H Hr. induction H as [|[i q] [i' q'] l l' [E1 E2] H IH]; cbn; [constructor; [split; [reflexivity|exact Hr]|constructor]|].
  cbn in E1, E2. subst i'.
  destruct (k <? i); [constructor; [split; [reflexivity|exact Hr]|constructor; [split; auto|exact H]]|].
  destruct (k =? i); constructor; auto. 
Qed.

Lemma exts_erase l l' k : exts l l' -> exts (merase k l) (merase k l').
Proof.
  intros H. induction H as [|[i q] [i' q'] l l' [E1 E2] H IH]; cbn; [constructor|].
  cbn in E1, E2. subst i'. destruct (k =? i); [exact H|constructor; auto].
Qed.

Lemma exts_length l l' : exts l l' -> length l' = length l.
Proof. induction 1; cbn; congruence. Qed.

(** ** Regions *)

Lemma region_multiply_ext f src t len c : 
  impo eq (region_multiply f src len c) (region_multiply f (src ++ t) len c).
Proof.
  unfold region_multiply. rewrite app_length. destruct (Nat.ltb_spec (length src) len); [exact I|].
  destruct (Nat.ltb_spec (length src + length t) len); [lia|].
  destruct (negb (aligned f len)); [exact I|]. eexists. split; [reflexivity|].
  rewrite firstn_app. replace (len - length src)%nat with O by lia. rewrite firstn_O, app_nil_r. reflexivity.
Qed.

Lemma region_add_src_ext f src t dst len c :
  impo eq (region_multiply_add f src dst len c) (region_multiply_add f (src ++ t) dst len c).
Proof.
  unfold region_multiply_add. rewrite app_length. destruct (Nat.ltb_spec (length src) len); [exact I|].
  destruct (Nat.ltb_spec (length src + length t) len); [lia|]. cbn [orb].
  destruct (Nat.ltb _ _); [exact I|].
  destruct (negb (aligned f len)); [exact I|]. eexists. split; [reflexivity|].
  rewrite firstn_app. replace (len - length src)%nat with O by lia. rewrite firstn_O, app_nil_r. reflexivity.
Qed.

Lemma xorl_ext a b t : (length a <= length b)%nat -> xorl a (b ++ t) = xorl a b ++ t.
Proof. revert b. induction a as [|x a IH]; intros [|y b] H; cbn in *; try lia; try reflexivity. rewrite IH by lia. reflexivity. Qed.

Lemma region_add_dst_ext f src dst t len c :
  impo (fun x y => y = x ++ t) (region_multiply_add f src dst len c) (region_multiply_add f src (dst ++ t) len c).
Proof.
  unfold region_multiply_add. rewrite app_length. destruct (Nat.ltb_spec (length src) len); [exact I|].
  destruct (Nat.ltb_spec (length dst) len); [exact I|]. destruct (Nat.ltb_spec (length dst + length t) len); [lia|]. cbn [orb].
  destruct (negb (aligned f len)) eqn:Al; [exact I|]. eexists. split; [reflexivity|].
  apply xorl_ext. rewrite rmul_length, firstn_length. lia.
Qed.

(** ** The decoding algorithm *)

Lemma callback_like d d' id data : like d d' -> like (callback d id data) (callback d' id data).
Proof. intros (reps & -> & H). exists reps. split; [reflexivity|exact H]. Qed.

Lemma callback_ordered_like d d' id : like d d' -> impo like (callback_ordered d id) (callback_ordered d' id).
Proof.
  intros L. pose proof L as (reps & -> & H). unfold callback_ordered. cbn [d_sources with_repairs].
  destruct (mfind id (d_sources d)); [|apply impo_fault]. apply impo_ok. apply callback_like. exact L.
Qed.

Lemma with_ordered_like d d' x : like d d' -> like (with_ordered d x) (with_ordered d' x).
Proof. intros (reps & -> & H). exists reps. split; [reflexivity|exact H]. Qed.
Lemma with_first_like d d' x : like d d' -> like (with_first d x) (with_first d' x).
Proof. intros (reps & -> & H). exists reps. split; [reflexivity|exact H]. Qed.
Lemma with_sources_like d d' x : like d d' -> like (with_sources d x) (with_sources d' x).
Proof. intros (reps & -> & H). exists reps. split; [reflexivity|exact H]. Qed.
Lemma with_last_like d d' x : like d d' -> like (with_last d x) (with_last d' x).
Proof. intros (reps & -> & H). exists reps. split; [reflexivity|exact H]. Qed.
Lemma with_missing_like d d' x : like d d' -> like (with_missing d x) (with_missing d' x).
Proof. intros (reps & -> & H). exists reps. split; [reflexivity|exact H]. Qed.
Lemma with_useless_like d d' x : like d d' -> like (with_useless d x) (with_useless d' x).
Proof. intros (reps & -> & H). exists reps. split; [reflexivity|exact H]. Qed.
Lemma with_failed_like d d' x : like d d' -> like (with_failed d x) (with_failed d' x).
Proof. intros (reps & -> & H). exists reps. split; [reflexivity|exact H]. Qed.
Lemma with_decoded_like d d' x : like d d' -> like (with_decoded d x) (with_decoded d' x).
Proof. intros (reps & -> & H). exists reps. split; [reflexivity|exact H]. Qed.
Lemma with_repairs_like d d' l l' : like d d' -> exts l l' -> like (with_repairs d l) (with_repairs d' l').
Proof. intros (reps & -> & H) E. exists l'. split; [reflexivity|exact E]. Qed.

(** All fields but the repairs are equal. *)
Lemma like_fields d d' : like d d' ->
  d_field d' = d_field d /\ d_in_order d' = d_in_order d /\ d_first d' = d_first d /\ d_ordered d' = d_ordered d
  /\ d_sources d' = d_sources d /\ d_last d' = d_last d /\ d_missing d' = d_missing d /\ d_useless d' = d_useless d
  /\ d_failed d' = d_failed d /\ d_decoded d' = d_decoded d /\ d_log d' = d_log d /\ exts (d_repairs d) (d_repairs d').
Proof. intros (reps & -> & H). repeat split. exact H. Qed.

Ltac fields L :=
  let E1 := fresh "Ef" in let E2 := fresh "Eo" in let E3 := fresh "Efi" in let E4 := fresh "Eor" in
  let E5 := fresh "Es" in let E6 := fresh "El" in let E7 := fresh "Em" in let E8 := fresh "Eu" in
  let E9 := fresh "Efa" in let E10 := fresh "Ed" in let E11 := fresh "Elo" in let X := fresh "X" in
  destruct (like_fields _ _ L) as (E1 & E2 & E3 & E4 & E5 & E6 & E7 & E8 & E9 & E10 & E11 & X).

Lemma flush_loop_like m l : forall d d', like d d' -> impo like (flush_loop m l d) (flush_loop m l d').
Proof.
  induction l as [|id l IH]; intros d d' L; cbn [flush_loop]; [apply impo_ok; exact L|].
  fields L. rewrite Efi. apply impo_eq. intros _. apply (impo_bind like); [apply callback_ordered_like; exact L|].
  intros a b Lab. fields Lab. cbn zeta. rewrite Eor0.
  assert (L1 : like (with_ordered a (serase id (d_ordered a))) (with_ordered b (serase id (d_ordered a)))) by (apply with_ordered_like; exact Lab).
  fields L1. rewrite Efi1.
  assert (L2 : like (with_first (with_ordered a (serase id (d_ordered a))) (u32 (d_first (with_ordered a (serase id (d_ordered a))) + 1)))
    (with_first (with_ordered b (serase id (d_ordered a))) (u32 (d_first (with_ordered a (serase id (d_ordered a))) + 1)))) by (apply with_first_like; exact L1).
  destruct l as [|id' l]; [apply impo_ok; exact L2|]. fields L2. rewrite Efi2.
  destruct (_ <? id'); [apply impo_ok; exact L2|apply IH; exact L2].
Qed.

Lemma flush_like m d d' : like d d' -> impo like (flush m d) (flush m d').
Proof.
  intros L. fields L. unfold flush. rewrite Efi, Eor. destruct (smem _ _); [apply flush_loop_like; exact L|apply impo_ok; exact L].
Qed.

Lemma remove_data_ext m f id data r r' : ext r r' -> impo ext (remove_data m f id data r) (remove_data m f id data r').
Proof.
  intros (E1 & E2 & E3 & E4 & t & E5). unfold remove_data. rewrite E1, E2, E3, E4, E5.
  apply impo_eq. intros _. apply impo_eq. intros _.
  eapply impo_bind; [apply region_add_dst_ext|]. intros a b ->. apply impo_ok. repeat split. exists t. reflexivity.
Qed.

Lemma with_ids_ext r r' ids : ext r r' -> ext (with_ids r ids) (with_ids r' ids).
Proof. intros (E1 & E2 & E3 & E4 & t & E5). repeat split; auto. exists t. exact E5. Qed.

Lemma remove_source_ext m f id data r r' : ext r r' -> impo ext (remove_source m f id data r) (remove_source m f id data r').
Proof.
  intros E. unfold remove_source. eapply impo_bind; [apply remove_data_ext; exact E|]. intros a b Eab.
  pose proof Eab as (_ & -> & _). apply impo_eq. intros _. destruct (smem _ _); [|apply impo_fault].
  apply impo_ok. apply with_ids_ext. exact Eab.
Qed.

Lemma create_source_ext m f r r' : ext r r' -> impo eq (create_source m f r) (create_source m f r').
Proof.
  intros (E1 & E2 & E3 & E4 & t & E5). unfold create_source. rewrite E1, E2, E3, E5.
  apply impo_eq. intros _. destruct (dr_ids r); [apply impo_fault|].
  eapply impo_bind; [apply region_multiply_ext|]. intros a b ->. apply impo_ok. reflexivity.
Qed.

Lemma announce_like m d d' id data : like d d' -> impo like (announce m d id data) (announce m d' id data).
Proof.
  intros L. fields L. unfold announce. rewrite Eo, Efi. destruct (negb _); [apply impo_ok, callback_like, L|].
  destruct (id =? d_first d); [|apply impo_ok; exact L]. cbn zeta.
  pose proof (callback_like d d' id data L) as L1. fields L1. rewrite Efi0. apply flush_like. apply with_first_like. exact L1.
Qed.

Lemma remove_from_repairs_exts m f id data rs : forall l l', exts l l' ->
  impo exts (remove_from_repairs m f id data rs l) (remove_from_repairs m f id data rs l').
Proof.
  induction rs as [|r rs IH]; intros l l' H; cbn [remove_from_repairs]; [apply impo_ok; exact H|].
  pose proof (exts_find l l' r H) as F. destruct (mfind r l) as [q|], (mfind r l') as [q'|]; try contradiction; [|apply impo_fault].
  eapply impo_bind; [apply remove_source_ext; exact F|]. intros a b E. apply IH. apply exts_set; assumption.
Qed.

Lemma no_longer_missing_like m d d' id data : like d d' -> impo like (no_longer_missing m d id data) (no_longer_missing m d' id data).
Proof.
  intros L. fields L. unfold no_longer_missing. rewrite Em, Ef. destruct (mfind id (d_missing d)); [|apply impo_ok; exact L].
  eapply impo_bind; [apply remove_from_repairs_exts; exact X|]. intros a b E. apply impo_ok.
  apply with_missing_like. apply with_repairs_like; assumption.
Qed.

Lemma scan_like (rec : ddec -> N -> list N -> outcome ddec) m :
  (forall d d' id data, like d d' -> impo like (rec d id data) (rec d' id data)) ->
  forall keys d d', like d d' -> impo like (scan rec m keys d) (scan rec m keys d').
Proof.
  intros R. induction keys as [|k keys IH]; intros d d' L; cbn [scan]; [apply impo_ok; exact L|].
  fields L. rewrite Em, Es, Ef. destruct (mfind k (d_missing d)) as [[|r [|r2 rs]]|]; try (apply IH; exact L).
  pose proof (exts_find _ _ r X) as F. destruct (mfind r (d_repairs d)) as [q|], (mfind r (d_repairs d')) as [q'|]; try contradiction; [|apply impo_fault].
  pose proof F as (_ & Ei & _). rewrite Ei. destruct (Nat.eqb _ 1); [|apply IH; exact L].
  assert (En : not_outdated d' (hd 0 (dr_ids q)) = not_outdated d (hd 0 (dr_ids q))) by (unfold not_outdated; rewrite El; reflexivity). rewrite En.
  apply impo_eq. intros _. apply impo_eq. intros _.
  eapply impo_bind; [apply create_source_ext; exact F|]. intros [id data] b <-. cbn zeta.
  assert (L1 : like (with_repairs (count_decoded d 1) (merase r (d_repairs (count_decoded d 1)))) (with_repairs (count_decoded d' 1) (merase r (d_repairs (count_decoded d' 1))))).
  { unfold count_decoded. rewrite Ed. apply with_repairs_like; [apply with_decoded_like; exact L|]. apply exts_erase. exact X. }
  fields L1. rewrite Em0.
  pose proof (with_missing_like _ _ (merase k (d_missing (with_repairs (count_decoded d 1) (merase r (d_repairs (count_decoded d 1)))))) L1) as L2.
  fields L2. rewrite Em1.
  eapply impo_bind; [apply R; exact L2|]. intros a b L3. fields L3. 
  destruct (find _ keys) as [k'|]; [|apply impo_ok; exact L3]. rewrite Em2. destruct (mmem k' (d_missing a)); [|apply impo_fault]. apply IH. exact L3.
Qed.

Lemma store_like m d d' id data : like d d' -> impo like (store m d id data) (store m d' id data).
Proof.
  intros L. fields L. unfold store. rewrite Es. apply impo_eq. intros _. cbn zeta.
  pose proof (with_sources_like _ _ (mput id data (d_sources d)) L) as L1. fields L1. rewrite Eo0, Efi0, Eor0.
  apply impo_ok. destruct (_ && _); [apply with_ordered_like|]; exact L1.
Qed.

Lemma add_source_like fuel m : forall d d' id data, like d d' -> impo like (add_source fuel m d id data) (add_source fuel m d' id data).
Proof.
  induction fuel as [|fuel IH]; intros d d' id data L; cbn [add_source]; [apply impo_fault|].
  eapply impo_bind; [apply announce_like; exact L|]. intros d1 d1' L1.
  eapply impo_bind; [apply no_longer_missing_like; exact L1|]. intros d2 d2' L2. fields L2. rewrite Em.
  eapply impo_bind; [apply scan_like; [exact IH|exact L2]|]. intros d3 d3' L3. apply store_like. exact L3.
Qed.

Lemma drop_repairs_like m id : forall l l', exts l l' -> forall d d', like d d' -> impo like (drop_repairs m id l d) (drop_repairs m id l' d').
Proof.
  induction 1 as [|[i r] [i' r'] l l' [E1 E2] H IH]; intros d d' L; cbn [drop_repairs]; [apply impo_ok; exact L|].
  cbn in E1, E2. subst i'. pose proof E2 as (_ & Ei & _). rewrite Ei. apply impo_eq. intros _.
  destruct (dr_ids r) as [|first rest]; [apply impo_fault|]. destruct (first <? id); [|apply IH; exact L].
  fields L. rewrite Em. apply impo_eq. intros missing. apply IH. apply with_missing_like. apply with_repairs_like; [exact L|]. apply exts_erase. exact X.
Qed.

Lemma deliver_outdated_like l : forall d d', like d d' -> impo like (deliver_outdated l d) (deliver_outdated l d').
Proof.
  induction l as [|id l IH]; intros d d' L; cbn [deliver_outdated]; [apply impo_ok; exact L|].
  eapply impo_bind; [apply callback_ordered_like; exact L|]. intros a b Lab. fields Lab. rewrite Eor. apply IH. apply with_ordered_like. exact Lab.
Qed.

Lemma drop_outdated_like m d d' id : like d d' -> impo like (drop_outdated m d id) (drop_outdated m d' id).
Proof.
  intros L. unfold drop_outdated. cbn zeta. pose proof (with_last_like _ _ (Some id) L) as L0. fields L0.
  eapply impo_bind; [apply drop_repairs_like; [exact X|exact L0]|]. intros d1 d1' L1. fields L1. rewrite Eo0, Eor0.
  eapply impo_bind with (R := like).
  - destruct (d_in_order d1); [|apply impo_ok; exact L1].
    eapply impo_bind; [apply deliver_outdated_like; exact L1|]. intros a b Lab. fields Lab. rewrite Efi1.
    apply flush_like. destruct (_ <? id); [apply with_first_like|]; exact Lab.
  - intros a b Lab. fields Lab. rewrite Es1. pose proof (with_sources_like _ _ (mfrom id (d_sources a)) Lab) as L2. fields L2. rewrite Em2. apply impo_ok. apply with_missing_like. exact L2.
Qed.

Lemma coefficients_exts f l l' missing : exts l l' -> coefficients f l' missing = coefficients f l missing.
Proof.
  intros H. unfold coefficients. f_equal. induction H as [|[i r] [i' r'] l l' [E1 E2] H IH]; cbn; [reflexivity|].
  cbn in E1, E2. subst i'. pose proof E2 as (_ & -> & _). rewrite IH. reflexivity.
Qed.

Lemma exts_nth l l' k : exts l l' ->
  match nth_error l k, nth_error l' k with
  | Some a, Some b => fst b = fst a /\ ext (snd a) (snd b)
  | None, None => True
  | _, _ => False
  end.
Proof.
  intros H. revert k. induction H as [|a b l l' E H IH]; intros [|k]; cbn; auto. apply IH.
Qed.

Lemma failed_decoding_like d d' k : like d d' -> impo like (failed_decoding d k) (failed_decoding d' k).
Proof.
  intros L. fields L. unfold failed_decoding. rewrite Efa. cbn zeta.
  pose proof (with_failed_like _ _ (d_failed d + 1) L) as L1. fields L1.
  pose proof (exts_nth _ _ k X0) as Nt. destruct (nth_error (d_repairs (with_failed d _)) k) as [[i r]|], (nth_error (d_repairs (with_failed d' _)) k) as [[i' r']|]; try contradiction; [|apply impo_fault].
  cbn [fst snd] in Nt. destruct Nt as [-> (_ & -> & _)]. rewrite Em0. apply impo_ok.
  pose proof (with_missing_like _ _ (unlink_or_create i (dr_ids r) (d_missing (with_failed d (d_failed d + 1)))) L1) as L2. fields L2.
  apply with_repairs_like; [exact L2|]. apply exts_erase. exact X1.
Qed.

(** Repairs and coefficients side by side. *)
Definition cexts : list (N * drepair) -> list (N * drepair) -> Prop := exts.

Lemma combine_exts cs : forall l l', exts l l' -> exts (combine cs (map snd l)) (combine cs (map snd l')).
Proof.
  induction cs as [|c cs IH]; intros l l' H; [constructor|].
  destruct H as [|[i r] [i' r'] l l' [E1 E2] H]; cbn [map combine]; constructor; [split; [reflexivity|exact E2]|apply IH; exact H].
Qed.

Lemma decode_size_exts f l l' : exts l l' -> decode_size f l' = decode_size f l.
Proof.
  unfold decode_size. generalize 0 at 2 4 as acc. intros acc H. revert acc.
  induction H as [|[c r] [c' r'] l l' [E1 E2] H IH]; intros acc; cbn [fold_left]; [reflexivity|].
  cbn in E1, E2. subst c'. pose proof E2 as (_ & _ & -> & _). apply IH.
Qed.

Lemma decode_rest_exts f sz : forall l l', exts l l' -> forall data, impo eq (decode_rest f sz l data) (decode_rest f sz l' data).
Proof.
  induction 1 as [|[c r] [c' r'] l l' [E1 E2] H IH]; intros data; cbn [decode_rest]; [apply impo_ok; reflexivity|].
  cbn in E1, E2. subst c'. destruct (c =? 0); [apply IH|]. pose proof E2 as (_ & _ & _ & -> & t & ->).
  eapply impo_bind; [apply region_add_src_ext|]. intros a b <-. apply IH.
Qed.

Lemma decode_symbol_exts m f sz : forall l l', exts l l' -> impo eq (decode_symbol m f sz l) (decode_symbol m f sz l').
Proof.
  induction 1 as [|[c r] [c' r'] l l' [E1 E2] H IH]; cbn [decode_symbol]; [apply impo_eq; intros _; apply impo_fault|].
  cbn in E1, E2. subst c'. destruct (c =? 0); [apply IH|]. pose proof E2 as (_ & _ & _ & -> & t & ->).
  eapply impo_bind; [apply region_multiply_ext|]. intros a b <-. apply decode_rest_exts. exact H.
Qed.

Lemma add_decoded_like m d d' id data : like d d' -> impo like (add_decoded m d id data) (add_decoded m d' id data).
Proof.
  intros L. fields L. unfold add_decoded. rewrite Es. apply impo_eq. intros _. cbn zeta.
  set (da := match mfind id (d_sources d) with None => data | Some old => old end).
  pose proof (with_sources_like _ _ (mput id da (d_sources d)) L) as L1. fields L1. rewrite Eo0, Efi0, Eor0.
  destruct (negb _); [apply impo_ok, callback_like, L1|]. destruct (id =? _).
  - pose proof (callback_like _ _ id da L1) as L2. fields L2. rewrite Efi1. apply flush_like. apply with_first_like. exact L2.
  - apply impo_ok. apply with_ordered_like. exact L1.
Qed.

Lemma decode_all_like m n inv l l' : exts l l' -> forall missing col d d', like d d' ->
  impo like (decode_all m n inv (map snd l) col missing d) (decode_all m n inv (map snd l') col missing d').
Proof.
  intros H. induction missing as [|id missing IH]; intros col d d' L; cbn [decode_all]; [apply impo_ok; exact L|].
  fields L. rewrite Ef. pose proof (combine_exts (column n inv col) l l' H) as C. rewrite (decode_size_exts _ _ _ C).
  eapply impo_bind; [apply decode_symbol_exts; exact C|]. intros data b <-.
  eapply impo_bind; [apply add_decoded_like; exact L|]. intros a b Lab. apply IH. exact Lab.
Qed.

Lemma attempt_like m d d' : like d d' -> impo like (attempt_full_decoding m d) (attempt_full_decoding m d').
Proof.
  intros L. fields L. unfold attempt_full_decoding. cbn zeta. rewrite (exts_length _ _ X), Em, Ef, (coefficients_exts _ _ _ _ X).
  destruct (_ || _); [apply impo_ok; exact L|]. destruct (Nat.ltb _ _); [apply impo_ok; exact L|].
  apply impo_eq. intros _. apply impo_eq. intros _. destruct (negb _); [apply impo_fault|].
  apply impo_eq. intros [k|[x inv]]; [apply failed_decoding_like; exact L|].
  eapply impo_bind; [apply decode_all_like; [exact X|exact L]|]. intros a b Lab. apply impo_ok.
  fields Lab. unfold count_decoded. rewrite Ed0. apply with_missing_like. apply with_repairs_like; [|constructor]. apply with_decoded_like. exact Lab.
Qed.

Lemma outdated_like d d' id : like d d' -> outdated d' id = outdated d id.
Proof. intros L. fields L. unfold outdated, not_outdated. rewrite El. reflexivity. Qed.

Lemma recv_source_like m d d' id data : like d d' -> impo like (recv_source m d id data) (recv_source m d' id data).
Proof.
  intros L. unfold recv_source. rewrite (outdated_like _ _ _ L). fields L. unfold enough. rewrite Es, Em.
  destruct (outdated d id); [apply impo_ok; exact L|]. destruct (mmem _ _); [apply impo_ok; exact L|].
  eapply impo_bind; [apply add_source_like; exact L|]. intros a b Lab. apply attempt_like. exact Lab.
Qed.

Lemma link_repair_like m ids : forall d d' r r', like d d' -> ext r r' ->
  impo (fun a b => like (fst a) (fst b) /\ ext (snd a) (snd b)) (link_repair m ids d r) (link_repair m ids d' r').
Proof.
  induction ids as [|id ids IH]; intros d d' r r' L E; cbn [link_repair]; [apply impo_ok; split; assumption|].
  fields L. rewrite Es, Ef, Em. destruct (mfind id (d_sources d)) as [data|].
  - eapply impo_bind; [apply remove_data_ext; exact E|]. intros a b Eab. pose proof Eab as (_ & -> & _). apply IH; [exact L|]. apply with_ids_ext. exact Eab.
  - pose proof E as (-> & _). apply IH; [apply with_missing_like; exact L|exact E].
Qed.

Lemma recv_repair_like m d d' r r' : like d d' -> ext r r' -> impo like (recv_repair m d r) (recv_repair m d' r').
Proof.
  intros L E. unfold recv_repair. pose proof E as (Ei & Eids & _). rewrite Ei, Eids. apply impo_eq. intros _.
  destruct (dr_ids r) as [|first rest] eqn:Er; [apply impo_fault|]. rewrite (outdated_like _ _ _ L). fields L. rewrite (exts_mem _ _ (dr_id r) X).
  destruct (outdated _ _); [apply impo_ok; exact L|]. destruct (mmem _ _); [apply impo_ok; exact L|].
  eapply impo_bind; [apply drop_outdated_like; exact L|]. intros d1 d1' L1. fields L1. rewrite Es0, Eu0, (exts_mem _ _ (dr_id r) X0).
  destruct (forallb _ _); [apply impo_ok, with_useless_like, L1|]. apply impo_eq. intros _.
  eapply impo_bind; [apply link_repair_like; [exact L1|exact E]|]. intros [d2 r2] [d2' r2'] [L2 E2]. cbn [fst snd] in L2, E2.
  pose proof E2 as (Ei2 & Eids2 & _). rewrite Ei2, Eids2. fields L2.
  assert (L3 : like (with_repairs d2 (mset (dr_id r2) r2 (d_repairs d2))) (with_repairs d2' (mset (dr_id r2) r2' (d_repairs d2')))) by (apply with_repairs_like; [exact L2|apply exts_set; assumption]).
  cbn zeta. apply impo_eq. intros _. destruct (Nat.eqb _ 1); [|apply attempt_like; exact L3].
  fields L3. rewrite Ef2. eapply impo_bind; [apply create_source_ext; exact E2|]. intros [id data] b <-.
  unfold count_decoded. rewrite Ed2.
  pose proof (with_decoded_like _ _ (d_decoded (with_repairs d2 (mset (dr_id r2) r2 (d_repairs d2))) + 1) L3) as L4. fields L4. rewrite Em3.
  match goal with |- impo _ (add_source (enough (with_repairs (with_missing ?a ?x) _)) _ _ _ _) (add_source (enough (with_repairs (with_missing ?b _) _)) _ _ _ _) =>
    pose proof (with_missing_like a b x L4) as L5 end.
  fields L5.
  match goal with |- impo _ (add_source (enough ?a) _ _ _ _) (add_source (enough ?b) _ _ _ _) =>
    assert (L6 : like a b) by (apply with_repairs_like; [exact L5|apply exts_erase; exact X4]) end.
  fields L6. unfold enough. rewrite Em5. apply add_source_like. exact L6.
Qed.
