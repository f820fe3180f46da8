(** * What nb_decoded() counts, with and without ordering: C41 *)
From Coq Require Import NArith List Bool Lia Arith Sorted.
From Verif Require Import Outcome GF Containers ContainersFacts Packetizer DetailDecoder Decoder DecoderFacts DecoderOuter DecoderCount PropsDecoder.
From Verif Require DecoderStep.
Import ListNotations.
Open Scope N_scope.

(** The sources that the receiver holds after a call and did not hold before. *)
Definition added (d d' : dec) : list N := filter (fun x => negb (existsb (N.eqb x) (held d))) (held d').

Lemma existsb_in x l : existsb (N.eqb x) l = true <-> In x l.
Proof.
  rewrite existsb_exists. split; [intros (y & H & E); apply N.eqb_eq in E; subst; exact H|].
  intros H. exists x. split; [exact H | apply N.eqb_refl].
Qed.

(** In a set that contains another one. *)
Lemma filter_new (a b : list N) : NoDup a -> NoDup b -> incl a b ->
  (length (filter (fun x => negb (existsb (N.eqb x) a)) b) + length a = length b)%nat.
Proof.
  intros Na Nb I.
  assert (E : length (filter (fun x => existsb (N.eqb x) a) b) = length a).
  { apply Nat.le_antisymm; apply NoDup_incl_length.
    - apply NoDup_filter, Nb.
    - intros x H. apply filter_In in H. apply existsb_in, H.
    - exact Na.
    - intros x H. apply filter_In. split; [apply I, H | apply existsb_in, H]. }
  rewrite <- E. clear. induction b as [|x b IH]; [reflexivity|]. cbn [filter]. destruct (existsb (N.eqb x) a); cbn [negb length]; lia.
Qed.

(** [kept]: what is held before and after. *)
Lemma added_length d d' kept : ssorted kept -> ssorted (held d') -> incl kept (held d') ->
  (forall x, In x (held d') -> (In x (held d) <-> In x kept)) ->
  N.of_nat (length (added d d')) + N.of_nat (length kept) = N.of_nat (length (held d')).
Proof.
  intros A B C D. rewrite <- (filter_new kept (held d') (ssorted_NoDup _ A) (ssorted_NoDup _ B) C), Nat2N.inj_add. f_equal. f_equal. f_equal.
  unfold added. apply filter_ext_in. intros x X. f_equal.
  destruct (existsb (N.eqb x) (held d)) eqn:E, (existsb (N.eqb x) kept) eqn:E'; try reflexivity.
  - apply existsb_in, (D x X), existsb_in in E. congruence.
  - apply existsb_in, (D x X), existsb_in in E'. congruence.
Qed.

Theorem C41_new_sources :
  forall m clk f o tr d p d' out n, receiver m clk f o tr d ->
  dec_packet m clk d p = (d', Ok (out, n)) ->
  let new := N.of_nat (length (added d d')) in
  let decoded := d_decoded (dc_core d') - d_decoded (dc_core d) in
  d_decoded (dc_core d) <= d_decoded (dc_core d')
  /\ (has_type 1 p = true -> new <= decoded /\ (m = Debug -> new = decoded))
  /\ (forall id data k, source_packet m p id data k ->
        (In id (held d) \/ too_old d id) /\ new = 0 /\ decoded = 0
        \/ (~ In id (held d) /\ ~ too_old d id) /\ new <= 1 + decoded /\ (m = Debug -> new = 1 + decoded)).
Proof.
  intros m clk f o tr d p d' out n T H new decoded. subst new decoded.
  pose proof (dtrace_history _ _ _ _ _ _ T) as D. destruct D as [G F I A S NS NR NA L B].
  assert (Sk : ssorted (held d)) by apply (gd_sources _ _ G).
  assert (Same : d_sources (dc_core d') = d_sources (dc_core d) -> added d d' = []).
  { intros E. assert (Eh : held d' = held d) by (unfold held; rewrite E; reflexivity).
    pose proof (added_length d d' (held d) Sk ltac:(rewrite Eh; exact Sk) ltac:(rewrite Eh; apply incl_refl) (fun x _ => iff_refl _)) as X.
    rewrite Eh in X. destruct (added d d'); [reflexivity|]. cbn [length] in X. lia. }
  pose proof H as H0. apply dec_packet_ok in H0; [|exact G | exact A].
  destruct H0 as [s c new Et Er Ec R|r c new Et Er Hs Ec R]; destruct R as (_ & Rc & _).
  - assert (T2 : has_type 1 p = false).
    { pose proof (type_byte p) as Tb. rewrite Et in Tb. apply (type_excl _ 2); [exact Tb | discriminate]. }
    assert (X : (In (ds_id s) (held d) \/ too_old d (ds_id s)) /\ c = dc_core d
      \/ (~ In (ds_id s) (held d) /\ ~ too_old d (ds_id s)) /\ stocks m 1 (dc_core d) c /\ grows (dc_core d) c).
    { destruct (outdated (dc_core d) (ds_id s)) eqn:Eo;
        [|destruct (mmem (ds_id s) (d_sources (dc_core d))) eqn:Em].
      - left. rewrite recv_source_old in Ec by (left; exact Eo). split; [right; apply too_old_spec, Eo | congruence].
      - left. apply mmem_spec in Em. rewrite recv_source_old in Ec by (right; exact Em). split; [left; exact Em | congruence].
      - right. apply mmem_false in Em. split; [split; [exact Em | rewrite too_old_spec; congruence]|].
        split; [eapply recv_source_stocks; eassumption|].
        unfold recv_source in Ec. rewrite Eo in Ec. replace (mmem (ds_id s) (d_sources (dc_core d))) with false in Ec by (symmetry; apply mmem_false; exact Em).
        apply bind_ok in Ec. destruct Ec as (d1 & E1 & Ec). eapply grows_trans; [eapply add_source_grows, E1 | eapply attempt_grows, Ec]. }
    rewrite <- Rc in X. destruct X as [(X & Y)|(X & (Y0 & Y1 & Y2) & Gr)].
    + rewrite Same, Y by (rewrite Y; reflexivity). split; [lia|]. split; [congruence|].
      intros id data k (_ & s' & Er' & <- & _). assert (s' = s) by congruence. subst s'. left. split; [exact X|]. split; [reflexivity | lia].
    + destruct (Gr (gd_sources _ _ G)) as (S' & Ki & _).
      pose proof (added_length d d' (held d) Sk S' Ki (fun x _ => iff_refl _)) as Z. unfold held in Z. rewrite !map_length in Z. unfold nsrc in *.
      split; [exact Y0|]. split; [congruence|].
      intros id data k (_ & s' & Er' & <- & _). assert (s' = s) by congruence. subst s'. right. split; [exact X|].
      split; [lia|]. intros Em. specialize (Y2 Em). lia.
  - assert (T2 : has_type 2 p = false).
    { pose proof (type_byte p) as Tb. rewrite Et in Tb. apply (type_excl _ 1); [exact Tb | discriminate]. }
    pose proof (recv_repair_good _ _ _ _ G Hs Ec) as [G' Gb].
    apply recv_repair_stocks in Ec; [|exact G]. rewrite <- Rc in *.
    assert (X : d_decoded (dc_core d) <= d_decoded (dc_core d')
      /\ N.of_nat (length (added d d')) <= d_decoded (dc_core d') - d_decoded (dc_core d)
      /\ (m = Debug -> N.of_nat (length (added d d')) = d_decoded (dc_core d') - d_decoded (dc_core d))).
    { destruct Ec as [Ec|[(Ec & Ed)|(d1 & E1 & E2 & Eo & E3 & G1 & (Y0 & Y1 & Y2) & Gr)]].
      - rewrite Same, Ec by (rewrite Ec; reflexivity). cbn [length]. lia.
      - rewrite Same, Ed by exact Ec. cbn [length]. lia.
      - destruct (Gr (gd_sources _ _ G1)) as (S' & Ki & _).
        assert (Gf : good (hd 0 (dr_ids r)) (dc_core d')) by (apply Gb; [exact Eo | exact E2]).
        pose proof (added_length d d' (keys d1) (gd_sources _ _ G1) S' Ki) as Z. unfold nsrc in *.
        unfold held, keys in Z. rewrite !map_length in Z. rewrite E3 in *.
        assert (Z' : N.of_nat (length (added d d')) + N.of_nat (length (d_sources d1)) = N.of_nat (length (d_sources (dc_core d')))).
        { unfold mkeys in Z. rewrite map_length in Z. apply Z. intros x Hx. rewrite E1. fold (mkeys (mfrom (hd 0 (dr_ids r)) (d_sources (dc_core d)))). rewrite DecoderStep.mfrom_keys.
          unfold mkeys. split; [|tauto]. intros Y. split; [exact Y|]. apply (gd_sources_b _ _ Gf), Hx. }
        split; [exact Y0|]. split; [lia|]. intros Em. specialize (Y2 Em). lia. }
    destruct X as (X1 & X2). split; [exact X1|]. split; [auto|]. intros id data k (T2' & _). congruence.
Qed.
Print Assumptions C41_new_sources.

(** A receiver with ordering holds source 2, which it may not deliver yet, and a repair of three sources. A second repair lets it recover
    two sources: two are added and counted, three are delivered. *)
Example C41_new_sources_case :
  let ops := [DPacket (rpkt 0 [0; 1; 2]); DPacket (spkt 2)] in
  exists tr d, receiver Debug still W8 true tr d /\ map fst tr = ops /\ held d = [2] /\ to_user (outputs tr) = []
  /\ exists d' out n, dec_packet Debug still d (rpkt 1 [0; 1; 2]) = (d', Ok (out, n))
  /\ added d d' = [0; 1] /\ d_decoded (dc_core d') = 2 /\ length (to_user out) = 3%nat.
Proof.
  intros ops. destruct (drun Debug still (new_dec still W8 true) ops) as [[d out]| |] eqn:E.
  - destruct (run_receiver _ _ _ _ _ _ _ E) as (tr & T & Eo & Eu). exists tr, d. split; [exact T|]. split; [exact Eo|].
    rewrite Eu. vm_compute in E. injection E as <- <-. split; [reflexivity|]. split; [reflexivity|].
    eexists. eexists. eexists. split; [vm_compute; reflexivity|]. vm_compute. auto.
  - exfalso. vm_compute in E. discriminate.
  - exfalso. vm_compute in E. discriminate.
Qed.

(** Without assertions more may be counted than is added: a repair of source 0 alone leaves source 0 in two pending
    repairs, and one of them, dropped because the matrix is singular, makes it missing again. The last repair then adds three sources
    and counts four. *)
Definition again : list (list N) :=
  [rpkt 0 [0; 1; 2; 3]; rpkt 255 [0; 1; 2; 3]; spkt 5; rpkt 1 [0; 5]; rpkt 2 [0; 1; 2; 3]; rpkt 3 [0; 1; 2; 3]].

Theorem C41_release_refuted :
  forall o, exists tr d, receiver Release still W8 o tr d /\ held d = [0; 5]
  /\ exists d' out n, dec_packet Release still d (rpkt 4 [0; 1; 2; 3]) = (d', Ok (out, n))
  /\ added d d' = [1; 2; 3] /\ d_decoded (dc_core d') = d_decoded (dc_core d) + 4.
Proof.
  intros o. destruct (drun Release still (new_dec still W8 o) (map DPacket again)) as [[d out]| |] eqn:E.
  - destruct (run_receiver _ _ _ _ _ _ _ E) as (tr & T & Eo & Eu). exists tr, d. split; [exact T|].
    destruct o; vm_compute in E; injection E as <- <-; (split; [reflexivity|]);
      eexists; eexists; eexists; (split; [vm_compute; reflexivity|]); vm_compute; auto.
  - exfalso. destruct o; vm_compute in E; discriminate.
  - exfalso. destruct o; vm_compute in E; discriminate.
Qed.
Print Assumptions C41_release_refuted.
