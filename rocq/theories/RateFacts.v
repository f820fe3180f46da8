(** * The adaptive rate is between 1 and 50 *)
From Coq Require Import ZArith NArith Bool Reals Lia Lra Floats.SpecFloat.
From Flocq Require Import Core IEEE754.BinarySingleNaN.
From Verif Require Import Outcome Rate.

Local Notation prec := 53%Z.
Local Notation emax := 1024%Z.

Lemma Hprec : Prec_gt_0 prec. Proof. reflexivity. Qed.
Lemma Hemax : Prec_lt_emax prec emax. Proof. reflexivity. Qed.

Local Notation fl := (binary_float prec emax).

(** The operations of the model are those of Flocq. *)

Lemma round_nearest_even_equiv s m l : round_nearest_even m l = choice_mode mode_NE s m l.
Proof.
  destruct l as [|c]; [reflexivity|]. destruct c; try reflexivity.
  simpl. unfold Round.cond_incr. now destruct (Z.even m).
Qed.

Lemma binary_round_aux_equiv sx mx ex lx :
  SpecFloat.binary_round_aux prec emax sx mx ex lx = binary_round_aux prec emax mode_NE sx mx ex lx.
Proof.
  unfold SpecFloat.binary_round_aux, binary_round_aux.
  set (mrse' := shr_fexp _ _ _). destruct mrse' as [mrs' e']. simpl.
  now rewrite (round_nearest_even_equiv sx).
Qed.

Lemma binary_round_equiv s m e :
  SpecFloat.binary_round prec emax s m e = binary_round prec emax mode_NE s m e.
Proof.
  unfold SpecFloat.binary_round, binary_round, shl_align_fexp.
  set (mez := shl_align _ _ _). destruct mez. apply binary_round_aux_equiv.
Qed.

Definition of_intB (z : Z) : fl := binary_normalize prec emax Hprec Hemax mode_NE z 0 false.

Lemma of_int_equiv z : of_int z = B2SF (of_intB z).
Proof.
  unfold of_int, of_intB.
  destruct z; [reflexivity| |]; simpl; rewrite B2SF_SF2B; apply binary_round_equiv.
Qed.

Definition divB (x y : fl) : fl := @Bdiv prec emax Hprec Hemax mode_NE x y.

Lemma fdiv_equiv x y : fdiv (B2SF x) (B2SF y) = B2SF (divB x y).
Proof.
  unfold fdiv, divB.
  destruct x as [sx|sx| |sx mx ex Bx]; destruct y as [sy|sy| |sy my ey By];
    try reflexivity; try (simpl; now destruct (Bool.eqb _ _)).
  simpl. rewrite B2SF_SF2B. set (melz := SFdiv_core_binary _ _ _ _ _ _).
  destruct melz as [[mz ez] lz]. apply binary_round_aux_equiv.
Qed.

Local Notation fexp := (SpecFloat.fexp prec emax).
Local Notation rnd := (round radix2 fexp ZnearestE).

#[local] Instance valid_fexp : Valid_exp fexp := fexp_correct prec emax Hprec.

Lemma format_int z : (Z.abs z < 2 ^ 53)%Z -> generic_format radix2 fexp (IZR z).
Proof.
  intros H. apply (generic_format_FLT radix2 (3 - emax - prec) prec).
  exists (Float radix2 z 0).
  - unfold F2R. simpl. lra.
  - simpl. exact H.
  - simpl. lia.
Qed.

Lemma rnd_int z : (Z.abs z < 2 ^ 53)%Z -> rnd (IZR z) = IZR z.
Proof. intros H. apply round_generic; [apply valid_rnd_N|]. now apply format_int. Qed.

Lemma big : (bpow radix2 emax > 1000000)%R.
Proof.
  apply Rlt_gt. apply Rlt_le_trans with (bpow radix2 20).
  - simpl. lra.
  - apply bpow_le. lia.
Qed.

Lemma of_intB_spec z : (Z.abs z <= 65535)%Z ->
  B2R (of_intB z) = IZR z /\ is_finite (of_intB z) = true.
Proof.
  intros H. unfold of_intB.
  pose proof (binary_normalize_correct prec emax Hprec Hemax mode_NE z 0 false) as C.
  cbv zeta in C. unfold F2R in C. simpl Fnum in C. simpl Fexp in C.
  rewrite Rmult_1_r in C.
  change (round_mode mode_NE) with ZnearestE in C.
  rewrite rnd_int in C by lia.
  rewrite Rlt_bool_true in C.
  - destruct C as (C1 & C2 & _). auto.
  - rewrite <- abs_IZR. apply Rle_lt_trans with 65535%R.
    + apply IZR_le. lia.
    + pose proof big. lra.
Qed.

Lemma rnd_le x y : (x <= y)%R -> (rnd x <= rnd y)%R.
Proof. apply round_le; [apply valid_fexp|apply valid_rnd_N]. Qed.

Lemma divB_spec x y : is_finite x = true -> (B2R y <> 0)%R ->
  (Rabs (B2R x / B2R y) <= 1000000)%R ->
  B2R (divB x y) = rnd (B2R x / B2R y) /\ is_finite (divB x y) = true.
Proof.
  intros Fx Hy Hb.
  pose proof (Bdiv_correct prec emax Hprec Hemax mode_NE x y Hy) as C.
  change (round_mode mode_NE) with ZnearestE in C.
  rewrite Rlt_bool_true in C.
  - destruct C as (C1 & C2 & _). unfold divB. rewrite C2. auto.
  - apply Rle_lt_trans with 1000000%R; [|pose proof big; lra].
    apply Rabs_le_inv in Hb as [H1 H2]. apply Rabs_le. split.
    + apply Rle_trans with (rnd (IZR (-1000000))); [rewrite rnd_int by lia; lra|].
      apply rnd_le. lra.
    + apply Rle_trans with (rnd (IZR 1000000)); [|rewrite rnd_int by lia; lra].
      apply rnd_le. lra.
Qed.

(** [ceil] is the ceiling. *)
Lemma ceil_size_spec (x : fl) : is_finite x = true -> (0 <= B2R x <= 1000000)%R ->
  ceil_size (B2SF x) = Ok (Z.to_N (Zceil (B2R x))).
Proof.
  intros Fx [H0 H1]. destruct x as [s|s| |s m e B]; try discriminate.
  - simpl. replace (Zceil 0) with 0%Z by (symmetry; apply (Zceil_IZR 0)). reflexivity.
  - assert (E : (if (0 <=? e)%Z then (if s then Z.neg m else Z.pos m) * 2 ^ e
                 else - (- (if s then Z.neg m else Z.pos m) / 2 ^ (- e)))%Z
                = Zceil (B2R (B754_finite s m e B))).
    { simpl B2R. unfold F2R. simpl Fnum. simpl Fexp.
      replace (cond_Zopp s (Z.pos m)) with (if s then Z.neg m else Z.pos m) by now destruct s.
      set (v := if s then Z.neg m else Z.pos m).
      destruct (Z.leb_spec 0 e).
      - rewrite <- (Zceil_IZR (v * 2 ^ e)). f_equal. rewrite mult_IZR. f_equal.
        rewrite <- (IZR_Zpower radix2) by assumption. reflexivity.
      - unfold Zceil. f_equal.
        replace (- (IZR v * bpow radix2 e))%R with (IZR (- v) / IZR (2 ^ (- e)))%R.
        + symmetry. apply Zfloor_div. pose proof (Z.pow_pos_nonneg 2 (- e)). lia.
        + rewrite opp_IZR. replace (bpow radix2 e) with (/ IZR (2 ^ (- e)))%R.
          * unfold Rdiv. ring.
          * change 2%Z with (radix_val radix2). rewrite IZR_Zpower by lia.
            rewrite bpow_opp. now rewrite Rinv_inv. }
    unfold ceil_size, B2SF. cbv zeta. rewrite E. clear E.
    set (r := B2R (B754_finite s m e B)) in *.
    assert (A1 : (0 <= Zceil r)%Z).
    { apply le_IZR. apply Rle_trans with r; [exact H0|]. apply Zceil_ub. }
    assert (A2 : (Zceil r <= 1000000)%Z) by (apply Zceil_glb; exact H1).
    destruct (Z.leb_spec 0 (Zceil r)); [|lia].
    destruct (Z.ltb_spec (Zceil r) (2 ^ 64)); [reflexivity|lia].
Qed.

Lemma one_percent_B : exists x : fl, one_percent = B2SF x /\ is_finite x = true
  /\ (1 / 100 <= B2R x <= 2 / 100)%R.
Proof.
  assert (Hb : SpecFloat.bounded prec emax 5764607523034235 (-59) = true) by reflexivity.
  exists (B754_finite false 5764607523034235 (-59) Hb). split; [exact one_percent_is|].
  split; [reflexivity|]. simpl B2R. unfold F2R. simpl Fnum. simpl Fexp.
  change (bpow radix2 (-59)) with (/ IZR (2 ^ 59))%R.
  replace (2 ^ 59)%Z with 576460752303423488%Z by reflexivity. lra.
Qed.

Lemma rate_for_loss_bounds (x : fl) : is_finite x = true -> (B2R x <= 1)%R ->
  exists r, rate_for_loss (B2SF x) = Ok r /\ (1 <= r <= 50)%N.
Proof.
  intros Fx Hx. destruct one_percent_B as (c & Ec & Fc & Hc).
  unfold rate_for_loss. rewrite Ec. change (SFltb (B2SF x) (B2SF c)) with (Bltb x c).
  rewrite Bltb_correct by assumption.
  destruct (Rlt_bool_spec (B2R x) (B2R c)) as [H|H].
  - exists 50%N. split; [reflexivity|]. lia.
  - assert (Hpos : (1 / 100 <= B2R x)%R) by lra.
    destruct (of_intB_spec 1) as [O1 O2]; [lia|].
    destruct (of_intB_spec 2) as [T1 T2]; [lia|].
    assert (I1 : (1 <= 1 / B2R x)%R).
    { unfold Rdiv. rewrite Rmult_1_l. rewrite <- Rinv_1 at 1. apply Rinv_le; lra. }
    assert (I2 : (1 / B2R x <= 100)%R).
    { unfold Rdiv. rewrite Rmult_1_l. replace 100%R with (/ (1 / 100))%R by lra.
      apply Rinv_le; lra. }
    destruct (divB_spec (of_intB 1) x) as [D1 D2]; [assumption|lra| |].
    { rewrite O1. rewrite Rabs_pos_eq; lra. }
    rewrite O1 in D1.
    assert (J1 : (1 <= B2R (divB (of_intB 1) x))%R).
    { rewrite D1. apply Rle_trans with (rnd (IZR 1)); [rewrite rnd_int by lia; lra|].
      apply rnd_le. lra. }
    assert (J2 : (B2R (divB (of_intB 1) x) <= 100)%R).
    { rewrite D1. apply Rle_trans with (rnd (IZR 100)); [|rewrite rnd_int by lia; lra].
      apply rnd_le. lra. }
    destruct (divB_spec (divB (of_intB 1) x) (of_intB 2)) as [E1 E2]; [assumption|lra| |].
    { rewrite T1. rewrite Rabs_pos_eq; lra. }
    rewrite T1 in E1.
    set (h := divB (divB (of_intB 1) x) (of_intB 2)) in *.
    assert (K1 : (0 < B2R h)%R).
    { rewrite E1. apply Rlt_le_trans with (bpow radix2 (-1)); [apply bpow_gt_0|].
      rewrite <- (round_generic radix2 fexp ZnearestE (bpow radix2 (-1))).
      - apply rnd_le. change (bpow radix2 (-1)) with (/ 2)%R. lra.
      - apply generic_format_bpow. simpl. unfold SpecFloat.fexp, emin. lia. }
    assert (K2 : (B2R h <= 50)%R).
    { rewrite E1. apply Rle_trans with (rnd (IZR 50)); [|rewrite rnd_int by lia; lra].
      apply rnd_le. lra. }
    rewrite !of_int_equiv, !fdiv_equiv. fold h.
    rewrite ceil_size_spec by (assumption || lra).
    eexists. split; [reflexivity|].
    assert (A1 : (1 <= Zceil (B2R h))%Z).
    { assert (0 < Zceil (B2R h))%Z; [|lia]. apply lt_IZR.
      apply Rlt_le_trans with (B2R h); [exact K1|]. apply Zceil_ub. }
    assert (A2 : (Zceil (B2R h) <= 50)%Z) by (apply Zceil_glb; exact K2).
    lia.
Qed.

Theorem adapted_rate_bounds sent received : (sent < 65536)%N -> (received < 65536)%N ->
  exists r, adapted_rate sent received = Ok r /\ (1 <= r <= 50)%N.
Proof.
  intros Hs Hr. unfold adapted_rate. destruct (N.ltb_spec 0 sent) as [Hp|Hp].
  - rewrite !of_int_equiv, fdiv_equiv.
    set (d := (Z.of_N sent - Z.of_N received)%Z). set (s := Z.of_N sent).
    destruct (of_intB_spec d) as [A1 A2]; [lia|].
    destruct (of_intB_spec s) as [B1 B2]; [lia|].
    assert (Hs1 : (1 <= IZR s)%R) by (apply IZR_le; lia).
    assert (Hd1 : (IZR d <= IZR s)%R) by (apply IZR_le; lia).
    assert (Hd2 : (-65535 <= IZR d)%R) by (apply IZR_le; lia).
    assert (Hd3 : (IZR d <= 65535)%R) by (apply IZR_le; lia).
    assert (Q1 : (IZR d / IZR s <= 1)%R).
    { apply Rmult_le_reg_r with (IZR s); [lra|]. unfold Rdiv.
      rewrite Rmult_assoc, Rinv_l by lra. lra. }
    assert (Q2 : (-65535 <= IZR d / IZR s)%R).
    { apply Rmult_le_reg_r with (IZR s); [lra|]. unfold Rdiv.
      rewrite Rmult_assoc, Rinv_l by lra. nra. }
    destruct (divB_spec (of_intB d) (of_intB s)) as [D1 D2]; [assumption|lra| |].
    { rewrite A1, B1. apply Rabs_le. lra. }
    apply rate_for_loss_bounds; [assumption|].
    rewrite D1, A1, B1. apply Rle_trans with (rnd (IZR 1)); [|rewrite rnd_int by lia; lra].
    apply rnd_le. lra.
  - exists 50%N. split; [vm_compute; reflexivity|]. lia.
Qed.
