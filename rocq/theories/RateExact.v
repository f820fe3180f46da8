(** * The adaptive rate is the ceiling of sent / (2 lost), with one exception *)
From Coq Require Import ZArith NArith Bool Reals Lia Lra List Floats.SpecFloat.
From Flocq Require Import Core Relative IEEE754.BinarySingleNaN.
From Verif Require Import Outcome Rate RateFacts.

Local Notation prec := 53%Z.
Local Notation emax := 1024%Z.
Local Notation fl := (binary_float prec emax).
Local Notation fexp := (SpecFloat.fexp prec emax).
Local Notation rnd := (round radix2 fexp ZnearestE).
Local Notation eps := (/ 9007199254740992)%R.

Lemma rnd_error x : (1 / 1000 <= x)%R -> (x * (1 - eps) <= rnd x <= x * (1 + eps))%R.
Proof.
  intros H. pose proof (relative_error_N_FLT radix2 (3 - emax - prec) prec eq_refl (fun n => negb (Z.even n)) x) as E.
  assert (B : (bpow radix2 (3 - emax - prec + prec - 1) <= Rabs x)%R).
  { rewrite Rabs_pos_eq by lra. apply Rle_trans with (bpow radix2 (-10)); [apply bpow_le; lia|].
    change (bpow radix2 (-10)) with (/ 1024)%R. lra. }
  specialize (E B). rewrite (Rabs_pos_eq x) in E by lra.
  change (round radix2 (FLT_exp (3 - emax - prec) prec) (Znearest (fun n : Z => negb (Z.even n))) x) with (rnd x) in E.
  replace (/ 2 * bpow radix2 (- prec + 1))%R with eps in E.
  2: { change (bpow radix2 (- prec + 1)) with (/ 4503599627370496)%R. lra. }
  apply Rabs_le_inv in E. lra.
Qed.

(** The double computed from a loss [q]. *)
Definition half_inverse (q : R) : R := rnd (rnd (1 / rnd q) / 2).

Lemma one_percent_exact : exists c : fl, one_percent = B2SF c /\ is_finite c = true /\ B2R c = rnd (1 / 100).
Proof.
  destruct (of_intB_spec 1) as [O1 O2]; [lia|]. destruct (of_intB_spec 100) as [T1 T2]; [lia|].
  destruct (divB_spec (of_intB 1) (of_intB 100)) as [D1 D2]; [assumption | rewrite T1; lra | |].
  { rewrite O1, T1. rewrite Rabs_pos_eq; lra. }
  exists (divB (of_intB 1) (of_intB 100)). split; [|split; [exact D2|]].
  - unfold one_percent. rewrite !of_int_equiv, fdiv_equiv. reflexivity.
  - rewrite D1, O1, T1. reflexivity.
Qed.

Lemma rate_reals (x : fl) q : is_finite x = true -> B2R x = rnd q -> (q <= 1)%R ->
  (rnd q < rnd (1 / 100) -> rate_for_loss (B2SF x) = Ok 50%N)%R
  /\ (1 / 100 <= q -> rate_for_loss (B2SF x) = Ok (Z.to_N (Zceil (half_inverse q))))%R.
Proof.
  intros Fx Ex Hq. destruct one_percent_exact as (c & Ec & Fc & Hc).
  assert (Hx : (B2R x <= 1)%R).
  { rewrite Ex. apply Rle_trans with (rnd (IZR 1)); [apply rnd_le; lra | rewrite rnd_int by lia; lra]. }
  unfold rate_for_loss. rewrite Ec. change (SFltb (B2SF x) (B2SF c)) with (Bltb x c).
  rewrite Bltb_correct by assumption. rewrite Ex, Hc. split.
  - intros H. rewrite Rlt_bool_true by exact H. reflexivity.
  - intros H. rewrite Rlt_bool_false by (apply rnd_le, H).
    pose proof (rnd_error q) as Eq. rewrite <- Ex in Eq. specialize (Eq ltac:(lra)).
    assert (Hpos : (1 / 101 <= B2R x)%R) by lra.
    destruct (of_intB_spec 1) as [O1 O2]; [lia|]. destruct (of_intB_spec 2) as [T1 T2]; [lia|].
    assert (I1 : (1 <= 1 / B2R x)%R).
    { unfold Rdiv. rewrite Rmult_1_l. rewrite <- Rinv_1 at 1. apply Rinv_le; lra. }
    assert (I2 : (1 / B2R x <= 101)%R).
    { unfold Rdiv. rewrite Rmult_1_l. replace 101%R with (/ (1 / 101))%R by lra. apply Rinv_le; lra. }
    destruct (divB_spec (of_intB 1) x) as [D1 D2]; [assumption|lra| |].
    { rewrite O1. rewrite Rabs_pos_eq; lra. }
    rewrite O1 in D1.
    assert (J1 : (1 <= B2R (divB (of_intB 1) x))%R).
    { rewrite D1. apply Rle_trans with (rnd (IZR 1)); [rewrite rnd_int by lia; lra|]. apply rnd_le. lra. }
    assert (J2 : (B2R (divB (of_intB 1) x) <= 101)%R).
    { rewrite D1. apply Rle_trans with (rnd (IZR 101)); [|rewrite rnd_int by lia; lra]. apply rnd_le. lra. }
    destruct (divB_spec (divB (of_intB 1) x) (of_intB 2)) as [E1 E2]; [assumption|lra| |].
    { rewrite T1. rewrite Rabs_pos_eq; lra. }
    rewrite T1 in E1. rewrite !of_int_equiv, !fdiv_equiv.
    assert (Eh : B2R (divB (divB (of_intB 1) x) (of_intB 2)) = half_inverse q).
    { unfold half_inverse. rewrite E1, D1, Ex. reflexivity. }
    rewrite ceil_size_spec; [rewrite Eh; reflexivity | exact E2 |].
    rewrite E1. pose proof (rnd_error (B2R (divB (of_intB 1) x) / 2)) as Er. specialize (Er ltac:(lra)). lra.
Qed.

Lemma half_inverse_close q : (1 / 100 <= q <= 1)%R -> (Rabs (half_inverse q - / q / 2) <= 1 / 10000000000)%R.
Proof.
  intros Hq. unfold half_inverse. set (i := (/ q)%R).
  assert (Hi : (1 <= i <= 100)%R).
  { unfold i. split.
    - rewrite <- Rinv_1 at 1. apply Rinv_le; lra.
    - replace 100%R with (/ (1 / 100))%R by lra. apply Rinv_le; lra. }
  pose proof (rnd_error q ltac:(lra)) as E1. set (a := rnd q) in *.
  assert (Ea : (i * (1 - 2 * eps) <= 1 / a <= i * (1 + 2 * eps))%R).
  { assert (Hqi : (q * i = 1)%R) by (unfold i; apply Rinv_r; lra).
    assert (Ha : (0 < a)%R) by lra.
    split; apply Rmult_le_reg_r with a; try exact Ha; unfold Rdiv; rewrite Rmult_1_l, Rinv_l by lra.
    - apply Rle_trans with ((i * (1 - 2 * eps)) * (q * (1 + eps)))%R; [apply Rmult_le_compat_l; lra|].
      replace ((i * (1 - 2 * eps)) * (q * (1 + eps)))%R with ((q * i) * ((1 - 2 * eps) * (1 + eps)))%R by ring.
      rewrite Hqi. lra.
    - apply Rle_trans with ((i * (1 + 2 * eps)) * (q * (1 - eps)))%R; [|apply Rmult_le_compat_l; lra].
      replace ((i * (1 + 2 * eps)) * (q * (1 - eps)))%R with ((q * i) * ((1 + 2 * eps) * (1 - eps)))%R by ring.
      rewrite Hqi. lra. }
  pose proof (rnd_error (1 / a) ltac:(lra)) as E2. set (b := rnd (1 / a)) in *.
  pose proof (rnd_error (b / 2) ltac:(lra)) as E3. set (h := rnd (b / 2)) in *.
  clearbody i a b h. set (c := (1 / a)%R) in *. clearbody c.
  apply Rabs_le. clear Hq E1. lra.
Qed.

(** The integer cases: finitely many. *)
Lemma integer_cases n : (1 <= n <= 50)%Z ->
  Z.to_N (Zceil (half_inverse (1 / IZR (2 * n)))) = if (n =? 49)%Z then 50%N else Z.to_N n.
Proof.
  intros Hn.
  assert (C : forall k, (1 <= k <= 100)%Z ->
    adapted_rate (Z.to_N k) (Z.to_N (k - 1)) = Ok (Z.to_N (Zceil (half_inverse (1 / IZR k))))).
  { intros k Hk. unfold adapted_rate. destruct (N.ltb_spec 0 (Z.to_N k)) as [_|]; [|lia].
    rewrite !of_int_equiv, fdiv_equiv. replace (Z.of_N (Z.to_N k) - Z.of_N (Z.to_N (k - 1)))%Z with 1%Z by lia.
    replace (Z.of_N (Z.to_N k)) with k by lia.
    destruct (of_intB_spec 1) as [A1 A2]; [lia|]. destruct (of_intB_spec k) as [B1 B2]; [lia|].
    assert (Hk1 : (1 <= IZR k)%R) by (apply IZR_le; lia). assert (Hk2 : (IZR k <= 100)%R) by (apply IZR_le; lia).
    assert (Q1 : (1 / IZR k <= 1)%R).
    { unfold Rdiv. rewrite Rmult_1_l. rewrite <- Rinv_1 at 1. apply Rinv_le; lra. }
    assert (Q2 : (1 / 100 <= 1 / IZR k)%R) by (unfold Rdiv; rewrite !Rmult_1_l; apply Rinv_le; lra).
    destruct (divB_spec (of_intB 1) (of_intB k)) as [D1 D2]; [assumption | lra | |].
    { rewrite A1, B1. rewrite Rabs_pos_eq; lra. }
    rewrite A1, B1 in D1. apply (rate_reals _ _ D2 D1 Q1), Q2. }
  pose proof (C (2 * n)%Z ltac:(lia)) as H.
  assert (V : forall i, (i < 50)%nat ->
    adapted_rate (N.of_nat (2 * S i)) (N.of_nat (2 * S i - 1)) = Ok (if Nat.eqb (S i) 49 then 50%N else N.of_nat (S i))).
  { intros i Hi. do 50 (destruct i as [|i]; [vm_compute; reflexivity|]). lia. }
  specialize (V (Z.to_nat n - 1)%nat ltac:(lia)).
  replace (S (Z.to_nat n - 1)) with (Z.to_nat n) in V by lia.
  replace (N.of_nat (2 * Z.to_nat n)) with (Z.to_N (2 * n)) in V by lia.
  replace (N.of_nat (2 * Z.to_nat n - 1)) with (Z.to_N (2 * n - 1)) in V by lia.
  rewrite H in V. apply (f_equal (fun o => match o with Ok v => v | _ => 0%N end)) in V. cbv beta iota in V. rewrite V. destruct (Nat.eqb_spec (Z.to_nat n) 49), (Z.eqb_spec n 49); lia.
Qed.

Theorem adapted_rate_exact sent received : (sent < 65536)%N -> (received < 65536)%N ->
  let lost := (Z.of_N sent - Z.of_N received)%Z in
  adapted_rate sent received =
  Ok (if (sent =? 0)%N || (100 * lost <? Z.of_N sent)%Z then 50%N
      else if (Z.of_N sent =? 98 * lost)%Z then 50%N
      else Z.to_N ((Z.of_N sent + 2 * lost - 1) / (2 * lost))).
Proof.
  intros Hs Hr lost. unfold adapted_rate. destruct (N.ltb_spec 0 sent) as [Hp|Hp].
  2: { replace sent with 0%N by lia. vm_compute. reflexivity. }
  destruct (N.eqb_spec sent 0) as [|_]; [lia|]. cbn [orb]. fold lost. set (s := Z.of_N sent).
  rewrite !of_int_equiv, fdiv_equiv.
  destruct (of_intB_spec lost) as [A1 A2]; [lia|]. destruct (of_intB_spec s) as [B1 B2]; [lia|].
  assert (Hs1 : (1 <= IZR s)%R) by (apply IZR_le; lia). assert (Hs2 : (IZR s <= 65535)%R) by (apply IZR_le; lia).
  assert (Hd1 : (IZR lost <= IZR s)%R) by (apply IZR_le; lia).
  assert (Hd2 : (-65535 <= IZR lost)%R) by (apply IZR_le; lia).
  assert (Q1 : (IZR lost / IZR s <= 1)%R).
  { apply Rmult_le_reg_r with (IZR s); [lra|]. unfold Rdiv. rewrite Rmult_assoc, Rinv_l by lra. lra. }
  assert (Q2 : (-65535 <= IZR lost / IZR s)%R).
  { apply Rmult_le_reg_r with (IZR s); [lra|]. unfold Rdiv. rewrite Rmult_assoc, Rinv_l by lra. nra. }
  destruct (divB_spec (of_intB lost) (of_intB s)) as [D1 D2]; [assumption|lra| |].
  { rewrite A1, B1. apply Rabs_le. lra. }
  rewrite A1, B1 in D1. destruct (rate_reals _ _ D2 D1 Q1) as [Rlow Rhigh].
  set (q := (IZR lost / IZR s)%R) in *.
  assert (Eq : (q * IZR s = IZR lost)%R) by (unfold q, Rdiv; rewrite Rmult_assoc, Rinv_l by lra; lra).
  destruct (Z.ltb_spec (100 * lost) s) as [L|L].
  - apply Rlow.
    assert (L' : (100 * IZR lost <= IZR s - 1)%R) by (rewrite <- mult_IZR; change 1%R with (IZR 1); rewrite <- minus_IZR; apply IZR_le; lia).
    assert (Hq : (q <= 1 / 100 - 1 / 10000000)%R).
    { apply Rmult_le_reg_r with (IZR s); [lra|]. rewrite Eq. nra. }
    pose proof (rnd_error (1 / 100) ltac:(lra)) as Ec.
    apply Rle_lt_trans with (rnd (1 / 100 - 1 / 10000000)); [apply rnd_le, Hq|].
    pose proof (rnd_error (1 / 100 - 1 / 10000000) ltac:(lra)) as Ed. lra.
  - assert (L' : (IZR s <= 100 * IZR lost)%R) by (rewrite <- mult_IZR; apply IZR_le; lia).
    assert (Hq : (1 / 100 <= q)%R). { apply Rmult_le_reg_r with (IZR s); [lra|]. rewrite Eq. lra. }
    rewrite (Rhigh Hq). clear Rlow Rhigh D1 D2. f_equal.
    assert (Hl : (1 <= lost)%Z) by lia. assert (Hl1 : (1 <= IZR lost)%R) by (apply IZR_le; lia).
    assert (Hl2 : (lost <= s)%Z) by lia.
    set (k := ((s + 2 * lost - 1) / (2 * lost))%Z).
    destruct (Z.eq_dec (s mod (2 * lost)) 0) as [M|M].
    + assert (Hs' : s = (2 * lost * (s / (2 * lost)))%Z) by (apply Z.div_exact; lia).
      set (n := (s / (2 * lost))%Z) in *.
      assert (Hn : (1 <= n <= 50)%Z) by nia.
      assert (Ek : k = n).
      { unfold k. rewrite Hs'. replace (2 * lost * n + 2 * lost - 1)%Z with (n * (2 * lost) + (2 * lost - 1))%Z by ring.
        rewrite Z.div_add_l by lia. rewrite Z.div_small by lia. lia. }
      assert (Eq' : q = (1 / IZR (2 * n))%R).
      { unfold q. rewrite Hs'. replace (2 * lost * n)%Z with (lost * (2 * n))%Z by ring. rewrite (mult_IZR lost).
        assert (1 <= IZR (2 * n))%R by (apply IZR_le; lia). field. lra. }
      rewrite Eq', (integer_cases n Hn), Ek. destruct (Z.eqb_spec n 49) as [N49|N49], (Z.eqb_spec s (98 * lost)) as [S98|S98]; try reflexivity; nia.
    + destruct (Z.eqb_spec s (98 * lost)) as [S98|S98].
      { exfalso. apply M. rewrite S98. replace (98 * lost)%Z with (49 * (2 * lost))%Z by ring. apply Z_mod_mult. }
      f_equal. pose proof (half_inverse_close q (conj Hq Q1)) as Cl. apply Rabs_le_inv in Cl.
      assert (Ei : (/ q / 2 = IZR s / IZR (2 * lost))%R).
      { unfold q. rewrite mult_IZR. field. lra. }
      rewrite Ei in Cl.
      pose proof (Z.div_mod s (2 * lost) ltac:(lia)) as DM. pose proof (Z.mod_pos_bound s (2 * lost) ltac:(lia)) as MB.
      assert (Ek : k = (s / (2 * lost) + 1)%Z).
      { unfold k. symmetry. apply Z.div_unique with (s mod (2 * lost) - 1)%Z; lia. }
      set (x := (IZR s / IZR (2 * lost))%R) in *.
      assert (Hl3 : (2 <= IZR (2 * lost))%R) by (apply IZR_le; lia).
      assert (Hl4 : (IZR (2 * lost) <= 131070)%R) by (apply IZR_le; lia).
      assert (Ex : (x * IZR (2 * lost) = IZR s)%R) by (unfold x, Rdiv; rewrite Rmult_assoc, Rinv_l by lra; lra).
      assert (Lo : (IZR (k - 1) * IZR (2 * lost) + 1 <= x * IZR (2 * lost))%R).
      { rewrite Ex, <- mult_IZR. change 1%R with (IZR 1). rewrite <- plus_IZR. apply IZR_le. nia. }
      assert (Hi : (x * IZR (2 * lost) <= IZR k * IZR (2 * lost) - 1)%R).
      { rewrite Ex, <- mult_IZR. change 1%R with (IZR 1). rewrite <- minus_IZR. apply IZR_le. nia. }
      assert (Lo' : (IZR (k - 1) + 1 / 1000000 <= x)%R).
      { apply Rmult_le_reg_r with (IZR (2 * lost)); [lra|]. lra. }
      assert (Hi' : (x <= IZR k - 1 / 1000000)%R).
      { apply Rmult_le_reg_r with (IZR (2 * lost)); [lra|]. lra. }
      apply Zceil_imp. lra.
Qed.
