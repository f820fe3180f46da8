(** * Data the arrived packets do not determine (C92)

    A change of the data under which all packets that arrived stay the same: integrity holds for the
    changed data as well (BlindSpot.v), so nothing that the change concerns was delivered. *)
From Coq Require Import Arith ZArith NArith List Bool Lia Sorted.
From Verif Require Import Outcome GF GFProofs GFField GFRegion Linear Containers ContainersFacts Packetizer
  DetailDecoder Decoder DecoderAlgebra DecoderInv DecoderStep DecoderRecover BlindSpot.
Import ListNotations.
Open Scope N_scope.

(** The first word of a datum, changed by [x]. *)
Definition word_bytes (f : field) (x : N) : list N := map (le_byte x) (seq 0 (wbytes f)).
Definition change (f : field) (x : N) (d : list N) : list N := xorl (word_bytes f x) d.

(** The change, as a vector with the size in front. *)
Definition step_at (f : field) (x : N) (k : nat) : N :=
  if Nat.leb 4 k && Nat.ltb k (4 + wbytes f) then le_byte x (k - 4) else 0.

Lemma wbytes_word f x : x < 2 ^ wbits f -> x < 2 ^ (8 * N.of_nat (wbytes f)).
Proof. destruct f; cbn [wbits wbytes]; intros H; eapply N.lt_le_trans; try exact H; apply N.pow_le_mono_r; lia. Qed.

Lemma mulword_elt f c x : x < 2 ^ wbits f -> mulword f c x = gmul f c x.
Proof.
  intros H. destruct f; try reflexivity. unfold mulword. change (2 ^ wbits W4) with 16 in H.
  change 15 with (N.ones 4). rewrite N.land_ones, N.mod_small by exact H.
  rewrite N.shiftr_div_pow2, N.div_small by exact H. rewrite gmul_0_r. apply N.lxor_0_r.
Qed.

Lemma word_mul f c x k : x < 2 ^ wbits f ->
  rmul_at f c (step_at f x) k =
  if Nat.leb 4 k && Nat.ltb k (4 + wbytes f) then le_byte (gf_multiply f c x) (k - 4) else 0.
Proof.
  intros Hx. rewrite gf_multiply_gmul. unfold rmul_at. cbv zeta.
  assert (Hw : (1 <= wbytes f)%nat) by (destruct f; cbn; lia).
  pose proof (Nat.div_mod_eq k (wbytes f)) as D. pose proof (Nat.mod_upper_bound k (wbytes f) ltac:(lia)) as M.
  assert (F : exists q, (wbytes f * q = 4)%nat).
  { destruct f; [exists 4%nat | exists 4%nat | exists 2%nat | exists 1%nat]; reflexivity. }
  destruct F as [q Hq]. remember (k / wbytes f)%nat as a eqn:Ea. remember (k mod wbytes f)%nat as b eqn:Eb. clear Ea Eb.
  destruct (Nat.eq_dec a q) as [->|Ha].
  - rewrite Hq in *. replace (Nat.leb 4 k && Nat.ltb k (4 + wbytes f)) with true.
    2:{ symmetry. apply andb_true_iff. split; [apply Nat.leb_le | apply Nat.ltb_lt]; lia. }
    replace (k - 4)%nat with b by lia. f_equal.
    rewrite (le_dec_ext _ _ (fun i => le_byte x (i - 4))).
    + rewrite le_dec_byte by (apply wbytes_word, Hx). apply mulword_elt, Hx.
    + intros t Ht. unfold step_at. replace (Nat.leb 4 (4 + t) && Nat.ltb (4 + t) (4 + wbytes f)) with true; [reflexivity|].
      symmetry. apply andb_true_iff. split; [apply Nat.leb_le | apply Nat.ltb_lt]; lia.
  - assert (O : forall t, (t < wbytes f)%nat ->
      Nat.leb 4 (wbytes f * a + t) && Nat.ltb (wbytes f * a + t) (4 + wbytes f) = false).
    { intros t Ht. apply andb_false_iff. rewrite Nat.leb_gt, Nat.ltb_ge.
      destruct (Nat.lt_ge_cases a q); [left; nia | right; nia]. }
    rewrite D at 1 2. rewrite (O b M).
    rewrite (le_dec_ext _ _ (fun _ => 0)); [rewrite le_dec_0, mulword_0_r; apply le_byte_0|].
    intros t Ht. unfold step_at. rewrite (O t Ht). reflexivity.
Qed.

Lemma word_bytes_length f x : length (word_bytes f x) = wbytes f.
Proof. unfold word_bytes. rewrite map_length, seq_length. reflexivity. Qed.

Lemma aligned_long f n : (0 < n)%nat -> aligned f n = true -> (wbytes f <= n)%nat.
Proof.
  intros H A. unfold aligned in A. apply Nat.eqb_eq in A.
  destruct (Nat.le_gt_cases (wbytes f) n) as [L|L]; [exact L|]. rewrite Nat.mod_small in A by exact L. lia.
Qed.

Lemma xorl_length a : forall b, length (xorl a b) = Nat.max (length a) (length b).
Proof. induction a as [|x a IH]; intros [|y b]; cbn [xorl length]; try reflexivity. rewrite IH. reflexivity. Qed.

Lemma xorl_nth a : forall b k, nth k (xorl a b) 0 = N.lxor (nth k a 0) (nth k b 0).
Proof.
  induction a as [|x a IH]; intros b k; [destruct k; reflexivity|].
  destruct b as [|y b]; [destruct k; cbn [xorl nth]; rewrite N.lxor_0_r; reflexivity|].
  destruct k as [|k]; cbn [xorl nth]; [reflexivity | apply IH].
Qed.

Lemma xorl_bytes a : forall b, bytes a -> bytes b -> bytes (xorl a b).
Proof.
  unfold bytes. induction a as [|x a IH]; intros [|y b] A B; cbn [xorl]; try assumption.
  inversion A; inversion B; subst. constructor; [|apply IH; assumption].
  change 256 with (2 ^ 8). apply lxor_below; assumption.
Qed.

Lemma change_length f x d : (wbytes f <= length d)%nat -> length (change f x d) = length d.
Proof. intros H. unfold change. rewrite xorl_length, word_bytes_length. lia. Qed.

Lemma change_good f x d : (wbytes f <= length d)%nat -> good_data f d -> good_data f (change f x d).
Proof.
  intros H (A & B & C). unfold good_data. rewrite change_length by exact H. split; [|auto].
  apply xorl_bytes; [|exact A]. unfold bytes, word_bytes. apply Forall_forall. intros b Hb.
  apply in_map_iff in Hb. destruct Hb as (t & <- & _). apply le_byte_below.
Qed.

Lemma word_bytes_nth f x k : nth k (word_bytes f x) 0 = if Nat.ltb k (wbytes f) then le_byte x k else 0.
Proof.
  unfold word_bytes. destruct (Nat.ltb_spec k (wbytes f)) as [H|H].
  - rewrite (nth_indep _ 0 (le_byte x 0)) by (rewrite map_length, seq_length; exact H).
    rewrite map_nth, seq_nth by exact H. reflexivity.
  - apply nth_overflow. rewrite map_length, seq_length. exact H.
Qed.

(** A change that is seen in the datum. *)
Lemma change_seen f x d : x < 2 ^ wbits f -> change f x d = d -> x = 0.
Proof.
  intros Hx E. rewrite <- (le_dec_byte (wbytes f) x 0) by (apply wbytes_word, Hx).
  rewrite (le_dec_ext _ _ (fun _ => 0)); [apply le_dec_0|]. intros t Ht. cbv beta. rewrite Nat.add_0_l, Nat.sub_0_r.
  pose proof (xorl_nth (word_bytes f x) d t) as A. fold (change f x d) in A. rewrite E, word_bytes_nth in A.
  apply Nat.ltb_lt in Ht. rewrite Ht in A. apply (f_equal (fun y => N.lxor y (nth t d 0))) in A.
  rewrite N.lxor_assoc, N.lxor_nilpotent, N.lxor_0_r in A. symmetry. exact A.
Qed.

Section Other.
Variable f : field.
Variable S : N -> list N.
Variable v : N -> N.
Hypothesis Hv : forall x, v x < 2 ^ wbits f.
Hypothesis HS : forall x, good_data f (S x).
Hypothesis Hl : forall x, v x <> 0 -> (wbytes f <= length (S x))%nat.

Definition other (x : N) : list N := if v x =? 0 then S x else change f (v x) (S x).

Lemma other_length x : length (other x) = length (S x).
Proof. unfold other. destruct (N.eqb_spec (v x) 0); [reflexivity | apply change_length, Hl; assumption]. Qed.

Lemma other_good x : good_data f (other x).
Proof. unfold other. destruct (N.eqb_spec (v x) 0); [apply HS | apply change_good; [apply Hl; assumption | apply HS]]. Qed.

Lemma other_same x : other x = S x -> v x = 0.
Proof. unfold other. destruct (N.eqb_spec (v x) 0) as [H|H]; [intros _; exact H|]. apply change_seen, Hv. Qed.

Lemma step_at_0 k : step_at f 0 k = 0.
Proof. unfold step_at. destruct (_ && _); [apply le_byte_0 | reflexivity]. Qed.

Lemma svec_other x k : svec other x k = N.lxor (step_at f (v x) k) (svec S x k).
Proof.
  unfold svec. rewrite other_length. unfold other. destruct (N.eqb_spec (v x) 0) as [H|H].
  - rewrite H, step_at_0, N.lxor_0_l. reflexivity.
  - destruct k as [|[|[|[|k]]]]; try reflexivity. cbn [vec]. unfold change. rewrite xorl_nth, word_bytes_nth. f_equal.
    unfold step_at. replace (Datatypes.S (Datatypes.S (Datatypes.S (Datatypes.S k))) - 4)%nat with k by lia. reflexivity.
Qed.

(** The same combination, if the combination of the changes is zero. *)
Lemma other_genuine r : genuine f S r ->
  xsum (fun x => gf_multiply f (coefficient f (dr_id r) x) (v x)) (dr_ids r) = 0 -> genuine f other r.
Proof.
  intros [A1 A2 A3 A4 A5 A6 A7 A8 A9] Z. constructor; try assumption.
  - intros x Hx. rewrite other_length. apply A6, Hx.
  - intros x _. apply other_good.
  - intros k. rewrite A8.
    rewrite (xsum_ext (fun x => rmul_at f (coefficient f (dr_id r) x) (svec other x) k)
      (fun x => N.lxor (rmul_at f (coefficient f (dr_id r) x) (step_at f (v x)) k)
                  (rmul_at f (coefficient f (dr_id r) x) (svec S x) k)) (dr_ids r)).
    2:{ intros x _. rewrite <- rmul_at_lxor_r. apply rmul_at_ext_all. intros t. apply svec_other. }
    rewrite xsum_lxor.
    rewrite (xsum_ext (fun x => rmul_at f (coefficient f (dr_id r) x) (step_at f (v x)) k)
      (fun x => if Nat.leb 4 k && Nat.ltb k (4 + wbytes f)
                then le_byte (gf_multiply f (coefficient f (dr_id r) x) (v x)) (k - 4) else 0) (dr_ids r)).
    2:{ intros x _. apply word_mul, Hv. }
    destruct (Nat.leb 4 k && Nat.ltb k (4 + wbytes f)).
    + rewrite <- le_byte_xsum, Z, le_byte_0, N.lxor_0_l. reflexivity.
    + rewrite xsum_0, N.lxor_0_l. reflexivity.
  - intros x Hx. rewrite other_length. apply A9, Hx.
Qed.
End Other.
