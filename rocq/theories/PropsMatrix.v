(** * Properties of matrix inversion: C15, C16 *)
From Coq Require Import NArith List Bool Lia Arith.
From Verif Require Import Outcome GF GFProofs GFField GFRegion Linear Matrix MatrixFacts.
Import ListNotations.
Open Scope N_scope.

(** ** Specification *)

(** The entry at a row and a column, as [square_matrix::operator()] defines it. *)
Definition entry (n : nat) (m : list N) (row col : nat) : N := nth (col * n + row) m 0.

(** The scalar product of two vectors of [n] field elements. *)
Definition dot (f : field) (n : nat) (u v : nat -> N) : N :=
  fold_right N.lxor 0 (map (fun k => gf_multiply f (u k) (v k)) (seq 0 n)).

(** The product of two matrices is the identity. *)
Definition product_is_identity (f : field) (n : nat) (a b : list N) : Prop :=
  forall row col, (row < n)%nat -> (col < n)%nat ->
  dot f n (entry n a row) (fun k => entry n b k col) = if Nat.eqb row col then 1 else 0.

(** A square matrix of dimension [n] over the field [f]. *)
Definition is_matrix (f : field) (n : nat) (m : list N) : Prop :=
  length m = (n * n)%nat /\ forall x, In x m -> x < 2 ^ wbits f.

(** A non-zero vector that the matrix maps to zero. *)
Definition in_kernel (f : field) (n : nat) (m : list N) (x : list N) : Prop :=
  length x = n /\ (forall y, In y x -> y < 2 ^ wbits f) /\ (exists y, In y x /\ y <> 0)
  /\ forall row, (row < n)%nat -> dot f n (entry n m row) (fun k => nth k x 0) = 0.

(** ** From the specification to the facts *)

Lemma dot_sum f n u v : dot f n u v = sum n (fun k => gmul f (u k) (v k)).
Proof.
  unfold dot, sum. generalize (seq 0 n). intros l.
  induction l as [|k l IH]; [reflexivity|].
  cbn [map fold_right xsum]. now rewrite IH, gf_multiply_gmul.
Qed.

Lemma entry_at n m r c : entry n m r c = at_ n m c r.
Proof. reflexivity. Qed.

Lemma is_matrix_elts f n m : is_matrix f n m -> wfm n m /\ eltm f n (at_ n m).
Proof.
  intros [Hl Hin]. split; [exact Hl|]. intros a b Ha Hb. apply Hin. apply nth_In.
  rewrite Hl. now apply flat_lt.
Qed.

Lemma dot_comm f n u v : (forall k, (k < n)%nat -> elt f (u k)) ->
  (forall k, (k < n)%nat -> elt f (v k)) -> dot f n u v = dot f n v u.
Proof.
  intros Hu Hv. rewrite !dot_sum. apply sum_ext. intros k Hk. apply gmul_comm; auto.
Qed.

(** The storage of the transposed matrix. *)
Definition transpose (n : nat) (m : list N) : list N :=
  flat_map (fun c => map (fun r => nth (r * n + c) m 0) (seq 0 n)) (seq 0 n).

Lemma flat_map_length_const {A B} (g : A -> list B) (k : nat) l :
  (forall x, In x l -> length (g x) = k) -> length (flat_map g l) = (length l * k)%nat.
Proof.
  intros H. induction l as [|x l IH]; [reflexivity|]. cbn [flat_map length].
  rewrite app_length, H by now left. rewrite IH; [lia|]. intros y Hy. apply H. now right.
Qed.

Lemma transpose_length n m : length (transpose n m) = (n * n)%nat.
Proof.
  unfold transpose. rewrite (flat_map_length_const _ n).
  - now rewrite seq_length.
  - intros c _. now rewrite map_length, seq_length.
Qed.

Lemma transpose_at n m a b : (a < n)%nat -> (b < n)%nat ->
  at_ n (transpose n m) a b = at_ n m b a.
Proof.
  intros Ha Hb. unfold at_, transpose.
  assert (G : forall k s, (a < k)%nat ->
    nth (a * n + b) (flat_map (fun c => map (fun r => nth (r * n + c) m 0) (seq 0 n)) (seq s k)) 0
    = nth (b * n + (s + a)) m 0).
  { clear Ha. induction a as [|a IH]; intros k s Hk; (destruct k as [|k]; [lia|]);
      cbn [seq flat_map].
    - rewrite app_nth1 by (rewrite map_length, seq_length; lia).
      change (0 * n + b)%nat with b.
      rewrite (nth_indep _ 0 (nth (0 * n + s) m 0)) by (rewrite map_length, seq_length; lia).
      rewrite (map_nth (fun r => nth (r * n + s) m 0)), seq_nth by assumption.
      f_equal. lia.
    - rewrite app_nth2; rewrite map_length, seq_length; [|cbn; lia].
      replace (S a * n + b - n)%nat with (a * n + b)%nat by (cbn; lia).
      rewrite IH by lia. f_equal. lia. }
  rewrite G by assumption. reflexivity.
Qed.

Lemma invertible_no_kernel f n m b x : is_matrix f n m -> is_matrix f n b ->
  product_is_identity f n b m -> ~ in_kernel f n m x.
Proof.
  intros Hm Hb Hi (Lx & Ex & (y & Hy & Hz) & Hk).
  destruct (is_matrix_elts f n m Hm) as [Wm Em]. destruct (is_matrix_elts f n b Hb) as [Wb Eb].
  destruct (In_nth x y 0 Hy) as (c & Hc & Ey). rewrite Lx in Hc.
  assert (Xe : forall k, elt f (nth k x 0)).
  { intros k. destruct (Nat.lt_ge_cases k (length x)) as [H|H].
    - apply Ex. now apply nth_In.
    - rewrite nth_overflow by assumption. apply elt_0. }
  apply Hz. rewrite <- Ey.
  rewrite <- (mv_one f n (fun k => nth k x 0) c Hc Xe).
  rewrite <- (mv_ext f n (mm f n (fun r c => entry n b r c) (fun r c => entry n m r c))
                one (fun k => nth k x 0) (fun k => nth k x 0) c Hc).
  - rewrite mv_assoc; [|intros p q Hp Hq; now apply Eb|assumption].
    unfold mv at 1. apply sum_0. intros k Hkn. unfold mv.
    specialize (Hk k Hkn). rewrite dot_sum in Hk. rewrite Hk. apply gmul_0_r.
  - intros p q Hp Hq. specialize (Hi p q Hp Hq). rewrite dot_sum in Hi. exact Hi.
  - auto.
Qed.

(** ** C15 *)

Theorem C15_inversion_sound :
  forall f n mat inv, n <> 0%nat -> is_matrix f n mat -> length inv = (n * n)%nat ->
  exists r, invert f n mat inv = Ok r
  /\ forall mat' inv', r = inr (mat', inv') ->
     is_matrix f n inv'
     /\ product_is_identity f n inv' mat
     /\ product_is_identity f n mat inv'.
Proof.
  intros f n mat inv Hn Hm Hv. destruct (is_matrix_elts f n mat Hm) as [Wm Em].
  destruct (invert_spec f n mat inv Hn Wm Hv Em)
    as [(m' & v' & E & _ & Wv & Ev & L & R)|(E & _)]; rewrite E.
  - eexists. split; [reflexivity|]. intros mat' inv' Eq. injection Eq as <- <-.
    split; [|split].
    + split; [exact Wv|]. intros x Hx. destruct (In_nth v' x 0 Hx) as (k & Hk & <-).
      rewrite Wv in Hk.
      assert (Hq : (k / n < n)%nat) by (apply Nat.div_lt_upper_bound; lia).
      assert (Hr : (k mod n < n)%nat) by (apply Nat.mod_upper_bound; lia).
      specialize (Ev (k / n)%nat (k mod n)%nat Hq Hr). unfold at_ in Ev.
      replace (k / n * n + k mod n)%nat with k in Ev; [exact Ev|].
      rewrite Nat.mul_comm. now apply Nat.div_mod.
    + intros row col Hr Hc. rewrite dot_comm.
      * rewrite dot_sum. specialize (R col row Hc Hr). unfold mm in R.
        rewrite Nat.eqb_sym. exact R.
      * intros k Hk. now apply Ev.
      * intros k Hk. now apply Em.
    + intros row col Hr Hc. rewrite dot_comm.
      * rewrite dot_sum. specialize (L col row Hc Hr). unfold mm in L.
        rewrite Nat.eqb_sym. exact L.
      * intros k Hk. now apply Em.
      * intros k Hk. now apply Ev.
  - eexists. split; [reflexivity|]. intros; discriminate.
Qed.
Print Assumptions C15_inversion_sound.

(** Dimension 0 is excluded for a reason: the first access of the backward
    pass is outside of the matrix. *)
Theorem C15_dimension_zero_refuted :
  forall f, exists mat inv, is_matrix f 0 mat /\ length inv = (0 * 0)%nat
  /\ invert f 0 mat inv = Fault OutOfBounds.
Proof. intros f. exists [], []. repeat split. intros x []. Qed.
Print Assumptions C15_dimension_zero_refuted.

(** A 3 x 3 matrix that needs a row swap, a scaling and both eliminations. *)
Definition sample : list N := [0; 3; 1;  5; 1; 7;  1; 2; 9].

Example C15_hyps : is_matrix W8 3 sample
  /\ exists m v, invert W8 3 sample (repeat 0 9) = Ok (inr (m, v)) /\ m <> v.
Proof.
  split.
  - split; [reflexivity|]. intros x Hx. cbn in Hx.
    repeat destruct Hx as [<-|Hx]; try reflexivity. contradiction.
  - eexists _, _. split; [vm_compute; reflexivity|]. discriminate.
Qed.

(** ** C16 *)

Lemma is_matrix_transpose f n m : is_matrix f n m -> is_matrix f n (transpose n m).
Proof.
  intros [Hl Hin]. split; [apply transpose_length|]. intros x Hx.
  unfold transpose in Hx. apply in_flat_map in Hx as (c & Hc & Hx).
  apply in_map_iff in Hx as (r & <- & Hr). apply in_seq in Hr. apply in_seq in Hc.
  apply Hin. apply nth_In. rewrite Hl. apply flat_lt; lia.
Qed.

Lemma nth_tabulate (x : nat -> N) n q : (q < n)%nat -> nth q (map x (seq 0 n)) 0 = x q.
Proof.
  intros Hq. rewrite (nth_indep _ 0 (x 0%nat)) by now rewrite map_length, seq_length.
  now rewrite map_nth, seq_nth.
Qed.

(** Failure, and only failure, on the matrices that are not invertible;
    equivalently that map a non-zero vector to zero. The returned index is that
    of the last column. *)
Theorem C16_fails_iff_singular :
  forall f n mat inv, n <> 0%nat -> is_matrix f n mat -> length inv = (n * n)%nat ->
  ((exists k, invert f n mat inv = Ok (inl k)) <-> exists x, in_kernel f n mat x)
  /\ ((exists k, invert f n mat inv = Ok (inl k)) <->
      ~ exists b, is_matrix f n b /\ product_is_identity f n b mat).
Proof.
  intros f n mat inv Hn Hm Hv.
  (* an inverse of the transposed matrix gives an inverse *)
  assert (Fail : forall m v, is_matrix f n m -> length v = (n * n)%nat ->
     (forall k, invert f n m v <> Ok (inl k)) ->
     exists b, is_matrix f n b /\ product_is_identity f n b m /\ product_is_identity f n m b).
  { intros m v Hmm Hvv Hne.
    destruct (C15_inversion_sound f n m v Hn Hmm Hvv) as ([k|[m' v']] & E & H).
    - now apply Hne in E.
    - destruct (H m' v' eq_refl) as (H1 & H2 & H3). exists v'. auto. }
  assert (Ker : forall k, invert f n mat inv = Ok (inl k) -> exists x, in_kernel f n mat x).
  { intros k E.
    (* the transposed matrix is inverted by the same function *)
    pose proof (is_matrix_transpose f n mat Hm) as Ht.
    destruct (is_matrix_elts f n _ Ht) as [Wt Et].
    destruct (invert_spec f n (transpose n mat) inv Hn Wt Hv Et)
      as [(m' & v' & E' & _)|(E' & c & x & Hc & X1 & X2 & X3)].
    - exfalso.
      destruct (Fail (transpose n mat) inv Ht Hv) as (b & B1 & B2 & B3).
      { intros j Ej. rewrite Ej in E'. discriminate. }
      destruct (is_matrix_elts f n _ Hm) as [Wm Em].
      destruct (invert_spec f n mat inv Hn Wm Hv Em)
        as [(m2 & v2 & E2 & _)|(E2 & c & x & Hc & X1 & X2 & X3)].
      + rewrite E2 in E. discriminate.
      + apply (invertible_no_kernel f n (transpose n mat) b
                 (map x (seq 0 n)) Ht B1 B2).
        split; [now rewrite map_length, seq_length|]. split; [|split].
        * intros y Hy. apply in_map_iff in Hy as (q & <- & _). apply X1.
        * exists (x c). split; [|rewrite X2; discriminate]. apply in_map. apply in_seq. lia.
        * intros row Hr. rewrite dot_sum. etransitivity; [|exact (X3 row Hr)]. apply sum_ext.
          intros q Hq. rewrite nth_tabulate by assumption.
          now rewrite entry_at, transpose_at by assumption.
    - exists (map x (seq 0 n)).
      split; [now rewrite map_length, seq_length|]. split; [|split].
      + intros y Hy. apply in_map_iff in Hy as (q & <- & _). apply X1.
      + exists (x c). split; [|rewrite X2; discriminate]. apply in_map. apply in_seq. lia.
      + intros row Hr. rewrite dot_sum. etransitivity; [|exact (X3 row Hr)]. apply sum_ext.
        intros q Hq. rewrite nth_tabulate by assumption.
        now rewrite entry_at, transpose_at by assumption. }
  assert (Inv : (forall k, invert f n mat inv <> Ok (inl k)) \/ exists k, invert f n mat inv = Ok (inl k)).
  { destruct (invert f n mat inv) as [[k|]| |]; [right; now exists k|left|left|left];
      intros k H; discriminate. }
  split; split.
  - intros [k E]. now apply (Ker k).
  - intros [x Hx]. destruct Inv as [H|H]; [|exact H].
    destruct (Fail mat inv Hm Hv H) as (b & B1 & B2 & B3).
    now apply (invertible_no_kernel f n mat b x) in Hx.
  - intros [k E] (b & B1 & B2). destruct (Ker k E) as [x Hx].
    now apply (invertible_no_kernel f n mat b x) in Hx.
  - intros H. destruct Inv as [H'|H']; [|exact H'].
    destruct (Fail mat inv Hm Hv H') as (b & B1 & B2 & B3). exfalso. apply H. eauto.
Qed.
Print Assumptions C16_fails_iff_singular.

Theorem C16_blames_last :
  forall f n mat inv k, n <> 0%nat -> is_matrix f n mat -> length inv = (n * n)%nat ->
  invert f n mat inv = Ok (inl k) -> S k = n.
Proof.
  intros f n mat inv k Hn Hm Hv E. destruct (is_matrix_elts f n mat Hm) as [Wm Em].
  destruct (invert_spec f n mat inv Hn Wm Hv Em) as [(m' & v' & E' & _)|(E' & _)].
  - rewrite E' in E. discriminate.
  - rewrite E' in E. injection E as <-. lia.
Qed.
Print Assumptions C16_blames_last.

(** The first two columns are equal; the index blames the third. *)
Definition singular : list N := [1; 2; 3;  1; 2; 3;  7; 1; 1].

Example C16_hyps : is_matrix W8 3 singular /\ invert W8 3 singular (repeat 0 9) = Ok (inl 2%nat).
Proof.
  split; [|vm_compute; reflexivity].
  split; [reflexivity|]. intros x Hx. cbn in Hx.
  repeat destruct Hx as [<-|Hx]; try reflexivity. contradiction.
Qed.
