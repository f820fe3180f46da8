(** * Facts about matrix inversion *)
From Coq Require Import NArith List Bool Lia Arith.
From Verif Require Import Outcome GF GFProofs GFField GFRegion Linear Matrix.
Import ListNotations.
Open Scope N_scope.

(** ** Loops *)

Lemma loop_inv {S} (P : nat -> S -> Prop) (body : nat -> S -> outcome S) n k s :
  P k s ->
  (forall t s, (k <= t < k + n)%nat -> P t s -> exists s', body t s = Ok s' /\ P (Datatypes.S t) s') ->
  exists s', loop (seq k n) body s = Ok s' /\ P (k + n)%nat s'.
Proof.
  revert k s. induction n as [|n IH]; intros k s H0 H.
  - exists s. split; [reflexivity|]. now rewrite Nat.add_0_r.
  - cbn [seq loop]. destruct (H k s) as (s1 & E1 & P1); [lia|assumption|].
    rewrite E1. cbn [bind]. destruct (IH (Datatypes.S k) s1 P1) as (s2 & E2 & P2).
    + intros t u Ht. apply H. lia.
    + exists s2. split; [assumption|]. now replace (k + Datatypes.S n)%nat
        with (Datatypes.S k + n)%nat by lia.
Qed.

(** The same for a loop that runs downwards. *)
Lemma loop_rev_inv {S} (P : nat -> S -> Prop) (body : nat -> S -> outcome S) n s :
  P n s ->
  (forall t s, (t < n)%nat -> P (Datatypes.S t) s -> exists s', body t s = Ok s' /\ P t s') ->
  exists s', loop (rev (seq 0 n)) body s = Ok s' /\ P 0%nat s'.
Proof.
  revert s. induction n as [|n IH]; intros s H0 H.
  - exists s. split; [reflexivity|assumption].
  - rewrite seq_S, rev_app_distr. cbn [rev app plus loop].
    destruct (H n s) as (s1 & E1 & P1); [lia|assumption|]. rewrite E1. cbn [bind].
    apply IH; [assumption|]. intros t u Ht. apply H. lia.
Qed.

(** ** Storage *)

Definition wfm (n : nat) (v : list N) : Prop := length v = (n * n)%nat.

Definition at_ (n : nat) (v : list N) (a b : nat) : N := nth (a * n + b) v 0.

Lemma flat_lt n a b : (a < n)%nat -> (b < n)%nat -> (a * n + b < n * n)%nat.
Proof. intros Ha Hb. nia. Qed.

Lemma flat_inj n a b c d : (b < n)%nat -> (d < n)%nat ->
  (a * n + b = c * n + d)%nat -> a = c /\ b = d.
Proof. intros Hb Hd H. assert (a = c) by nia. subst. lia. Qed.

Lemma get_at n v a b : wfm n v -> (a < n)%nat -> (b < n)%nat ->
  get v (a * n + b) = Ok (at_ n v a b).
Proof.
  intros Hv Ha Hb. unfold get, at_. pose proof (flat_lt n a b Ha Hb) as H.
  rewrite <- Hv in H. rewrite (nth_error_nth' v 0 H). reflexivity.
Qed.

Lemma upd_length v k x : length (upd v k x) = length v.
Proof. revert k. induction v as [|y v IH]; intros [|k]; simpl; auto. Qed.

Lemma upd_nth v k x i : (k < length v)%nat ->
  nth i (upd v k x) 0 = if Nat.eqb i k then x else nth i v 0.
Proof.
  revert k i. induction v as [|y v IH]; intros [|k] [|i] H; simpl in *; try lia; auto.
  apply IH. lia.
Qed.

Lemma set_at n v a b x : wfm n v -> (a < n)%nat -> (b < n)%nat ->
  exists v', set v (a * n + b) x = Ok v' /\ wfm n v'
  /\ forall c d, (c < n)%nat -> (d < n)%nat ->
     at_ n v' c d = if Nat.eqb c a && Nat.eqb d b then x else at_ n v c d.
Proof.
  intros Hv Ha Hb. pose proof (flat_lt n a b Ha Hb) as H.
  unfold set. rewrite Hv. destruct (Nat.ltb_spec (a * n + b) (n * n)); [|lia].
  exists (upd v (a * n + b) x). split; [reflexivity|]. split.
  - unfold wfm. now rewrite upd_length.
  - intros c d Hc Hd. unfold at_. rewrite upd_nth by (rewrite Hv; assumption).
    destruct (Nat.eqb_spec (c * n + d) (a * n + b)) as [E|E].
    + apply flat_inj in E as [-> ->]; try assumption. now rewrite !Nat.eqb_refl.
    + destruct (Nat.eqb_spec c a) as [->|]; [|reflexivity].
      destruct (Nat.eqb_spec d b) as [->|]; [congruence|reflexivity].
Qed.

Ltac bdestr :=
  repeat match goal with
         | |- context [Nat.eqb ?a ?b] => destruct (Nat.eqb_spec a b); subst
         | |- context [Nat.ltb ?a ?b] => destruct (Nat.ltb_spec a b)
         end; cbn [andb orb negb] in *.

Lemma set_identity_spec n v : wfm n v ->
  exists v', set_identity n v = Ok v' /\ wfm n v'
  /\ forall a b, (a < n)%nat -> (b < n)%nat -> at_ n v' a b = if Nat.eqb a b then 1 else 0.
Proof.
  intros Hv. unfold set_identity.
  destruct (loop_inv (fun t v => wfm n v /\ forall a b, (a < n)%nat -> (b < t)%nat -> (b < n)%nat ->
              at_ n v a b = if Nat.eqb a b then 1 else 0)
           (fun i inv => loop (seq 0 n) (fun j inv =>
              set inv (index n i j) (if Nat.eqb i j then 1 else 0)) inv) n 0%nat v)
    as (v' & E & W & H).
  - split; [assumption|]. intros; lia.
  - intros i u Hi [Wu Hu].
    destruct (loop_inv (fun t w => wfm n w /\ (forall a b, (a < n)%nat -> (b < n)%nat ->
              at_ n w a b = if Nat.ltb a t && Nat.eqb b i then (if Nat.eqb i a then 1 else 0)
                            else at_ n u a b))
           (fun j inv => set inv (index n i j) (if Nat.eqb i j then 1 else 0)) n 0%nat u)
      as (w & E & W & H).
    + split; [assumption|]. intros a b Ha Hb. reflexivity.
    + intros t w Ht [Ww Hw]. unfold index.
      destruct (set_at n w t i (if Nat.eqb i t then 1 else 0)) as (w' & E' & W' & H'); try lia; try assumption.
      exists w'. split; [assumption|]. split; [assumption|].
      intros a b Ha Hb. rewrite H', Hw by assumption.
      bdestr; try reflexivity; try lia.
    + exists w. split; [assumption|]. split; [assumption|]. intros a b Ha Hb Hb'.
      rewrite H by lia.
      destruct (Nat.ltb_spec a (0 + n)); [|lia]. cbn [andb].
      destruct (Nat.eqb_spec b i) as [->|].
      * now rewrite Nat.eqb_sym.
      * apply Hu; lia.
  - exists v'. split; [assumption|]. split; [assumption|]. intros a b Ha Hb. apply H; lia.
Qed.

Lemma swap_rows_spec n i j v : wfm n v -> (i < n)%nat -> (j < n)%nat -> i <> j ->
  exists v', swap_rows n i j v = Ok v' /\ wfm n v'
  /\ forall a b, (a < n)%nat -> (b < n)%nat ->
     at_ n v' a b = if Nat.eqb a i then at_ n v j b
                    else if Nat.eqb a j then at_ n v i b else at_ n v a b.
Proof.
  intros Hv Hi Hj Hij. unfold swap_rows.
  destruct (loop_inv (fun t w => wfm n w /\ (forall a b, (a < n)%nat -> (b < n)%nat ->
      at_ n w a b = if Nat.ltb b t then
                      (if Nat.eqb a i then at_ n v j b
                       else if Nat.eqb a j then at_ n v i b else at_ n v a b)
                    else at_ n v a b))
     (fun k v => tmp <- get v (i * n + k) ;; x <- get v (j * n + k) ;;
                 v <- set v (i * n + k) x ;; set v (j * n + k) tmp) n 0%nat v)
    as (v' & E & W & H).
  - split; [assumption|]. intros; reflexivity.
  - intros t w Ht [Ww Hw].
    rewrite !get_at by (assumption || lia). cbn [bind].
    destruct (set_at n w i t (at_ n w j t)) as (w1 & E1 & W1 & H1); try (assumption || lia).
    rewrite E1. cbn [bind].
    destruct (set_at n w1 j t (at_ n w i t)) as (w2 & E2 & W2 & H2); try (assumption || lia).
    exists w2. split; [assumption|]. split; [assumption|]. intros a b Ha Hb.
    rewrite H2, H1, !Hw by (assumption || lia).
    bdestr; try reflexivity; lia.
  - exists v'. split; [assumption|]. split; [assumption|]. intros a b Ha Hb.
    rewrite H by assumption. destruct (Nat.ltb_spec b (0 + n)); [reflexivity|lia].
Qed.

Lemma scale_row_spec f n i c v : wfm n v -> (i < n)%nat ->
  exists v', scale_row f n i c v = Ok v' /\ wfm n v'
  /\ forall a b, (a < n)%nat -> (b < n)%nat ->
     at_ n v' a b = if Nat.eqb a i then gmul f (at_ n v i b) c else at_ n v a b.
Proof.
  intros Hv Hi. unfold scale_row.
  destruct (loop_inv (fun t w => wfm n w /\ (forall a b, (a < n)%nat -> (b < n)%nat ->
      at_ n w a b = if Nat.ltb b t && Nat.eqb a i then gmul f (at_ n v i b) c
                    else at_ n v a b))
     (fun j v => x <- get v (i * n + j) ;; set v (i * n + j) (gf_multiply f x c)) n 0%nat v)
    as (v' & E & W & H).
  - split; [assumption|]. intros; reflexivity.
  - intros t w Ht [Ww Hw].
    rewrite !get_at by (assumption || lia). cbn [bind].
    destruct (set_at n w i t (gf_multiply f (at_ n w i t) c)) as (w1 & E1 & W1 & H1);
      try (assumption || lia).
    exists w1. split; [assumption|]. split; [assumption|]. intros a b Ha Hb.
    rewrite H1, gf_multiply_gmul, !Hw by (assumption || lia).
    bdestr; try reflexivity; lia.
  - exists v'. split; [assumption|]. split; [assumption|]. intros a b Ha Hb.
    rewrite H by assumption. destruct (Nat.ltb_spec b (0 + n)); [reflexivity|lia].
Qed.

Lemma add_row_spec f n i j c v : wfm n v -> (i < n)%nat -> (j < n)%nat -> i <> j ->
  exists v', add_row f n i j c v = Ok v' /\ wfm n v'
  /\ forall a b, (a < n)%nat -> (b < n)%nat ->
     at_ n v' a b = if Nat.eqb a j then N.lxor (at_ n v j b) (gmul f c (at_ n v i b))
                    else at_ n v a b.
Proof.
  intros Hv Hi Hj Hij. unfold add_row.
  destruct (loop_inv (fun t w => wfm n w /\ (forall a b, (a < n)%nat -> (b < n)%nat ->
      at_ n w a b = if Nat.ltb b t && Nat.eqb a j
                    then N.lxor (at_ n v j b) (gmul f c (at_ n v i b))
                    else at_ n v a b))
     (fun x v => a <- get v (n * j + x) ;; b <- get v (i * n + x) ;;
                 set v (n * j + x) (N.lxor a (gf_multiply f c b))) n 0%nat v)
    as (v' & E & W & H).
  - split; [assumption|]. intros; reflexivity.
  - intros t w Ht [Ww Hw]. rewrite (Nat.mul_comm n j).
    rewrite !get_at by (assumption || lia). cbn [bind].
    destruct (set_at n w j t (N.lxor (at_ n w j t) (gf_multiply f c (at_ n w i t))))
      as (w1 & E1 & W1 & H1); try (assumption || lia).
    exists w1. split; [assumption|]. split; [assumption|]. intros a b Ha Hb.
    rewrite H1, gf_multiply_gmul, !Hw by (assumption || lia).
    bdestr; try reflexivity; lia.
  - exists v'. split; [assumption|]. split; [assumption|]. intros a b Ha Hb.
    rewrite H by assumption. destruct (Nat.ltb_spec b (0 + n)); [reflexivity|lia].
Qed.

Lemma xor_row_spec n i j v : wfm n v -> (i < n)%nat -> (j < n)%nat -> i <> j ->
  exists v', xor_row n i j v = Ok v' /\ wfm n v'
  /\ forall a b, (a < n)%nat -> (b < n)%nat ->
     at_ n v' a b = if Nat.eqb a j then N.lxor (at_ n v j b) (at_ n v i b)
                    else at_ n v a b.
Proof.
  intros Hv Hi Hj Hij. unfold xor_row.
  destruct (loop_inv (fun t w => wfm n w /\ (forall a b, (a < n)%nat -> (b < n)%nat ->
      at_ n w a b = if Nat.ltb b t && Nat.eqb a j
                    then N.lxor (at_ n v j b) (at_ n v i b)
                    else at_ n v a b))
     (fun x v => a <- get v (n * j + x) ;; b <- get v (i * n + x) ;;
                 set v (n * j + x) (N.lxor a b)) n 0%nat v)
    as (v' & E & W & H).
  - split; [assumption|]. intros; reflexivity.
  - intros t w Ht [Ww Hw]. rewrite (Nat.mul_comm n j).
    rewrite !get_at by (assumption || lia). cbn [bind].
    destruct (set_at n w j t (N.lxor (at_ n w j t) (at_ n w i t)))
      as (w1 & E1 & W1 & H1); try (assumption || lia).
    exists w1. split; [assumption|]. split; [assumption|]. intros a b Ha Hb.
    rewrite H1, !Hw by (assumption || lia).
    bdestr; try reflexivity; lia.
  - exists v'. split; [assumption|]. split; [assumption|]. intros a b Ha Hb.
    rewrite H by assumption. destruct (Nat.ltb_spec b (0 + n)); [reflexivity|lia].
Qed.

Lemma find_row_spec n i v k j : wfm n v -> (i < n)%nat -> (j + k = n)%nat ->
  exists r, find_row n i v k j = Ok r /\ (j <= r <= n)%nat
  /\ (forall a, (j <= a < r)%nat -> at_ n v a i = 0)
  /\ ((r < n)%nat -> at_ n v r i <> 0).
Proof.
  intros Hv Hi. revert j. induction k as [|k IH]; intros j Hk; cbn [find_row].
  - exists j. repeat split; intros; lia.
  - rewrite (Nat.mul_comm n j), get_at by (assumption || lia). cbn [bind].
    destruct (N.eqb_spec (at_ n v j i) 0) as [E|E].
    + destruct (IH (S j)) as (r & E1 & H1 & H2 & H3); [lia|].
      exists r. repeat split; try assumption; try lia.
      intros a Ha. destruct (Nat.eq_dec a j) as [->|]; [assumption|]. apply H2. lia.
    + exists j. repeat split; try lia.
Qed.

(** ** Row operations on views *)

Section Inversion.
Variable f : field.
Variable n : nat.

(** A matrix, seen as a function of the two indices below [n]. *)
Definition view : Type := nat -> nat -> N.

Definition eqm (A B : view) : Prop := forall a b, (a < n)%nat -> (b < n)%nat -> A a b = B a b.

Definition eltm (A : view) : Prop := forall a b, (a < n)%nat -> (b < n)%nat -> elt f (A a b).

Definition sum (g : nat -> N) : N := xsum g (seq 0 n).

Definition mm (A B : view) : view := fun a b => sum (fun k => gmul f (A a k) (B k b)).

Definition mv (A : view) (x : nat -> N) (a : nat) : N := sum (fun k => gmul f (A a k) (x k)).

Definition one : view := fun a b => if Nat.eqb a b then 1 else 0.

Lemma sum_ext g h : (forall k, (k < n)%nat -> g k = h k) -> sum g = sum h.
Proof. intros H. apply xsum_ext. intros k Hk. apply H. apply in_seq in Hk. lia. Qed.

Lemma sum_single g i : (i < n)%nat -> (forall k, (k < n)%nat -> k <> i -> g k = 0) -> sum g = g i.
Proof.
  intros Hi H. apply xsum_single.
  - apply seq_NoDup.
  - apply in_seq. lia.
  - intros k Hk Hne. apply H; [|assumption]. apply in_seq in Hk. lia.
Qed.

Lemma sum_elt g : (forall k, (k < n)%nat -> elt f (g k)) -> elt f (sum g).
Proof. intros H. apply xsum_below. intros k Hk. apply H. apply in_seq in Hk. lia. Qed.

Lemma sum_0 g : (forall k, (k < n)%nat -> g k = 0) -> sum g = 0.
Proof. intros H. rewrite (sum_ext g (fun _ => 0)) by assumption. apply xsum_0. Qed.

Lemma mv_assoc A B x a : eltm A -> (a < n)%nat ->
  mv (mm A B) x a = mv A (mv B x) a.
Proof.
  intros HA Ha. unfold mv, mm, sum.
  rewrite (xsum_ext _ (fun k => xsum (fun j => gmul f (A a j) (gmul f (B j k) (x k))) (seq 0 n))).
  - rewrite xsum_swap. apply xsum_ext. intros j _. now rewrite gmul_xsum_r.
  - intros k _. rewrite gmul_xsum_l. apply xsum_ext. intros j Hj. apply in_seq in Hj.
    symmetry. apply gmul_assoc. apply HA; lia.
Qed.

Lemma mv_one x a : (a < n)%nat -> (forall k, elt f (x k)) -> mv one x a = x a.
Proof.
  intros Ha Hx. unfold mv. rewrite (sum_single _ a); [|assumption|].
  - unfold one. rewrite Nat.eqb_refl. now apply gmul_1_l.
  - intros k _ Hk. unfold one. destruct (Nat.eqb_spec a k); [congruence|]. apply gmul_0_l.
Qed.

Lemma mv_ext A B x y a : (a < n)%nat -> eqm A B -> (forall k, (k < n)%nat -> x k = y k) ->
  mv A x a = mv B y a.
Proof. intros Ha H Hx. apply sum_ext. intros k Hk. now rewrite H, Hx. Qed.

Lemma mv_lxor A x y a : mv A (fun k => N.lxor (x k) (y k)) a = N.lxor (mv A x a) (mv A y a).
Proof.
  unfold mv, sum. rewrite <- xsum_lxor. apply xsum_ext. intros k _. apply gmul_lxor_r.
Qed.

(** No non-zero vector is mapped to zero. *)
Definition injective (A : view) : Prop :=
  forall x, (forall k, (k < n)%nat -> elt f (x k)) -> (forall a, (a < n)%nat -> mv A x a = 0) ->
  forall k, (k < n)%nat -> x k = 0.

(** What row operations preserve. *)
Record tracked (M0 M V : view) : Prop := {
  t_M : eltm M;
  t_V : eltm V;
  t_prod : eqm (mm V M0) M;
  t_inj : injective V
}.

Lemma tracked_swap M0 M V M' V' i j : tracked M0 M V -> (i < n)%nat -> (j < n)%nat ->
  eqm M' (fun a b => if Nat.eqb a i then M j b else if Nat.eqb a j then M i b else M a b) ->
  eqm V' (fun a b => if Nat.eqb a i then V j b else if Nat.eqb a j then V i b else V a b) ->
  tracked M0 M' V'.
Proof.
  intros [HM HV HP HI] Hi Hj EM EV. split.
  - intros a b Ha Hb. rewrite EM by assumption. bdestr; auto.
  - intros a b Ha Hb. rewrite EV by assumption. bdestr; auto.
  - intros a b Ha Hb. rewrite EM by assumption. unfold mm.
    rewrite (sum_ext _ (fun k => gmul f (if Nat.eqb a i then V j k
               else if Nat.eqb a j then V i k else V a k) (M0 k b)))
      by (intros k Hk; now rewrite EV).
    bdestr; now apply HP.
  - intros x Hx H. apply HI; [assumption|]. intros a Ha.
    assert (K : forall c, (c < n)%nat ->
       mv (fun a b => if Nat.eqb a i then V j b else if Nat.eqb a j then V i b else V a b) x c = 0).
    { intros c Hc. rewrite <- (H c Hc). apply mv_ext; auto. intros p q Hp Hq. symmetry.
      now apply EV. }
    destruct (Nat.eq_dec a i) as [->|Hai].
    + destruct (Nat.eq_dec i j) as [->|Hij].
      * specialize (K j Hj). unfold mv in *. now rewrite Nat.eqb_refl in K.
      * specialize (K j Hj). unfold mv in *.
        destruct (Nat.eqb_spec j i); [congruence|]. now rewrite Nat.eqb_refl in K.
    + destruct (Nat.eq_dec a j) as [->|Haj].
      * specialize (K i Hi). unfold mv in *. now rewrite Nat.eqb_refl in K.
      * specialize (K a Ha). unfold mv in *.
        destruct (Nat.eqb_spec a i); [congruence|]. destruct (Nat.eqb_spec a j); [congruence|].
        assumption.
Qed.

Lemma mul_shuffle a b c : elt f a -> elt f b -> elt f c ->
  gmul f (gmul f a c) b = gmul f c (gmul f a b).
Proof.
  intros Ha Hb Hc. rewrite (gmul_comm a c) by assumption. symmetry. now apply gmul_assoc.
Qed.

Lemma tracked_scale M0 M V M' V' i c : eltm M0 -> tracked M0 M V -> (i < n)%nat ->
  elt f c -> c <> 0 ->
  eqm M' (fun a b => if Nat.eqb a i then gmul f (M i b) c else M a b) ->
  eqm V' (fun a b => if Nat.eqb a i then gmul f (V i b) c else V a b) ->
  tracked M0 M' V'.
Proof.
  intros H0 [HM HV HP HI] Hi Hc Hz EM EV. split.
  - intros a b Ha Hb. rewrite EM by assumption. bdestr; auto using gmul_elt.
  - intros a b Ha Hb. rewrite EV by assumption. bdestr; auto using gmul_elt.
  - intros a b Ha Hb. rewrite EM by assumption. unfold mm.
    rewrite (sum_ext _ (fun k => gmul f (if Nat.eqb a i then gmul f (V i k) c else V a k) (M0 k b)))
      by (intros k Hk; now rewrite EV).
    destruct (Nat.eqb_spec a i) as [->|]; [|now apply HP].
    rewrite gmul_comm by auto. rewrite <- (HP i b) by assumption. unfold mm, sum.
    rewrite gmul_xsum_r. apply xsum_ext. intros k Hk. apply in_seq in Hk.
    apply mul_shuffle; auto; [apply HV|apply H0]; lia.
  - intros x Hx H. apply HI; [assumption|]. intros a Ha.
    specialize (H a Ha). unfold mv in H.
    rewrite (sum_ext _ (fun k => gmul f (if Nat.eqb a i then gmul f (V i k) c else V a k) (x k)))
      in H by (intros k Hk; now rewrite EV).
    destruct (Nat.eqb_spec a i) as [E|E]; [|exact H]. rewrite E in *. clear E Ha a.
    rewrite (sum_ext _ (fun k => gmul f c (gmul f (V i k) (x k)))) in H
      by (intros k Hk; apply mul_shuffle; auto).
    unfold sum in H. rewrite <- gmul_xsum_r in H. apply gmul_zero_divisor in H; auto.
    + destruct H; [contradiction|assumption].
    + apply sum_elt. intros k Hk. apply gmul_elt. now apply HV.
Qed.

Lemma tracked_add M0 M V M' V' i j c : tracked M0 M V -> (i < n)%nat -> (j < n)%nat -> i <> j ->
  elt f c ->
  eqm M' (fun a b => if Nat.eqb a j then N.lxor (M j b) (gmul f c (M i b)) else M a b) ->
  eqm V' (fun a b => if Nat.eqb a j then N.lxor (V j b) (gmul f c (V i b)) else V a b) ->
  tracked M0 M' V'.
Proof.
  intros [HM HV HP HI] Hi Hj Hij Hc EM EV. split.
  - intros a b Ha Hb. rewrite EM by assumption. bdestr; auto using gmul_elt, elt_lxor.
  - intros a b Ha Hb. rewrite EV by assumption. bdestr; auto using gmul_elt, elt_lxor.
  - intros a b Ha Hb. rewrite EM by assumption. unfold mm.
    rewrite (sum_ext _ (fun k => gmul f (if Nat.eqb a j then N.lxor (V j k) (gmul f c (V i k))
                                         else V a k) (M0 k b)))
      by (intros k Hk; now rewrite EV).
    destruct (Nat.eqb_spec a j) as [->|]; [|now apply HP].
    rewrite <- (HP j b), <- (HP i b) by assumption. unfold mm, sum.
    rewrite gmul_xsum_r, <- xsum_lxor. apply xsum_ext. intros k Hk.
    rewrite gmul_lxor_l. f_equal. symmetry. now apply gmul_assoc.
  - intros x Hx H. apply HI; [assumption|]. intros a Ha.
    assert (K : forall r, (r < n)%nat -> r <> j -> mv V x r = 0).
    { intros r Hr Hrj. rewrite <- (H r Hr). apply sum_ext. intros k Hk.
      rewrite EV by assumption. destruct (Nat.eqb_spec r j); [congruence|reflexivity]. }
    destruct (Nat.eq_dec a j) as [->|Haj]; [|now apply K].
    specialize (H j Hj). unfold mv in H.
    rewrite (sum_ext _ (fun k => N.lxor (gmul f (V j k) (x k)) (gmul f c (gmul f (V i k) (x k)))))
      in H.
    + unfold sum in H. rewrite xsum_lxor, <- gmul_xsum_r in H.
      specialize (K i Hi Hij). unfold mv, sum in K. rewrite K, gmul_0_r, N.lxor_0_r in H.
      exact H.
    + intros k Hk. rewrite EV, Nat.eqb_refl by assumption. rewrite gmul_lxor_l. f_equal.
      symmetry. now apply gmul_assoc.
Qed.

(** The shape of a partly triangulated matrix. *)
Definition shape (t : nat) (M : view) : Prop :=
  (forall a b, (a < n)%nat -> (b < t)%nat -> (b < a)%nat -> M a b = 0)
  /\ (forall a, (a < t)%nat -> M a a = 1).

(** The invariant on the stored matrices. *)
Definition good (M0 : view) (mv : list N * list N) : Prop :=
  wfm n (fst mv) /\ wfm n (snd mv) /\ tracked M0 (at_ n (fst mv)) (at_ n (snd mv)).

(** A unit upper triangular block followed by a zero column has a kernel. *)
Lemma kernel_vector (M : view) i : eltm M -> (i < n)%nat -> shape i M ->
  (forall a, (i <= a < n)%nat -> M a i = 0) ->
  exists x, (forall k, elt f (x k)) /\ x i = 1 /\ forall a, (a < n)%nat -> mv M x a = 0.
Proof.
  intros HM Hi [S1 S2] Hz.
  (* solve the rows from i-1 down to 0 *)
  assert (G : forall t, (t <= i)%nat -> exists x, (forall k, elt f (x k)) /\ x i = 1
             /\ (forall k, (i < k)%nat -> x k = 0)
             /\ (forall k, (k < i - t)%nat -> x k = 0)
             /\ forall a, (i - t <= a < n)%nat -> mv M x a = 0).
  { induction t as [|t IH]; intros Ht.
    - exists (fun k => if Nat.eqb k i then 1 else 0). repeat split.
      + intros k. destruct (Nat.eqb k i); [apply elt_1|apply elt_0].
      + now rewrite Nat.eqb_refl.
      + intros k Hk. destruct (Nat.eqb_spec k i); [lia|reflexivity].
      + intros k Hk. destruct (Nat.eqb_spec k i); [lia|reflexivity].
      + intros a Ha. apply sum_0. intros k Hk. destruct (Nat.eqb_spec k i) as [->|].
        * rewrite Hz by lia. apply gmul_0_l.
        * apply gmul_0_r.
    - destruct IH as (x & X1 & X2 & X3 & X4 & X5); [lia|].
      set (r := (i - S t)%nat).
      exists (fun k => if Nat.eqb k r then mv M x r else x k).
      assert (Hr : (r < n)%nat) by lia.
      assert (Er : elt f (mv M x r)).
      { apply sum_elt. intros k Hk. apply gmul_elt. now apply HM. }
      repeat split.
      + intros k. destruct (Nat.eqb k r); auto.
      + destruct (Nat.eqb_spec i r); [lia|assumption].
      + intros k Hk. destruct (Nat.eqb_spec k r); [lia|auto].
      + intros k Hk. destruct (Nat.eqb_spec k r); [lia|]. apply X4. lia.
      + intros a Ha.
        set (d := fun k => if Nat.eqb k r then mv M x r else 0).
        assert (E : mv M (fun k => if Nat.eqb k r then mv M x r else x k) a
                    = N.lxor (mv M x a) (mv M d a)).
        { rewrite <- mv_lxor. apply sum_ext. intros k Hk. f_equal. unfold d.
          destruct (Nat.eqb_spec k r) as [->|]; [|now rewrite N.lxor_0_r].
          rewrite X4 by lia. now rewrite N.lxor_0_l. }
        rewrite E. unfold mv at 2. rewrite (sum_single _ r); [|assumption|].
        * unfold d. rewrite Nat.eqb_refl. destruct (Nat.eq_dec a r) as [->|Har].
          -- rewrite S2 by lia. rewrite gmul_1_l by assumption. apply N.lxor_nilpotent.
          -- rewrite S1 by lia. rewrite gmul_0_l, N.lxor_0_r. apply X5. lia.
        * intros k _ Hk. unfold d. destruct (Nat.eqb_spec k r); [congruence|]. apply gmul_0_r. }
  destruct (G i (le_n i)) as (x & X1 & X2 & _ & _ & X5).
  exists x. repeat split; try assumption. intros a Ha. apply X5. lia.
Qed.

Lemma eliminate_spec M0 i mv0 : (i < n)%nat -> good M0 mv0 -> shape i (at_ n (fst mv0)) ->
  at_ n (fst mv0) i i = 1 ->
  exists mv1, eliminate f n i mv0 = Ok mv1 /\ good M0 mv1 /\ shape (S i) (at_ n (fst mv1)).
Proof.
  intros Hi HG HS Hone. unfold eliminate.
  destruct (loop_inv (fun t mv => good M0 mv /\ shape i (at_ n (fst mv))
       /\ at_ n (fst mv) i i = 1
       /\ forall a, (i < a < t)%nat -> (a < n)%nat -> at_ n (fst mv) a i = 0)
     (fun j mv =>
    let '(mat, inv) := mv in
    x <- get mat (i * n + i + (j - i) * n) ;;
    if x =? 0 then Ok (mat, inv)
    else if x =? 1 then
      mat <- xor_row n i j mat ;;
      inv <- xor_row n i j inv ;;
      Ok (mat, inv)
    else
      mat <- add_row f n i j x mat ;;
      inv <- add_row f n i j x inv ;;
      Ok (mat, inv)) (n - S i) (S i) mv0) as (mv1 & E & HG1 & HS1 & H1 & Hz).
  - split; [exact HG|]. split; [exact HS|]. split; [exact Hone|]. intros; lia.
  - intros j [mat inv] Hj (HG1 & HS1 & H1 & Hz). cbn [fst snd] in *.
    destruct HG1 as (W1 & W2 & T). cbn [fst snd] in *.
    replace (i * n + i + (j - i) * n)%nat with (j * n + i)%nat
      by (rewrite Nat.mul_sub_distr_r; assert (i * n <= j * n)%nat by (apply Nat.mul_le_mono_r; lia); lia).
    rewrite get_at by (assumption || lia). cbn [bind].
    assert (Hc : elt f (at_ n mat j i)) by (apply (t_M _ _ _ T); lia).
    assert (Shape : forall M', eqm M' (fun a b => if Nat.eqb a j
              then N.lxor (at_ n mat j b) (gmul f (at_ n mat j i) (at_ n mat i b))
              else at_ n mat a b) ->
              shape i M' /\ M' i i = 1
              /\ forall a, (i < a < S j)%nat -> (a < n)%nat -> M' a i = 0).
    { intros M' EM. destruct HS1 as [S1 S2]. repeat split.
      - intros a b Ha Hb Hba. rewrite EM by lia. destruct (Nat.eqb_spec a j) as [->|].
        + rewrite (S1 j b), (S1 i b) by lia. now rewrite gmul_0_r.
        + apply S1; lia.
      - intros a Ha. rewrite EM by lia. destruct (Nat.eqb_spec a j); [lia|]. apply S2. lia.
      - rewrite EM by lia. destruct (Nat.eqb_spec i j); [lia|assumption].
      - intros a Ha Han. rewrite EM by lia. destruct (Nat.eqb_spec a j) as [->|].
        + rewrite H1, gmul_1_r. apply N.lxor_nilpotent.
        + apply Hz; lia. }
    destruct (N.eqb_spec (at_ n mat j i) 0) as [E0|E0].
    { exists (mat, inv). split; [reflexivity|].
      split; [split; [|split]; assumption|]. split; [exact HS1|]. split; [exact H1|].
      intros a Ha Han.
      destruct (Nat.eq_dec a j) as [->|]; [assumption|]. apply Hz; lia. }
    destruct (N.eqb_spec (at_ n mat j i) 1) as [E1|E1].
    + destruct (xor_row_spec n i j mat) as (mat' & A1 & A2 & A3); try (assumption || lia).
      rewrite A1. cbn [bind].
      destruct (xor_row_spec n i j inv) as (inv' & B1 & B2 & B3); try (assumption || lia).
      rewrite B1. cbn [bind]. eexists. split; [reflexivity|]. cbn [fst snd].
      assert (EM : eqm (at_ n mat') (fun a b => if Nat.eqb a j
              then N.lxor (at_ n mat j b) (gmul f (at_ n mat j i) (at_ n mat i b))
              else at_ n mat a b)).
      { intros a b Ha Hb. rewrite A3 by assumption. rewrite E1.
        destruct (Nat.eqb a j); [|reflexivity]. f_equal. symmetry. apply gmul_1_l.
        apply (t_M _ _ _ T); lia. }
      split; [|now apply Shape]. split; [assumption|]. split; [assumption|].
      apply (tracked_add M0 (at_ n mat) (at_ n inv) _ _ i j (at_ n mat j i)); try (assumption || lia).
      intros a b Ha Hb. cbn [snd]. rewrite B3, E1 by assumption.
      destruct (Nat.eqb a j); [|reflexivity]. f_equal. symmetry. apply gmul_1_l.
      apply (t_V _ _ _ T); lia.
    + destruct (add_row_spec f n i j (at_ n mat j i) mat) as (mat' & A1 & A2 & A3);
        try (assumption || lia).
      rewrite A1. cbn [bind].
      destruct (add_row_spec f n i j (at_ n mat j i) inv) as (inv' & B1 & B2 & B3);
        try (assumption || lia).
      rewrite B1. cbn [bind]. eexists. split; [reflexivity|]. cbn [fst snd].
      split; [|apply Shape; exact A3]. split; [assumption|]. split; [assumption|].
      apply (tracked_add M0 (at_ n mat) (at_ n inv) _ _ i j (at_ n mat j i)); try (assumption || lia).
  - exists mv1. split; [assumption|]. split; [assumption|].
    destruct HS1 as [S1 S2]. split.
    + intros a b Ha Hb Hba. destruct (Nat.eq_dec b i) as [->|].
      * apply Hz; lia.
      * apply S1; lia.
    + intros a Ha. destruct (Nat.eq_dec a i) as [->|]; [assumption|]. apply S2. lia.
Qed.

Lemma pivot_spec M0 i mv0 : (i < n)%nat -> eltm M0 -> good M0 mv0 -> shape i (at_ n (fst mv0)) ->
  (exists mv1, pivot f n i mv0 = Ok (inr mv1) /\ good M0 mv1 /\ shape (S i) (at_ n (fst mv1)))
  \/ (pivot f n i mv0 = Ok (inl (n - 1)%nat)
      /\ exists x, (forall k, elt f (x k)) /\ x i = 1 /\ forall a, (a < n)%nat -> mv M0 x a = 0).
Proof.
  intros Hi H0 HG HS. destruct mv0 as [mat inv]. destruct HG as (W1 & W2 & T).
  cbn [fst snd] in *. unfold pivot. rewrite get_at by assumption. cbn [bind].
  (* after the optional swap *)
  assert (Rest : forall mat inv, wfm n mat -> wfm n inv -> tracked M0 (at_ n mat) (at_ n inv) ->
     shape i (at_ n mat) -> at_ n mat i i <> 0 ->
     exists mv1, (tmp <- get mat (i * n + i) ;;
      mv <- (if tmp =? 1 then Ok (mat, inv)
             else
               let inverse := gf_invert f tmp in
               mat <- scale_row f n i inverse mat ;;
               inv <- scale_row f n i inverse inv ;;
               Ok (mat, inv)) ;;
      mv <- eliminate f n i mv ;;
      Ok (inr mv)) = Ok (inr mv1 : nat + _) /\ good M0 mv1 /\ shape (S i) (at_ n (fst mv1))).
  { clear mat inv W1 W2 T HS. intros mat inv W1 W2 T HS Hnz.
    rewrite get_at by assumption. cbn [bind].
    assert (He : elt f (at_ n mat i i)) by (apply (t_M _ _ _ T); assumption).
    destruct (N.eqb_spec (at_ n mat i i) 1) as [E1|E1].
    - cbn [bind]. destruct (eliminate_spec M0 i (mat, inv)) as (mv1 & A & B & C);
        try assumption; [split; [|split]; assumption|].
      exists mv1. rewrite A. cbn [bind]. split; [reflexivity|split; assumption].
    - cbv zeta. set (c := gf_invert f (at_ n mat i i)).
      assert (Hc : elt f c) by (apply ginv_elt; assumption).
      assert (Hcz : c <> 0) by (apply ginv_nonzero; assumption).
      destruct (scale_row_spec f n i c mat) as (mat' & A1 & A2 & A3); try assumption.
      rewrite A1. cbn [bind].
      destruct (scale_row_spec f n i c inv) as (inv' & B1 & B2 & B3); try assumption.
      rewrite B1. cbn [bind].
      destruct (eliminate_spec M0 i (mat', inv')) as (mv1 & A & B & C); try assumption.
      + split; [assumption|]. split; [assumption|]. cbn [fst snd].
        now apply (tracked_scale M0 (at_ n mat) (at_ n inv) _ _ i c).
      + cbn [fst]. destruct HS as [S1 S2]. split.
        * intros a b Ha Hb Hba. rewrite A3 by lia. destruct (Nat.eqb_spec a i) as [->|].
          -- rewrite S1 by lia. apply gmul_0_l.
          -- apply S1; lia.
        * intros a Ha. rewrite A3 by lia. destruct (Nat.eqb_spec a i); [lia|]. now apply S2.
      + cbn [fst]. rewrite A3, Nat.eqb_refl by assumption. apply ginv_r; assumption.
      + exists mv1. rewrite A. cbn [bind]. split; [reflexivity|split; assumption]. }
  destruct (N.eqb_spec (at_ n mat i i) 0) as [E0|E0].
  - destruct (find_row_spec n i mat (n - S i) (S i)) as (j & F1 & F2 & F3 & F4); try (assumption || lia).
    rewrite F1. cbn [bind]. destruct (Nat.eqb_spec j n) as [->|Hjn].
    + right. cbn [bind]. split; [reflexivity|].
      destruct (kernel_vector (at_ n mat) i) as (x & X1 & X2 & X3); try assumption.
      * apply T.
      * intros a Ha. destruct (Nat.eq_dec a i) as [->|]; [assumption|]. apply F3. lia.
      * exists x. split; [assumption|]. split; [assumption|].
        apply (fun H1 H2 => t_inj _ _ _ T (mv M0 x) H1 H2).
        -- intros k Hk. apply sum_elt. intros q Hq. apply gmul_elt. now apply H0.
        -- intros a Ha. rewrite <- mv_assoc by (assumption || apply T).
           rewrite <- (X3 a Ha). apply mv_ext; auto. apply T.
    + left.
      destruct (swap_rows_spec n i j mat) as (mat' & A1 & A2 & A3); try (assumption || lia).
      rewrite A1. cbn [bind].
      destruct (swap_rows_spec n i j inv) as (inv' & B1 & B2 & B3); try (assumption || lia).
      rewrite B1. cbn [bind]. apply Rest; try assumption.
      * apply (tracked_swap M0 (at_ n mat) (at_ n inv) _ _ i j); try (assumption || lia).
      * destruct HS as [S1 S2]. split.
        -- intros a b Ha Hb Hba. rewrite A3 by lia. bdestr; apply S1; lia.
        -- intros a Ha. rewrite A3 by lia.
           destruct (Nat.eqb_spec a i); [lia|]. destruct (Nat.eqb_spec a j); [lia|]. now apply S2.
      * rewrite A3, Nat.eqb_refl by assumption. apply F4. lia.
  - left. cbn [bind]. now apply Rest.
Qed.

Lemma triangulate_spec M0 k i mv0 : (i + k = n)%nat -> eltm M0 -> good M0 mv0 ->
  shape i (at_ n (fst mv0)) ->
  (exists mv1, triangulate f n (seq i k) mv0 = Ok (inr mv1) /\ good M0 mv1
               /\ shape n (at_ n (fst mv1)))
  \/ (triangulate f n (seq i k) mv0 = Ok (inl (n - 1)%nat)
      /\ exists c x, (c < n)%nat /\ (forall k, elt f (x k)) /\ x c = 1
                    /\ forall a, (a < n)%nat -> mv M0 x a = 0).
Proof.
  revert i mv0. induction k as [|k IH]; intros i mv0 Hk H0 HG HS.
  - left. exists mv0. cbn [seq triangulate]. rewrite Nat.add_0_r in Hk. subst i. auto.
  - cbn [seq triangulate]. destruct (pivot_spec M0 i mv0) as [(mv1 & A & B & C)|(A & x & B)];
      try (assumption || lia).
    + rewrite A. cbn [bind]. apply IH; try assumption. lia.
    + right. rewrite A. cbn [bind]. split; [reflexivity|]. exists i, x. split; [lia|assumption].
Qed.

Lemma back_substitute_spec M0 mv0 : n <> 0%nat -> good M0 mv0 -> shape n (at_ n (fst mv0)) ->
  exists mv1, back_substitute f n mv0 = Ok mv1 /\ good M0 mv1
              /\ eqm (at_ n (fst mv1)) one.
Proof.
  intros Hn HG HS. unfold back_substitute. destruct (Nat.eqb_spec n 0); [contradiction|].
  destruct (loop_rev_inv (fun t mv => good M0 mv /\ shape n (at_ n (fst mv))
       /\ forall a b, (a < n)%nat -> (b < n)%nat -> (t <= b)%nat -> at_ n (fst mv) a b = one a b)
     (fun i mv =>
    loop (seq 0 i) (fun j mv =>
      let '(mat, inv) := mv in
      tmp <- get mat (j * n + i) ;;
      if tmp =? 0 then Ok (mat, inv)
      else
        mat <- set mat (j * n + i) 0 ;;
        inv <- add_row f n i j tmp inv ;;
        Ok (mat, inv)) mv) n mv0) as (mv1 & E & HG1 & HS1 & H1).
  - split; [assumption|]. split; [assumption|]. intros; lia.
  - intros i mv1 Hi (HG1 & HS1 & H1).
    destruct (loop_inv (fun t mv => good M0 mv /\ shape n (at_ n (fst mv))
         /\ (forall a b, (a < n)%nat -> (b < n)%nat -> (i < b)%nat -> at_ n (fst mv) a b = one a b)
         /\ (forall a, (a < t)%nat -> at_ n (fst mv) a i = 0))
      (fun j mv =>
      let '(mat, inv) := mv in
      tmp <- get mat (j * n + i) ;;
      if tmp =? 0 then Ok (mat, inv)
      else
        mat <- set mat (j * n + i) 0 ;;
        inv <- add_row f n i j tmp inv ;;
        Ok (mat, inv)) i 0%nat mv1) as (mv2 & E2 & HG2 & HS2 & H2 & Z2).
    + split; [assumption|]. split; [assumption|]. split; [|intros; lia].
      intros a b Ha Hb Hib. apply H1; lia.
    + intros j [mat inv] Hj ((W1 & W2 & T) & HSj & Hhi & Hz). cbn [fst snd] in *.
      rewrite get_at by (assumption || lia). cbn [bind].
      destruct (N.eqb_spec (at_ n mat j i) 0) as [E0|E0].
      { exists (mat, inv). split; [reflexivity|]. split; [split; [|split]; assumption|].
        split; [exact HSj|]. split; [exact Hhi|]. intros a Ha. cbn [fst].
        destruct (Nat.eq_dec a j) as [Eaj|]; [rewrite Eaj; assumption|]. apply Hz. lia. }
      destruct (set_at n mat j i 0) as (mat' & A1 & A2 & A3); try (assumption || lia).
      rewrite A1. cbn [bind].
      destruct (add_row_spec f n i j (at_ n mat j i) inv) as (inv' & B1 & B2 & B3);
        try (assumption || lia).
      rewrite B1. cbn [bind]. eexists. split; [reflexivity|]. cbn [fst snd].
      (* row i is a unit vector, so clearing one entry is a row operation *)
      assert (Hrow : forall b, (b < n)%nat -> at_ n mat i b = one i b).
      { intros b Hb. unfold one. destruct HSj as [S1 S2].
        destruct (Nat.eqb_spec i b) as [Eb|Eb]; [rewrite <- Eb; now apply S2|].
        destruct (Nat.lt_ge_cases b i); [apply S1; lia|].
        rewrite Hhi by lia. unfold one. destruct (Nat.eqb_spec i b); [contradiction|reflexivity]. }
      assert (EM : eqm (at_ n mat') (fun a b => if Nat.eqb a j
              then N.lxor (at_ n mat j b) (gmul f (at_ n mat j i) (at_ n mat i b))
              else at_ n mat a b)).
      { intros a b Ha Hb. rewrite A3 by assumption.
        destruct (Nat.eqb_spec a j) as [Ea|Ea]; cbn [andb]; [|reflexivity]. rewrite Ea.
        rewrite Hrow by assumption. unfold one. rewrite (Nat.eqb_sym i b).
        destruct (Nat.eqb_spec b i) as [Eb|Eb].
        - rewrite Eb, gmul_1_r. symmetry. apply N.lxor_nilpotent.
        - rewrite gmul_0_r. now rewrite N.lxor_0_r. }
      split; [|split; [|split]].
      * split; [assumption|]. split; [assumption|]. cbn [fst snd].
        apply (tracked_add M0 (at_ n mat) (at_ n inv) _ _ i j (at_ n mat j i)); try (assumption || lia).
        apply (t_M _ _ _ T); lia.
      * destruct HSj as [S1 S2]. split.
        -- intros a b Ha Hb Hba. rewrite A3 by lia.
           destruct (Nat.eqb a j && Nat.eqb b i)%bool; [reflexivity|]. apply S1; lia.
        -- intros a Ha. rewrite A3 by lia.
           destruct (Nat.eqb_spec a j) as [Ea|Ea]; cbn [andb]; [|now apply S2].
           destruct (Nat.eqb_spec a i); [lia|now apply S2].
      * intros a b Ha Hb Hib. rewrite A3 by lia.
        destruct (Nat.eqb_spec b i); [lia|]. rewrite Bool.andb_false_r. now apply Hhi.
      * intros a Ha. rewrite A3 by lia. rewrite (Nat.eqb_refl i), Bool.andb_true_r.
        destruct (Nat.eqb_spec a j); [reflexivity|]. apply Hz. lia.
    + exists mv2. split; [assumption|]. split; [assumption|]. split; [assumption|].
      intros a b Ha Hb Hib. destruct (Nat.eq_dec b i) as [Eb|Eb]; [|apply H2; lia].
      rewrite Eb. unfold one. destruct HS2 as [S1 S2].
      destruct (Nat.eqb_spec a i) as [Ea|Ea]; [rewrite Ea; now apply S2|].
      destruct (Nat.lt_ge_cases a i); [apply Z2; lia|apply S1; lia].
  - exists mv1. split; [assumption|]. split; [assumption|]. intros a b Ha Hb. apply H1; lia.
Qed.

Lemma tracked_one M0 V : eltm M0 -> eqm V one -> tracked M0 M0 V.
Proof.
  intros H0 E. split.
  - assumption.
  - intros a b Ha Hb. rewrite E by assumption. unfold one.
    destruct (Nat.eqb a b); [apply elt_1|apply elt_0].
  - intros a b Ha Hb. unfold mm. rewrite (sum_single _ a); [|assumption|].
    + rewrite E by assumption. unfold one. rewrite Nat.eqb_refl. apply gmul_1_l. now apply H0.
    + intros k Hk Hka. rewrite E by assumption. unfold one.
      destruct (Nat.eqb_spec a k); [congruence|]. apply gmul_0_l.
  - intros x Hx H k Hk. rewrite <- (H k Hk). unfold mv.
    rewrite (sum_single _ k); [|assumption|].
    + rewrite E by assumption. unfold one. rewrite Nat.eqb_refl. symmetry. apply gmul_1_l. auto.
    + intros j Hj Hjk. rewrite E by assumption. unfold one.
      destruct (Nat.eqb_spec k j); [congruence|]. apply gmul_0_l.
Qed.

(** A left inverse that is injective is a right inverse. *)
Lemma right_inverse M0 V : eltm M0 -> tracked M0 one V -> eqm (mm M0 V) one.
Proof.
  intros H0 T a b Ha Hb.
  assert (K : N.lxor (mm M0 V a b) (one a b) = 0).
  { apply (t_inj _ _ _ T (fun k => N.lxor (mm M0 V k b) (one k b))); [| |assumption].
    - intros k Hk. apply elt_lxor.
      + apply sum_elt. intros j Hj. apply gmul_elt. now apply H0.
      + unfold one. destruct (Nat.eqb k b); [apply elt_1|apply elt_0].
    - intros c Hc. rewrite mv_lxor.
      change (mv V (fun k => mm M0 V k b) c) with (mv V (mv M0 (fun k => V k b)) c).
      rewrite <- mv_assoc by (assumption || apply T).
      rewrite (mv_ext _ one (fun k => V k b) (fun k => V k b)); auto; [|apply T].
      unfold mv. rewrite (sum_single _ c), (sum_single _ b); try assumption.
      + unfold one at 2. unfold one. rewrite !Nat.eqb_refl, gmul_1_r.
        rewrite gmul_1_l by (apply (t_V _ _ _ T); assumption). apply N.lxor_nilpotent.
      + intros k Hk Hkb. unfold one. destruct (Nat.eqb_spec k b); [contradiction|]. apply gmul_0_r.
      + intros k Hk Hkc. unfold one. destruct (Nat.eqb_spec c k); [congruence|]. apply gmul_0_l. }
  now apply N.lxor_eq.
Qed.

Lemma invert_spec m v : n <> 0%nat -> wfm n m -> wfm n v -> eltm (at_ n m) ->
  (exists m' v', invert f n m v = Ok (inr (m', v')) /\ wfm n m' /\ wfm n v'
     /\ eltm (at_ n v')
     /\ eqm (mm (at_ n v') (at_ n m)) one /\ eqm (mm (at_ n m) (at_ n v')) one)
  \/ (invert f n m v = Ok (inl (n - 1)%nat)
      /\ exists c x, (c < n)%nat /\ (forall k, elt f (x k)) /\ x c = 1
                    /\ forall a, (a < n)%nat -> mv (at_ n m) x a = 0).
Proof.
  intros Hn Wm Wv Hm. unfold invert.
  destruct (set_identity_spec n v Wv) as (v0 & E0 & W0 & H0). rewrite E0. cbn [bind].
  assert (G0 : good (at_ n m) (m, v0)).
  { split; [assumption|]. split; [assumption|]. cbn [fst snd]. now apply tracked_one. }
  destruct (triangulate_spec (at_ n m) n 0%nat (m, v0)) as [(mv1 & A & B & C)|(A & x & B)];
    try assumption; try lia.
  - split; intros; lia.
  - left. rewrite A. cbn [bind].
    destruct (back_substitute_spec (at_ n m) mv1) as ([m' v'] & D & (W1 & W2 & T) & F); try assumption.
    cbn [fst snd] in *. exists m', v'. rewrite D. cbn [bind].
    assert (L : eqm (mm (at_ n v') (at_ n m)) one).
    { intros a b Ha Hb. rewrite (t_prod _ _ _ T) by assumption. now apply F. }
    split; [reflexivity|]. split; [assumption|]. split; [assumption|].
    split; [apply T|]. split; [assumption|].
    apply right_inverse; [assumption|]. destruct T as [T1 T2 T3 T4]. split; try assumption.
    intros a b Ha Hb. rewrite <- F by assumption. now apply T1.
  - right. rewrite A. cbn [bind]. split; [reflexivity|]. exists x. exact B.
Qed.

End Inversion.
