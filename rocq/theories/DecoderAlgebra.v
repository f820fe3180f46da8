(** * What the arithmetic of the decoder computes on genuine repairs *)
From Coq Require Import NArith PeanoNat List Bool Lia Permutation.
From Verif Require Import Outcome GF GFProofs GFField GFRegion Linear RegionFacts Containers
  ContainersFacts Packetizer Matrix MatrixFacts EncoderFacts DetailDecoder.
Import ListNotations.
Open Scope N_scope.

Lemma xsum_perm {A} (g : A -> N) l l' : Permutation l l' -> xsum g l = xsum g l'.
Proof.
  induction 1; cbn [xsum]; try congruence.
  rewrite <- !N.lxor_assoc. f_equal. apply N.lxor_comm.
Qed.

Section Algebra.
Variable f : field.
Variable S : N -> list N.   (* the datum of each source identifier *)

Definition good_data (d : list N) : Prop :=
  bytes d /\ N.of_nat (length d) < 65536 /\ aligned f (length d) = true.

Definition svec (x : N) : nat -> N := vec (N.of_nat (length (S x))) (S x).

(** A repair whose size and symbol are the combination of the data it lists. *)
Record genuine (r : drepair) : Prop := {
  g_sorted : ssorted (dr_ids r);
  g_enc : dr_enc r < 65536;
  g_bytes : bytes (dr_buf r);
  g_len : (N.to_nat (dr_size r) <= length (dr_buf r))%nat;
  g_aligned : aligned f (N.to_nat (dr_size r)) = true;
  g_fits : forall x, In x (dr_ids r) -> N.of_nat (length (S x)) <= dr_size r;
  g_data : forall x, In x (dr_ids r) -> good_data (S x);
  g_vec : forall i, vec (dr_enc r) (dr_sym r) i
                    = xsum (fun x => rmul_at f (coefficient f (dr_id r) x) (svec x) i) (dr_ids r);
  g_exact : forall x, In x (dr_ids r) -> size_exact f (N.of_nat (length (S x))) (coefficient f (dr_id r) x)
}.

Lemma elt_coefficient r x : elt f (coefficient f r x).
Proof. apply coefficient_elt. Qed.

Lemma sym_length r : genuine r -> length (dr_sym r) = N.to_nat (dr_size r).
Proof. intros H. unfold dr_sym. rewrite firstn_length. pose proof (g_len r H). lia. Qed.

Lemma sym_bytes r : genuine r -> bytes (dr_sym r).
Proof. intros H. apply bytes_firstn, g_bytes, H. Qed.

Lemma svec_bytes x : good_data (S x) -> bytes_fn (svec x).
Proof. intros [H _]. apply vec_bytes, H. Qed.

(** ** Removal of a source *)

Definition minus (r : drepair) (x : N) : drepair :=
  {| dr_id := dr_id r; dr_ids := dr_ids r;
     dr_enc := N.lxor (multiply_size f (N.of_nat (length (S x))) (coefficient f (dr_id r) x)) (dr_enc r);
     dr_buf := xorl (rmul f (coefficient f (dr_id r) x) (S x)) (dr_buf r);
     dr_size := dr_size r |}.

Lemma remove_data_spec m r x : genuine r -> In x (dr_ids r) ->
  remove_data m f x (S x) r
  = bind (assert_ m (Nat.ltb 1 (length (dr_ids r)))) (fun _ => Ok (minus r x)).
Proof.
  intros G Hx. unfold remove_data.
  destruct (assert_ m (Nat.ltb 1 (length (dr_ids r)))); cbn [bind]; try reflexivity.
  pose proof (g_fits r G x Hx) as Hfit. pose proof (g_len r G) as Hlen.
  destruct (g_data r G x Hx) as [_ [_ Hal]].
  replace (N.of_nat (length (S x)) <=? dr_size r) with true
    by (symmetry; apply N.leb_le; exact Hfit).
  replace (assert_ m true) with (Ok tt) by (destruct m; reflexivity). cbn [bind].
  unfold region_multiply_add.
  replace (Nat.ltb (length (S x)) (length (S x))) with false
    by (symmetry; apply Nat.ltb_irrefl).
  replace (Nat.ltb (length (dr_buf r)) (length (S x))) with false
    by (symmetry; apply Nat.ltb_ge; lia).
  rewrite Hal. cbn [orb negb bind]. rewrite firstn_all. reflexivity.
Qed.

Lemma xorl_firstn a b n : (length a <= n)%nat -> (n <= length b)%nat ->
  firstn n (xorl a b) = xorl a (firstn n b).
Proof.
  intros Ha Hb. apply list_eq_nth.
  - rewrite firstn_length, !xorl_length, firstn_length. lia.
  - intros i Hi. rewrite firstn_length, xorl_length in Hi.
    rewrite nth_firstn, !xorl_nth, nth_firstn.
    replace (i <? n)%nat with true by (symmetry; apply Nat.ltb_lt; lia). reflexivity.
Qed.

Lemma xsum_serase (g : N -> N) x l : ssorted l -> In x l ->
  xsum g (serase x l) = N.lxor (g x) (xsum g l).
Proof.
  induction l as [|y l IH]; intros Hs Hin; [contradiction|]. cbn [serase xsum].
  apply ssorted_cons_inv in Hs. destruct Hs as [Hs Hlt].
  destruct (x =? y) eqn:E.
  - apply N.eqb_eq in E. subst y.
    rewrite <- N.lxor_assoc, N.lxor_nilpotent, N.lxor_0_l. reflexivity.
  - apply N.eqb_neq in E. destruct Hin as [<-|Hin]; [congruence|].
    cbn [xsum]. rewrite IH by assumption.
    rewrite <- !N.lxor_assoc. f_equal. apply N.lxor_comm.
Qed.

Lemma minus_genuine r x : genuine r -> In x (dr_ids r) ->
  genuine (with_ids (minus r x) (serase x (dr_ids r))).
Proof.
  intros G Hx. pose proof (g_fits r G x Hx) as Hfit. pose proof (g_len r G) as Hlen.
  destruct (g_data r G x Hx) as [Hb [Hl Hal]].
  constructor; cbn [with_ids minus dr_ids dr_enc dr_buf dr_size dr_id].
  - apply serase_sorted, G.
  - change 65536 with (2 ^ 16). apply lxor_below.
    + apply multiply_size_below.
    + apply G.
  - apply xorl_bytes; [apply rmul_bytes | apply G].
  - rewrite xorl_length, rmul_length. lia.
  - apply G.
  - intros y Hy. apply (g_fits r G). eapply serase_incl, Hy.
  - intros y Hy. apply (g_data r G). eapply serase_incl, Hy.
  - intros i. unfold dr_sym. cbn [with_ids minus dr_ids dr_enc dr_buf dr_size dr_id].
    rewrite xorl_firstn by (rewrite ?rmul_length; lia).
    rewrite vec_lxor, xsum_serase by (assumption || apply G).
    f_equal.
    + unfold svec. rewrite rmul_at_vec; try assumption; [reflexivity | apply (g_exact r G), Hx | apply elt_coefficient].
    + apply (g_vec r G).
  - intros y Hy. apply (g_exact r G). eapply serase_incl, Hy.
Qed.

(** ** Decoding from one repair *)

Lemma create_source_spec m r x : genuine r -> dr_ids r = [x] ->
  create_source m f r = Ok (x, S x).
Proof.
  intros G E. unfold create_source. rewrite E. cbn [length Nat.eqb].
  replace (assert_ m true) with (Ok tt) by (destruct m; reflexivity). cbn [bind].
  assert (Hin : In x (dr_ids r)) by (rewrite E; left; reflexivity).
  destruct (g_data r G x Hin) as [Hb [Hl Hal]].
  pose proof (g_fits r G x Hin) as Hfit. pose proof (g_len r G) as Hlen.
  destruct (coefficient_elt (f := f) (dr_id r) x) as [He Hn].
  pose proof (g_exact r G x Hin) as Hex.
  set (c := coefficient f (dr_id r) x) in *.
  assert (Hv : forall i, vec (dr_enc r) (dr_sym r) i
                         = vec (multiply_size f (N.of_nat (length (S x))) c) (rmul f c (S x)) i).
  { intros i. rewrite (g_vec r G), E. cbn [xsum]. rewrite N.lxor_0_r.
    unfold svec. fold c. apply rmul_at_vec; assumption. }
  assert (Henc : dr_enc r = multiply_size f (N.of_nat (length (S x))) c).
  { eapply vec_inj_size; [apply G | apply multiply_size_below | exact Hv]. }
  rewrite Henc, exact_cancel by assumption. rewrite Nat2N.id.
  unfold region_multiply.
  replace (Nat.ltb (length (dr_buf r)) (length (S x))) with false
    by (symmetry; apply Nat.ltb_ge; lia).
  rewrite Hal. cbn [negb bind]. do 2 f_equal.
  assert (Hsym : firstn (length (S x)) (dr_buf r) = rmul f c (S x)).
  { apply list_eq_nth.
    - rewrite firstn_length, rmul_length. lia.
    - intros i Hi. rewrite firstn_length in Hi.
      rewrite <- (vec_inj_sym _ _ _ _ i Hv). unfold dr_sym. rewrite !nth_firstn.
      replace (i <? length (S x))%nat with true by (symmetry; apply Nat.ltb_lt; lia).
      replace (i <? N.to_nat (dr_size r))%nat with true by (symmetry; apply Nat.ltb_lt; lia).
      reflexivity. }
  rewrite Hsym, rmul_rmul; try assumption.
  - unfold gf_invert. rewrite (ginv_l c He Hn). apply rmul_1, Hb.
  - apply ginv_elt, He.
Qed.

(** ** Decoding from several repairs *)

Lemma column_nth n inv col k : (k < n)%nat -> nth k (column n inv col) 0 = at_ n inv col k.
Proof.
  intros Hk. unfold column, at_. rewrite nth_firstn.
  replace (k <? n)%nat with true by (symmetry; apply Nat.ltb_lt; lia).
  generalize (col * n)%nat as s. intros s. revert inv.
  induction s as [|s IH]; intros [|a inv]; cbn [skipn Nat.add nth]; try reflexivity.
  - destruct k; reflexivity.
  - apply IH.
Qed.

Lemma column_length n inv col : wfm n inv -> (col < n)%nat -> length (column n inv col) = n.
Proof.
  intros H Hc. unfold column, wfm in *. rewrite firstn_length, skipn_length, H. nia.
Qed.

Lemma coefficients_length reps ms : length (coefficients f reps ms) = (length reps * length ms)%nat.
Proof.
  unfold coefficients. induction reps as [|[r rep] reps IH]; [reflexivity|].
  cbn [map concat length]. rewrite app_length, map_length, IH. reflexivity.
Qed.

Lemma coefficients_at reps ms a b r rep x :
  nth_error reps a = Some (r, rep) -> nth_error ms b = Some x ->
  at_ (length ms) (coefficients f reps ms) a b
  = if smem x (dr_ids rep) then coefficient f r x else 0.
Proof.
  intros Ha Hb. unfold at_, coefficients. revert a Ha.
  assert (Hlb : (b < length ms)%nat) by (apply nth_error_Some; congruence).
  induction reps as [|[r' rep'] reps IH]; intros a Ha; [destruct a; discriminate|].
  cbn [map concat]. destruct a as [|a]; cbn [nth_error] in Ha.
  - injection Ha as -> ->. cbn [Nat.mul Nat.add].
    rewrite app_nth1 by (rewrite map_length; exact Hlb).
    erewrite nth_indep by (rewrite map_length; exact Hlb).
    rewrite (map_nth (fun id => if smem id (dr_ids rep) then coefficient f r id else 0) ms x b).
    rewrite (nth_error_nth ms b x Hb). reflexivity.
  - rewrite app_nth2 by (rewrite map_length; cbn [Nat.mul]; lia).
    rewrite map_length.
    replace (Datatypes.S a * length ms + b - length ms)%nat with (a * length ms + b)%nat
      by (cbn [Nat.mul]; lia).
    apply IH, Ha.
Qed.

Lemma coefficients_elt reps ms a b : elt f (at_ (length ms) (coefficients f reps ms) a b).
Proof.
  unfold at_. destruct (Nat.lt_ge_cases (a * length ms + b) (length (coefficients f reps ms))) as [H|H].
  - apply (nth_In _ 0) in H. unfold coefficients in H at 2.
    apply in_concat in H. destruct H as [l [Hl Hin]].
    apply in_map_iff in Hl. destruct Hl as [[r rep] [<- _]].
    apply in_map_iff in Hin. destruct Hin as [x [<- _]].
    destruct (smem x (dr_ids rep)); [apply elt_coefficient | apply elt_0].
  - rewrite nth_overflow by exact H. apply elt_0.
Qed.

(** The linear system that the decoder solves. *)
Record solvable (n : nat) (inv : list N) (reps : list (N * drepair)) (ms : list N) : Prop := {
  s_n : n = length ms;
  s_reps : length reps = n;
  s_inv : wfm n inv;
  s_elt : eltm f n (at_ n inv);
  s_one : eqm n (mm f n (at_ n inv) (at_ n (coefficients f reps ms))) one;
  s_nodup : NoDup ms;
  s_keys : forall r rep, In (r, rep) reps -> dr_id rep = r;
  s_gen : forall r rep, In (r, rep) reps -> genuine rep;
  s_incl : forall r rep x, In (r, rep) reps -> In x (dr_ids rep) -> In x ms;
  s_data : forall x, In x ms -> good_data (S x)
}.

Section Solve.
Variables (n : nat) (inv : list N) (reps : list (N * drepair)) (ms : list N).
Hypothesis Hs : solvable n inv reps ms.

Definition dft : N * drepair :=
  (0, {| dr_id := 0; dr_ids := []; dr_enc := 0; dr_buf := []; dr_size := 0 |}).

Definition rvec (r : drepair) : nat -> N := vec (dr_enc r) (dr_sym r).

Lemma rep_nth k : (k < n)%nat -> exists r rep, nth_error reps k = Some (r, rep) /\ In (r, rep) reps.
Proof.
  intros Hk. destruct (nth_error reps k) as [[r rep]|] eqn:E.
  - exists r, rep. split; [reflexivity | eapply nth_error_In, E].
  - apply nth_error_None in E. pose proof (s_reps _ _ _ _ Hs). lia.
Qed.

Lemma xsum_seq_nth {A} (g : A -> N) (l : list A) d :
  xsum (fun k => g (nth k l d)) (seq 0 (length l)) = xsum g l.
Proof.
  rewrite <- (xsum_map (fun k => nth k l d) g). f_equal.
  induction l as [|a l IH]; [reflexivity|].
  cbn [length seq map nth]. f_equal. rewrite <- seq_shift, map_map. exact IH.
Qed.

(** A repair as a combination over all the missing sources. *)
Lemma rvec_row k i : (k < n)%nat ->
  rvec (snd (nth k reps dft)) i
  = xsum (fun b => rmul_at f (at_ n (coefficients f reps ms) k b) (svec (nth b ms 0)) i) (seq 0 n).
Proof.
  intros Hk. destruct (rep_nth k Hk) as (r & rep & E & Hin).
  rewrite (nth_error_nth reps k dft E). cbn [snd]. unfold rvec.
  rewrite (g_vec rep (s_gen _ _ _ _ Hs r rep Hin)), (s_keys _ _ _ _ Hs r rep Hin).
  transitivity (xsum (fun x => rmul_at f (if smem x (dr_ids rep) then coefficient f r x else 0)
                                 (svec x) i) ms).
  - rewrite <- (xsum_filter _ (fun x => smem x (dr_ids rep)) ms).
    + rewrite (xsum_ext _ (fun x => rmul_at f (coefficient f r x) (svec x) i)
                 (filter (fun x => smem x (dr_ids rep)) ms)).
      * apply xsum_perm. apply NoDup_Permutation.
        -- apply ssorted_NoDup, (s_gen _ _ _ _ Hs r rep Hin).
        -- apply NoDup_filter, (s_nodup _ _ _ _ Hs).
        -- intros x. rewrite filter_In, smem_spec. split.
           ++ intros Hx. split; [eapply (s_incl _ _ _ _ Hs); eassumption | exact Hx].
           ++ tauto.
      * intros x Hx. apply filter_In in Hx. destruct Hx as [_ ->]. reflexivity.
    + intros x _ Hx. rewrite Hx. apply rmul_at_0_l.
  - pose proof (s_n _ _ _ _ Hs) as En.
    rewrite <- (xsum_seq_nth _ ms 0), <- En. apply xsum_ext.
    intros b Hb. apply in_seq in Hb. f_equal.
    rewrite En. symmetry. apply coefficients_at; [exact E|].
    apply nth_error_nth'. lia.
Qed.

Lemma solve_vec col i : (col < n)%nat ->
  xsum (fun k => rmul_at f (at_ n inv col k) (rvec (snd (nth k reps dft))) i) (seq 0 n)
  = svec (nth col ms 0) i.
Proof.
  intros Hc.
  rewrite (xsum_ext _ (fun k => xsum (fun b =>
     rmul_at f (gmul f (at_ n inv col k) (at_ n (coefficients f reps ms) k b))
       (svec (nth b ms 0)) i) (seq 0 n))).
  - rewrite xsum_swap.
    rewrite (xsum_ext _ (fun b => rmul_at f (mm f n (at_ n inv) (at_ n (coefficients f reps ms)) col b)
                                    (svec (nth b ms 0)) i)).
    + rewrite (xsum_single _ col).
      * rewrite (s_one _ _ _ _ Hs) by assumption. unfold one. rewrite Nat.eqb_refl.
        apply rmul_at_1. apply svec_bytes, (s_data _ _ _ _ Hs), nth_In.
        rewrite <- (s_n _ _ _ _ Hs). exact Hc.
      * apply seq_NoDup.
      * apply in_seq. lia.
      * intros b Hb Hne. apply in_seq in Hb.
        rewrite (s_one _ _ _ _ Hs) by lia. unfold one.
        replace (Nat.eqb col b) with false by (symmetry; apply Nat.eqb_neq; congruence).
        apply rmul_at_0_l.
    + intros b Hb. unfold mm, sum. symmetry. apply rmul_at_xsum_l.
  - intros k Hk. apply in_seq in Hk.
    rewrite (rmul_at_ext_all _ (rvec (snd (nth k reps dft)))
       (fun i => xsum (fun b => rmul_at f (at_ n (coefficients f reps ms) k b)
                                  (svec (nth b ms 0)) i) (seq 0 n))).
    + rewrite rmul_at_xsum. apply xsum_ext. intros b Hb.
      apply rmul_at_rmul_at.
      * apply (s_elt _ _ _ _ Hs); lia.
      * rewrite (s_n _ _ _ _ Hs). apply coefficients_elt.
    + intros j. apply rvec_row. lia.
Qed.

Definition pairs (col : nat) : list (N * drepair) := combine (column n inv col) (map snd reps).

Lemma nth_pairs col : (col < n)%nat ->
  pairs col = map (fun k => (at_ n inv col k, snd (nth k reps dft))) (seq 0 n).
Proof.
  intros Hc. unfold pairs.
  assert (H1 : column n inv col = map (at_ n inv col) (seq 0 n)).
  { apply nth_ext with (d := 0) (d' := at_ n inv col O).
    - rewrite map_length, seq_length. apply column_length; [apply Hs | exact Hc].
    - intros k Hk. rewrite column_length in Hk by (apply Hs || exact Hc).
      rewrite (map_nth (at_ n inv col)), seq_nth by exact Hk. apply column_nth. exact Hk. }
  assert (H2 : map snd reps = map (fun k => snd (nth k reps dft)) (seq 0 n)).
  { pose proof (s_reps _ _ _ _ Hs) as E. rewrite <- E. clear.
    induction reps as [|a l IH]; [reflexivity|].
    cbn [length seq map nth]. f_equal. rewrite <- seq_shift, map_map. exact IH. }
  rewrite H1, H2. generalize (seq 0 n). intros l.
  induction l as [|a l IH]; cbn [map combine]; [reflexivity|]. rewrite IH. reflexivity.
Qed.

Lemma pairs_in col c r : (col < n)%nat -> In (c, r) (pairs col) -> elt f c /\ genuine r.
Proof.
  intros Hc Hin. rewrite nth_pairs in Hin by exact Hc. apply in_map_iff in Hin.
  destruct Hin as [k [E Hk]]. apply in_seq in Hk.
  destruct (rep_nth k) as (r' & rep & E' & Hin'); [lia|].
  rewrite (nth_error_nth reps k dft E') in E. injection E as <- <-.
  split; [apply (s_elt _ _ _ _ Hs); lia | eapply (s_gen _ _ _ _ Hs), Hin'].
Qed.

Lemma solve_pairs col i : (col < n)%nat ->
  xsum (fun '(c, r) => rmul_at f c (rvec r) i) (pairs col) = svec (nth col ms 0) i.
Proof.
  intros Hc. rewrite nth_pairs by exact Hc. rewrite xsum_map. apply solve_vec, Hc.
Qed.

Lemma decode_size_xsum l acc :
  fold_left (fun res '(c, r) =>
    if c =? 0 then res else N.lxor (u16 (multiply_size f (dr_enc r) c)) res) l acc
  = N.lxor (xsum (fun '(c, r) => multiply_size f (dr_enc r) c) l) acc.
Proof.
  revert acc. induction l as [|[c r] l IH]; intros acc; cbn [fold_left xsum].
  - rewrite N.lxor_0_l. reflexivity.
  - rewrite IH. destruct (c =? 0) eqn:E.
    + apply N.eqb_eq in E. subst c.
      replace (multiply_size f (dr_enc r) 0) with 0.
      * rewrite N.lxor_0_l. reflexivity.
      * unfold multiply_size. rewrite orb_true_r. reflexivity.
    + unfold u16. rewrite N.mod_small by apply multiply_size_below.
      rewrite (N.lxor_comm (multiply_size f (dr_enc r) c) (xsum _ l)), N.lxor_assoc.
      reflexivity.
Qed.

Lemma le_byte_xsum {A} (g : A -> N) l t : le_byte (xsum g l) t = xsum (fun x => le_byte (g x) t) l.
Proof.
  induction l as [|x l IH]; cbn [xsum]; [apply le_byte_0|]. rewrite le_byte_lxor, IH. reflexivity.
Qed.

Lemma decode_size_spec col : (col < n)%nat ->
  decode_size f (pairs col) = N.of_nat (length (S (nth col ms 0))).
Proof.
  intros Hc. unfold decode_size. rewrite decode_size_xsum, N.lxor_0_r.
  assert (Hd : good_data (S (nth col ms 0))).
  { apply (s_data _ _ _ _ Hs), nth_In. rewrite <- (s_n _ _ _ _ Hs). exact Hc. }
  assert (Hbyte : forall t, (t < 2)%nat ->
    le_byte (xsum (fun '(c, r) => multiply_size f (dr_enc r) c) (pairs col)) t
    = le_byte (N.of_nat (length (S (nth col ms 0)))) t).
  { intros t Ht. rewrite le_byte_xsum.
    transitivity (svec (nth col ms 0) t).
    - rewrite <- (solve_pairs col t Hc). apply xsum_ext. intros [c r] Hin.
      destruct (pairs_in col c r Hc Hin) as [He G].
      apply multiply_size_byte; try assumption. apply G.
    - unfold svec. destruct t as [|[|t]]; [reflexivity | reflexivity | lia]. }
  apply size_eq_bytes.
  - change 65536 with (2 ^ 16). apply xsum_below. intros [c r] _. apply multiply_size_below.
  - apply Hd.
  - apply Hbyte. lia.
  - apply Hbyte. lia.
Qed.

(** The contribution of one repair to a decoded symbol. *)
Lemma contribution c r sz i : elt f c -> genuine r -> aligned f (N.to_nat sz) = true ->
  (i < N.to_nat sz)%nat ->
  nth i (rmul f c (firstn (N.to_nat (N.min sz (dr_size r))) (dr_buf r))) 0
  = rmul_at f c (rvec r) (4 + i)%nat.
Proof.
  intros He G Hal Hi. unfold rvec. rewrite rmul_at_tail.
  pose proof (g_len r G) as Hlen. pose proof (g_aligned r G) as Hal2.
  set (k := N.to_nat (N.min sz (dr_size r))).
  assert (Hk : aligned f k = true).
  { unfold k. destruct (N.min_spec sz (dr_size r)) as [[_ ->]|[_ ->]]; assumption. }
  rewrite rmul_nth_all by (rewrite firstn_length_le; [exact Hk | subst k; lia]).
  assert (Hm : forall k, aligned f k = true -> (k mod wbytes f = 0)%nat)
    by (intros k'; unfold aligned; apply Nat.eqb_eq).
  rewrite (rmul_at_ext_all _ (fun j => nth j (firstn k (dr_buf r)) 0)
             (fun j => if (j <? k)%nat then nth j (dr_buf r) 0 else 0))
    by (intros j; apply nth_firstn).
  rewrite (rmul_at_ext_all _ (fun j => nth j (dr_sym r) 0)
             (fun j => if (j <? N.to_nat (dr_size r))%nat then nth j (dr_buf r) 0 else 0))
    by (intros j; apply nth_firstn).
  rewrite (rmul_at_truncate c (fun j => nth j (dr_buf r) 0) k) by (apply Hm, Hk).
  rewrite (rmul_at_truncate c (fun j => nth j (dr_buf r) 0)) by (apply Hm, Hal2).
  replace (i <? k)%nat with (i <? N.to_nat (dr_size r))%nat; [reflexivity|].
  unfold k. destruct (Nat.ltb_spec i (N.to_nat (dr_size r))), (Nat.ltb_spec i (N.to_nat (N.min sz (dr_size r))));
    try reflexivity; lia.
Qed.

Lemma decode_rest_spec sz l data : aligned f (N.to_nat sz) = true ->
  (forall c r, In (c, r) l -> elt f c /\ genuine r) -> length data = N.to_nat sz ->
  exists data', decode_rest f sz l data = Ok data' /\ length data' = N.to_nat sz
  /\ forall i, (i < N.to_nat sz)%nat ->
     nth i data' 0 = N.lxor (xsum (fun '(c, r) => rmul_at f c (rvec r) (4 + i)%nat) l)
                       (nth i data 0).
Proof.
  intros Hal. revert data. induction l as [|[c r] l IH]; intros data Hl Hd; cbn [decode_rest xsum].
  - exists data. split; [reflexivity|]. split; [exact Hd|]. intros i _. rewrite N.lxor_0_l. reflexivity.
  - destruct (Hl c r (or_introl eq_refl)) as [He G].
    assert (Hl' : forall c r, In (c, r) l -> elt f c /\ genuine r)
      by (intros c' r' Hin; apply Hl; right; exact Hin).
    destruct (c =? 0) eqn:E.
    + apply N.eqb_eq in E. subst c. destruct (IH data Hl' Hd) as (d' & E1 & E2 & E3).
      exists d'. split; [exact E1|]. split; [exact E2|]. intros i Hi.
      rewrite rmul_at_0_l, N.lxor_0_l. apply E3, Hi.
    + pose proof (g_len r G) as Hlen. pose proof (g_aligned r G) as Hal2.
      assert (Hk : aligned f (N.to_nat (N.min sz (dr_size r))) = true).
      { destruct (N.min_spec sz (dr_size r)) as [[_ ->]|[_ ->]]; assumption. }
      unfold region_multiply_add.
      replace (Nat.ltb (length (dr_buf r)) (N.to_nat (N.min sz (dr_size r)))) with false
        by (symmetry; apply Nat.ltb_ge; lia).
      replace (Nat.ltb (length data) (N.to_nat (N.min sz (dr_size r)))) with false
        by (symmetry; apply Nat.ltb_ge; lia).
      rewrite Hk. cbn [orb negb bind].
      destruct (IH (xorl (rmul f c (firstn (N.to_nat (N.min sz (dr_size r))) (dr_buf r))) data) Hl')
        as (d' & E1 & E2 & E3).
      { rewrite xorl_length, rmul_length, firstn_length. lia. }
      exists d'. split; [exact E1|]. split; [exact E2|]. intros i Hi.
      rewrite E3 by exact Hi. rewrite xorl_nth, contribution by assumption.
      rewrite (N.lxor_comm (rmul_at f c (rvec r) _) (xsum _ l)), N.lxor_assoc. reflexivity.
Qed.

Lemma decode_symbol_spec m sz l : aligned f (N.to_nat sz) = true ->
  (forall c r, In (c, r) l -> elt f c /\ genuine r) -> (exists c r, In (c, r) l /\ c <> 0) ->
  exists data, decode_symbol m f sz l = Ok data /\ length data = N.to_nat sz
  /\ forall i, (i < N.to_nat sz)%nat ->
     nth i data 0 = xsum (fun '(c, r) => rmul_at f c (rvec r) (4 + i)%nat) l.
Proof.
  intros Hal. induction l as [|[c r] l IH]; intros Hl (c0 & r0 & Hin & Hne); [contradiction|].
  cbn [decode_symbol xsum].
  destruct (Hl c r (or_introl eq_refl)) as [He G].
  assert (Hl' : forall c r, In (c, r) l -> elt f c /\ genuine r)
    by (intros c' r' Hin'; apply Hl; right; exact Hin').
  destruct (c =? 0) eqn:E.
  - apply N.eqb_eq in E. subst c.
    destruct IH as (d' & E1 & E2 & E3); [exact Hl' | |].
    + exists c0, r0. split; [|exact Hne]. destruct Hin as [Hin|Hin]; [congruence | exact Hin].
    + exists d'. split; [exact E1|]. split; [exact E2|]. intros i Hi.
      rewrite rmul_at_0_l, N.lxor_0_l. apply E3, Hi.
  - pose proof (g_len r G) as Hlen. pose proof (g_aligned r G) as Hal2.
    assert (Hk : aligned f (N.to_nat (N.min sz (dr_size r))) = true).
    { destruct (N.min_spec sz (dr_size r)) as [[_ ->]|[_ ->]]; assumption. }
    unfold region_multiply.
    replace (Nat.ltb (length (dr_buf r)) (N.to_nat (N.min sz (dr_size r)))) with false
      by (symmetry; apply Nat.ltb_ge; lia).
    rewrite Hk. cbn [negb bind].
    destruct (decode_rest_spec sz l
      (rmul f c (firstn (N.to_nat (N.min sz (dr_size r))) (dr_buf r))
         ++ repeat 0 (N.to_nat sz - N.to_nat (N.min sz (dr_size r)))) Hal Hl')
      as (d' & E1 & E2 & E3).
    { rewrite app_length, rmul_length, firstn_length, repeat_length. lia. }
    exists d'. split; [exact E1|]. split; [exact E2|]. intros i Hi.
    rewrite E3 by exact Hi. rewrite nth_pad, contribution by assumption.
    apply N.lxor_comm.
Qed.

Lemma decode_data m col : (col < n)%nat ->
  decode_symbol m f (decode_size f (pairs col)) (pairs col) = Ok (S (nth col ms 0)).
Proof.
  intros Hc. rewrite decode_size_spec by exact Hc.
  assert (Hd : good_data (S (nth col ms 0))).
  { apply (s_data _ _ _ _ Hs), nth_In. rewrite <- (s_n _ _ _ _ Hs). exact Hc. }
  destruct (decode_symbol_spec m (N.of_nat (length (S (nth col ms 0)))) (pairs col))
    as (d & E1 & E2 & E3).
  - rewrite Nat2N.id. apply Hd.
  - intros c r. apply pairs_in, Hc.
  - (* the column of an invertible matrix is not zero *)
    destruct (existsb (fun k => negb (at_ n inv col k =? 0)) (seq 0 n)) eqn:Ex.
    + apply existsb_exists in Ex. destruct Ex as [k [Hk Hn]].
      exists (at_ n inv col k), (snd (nth k reps dft)). split.
      * rewrite nth_pairs by exact Hc. apply in_map_iff. exists k. split; [reflexivity | exact Hk].
      * intros Hz. rewrite Hz in Hn. discriminate.
    + exfalso. assert (Hz : forall k, (k < n)%nat -> at_ n inv col k = 0).
      { intros k Hk. destruct (at_ n inv col k =? 0) eqn:Ek; [apply N.eqb_eq, Ek|].
        assert (existsb (fun k => negb (at_ n inv col k =? 0)) (seq 0 n) = true); [|congruence].
        apply existsb_exists. exists k. rewrite Ek. split; [apply in_seq; lia | reflexivity]. }
      assert (H := s_one _ _ _ _ Hs col col Hc Hc). unfold one in H. rewrite Nat.eqb_refl in H.
      unfold mm in H. rewrite sum_0 in H; [discriminate|].
      intros k Hk. rewrite Hz by exact Hk. apply gmul_0_l.
  - rewrite E1. f_equal. rewrite Nat2N.id in E2, E3. apply list_eq_nth; [exact E2|].
    intros i Hi. rewrite E3 by lia.
    rewrite (solve_pairs col (4 + i)%nat Hc). reflexivity.
Qed.

End Solve.
End Algebra.
