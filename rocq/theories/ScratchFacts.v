(** * Facts on the memory that is used again *)
From Coq Require Import ZArith NArith List Bool Lia Arith.
From Verif Require Import Outcome GF Containers ContainersFacts Packetizer Matrix MatrixFacts Rate Encoder EncoderRun DetailDecoder DecoderFacts DecoderAlgebra Decoder DecoderOuter Handlers Scratch.
Import ListNotations.
Open Scope N_scope.

(** ** Lists of identifiers *)

Lemma push_differences_spec l : forall prev out,
  push_differences prev l out = out ++ differences prev l.
Proof.
  induction l as [|x l IH]; intros prev out; cbn [push_differences differences].
  - rewrite app_nil_r. reflexivity.
  - rewrite IH, <- app_assoc. reflexivity.
Qed.

Lemma push_runs_spec l : forall d run out, push_runs d run l out = out ++ rle_from d run l.
Proof.
  induction l as [|d' l IH]; intros d run out; cbn [push_runs rle_from]; [reflexivity|].
  destruct ((d =? d') && (run <? 255)); rewrite IH; [reflexivity|]. rewrite <- app_assoc. reflexivity.
Qed.

Lemma swrite_ids_spec s ids : swrite_ids s ids = write_ids ids.
Proof.
  destruct ids as [|x l]; [reflexivity|]. unfold swrite_ids, write_ids.
  rewrite push_differences_spec. cbn [clear_pscratch ps_diff ps_rle app tl].
  destruct (differences x l) as [|d rest]; [reflexivity|]. rewrite push_runs_spec. reflexivity.
Qed.

Lemma push_pairs_spec p nb : forall c out,
  push_pairs p nb c out = ('(l, c) <- read_pairs p nb c ;; Ok (out ++ l, c)).
Proof.
  induction nb as [|nb IH]; intros c out; cbn [push_pairs read_pairs].
  - cbn [bind]. rewrite app_nil_r. reflexivity.
  - destruct (read p 1 c) as [[run c1]| |]; try reflexivity. cbn [bind].
    destruct (read p 2 c1) as [[value c2]| |]; try reflexivity. cbn [bind].
    rewrite IH. destruct (read_pairs p nb c2) as [[l c3]| |]; try reflexivity. cbn [bind].
    rewrite <- app_assoc. reflexivity.
Qed.

Lemma sread_ids_spec s p c : sread_ids s p c = read_ids p c.
Proof.
  unfold sread_ids, read_ids. destruct (read p 2 c) as [[nb c1]| |]; try reflexivity. cbn [bind].
  destruct (nb =? 0); [reflexivity|].
  destruct (read p 4 c1) as [[first c2]| |]; try reflexivity. cbn [bind].
  rewrite push_pairs_spec. destruct (read_pairs p _ c2) as [[l c3]| |]; reflexivity.
Qed.

Lemma swrite_ack_spec s a : swrite_ack s a = write_ack a.
Proof. unfold swrite_ack, write_ack. rewrite swrite_ids_spec. reflexivity. Qed.

Lemma swrite_repair_spec s m r : swrite_repair s m r = write_repair m r.
Proof. unfold swrite_repair, write_repair. rewrite swrite_ids_spec. reflexivity. Qed.

Lemma sread_ack_spec s m p : sread_ack s m p = read_ack m p.
Proof.
  unfold sread_ack, read_ack. destruct (assert_type m p TAck); try reflexivity. cbn [bind].
  destruct (read p 1 _) as [[v c]| |]; try reflexivity. cbn [bind].
  destruct (read p 2 c) as [[nb c1]| |]; try reflexivity. cbn [bind].
  rewrite sread_ids_spec. reflexivity.
Qed.

Lemma sread_repair_spec s m p : sread_repair s m p = read_repair m p.
Proof.
  unfold sread_repair, read_repair. destruct (assert_type m p TRepair); try reflexivity. cbn [bind].
  destruct (read p 1 _) as [[v c]| |]; try reflexivity. cbn [bind].
  destruct (read p 4 c) as [[id c1]| |]; try reflexivity. cbn [bind].
  destruct (read p 2 c1) as [[size c2]| |]; try reflexivity. cbn [bind].
  destruct (skip size c2) as [c3| |]; try reflexivity. cbn [bind].
  rewrite sread_ids_spec. reflexivity.
Qed.

(** ** The sender *)

Lemma rmul_len f c l : length (rmul f c l) = length l.
Proof. unfold rmul. rewrite map_length, seq_length. reflexivity. Qed.

Lemma resize_length n l : length (resize n l) = n.
Proof. unfold resize. rewrite app_length, firstn_length, repeat_length. lia. Qed.

Lemma multiply_into_exact f src dst len c : length dst = len ->
  multiply_into f src dst len c = region_multiply f src len c.
Proof.
  intros H. unfold multiply_into, region_multiply. subst len.
  rewrite Nat.ltb_irrefl, orb_false_r, skipn_all, app_nil_r. reflexivity.
Qed.

Lemma sencode_spec f m r sources : er_ids r = [] ->
  sencode f m r sources = encode f m (er_id r) sources.
Proof.
  intros H. unfold sencode, encode. destruct (assert_ m _); try reflexivity. cbn [bind].
  destruct sources as [|s l]; [reflexivity|].
  rewrite multiply_into_exact by apply resize_length. rewrite H. reflexivity.
Qed.

Lemma sprepare_repair_spec mem b m e : sprepare_repair mem b m e = prepare_repair m e.
Proof.
  unfold sprepare_repair, prepare_repair. destruct (assert_ m _); try reflexivity. cbn [bind].
  rewrite sencode_spec by reflexivity. cbn [with_repair_id er_id].
  destruct (encode _ _ _ _) as [r| |]; try reflexivity. cbn [bind]. rewrite swrite_repair_spec. reflexivity.
Qed.

Lemma shrepair_spec mem b h m e tr : shrepair mem b h m e tr = hrepair h m e tr.
Proof. unfold shrepair, hrepair. rewrite sprepare_repair_spec. reflexivity. Qed.

Lemma shcommit_spec mem h m e d tr : shcommit mem h m e d tr = hcommit h m e d tr.
Proof.
  unfold shcommit, hcommit. destruct (push_source _ _) as [l| |]; try reflexivity.
  assert (E : forall e s tr, shsend mem h m e s tr = hsend h m e s tr).
  { intros e' s tr'. unfold shsend. destruct (e_systematic e') eqn:E; [reflexivity|].
    rewrite shrepair_spec. unfold hsend. rewrite E. reflexivity. }
  rewrite E. destruct (hsend _ _ _ _ _) as [[e1 tr1] []]; try reflexivity.
  rewrite shrepair_spec. reflexivity.
Qed.

Lemma snotify_spec s m e p : snotify s m e p = notify m e p.
Proof. unfold snotify, notify. rewrite sread_ack_spec. reflexivity. Qed.

Lemma shstep_spec mem h m e op tr : shstep mem h m e op tr = hstep h m e op tr.
Proof.
  destruct op; try reflexivity.
  - cbn [shstep hstep]. unfold shdata, hdata. rewrite shcommit_spec. reflexivity.
  - cbn [shstep hstep estep]. rewrite snotify_spec. destruct (notify m e p) as [e1 []]; reflexivity.
  - cbn [shstep hstep]. apply shrepair_spec.
Qed.

Lemma shrun_spec h m ops : forall e tr, shrun h m e tr ops = hrun h m e tr (map snd ops).
Proof.
  induction ops as [|[mem op] ops IH]; intros e tr; [reflexivity|].
  cbn [shrun hrun map snd]. rewrite shstep_spec.
  destruct (hstep h m e op tr) as [[e1 tr1] r]. destruct r; rewrite ?IH; reflexivity.
Qed.

(** ** New packets *)

Lemma at_symbol_length (buf : list N) k : length buf = (k + 16 + 9)%nat -> length (skipn 16 buf) = (k + 9)%nat.
Proof. intros H. rewrite skipn_length. lia. Qed.

(** Everything in front of the symbol is untouched, the bytes of the symbol are
    those of [s]. *)
Lemma symbol_at (buf s : list N) sz : (16 <= length buf)%nat ->
  symbol_of sz (firstn 16 buf ++ s) = firstn sz s.
Proof.
  intros H. unfold symbol_of. rewrite skipn_app, firstn_length_le, Nat.sub_diag by exact H.
  rewrite skipn_all2 by (rewrite firstn_length; lia). reflexivity.
Qed.

Lemma screate_source_spec mem m f r : screate_source mem m f r = create_source m f r.
Proof.
  unfold screate_source, create_source. destruct (assert_ m _); try reflexivity. cbn [bind].
  destruct (dr_ids r) as [|id l]; [reflexivity|].
  set (inv := gf_invert f _). set (sz := N.to_nat _). set (buf := raw_packet _ _).
  assert (Hb : length buf = (sz + 16 + 9)%nat) by (unfold buf, raw_packet; rewrite map_length, seq_length; reflexivity).
  unfold at_symbol, multiply_into, region_multiply.
  destruct (Nat.ltb (length (dr_buf r)) sz) eqn:El; [reflexivity|].
  assert (El' : Nat.ltb (length (skipn 16 buf)) sz = false)
    by (apply Nat.ltb_ge; rewrite (at_symbol_length _ _ Hb); lia).
  rewrite El'. cbn [orb]. destruct (negb (aligned f sz)); [reflexivity|]. cbn [bind].
  rewrite symbol_at by lia. apply Nat.ltb_ge in El. do 2 f_equal.
  rewrite firstn_app, rmul_len, firstn_length_le by exact El.
  rewrite Nat.sub_diag, firstn_O, app_nil_r. apply firstn_all2. rewrite rmul_len, firstn_length. lia.
Qed.

Lemma sscan_spec mem rec rec' m : (forall d x data, rec d x data = rec' d x data) ->
  forall keys d, sscan mem rec m keys d = scan rec' m keys d.
Proof.
  intros R. induction keys as [|k keys IH]; intros d; [reflexivity|]. cbn [sscan scan].
  destruct (mfind k (d_missing d)) as [[|r [|]]|]; try apply IH.
  destruct (mfind r (d_repairs d)) as [rep|]; [|reflexivity].
  destruct (Nat.eqb _ 1); [|apply IH].
  destruct (assert_ m _); try reflexivity. cbn [bind].
  destruct (assert_ m _); try reflexivity. cbn [bind].
  rewrite screate_source_spec. destruct (create_source _ _ _) as [[id data]| |]; try reflexivity. cbn [bind].
  rewrite R. destruct (rec' _ _ _) as [d1| |]; try reflexivity. cbn [bind].
  destruct (find _ keys) as [k'|]; [|reflexivity]. destruct (mmem k' (d_missing d1)); [apply IH | reflexivity].
Qed.

Lemma sadd_source_spec mem m fuel : forall d id data,
  sadd_source mem fuel m d id data = add_source fuel m d id data.
Proof.
  induction fuel as [|fuel IH]; intros d id data; [reflexivity|]. cbn [sadd_source add_source].
  destruct (announce m d id data) as [d1| |]; try reflexivity. cbn [bind].
  destruct (no_longer_missing m d1 id data) as [d2| |]; try reflexivity. cbn [bind].
  rewrite (sscan_spec mem _ (add_source fuel m) m (IH)). reflexivity.
Qed.

(** ** The matrices *)

Lemma resize_raw_length junk n l : length (resize_raw junk n l) = n.
Proof. unfold resize_raw. rewrite app_length, firstn_length, map_length, seq_length. lia. Qed.

Lemma set_column_spec n col f r ids : (col < n)%nat -> forall missing row mat,
  wfm n mat -> (row + length missing <= n)%nat ->
  exists mat', set_column n col row f r ids missing mat = Ok mat' /\ wfm n mat'
  /\ forall a b, (a < n)%nat -> (b < n)%nat ->
     at_ n mat' a b = if Nat.eqb a col && (Nat.leb row b && Nat.ltb b (row + length missing))
                      then nth (b - row) (map (fun id => if smem id ids then coefficient f r id else 0) missing) 0
                      else at_ n mat a b.
Proof.
  intros Hc. induction missing as [|id missing IH]; intros row mat W L; cbn [set_column length] in *.
  - exists mat. split; [reflexivity|]. split; [exact W|]. intros a b Ha Hb.
    replace (Nat.leb row b && Nat.ltb b (row + 0))%bool with false.
    + destruct (Nat.eqb a col); reflexivity.
    + symmetry. apply andb_false_iff. rewrite Nat.leb_gt, Nat.ltb_ge. lia.
  - destruct (set_at n mat col row (if smem id ids then coefficient f r id else 0) W Hc ltac:(lia))
      as (m1 & E1 & W1 & A1).
    unfold index. rewrite E1. cbn [bind].
    destruct (IH (S row) m1 W1 ltac:(lia)) as (m2 & E2 & W2 & A2).
    exists m2. split; [exact E2|]. split; [exact W2|]. intros a b Ha Hb. rewrite (A2 a b Ha Hb), (A1 a b Ha Hb).
    destruct (Nat.eqb a col) eqn:Ea; [|reflexivity]. cbn [andb].
    destruct (Nat.eqb b row) eqn:Eb.
    + apply Nat.eqb_eq in Eb. subst b.
      replace (Nat.leb (S row) row) with false by (symmetry; apply Nat.leb_gt; lia).
      replace (Nat.leb row row) with true by (symmetry; apply Nat.leb_le; lia).
      replace (Nat.ltb row (row + S (length missing))) with true by (symmetry; apply Nat.ltb_lt; lia).
      rewrite Nat.sub_diag. reflexivity.
    + apply Nat.eqb_neq in Eb.
      destruct (Nat.leb row b) eqn:El.
      * apply Nat.leb_le in El. replace (Nat.leb (S row) b) with true by (symmetry; apply Nat.leb_le; lia).
        replace (row + S (length missing))%nat with (S row + length missing)%nat by lia.
        cbn [andb]. destruct (Nat.ltb b _); [|reflexivity].
        replace (b - row)%nat with (S (b - S row)) by lia. reflexivity.
      * apply Nat.leb_gt in El. replace (Nat.leb (S row) b) with false by (symmetry; apply Nat.leb_gt; lia).
        reflexivity.
Qed.

Definition entry (f : field) (reps : list (N * drepair)) (missing : list N) (a b : nat) : N :=
  match nth_error reps a with
  | None => 0
  | Some (r, rep) => nth b (map (fun id => if smem id (dr_ids rep) then coefficient f r id else 0) missing) 0
  end.

Lemma set_columns_spec n f missing : length missing = n -> forall reps col mat,
  wfm n mat -> (col + length reps <= n)%nat ->
  exists mat', set_columns n col f reps missing mat = Ok mat' /\ wfm n mat'
  /\ forall a b, (a < n)%nat -> (b < n)%nat ->
     at_ n mat' a b = if Nat.leb col a && Nat.ltb a (col + length reps)
                      then entry f reps missing (a - col) b else at_ n mat a b.
Proof.
  intros Hn. induction reps as [|[r rep] reps IH]; intros col mat W L; cbn [set_columns length] in *.
  - exists mat. split; [reflexivity|]. split; [exact W|]. intros a b Ha Hb.
    replace (Nat.leb col a && Nat.ltb a (col + 0))%bool with false; [reflexivity|].
    symmetry. apply andb_false_iff. rewrite Nat.leb_gt, Nat.ltb_ge. lia.
  - destruct (set_column_spec n col f r (dr_ids rep) ltac:(lia) missing 0 mat W ltac:(lia)) as (m1 & E1 & W1 & A1).
    rewrite E1. cbn [bind]. destruct (IH (S col) m1 W1 ltac:(lia)) as (m2 & E2 & W2 & A2).
    exists m2. split; [exact E2|]. split; [exact W2|]. intros a b Ha Hb. rewrite (A2 a b Ha Hb), (A1 a b Ha Hb).
    replace (Nat.leb 0 b) with true by reflexivity.
    replace (Nat.ltb b (0 + length missing)) with true by (symmetry; apply Nat.ltb_lt; lia).
    rewrite Nat.sub_0_r, !andb_true_r.
    destruct (Nat.eqb a col) eqn:Ea.
    + apply Nat.eqb_eq in Ea. subst a. replace (Nat.leb (S col) col) with false by (symmetry; apply Nat.leb_gt; lia).
      replace (Nat.leb col col) with true by (symmetry; apply Nat.leb_le; lia).
      replace (Nat.ltb col (col + S (length reps))) with true by (symmetry; apply Nat.ltb_lt; lia).
      rewrite Nat.sub_diag. reflexivity.
    + apply Nat.eqb_neq in Ea. destruct (Nat.leb col a) eqn:El.
      * apply Nat.leb_le in El. replace (Nat.leb (S col) a) with true by (symmetry; apply Nat.leb_le; lia).
        replace (col + S (length reps))%nat with (S col + length reps)%nat by lia.
        destruct (Nat.ltb a _); [|reflexivity]. cbn [andb]. replace (a - col)%nat with (S (a - S col)) by lia. reflexivity.
      * apply Nat.leb_gt in El. replace (Nat.leb (S col) a) with false by (symmetry; apply Nat.leb_gt; lia).
        reflexivity.
Qed.

Lemma wfm_ext n (v w : list N) : wfm n v -> wfm n w ->
  (forall a b, (a < n)%nat -> (b < n)%nat -> at_ n v a b = at_ n w a b) -> v = w.
Proof.
  intros V W H. apply (nth_ext v w 0 0); [congruence|]. intros k Hk. unfold wfm in *.
  assert (n <> 0)%nat by (intros ->; lia).
  specialize (H (k / n)%nat (k mod n)%nat). unfold at_ in H.
  rewrite (Nat.mul_comm (k / n)), <- Nat.div_mod in H by assumption.
  apply H; [apply Nat.div_lt_upper_bound; lia | apply Nat.mod_upper_bound; assumption].
Qed.

Lemma coefficients_wfm n f reps missing : length reps = n -> length missing = n ->
  wfm n (coefficients f reps missing).
Proof.
  intros H1 H2. unfold wfm, coefficients. rewrite <- H1 at 1. clear H1.
  induction reps as [|[r rep] reps IH]; [reflexivity|].
  cbn [map concat length Nat.mul]. rewrite app_length, map_length, IH. lia.
Qed.

Lemma coefficients_at n f reps missing a b : length missing = n -> (a < length reps)%nat -> (b < n)%nat ->
  at_ n (coefficients f reps missing) a b = entry f reps missing a b.
Proof.
  intros H. unfold at_, coefficients, entry. revert a. induction reps as [|[r rep] reps IH]; intros a Ha Hb; [cbn in Ha; lia|].
  cbn [map concat]. destruct a as [|a]; cbn [nth_error].
  - cbn [Nat.mul plus]. rewrite app_nth1 by (rewrite map_length; lia). reflexivity.
  - rewrite app_nth2 by (rewrite map_length; lia). rewrite map_length, H.
    replace (S a * n + b - n)%nat with (a * n + b)%nat by lia. apply IH; [cbn in Ha; lia | exact Hb].
Qed.

Lemma set_columns_all n f reps missing junk old : length reps = n -> length missing = n ->
  set_columns n 0 f reps missing (resize_raw junk (n * n) old) = Ok (coefficients f reps missing).
Proof.
  intros H1 H2.
  destruct (set_columns_spec n f missing H2 reps 0 (resize_raw junk (n * n) old)
    (resize_raw_length _ _ _) ltac:(lia)) as (v & E & W & A).
  rewrite E. f_equal. apply (wfm_ext n); [exact W | apply coefficients_wfm; assumption|].
  intros a b Ha Hb. rewrite (A a b Ha Hb), coefficients_at by (assumption || lia).
  replace (Nat.leb 0 a) with true by reflexivity.
  replace (Nat.ltb a (0 + length reps)) with true by (symmetry; apply Nat.ltb_lt; lia).
  rewrite Nat.sub_0_r. reflexivity.
Qed.

Lemma invert_any f n mat v w : wfm n v -> wfm n w -> invert f n mat v = invert f n mat w.
Proof.
  intros V W. unfold invert.
  destruct (set_identity_spec n v V) as (v' & E1 & W1 & A1).
  destruct (set_identity_spec n w W) as (w' & E2 & W2 & A2). rewrite E1, E2.
  replace w' with v'; [reflexivity|]. apply (wfm_ext n); [assumption..|].
  intros a b Ha Hb. rewrite A1, A2 by assumption. reflexivity.
Qed.

(** ** The index and the loops over the rows *)

Lemma fill_index_spec old reps : fill_index old reps = map fst reps.
Proof.
  unfold fill_index. rewrite firstn_O.
  enough (E : forall l, fold_left (fun l rr => l ++ [fst rr]) reps l = l ++ map fst reps) by apply E.
  induction reps as [|r reps IH]; intros l; cbn [fold_left map].
  - rewrite app_nil_r. reflexivity.
  - rewrite IH, <- app_assoc. reflexivity.
Qed.

Lemma mfind_nth {V} (l : list (N * V)) : msorted l -> forall k r v, nth_error l k = Some (r, v) -> mfind r l = Some v.
Proof.
  intros S k r v H. destruct (mfind r l) as [v'|] eqn:E.
  - f_equal. revert k H E. unfold msorted in S. induction l as [|[r' w] l IH]; intros k H E; [destruct k; discriminate|].
    cbn [mfind] in E. destruct k as [|k]; cbn [nth_error] in H.
    + injection H as -> ->. rewrite N.eqb_refl in E. congruence.
    + destruct (r =? r') eqn:Er.
      * apply N.eqb_eq in Er. subst r'. exfalso. cbn [mkeys map fst] in S.
        apply ssorted_NoDup in S. inversion S as [|a b Ha _]. apply Ha.
        apply nth_error_In in H. apply (in_map fst) in H. exact H.
      * apply (IH (proj1 (ssorted_cons_inv _ _ S)) k H E).
  - exfalso. apply mfind_none in E. apply E. apply nth_error_In in H. apply (in_map fst) in H. exact H.
Qed.

Lemma combine_nth_error {A B} (a : list A) : forall (b : list B) k x y,
  nth_error (combine a b) k = Some (x, y) -> nth_error a k = Some x /\ nth_error b k = Some y.
Proof.
  induction a as [|u a IH]; intros [|v b] [|k] x y H; cbn in *; try discriminate.
  - injection H as -> ->. split; reflexivity.
  - apply IH, H.
Qed.

Lemma nth_error_skipn {A} (l : list A) : forall i k, nth_error (skipn i l) k = nth_error l (i + k).
Proof. induction l as [|x l IH]; intros [|i] k; cbn; try reflexivity; [destruct k; reflexivity | apply IH]. Qed.

Lemma nth_error_firstn {A} (l : list A) : forall i k, (k < i)%nat -> nth_error (firstn i l) k = nth_error l k.
Proof.
  induction l as [|x l IH]; intros [|i] [|k] H; cbn; try reflexivity; try lia. apply IH. lia.
Qed.

Lemma xorl_firstn a : forall n b, (length a <= n)%nat -> firstn n (xorl a b) = xorl a (firstn n b).
Proof.
  induction a as [|x a IH]; intros n b H; [reflexivity|]. destruct n as [|n]; [cbn in H; lia|].
  destruct b as [|y b].
  - cbn [xorl firstn]. rewrite firstn_all2 by (cbn in H; lia). reflexivity.
  - cbn [xorl firstn]. rewrite IH by (cbn in H; lia). reflexivity.
Qed.

Lemma xorl_len a : forall b, length (xorl a b) = Nat.max (length a) (length b).
Proof.
  induction a as [|x a IH]; intros [|y b]; cbn [xorl length]; try lia. rewrite IH. lia.
Qed.

Section Rows.
Variables (m : mode) (f : field) (n : nat) (inv : list N) (reps : list (N * drepair)) (col : nat).
Hypothesis (Hr : length reps = n) (Hs : msorted reps) (Hw : wfm n inv) (Hc : (col < n)%nat).

Let idx := map fst reps.
Let L := combine (column n inv col) (map snd reps).

Lemma column_length : length (column n inv col) = n.
Proof. unfold column. rewrite firstn_length, skipn_length, Hw. nia. Qed.

Lemma L_length : length L = n.
Proof. unfold L. rewrite combine_length, column_length, map_length. lia. Qed.

Lemma row_ok k c r : nth_error L k = Some (c, r) ->
  get inv (index n k col) = Ok c /\ indexed idx reps k = Ok r.
Proof.
  intros H. assert (Hk : (k < n)%nat) by (rewrite <- L_length; apply nth_error_Some; congruence).
  apply combine_nth_error in H. destruct H as [H1 H2]. split.
  - unfold get, index. unfold column in H1. rewrite nth_error_firstn in H1 by exact Hk.
    rewrite nth_error_skipn in H1. rewrite H1. reflexivity.
  - unfold indexed, idx. rewrite nth_error_map in *.
    destruct (nth_error reps k) as [[q rep]|] eqn:E; [|discriminate]. cbn [option_map fst snd] in *.
    rewrite (mfind_nth _ Hs _ _ _ E). congruence.
Qed.

Lemma nth_middle {A} (pre : list A) x suf : nth_error (pre ++ x :: suf) (length pre) = Some x.
Proof. rewrite nth_error_app2, Nat.sub_diag by lia. reflexivity. Qed.

Lemma size_rows suf : forall pre res, L = pre ++ suf ->
  loop (seq (length pre) (length suf)) (fun row res =>
    c <- get inv (index n row col) ;;
    if c =? 0 then Ok res
    else
      r <- indexed idx reps row ;;
      Ok (N.lxor (u16 (multiply_size f (dr_enc r) c)) res)) res
  = Ok (fold_left (fun res '(c, r) =>
          if c =? 0 then res else N.lxor (u16 (multiply_size f (dr_enc r) c)) res) suf res).
Proof.
  induction suf as [|[c r] suf IH]; intros pre res E; [reflexivity|].
  cbn [length seq loop fold_left].
  destruct (row_ok (length pre) c r) as [R1 R2]; [rewrite E; apply nth_middle|].
  rewrite R1. cbn [bind].
  assert (E' : L = (pre ++ [(c, r)]) ++ suf) by (rewrite <- app_assoc; exact E).
  specialize (fun res => IH (pre ++ [(c, r)]) res E'). rewrite app_length in IH. cbn [length] in IH.
  rewrite Nat.add_1_r in IH.
  destruct (c =? 0); cbn [bind]; [apply IH|]. rewrite R2. cbn [bind]. apply IH.
Qed.

Lemma sdecode_size_spec : sdecode_size f n inv idx reps col = Ok (decode_size f L).
Proof.
  unfold sdecode_size. pose proof (size_rows L [] 0 eq_refl) as H. rewrite L_length in H. exact H.
Qed.

Lemma symbol_rows sz suf : forall pre buf, L = pre ++ suf -> (16 + N.to_nat sz <= length buf)%nat ->
  (buf <- loop (seq (length pre) (length suf)) (fun row buf =>
           c <- get inv (index n row col) ;;
           if c =? 0 then Ok buf
           else
             r <- indexed idx reps row ;;
             at_symbol (fun dst =>
               region_multiply_add f (dr_buf r) dst (N.to_nat (N.min sz (dr_size r))) c) buf) buf ;;
   Ok (symbol_of (N.to_nat sz) buf))
  = decode_rest f sz suf (symbol_of (N.to_nat sz) buf).
Proof.
  induction suf as [|[c r] suf IH]; intros pre buf E Hb; [reflexivity|].
  cbn [length seq loop decode_rest].
  destruct (row_ok (length pre) c r) as [R1 R2]; [rewrite E; apply nth_middle|].
  rewrite R1. cbn [bind].
  assert (E' : L = (pre ++ [(c, r)]) ++ suf) by (rewrite <- app_assoc; exact E).
  specialize (fun buf => IH (pre ++ [(c, r)]) buf E'). rewrite app_length in IH. cbn [length] in IH.
  rewrite Nat.add_1_r in IH.
  destruct (c =? 0); cbn [bind]; [apply IH, Hb|]. rewrite R2. cbn [bind].
  unfold at_symbol, region_multiply_add. set (len := N.to_nat (N.min sz (dr_size r))).
  assert (Hl : (len <= N.to_nat sz)%nat) by (unfold len; lia).
  destruct (Nat.ltb (length (dr_buf r)) len) eqn:El; [reflexivity|]. apply Nat.ltb_ge in El. cbn [orb].
  assert (Hsk : (N.to_nat sz <= length (skipn 16 buf))%nat) by (rewrite skipn_length; lia).
  replace (Nat.ltb (length (skipn 16 buf)) len) with false by (symmetry; apply Nat.ltb_ge; lia).
  replace (Nat.ltb (length (symbol_of (N.to_nat sz) buf)) len) with false
    by (symmetry; apply Nat.ltb_ge; unfold symbol_of; rewrite firstn_length; lia).
  destruct (negb (aligned f len)); [reflexivity|]. cbn [bind].
  assert (Ha : length (rmul f c (firstn len (dr_buf r))) = len) by (rewrite rmul_len, firstn_length; lia).
  rewrite IH.
  - f_equal. rewrite symbol_at by lia. rewrite xorl_firstn by lia. reflexivity.
  - rewrite app_length, firstn_length, xorl_len. lia.
Qed.

Lemma zero_symbol k j : symbol_of j (zero_packet (k + 16)) = repeat 0 (Nat.min j (k + 9)).
Proof.
  unfold symbol_of, zero_packet. replace (k + 16 + 9)%nat with (16 + (k + 9))%nat by lia.
  rewrite repeat_app, skipn_app, repeat_length, Nat.sub_diag, skipn_all2 by (rewrite repeat_length; lia).
  cbn [app skipn]. generalize (k + 9)%nat. intros i. revert i. induction j as [|j IH]; intros [|i]; cbn [firstn repeat Nat.min]; try reflexivity.
  f_equal. apply IH.
Qed.

Lemma zero_skip k : skipn 16 (zero_packet (k + 16)) = repeat 0 (k + 9).
Proof.
  unfold zero_packet. replace (k + 16 + 9)%nat with (16 + (k + 9))%nat by lia.
  rewrite repeat_app, skipn_app, repeat_length, Nat.sub_diag, skipn_all2 by (rewrite repeat_length; lia). reflexivity.
Qed.

Lemma skipn_repeat (x : N) i : forall k, skipn i (repeat x k) = repeat x (k - i).
Proof. induction i as [|i IH]; intros [|k]; cbn; try reflexivity. apply IH. Qed.

Lemma firstn_repeat (x : N) i : forall k, firstn i (repeat x k) = repeat x (Nat.min i k).
Proof. induction i as [|i IH]; intros [|k]; cbn; try reflexivity. f_equal. apply IH. Qed.

Lemma sdecode_symbol_spec sz : sdecode_symbol m f n inv idx reps col sz = decode_symbol m f sz L.
Proof.
  unfold sdecode_symbol. rewrite Hr.
  match goal with |- bind _ ?rest = _ =>
    enough (K : forall suf pre, L = pre ++ suf ->
      bind (first_row n inv col (length suf) (length pre)) rest = decode_symbol m f sz suf)
  end.
  { specialize (K L [] eq_refl). rewrite L_length in K. exact K. }
  induction suf as [|[c r] suf IH]; intros pre E.
  - cbn [length first_row bind decode_symbol]. rewrite app_nil_r in E. rewrite <- E, L_length, Nat.eqb_refl. cbn [negb].
    destruct (assert_ m false); try reflexivity. cbn [bind]. unfold indexed, idx.
    rewrite (proj2 (nth_error_None _ _)) by (rewrite map_length; lia). reflexivity.
  - cbn [length first_row decode_symbol].
    destruct (row_ok (length pre) c r) as [R1 R2]; [rewrite E; apply nth_middle|].
    rewrite R1. cbn [bind].
    assert (E' : L = (pre ++ [(c, r)]) ++ suf) by (rewrite <- app_assoc; exact E).
    destruct (c =? 0) eqn:Ec.
    + specialize (IH (pre ++ [(c, r)]) E'). rewrite app_length in IH. cbn [length] in IH.
      rewrite Nat.add_1_r in IH. exact IH.
    + cbn [bind]. assert (Hn : n = (length pre + S (length suf))%nat)
        by (rewrite <- L_length, E, app_length; reflexivity).
      replace (Nat.eqb (length pre) n) with false by (symmetry; apply Nat.eqb_neq; lia).
      assert (Ha : assert_ m (negb false) = Ok tt) by (destruct m; reflexivity). rewrite Ha. cbn [bind].
      rewrite R2, R1. cbn [bind]. unfold at_symbol at 1, multiply_into, region_multiply.
      set (len := N.to_nat (N.min sz (dr_size r))).
      assert (Hl : (len <= N.to_nat sz)%nat) by (unfold len; lia).
      destruct (Nat.ltb (length (dr_buf r)) len) eqn:El; [reflexivity|]. apply Nat.ltb_ge in El. cbn [orb].
      rewrite zero_skip, repeat_length.
      replace (Nat.ltb (N.to_nat sz + 9) len) with false by (symmetry; apply Nat.ltb_ge; lia).
      destruct (negb (aligned f len)); [reflexivity|]. cbn [bind].
      assert (Hd : length (rmul f c (firstn len (dr_buf r))) = len) by (rewrite rmul_len, firstn_length; lia).
      pose proof (symbol_rows sz suf (pre ++ [(c, r)])) as K. rewrite app_length in K. cbn [length] in K.
      rewrite Nat.add_1_r in K. replace (n - S (length pre))%nat with (length suf) by lia.
      rewrite K; [|exact E'|].
      * f_equal. rewrite symbol_at by (unfold zero_packet; rewrite repeat_length; lia).
        rewrite firstn_app, firstn_all2 by lia. rewrite Hd, skipn_repeat, firstn_repeat. do 2 f_equal. lia.
      * unfold zero_packet. rewrite !app_length, firstn_length, repeat_length, skipn_repeat, repeat_length. lia.
Qed.

End Rows.

Lemma sdecode_all_spec m n inv missing : wfm n inv -> forall col d,
  length (d_repairs d) = n -> msorted (d_repairs d) -> (col + length missing <= n)%nat ->
  sdecode_all m n inv (map fst (d_repairs d)) col missing d
  = decode_all m n inv (map snd (d_repairs d)) col missing d.
Proof.
  intros W. induction missing as [|id missing IH]; intros col d Hl Hs Hc; [reflexivity|].
  cbn [sdecode_all decode_all length] in *.
  rewrite sdecode_size_spec by (assumption || lia). cbn [bind].
  rewrite sdecode_symbol_spec by (assumption || lia).
  destruct (decode_symbol _ _ _ _) as [data| |]; try reflexivity. cbn [bind].
  destruct (add_decoded m d id data) as [d1| |] eqn:E; try reflexivity. cbn [bind].
  assert (Er : d_repairs d1 = d_repairs d).
  { unfold add_decoded in E. apply bind_ok in E. destruct E as (u & _ & E).
    destruct (negb _); [injection E as <-; reflexivity|].
    destruct (id =? _); [|injection E as <-; reflexivity].
    apply flush_same in E. destruct E as (_ & _ & E & _). exact E. }
  rewrite <- Er. apply IH; rewrite ?Er; assumption || lia.
Qed.

Lemma sattempt_spec mem m d : msorted (d_repairs d) ->
  m = Debug \/ attempt_full_decoding m d <> Fault Uninitialised ->
  sattempt mem m d = attempt_full_decoding m d.
Proof.
  intros S H. unfold sattempt, attempt_full_decoding in *.
  set (nr := length (d_repairs d)) in *. set (nm := length (d_missing d)) in *.
  destruct (Nat.eqb nr 0 || Nat.eqb nm 0)%bool eqn:E0; [reflexivity|].
  destruct (Nat.ltb nr nm) eqn:E1; [reflexivity|].
  assert (E2' : Nat.eqb nm nr = true \/ m = Debug /\ Nat.eqb nm nr = false).
  { destruct (Nat.eqb nm nr) eqn:E; [left; reflexivity | right]. split; [|reflexivity].
    destruct H as [H|H]; [exact H|]. destruct m; [reflexivity|]. exfalso. apply H. reflexivity. }
  clear H. destruct E2' as [E2|[-> E2]]; [|rewrite E2; reflexivity].
  destruct (assert_ m (Nat.eqb nm nr)); try reflexivity. cbn [bind] in *.
  destruct (assert_ m (Nat.ltb 1 nm)); try reflexivity. cbn [bind] in *.
  rewrite E2. cbn [negb] in *. apply Nat.eqb_eq in E2.
  rewrite set_columns_all by (reflexivity || rewrite mkeys_length; exact E2). cbn [bind].
  rewrite (invert_any _ nr _ _ (repeat 0 (nr * nr))) by (apply resize_raw_length || apply repeat_length).
  destruct (invert _ _ _ _) as [[k|[mat inv]]| |] eqn:Ei; try reflexivity. cbn [bind].
  rewrite fill_index_spec, sdecode_all_spec; try reflexivity.
  - destruct (invert_spec (d_field d) nr (coefficients (d_field d) (d_repairs d) (mkeys (d_missing d))) (repeat 0 (nr * nr)))
      as [(m' & v' & E & _ & W & _)|(E & _)].
    + intros Z. rewrite Z in E0. discriminate.
    + apply coefficients_wfm; [reflexivity | rewrite mkeys_length; exact E2].
    + apply repeat_length.
    + intros i j _ _. pose proof (coefficients_elt (d_field d) (d_repairs d) (mkeys (d_missing d)) i j) as K.
      rewrite mkeys_length in K. fold nm in K. rewrite E2 in K. exact K.
    + rewrite E in Ei. injection Ei as -> ->. exact W.
    + rewrite E in Ei. discriminate.
  - exact S.
  - rewrite mkeys_length. fold nm. lia.
Qed.

(** ** The receiver *)

Lemma srecv_source_spec mem m d id data : good 0 d ->
  m = Debug \/ recv_source m d id data <> Fault Uninitialised ->
  srecv_source mem m d id data = recv_source m d id data.
Proof.
  intros G H. unfold srecv_source, recv_source in *.
  destruct (outdated d id); [reflexivity|]. destruct (mmem id (d_sources d)); [reflexivity|].
  rewrite sadd_source_spec. destruct (add_source _ m d id data) as [d1| |] eqn:E; try reflexivity. cbn [bind] in *.
  apply sattempt_spec; [|exact H]. apply (add_source_good 0 m) in E; [apply (gd_repairs _ _ E) | exact G | lia].
Qed.

Lemma srecv_repair_spec mem m d r : good 0 d -> ssorted (dr_ids r) ->
  m = Debug \/ recv_repair m d r <> Fault Uninitialised ->
  srecv_repair mem m d r = recv_repair m d r.
Proof.
  intros G Sr H. unfold srecv_repair, recv_repair in *.
  destruct (assert_ m _); try reflexivity. cbn [bind] in *.
  destruct (dr_ids r) as [|first ids] eqn:Ei; [reflexivity|].
  destruct (outdated d _); [reflexivity|]. destruct (mmem (dr_id r) (d_repairs d)); [reflexivity|].
  destruct (drop_outdated m d first) as [d1| |] eqn:E1; try reflexivity. cbn [bind] in *.
  destruct (forallb _ _); [reflexivity|].
  destruct (assert_ m (negb (mmem (dr_id r) (d_repairs d1)))); try reflexivity. cbn [bind] in *.
  rewrite <- Ei in *.
  destruct (link_repair m (rev (dr_ids r)) d1 r) as [[d2 r2]| |] eqn:E2; try reflexivity. cbn [bind] in *.
  destruct (assert_ m _); try reflexivity. cbn [bind] in *.
  destruct (Nat.eqb (length (dr_ids r2)) 1).
  - rewrite screate_source_spec. destruct (create_source _ _ _) as [[id data]| |]; try reflexivity. cbn [bind].
    apply sadd_source_spec.
  - apply sattempt_spec; [|exact H]. cbn [d_repairs with_repairs]. apply mset_sorted.
    apply drop_outdated_good in E1; [|exact G]. destruct E1 as (E1 & _).
    apply link_repair_moves in E2. destruct E2 as [[M ->] _]. apply (gd_repairs _ _ E1).
Qed.

Lemma sgenerate_ack_of_spec s known d : sgenerate_ack_of s known d = generate_ack_of known d.
Proof. unfold sgenerate_ack_of. rewrite swrite_ack_spec. reflexivity. Qed.

Lemma smaybe_ack_of_spec s clk known d : smaybe_ack_of s clk known d = maybe_ack_of clk known d.
Proof. unfold smaybe_ack_of, maybe_ack_of. rewrite sgenerate_ack_of_spec. reflexivity. Qed.

Lemma shandle_sources_spec mem clk l : forall k d,
  shandle_sources mem k clk d l = handle_sources clk d l.
Proof.
  induction l as [|v l IH]; intros k d; [reflexivity|]. cbn [shandle_sources handle_sources].
  unfold handle_source. rewrite smaybe_ack_of_spec. destruct (maybe_ack_of clk (v_known v) d) as [d1 out].
  rewrite IH. reflexivity.
Qed.

Lemma scall_core_spec mem clk d run run' : run (dc_core d) = run' (dc_core d) ->
  scall_core mem clk d run = call_core clk d run'.
Proof.
  intros E. unfold scall_core, call_core. rewrite E. destruct (run' _) as [c| |]; try reflexivity. cbn [bind].
  rewrite shandle_sources_spec. reflexivity.
Qed.

Lemma sdec_packet_spec mem m clk d p : good 0 (dc_core d) ->
  m = Debug \/ snd (dec_packet m clk d p) <> Fault Uninitialised ->
  sdec_packet mem m clk d p = dec_packet m clk d p.
Proof.
  intros G H. unfold sdec_packet, dec_packet in *.
  destruct (_ <- assert_ m _ ;; get_packet_type p) as [[]| |]; try reflexivity.
  - rewrite sread_repair_spec. destruct (read_repair m p) as [[r n]| |] eqn:Er; try reflexivity. cbn [bind] in *.
    rewrite (scall_core_spec mem clk _ _ (fun c => recv_repair m c r)); [reflexivity|].
    apply srecv_repair_spec; [exact G | apply (read_repair_sorted _ _ _ _ Er)|].
    destruct H as [H|H]; [left; exact H | right]. intros E. apply H. unfold call_core. rewrite E. reflexivity.
  - destruct (read_source m p) as [[s n]| |] eqn:Er; try reflexivity. cbn [bind] in *.
    rewrite (scall_core_spec mem clk _ _ (fun c => recv_source m c (ds_id s) (ds_data s))); [reflexivity|].
    apply srecv_source_spec; [exact G|].
    destruct H as [H|H]; [left; exact H | right]. intros E. apply H. unfold call_core. rewrite E. reflexivity.
Qed.

Lemma sdstep_spec mem m clk d op : good 0 (dc_core d) -> m = Debug \/ snd (dstep m clk d op) <> Fault Uninitialised ->
  sdstep mem m clk d op = dstep m clk d op.
Proof.
  intros G H. destruct op as [p| | |t|n]; try reflexivity; cbn [sdstep dstep] in *.
  - rewrite sdec_packet_spec; [reflexivity | exact G|]. destruct (dec_packet m clk d p) as [d1 r]. cbn [snd] in *.
    destruct H as [H|H]; [left; exact H | right]. intros ->. apply H. reflexivity.
  - rewrite sgenerate_ack_of_spec. reflexivity.
  - rewrite smaybe_ack_of_spec. reflexivity.
Qed.

Lemma maybe_ack_of_core clk known d : dc_core (fst (maybe_ack_of clk known d)) = dc_core d.
Proof.
  unfold maybe_ack_of. destruct (_ <=? _); [reflexivity|]. destruct (_ =? _)%Z; [reflexivity|].
  destruct (_ <=? _)%Z; reflexivity.
Qed.

Lemma handle_sources_core clk l : forall d, dc_core (fst (handle_sources clk d l)) = dc_core d.
Proof.
  induction l as [|v l IH]; intros d; [reflexivity|]. cbn [handle_sources]. unfold handle_source.
  pose proof (maybe_ack_of_core clk (v_known v) d) as E. destruct (maybe_ack_of clk (v_known v) d) as [d1 out].
  specialize (IH d1). destruct (handle_sources clk d1 l) as [d2 out']. cbn [fst] in *. congruence.
Qed.

Lemma dec_packet_good m clk d p : good 0 (dc_core d) -> good 0 (dc_core (fst (dec_packet m clk d p))).
Proof.
  intros G. unfold dec_packet.
  destruct (_ <- assert_ m _ ;; get_packet_type p) as [[]| |]; try exact G.
  - destruct (read_repair m p) as [[r n]| |] eqn:Er; try exact G. cbn [bind]. unfold call_core.
    destruct (recv_repair m _ r) as [c| |] eqn:Ec; try exact G. cbn [bind].
    match goal with |- context [handle_sources clk ?d ?l] => pose proof (handle_sources_core clk l d) as K;
      destruct (handle_sources clk d l) as [d1 out] end.
    cbn [bind finish fst]. cbn [fst with_core dc_core] in K. rewrite K.
    apply recv_repair_good in Ec; [apply Ec | exact G | apply (read_repair_sorted _ _ _ _ Er)].
  - destruct (read_source m p) as [[s n]| |] eqn:Er; try exact G. cbn [bind]. unfold call_core.
    destruct (recv_source m _ _ _) as [c| |] eqn:Ec; try exact G. cbn [bind].
    match goal with |- context [handle_sources clk ?d ?l] => pose proof (handle_sources_core clk l d) as K;
      destruct (handle_sources clk d l) as [d1 out] end.
    cbn [bind finish fst]. cbn [fst with_core dc_core] in K. rewrite K.
    apply recv_source_good in Ec; [apply Ec | exact G].
Qed.

Lemma dstep_good m clk d op : good 0 (dc_core d) -> good 0 (dc_core (fst (dstep m clk d op))).
Proof.
  intros G. destruct op as [p| | |t|n]; cbn [dstep]; try exact G.
  - pose proof (dec_packet_good m clk d p G) as K. destruct (dec_packet m clk d p); exact K.
  - unfold maybe_ack. pose proof (maybe_ack_of_core clk (mkeys (d_sources (dc_core d))) d) as K.
    destruct (maybe_ack_of _ _ _) as [d1 out]. cbn [fst] in *. rewrite K. exact G.
  - unfold set_ack_nb_packets. destruct (assert_ m _); exact G.
Qed.

Lemma sdrun_spec m clk ops : forall d, good 0 (dc_core d) ->
  m = Debug \/ drun m clk d (map snd ops) <> Fault Uninitialised ->
  sdrun m clk d ops = drun m clk d (map snd ops).
Proof.
  induction ops as [|[mem op] ops IH]; intros d G H; [reflexivity|]. cbn [sdrun drun map snd] in *.
  pose proof (dstep_good m clk d op G) as G1. pose proof (sdstep_spec mem m clk d op G) as E.
  destruct (dstep m clk d op) as [d1 [out|e|x]]; cbn [fst snd] in *.
  - rewrite E by (right; discriminate). rewrite IH; [reflexivity | exact G1|].
    destruct H as [H|H]; [left; exact H | right]. intros E'. apply H. rewrite E'. reflexivity.
  - rewrite E by (right; discriminate). apply IH; assumption.
  - rewrite E; [reflexivity|]. destruct H as [H|H]; [left; exact H|]. right. intros [= ->]. apply H. reflexivity.
Qed.
