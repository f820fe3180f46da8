(** * Any bytes but repairs: C83 *)
From Coq Require Import ZArith NArith Arith List Bool Lia Sorted.
From Verif Require Import Outcome GF GFRegion Containers ContainersFacts Packetizer PacketizerFacts PropsPacketizer
  PropsWire DetailDecoder Decoder DecoderInv DecoderOuter DecoderProgress PropsModes.
Import ListNotations.
Open Scope N_scope.

(** ** Vocabulary *)

(** What a packet is if it is a source: type 2, identifier, size, and at least as many bytes. *)
Definition source_of (p : list N) : option (N * list N) :=
  match p with
  | t :: a :: b :: c :: d :: h :: l :: rest =>
      let size := N.to_nat (256 * h + l) in
      if (t =? 2) && (size <=? length rest)%nat
      then Some (((a * 256 + b) * 256 + c) * 256 + d, firstn size rest) else None
  | _ => None
  end.

Definition has (i : N) (l : list (N * list N)) : bool := existsb (fun q => fst q =? i) l.

(** The sources that arrived, the first one of each identifier. *)
Definition note (l : list (N * list N)) (p : list N) : list (N * list N) :=
  match source_of p with
  | Some (i, data) => if has i l then l else l ++ [(i, data)]
  | None => l
  end.
Definition firsts (ps : list (list N)) : list (N * list N) := fold_left note ps [].

Definition content (l : list (N * list N)) (i : N) : list N :=
  match find (fun q => fst q =? i) l with Some q => snd q | None => [] end.

(** Anything that is not a complete repair. *)
Definition no_repair (p : list N) : Prop :=
  p <> [] /\ Forall (fun b => b < 256) p
  /\ ~ exists q rest id sym ids enc, p = q ++ rest /\ repair_accepted id sym ids enc q.

Definition hostile (op : dop) : Prop :=
  match op with
  | DPacket p => no_repair p
  | DSetNb nb => 0 < nb
  | _ => True
  end.

Definition given_packets (ops : list dop) : list (list N) :=
  flat_map (fun op => match op with DPacket p => [p] | _ => [] end) ops.

(** ** Reading *)

Lemma source_of_read m p : get_packet_type p = Ok TSource ->
  match source_of p with
  | Some (i, data) => exists s, read_source m p = Ok (s, (7 + length data)%nat) /\ ds_id s = i /\ ds_data s = data
  | None => read_source m p = Throw OverflowError
  end.
Proof.
  intros T. pose proof (assert_announced m p TSource (fun _ => T)) as Ha.
  assert (E := read_source_parse m p Ha). apply (first_byte p 2 TSource) in T as (r & ->); [|auto].
  cbn [app] in *. rewrite E. clear E. unfold psource, pbind. rewrite pbe1.
  destruct r as [|a [|b [|c [|d r]]]]; try reflexivity.
  change (pbe 4 0 (a :: b :: c :: d :: r)) with (Some ((((0 * 256 + a) * 256 + b) * 256 + c) * 256 + d, r)).
  destruct r as [|h [|l rest]]; try reflexivity.
  change (pbe 2 0 (h :: l :: rest)) with (Some ((0 * 256 + h) * 256 + l, rest)).
  unfold source_of. replace ((0 * 256 + h) * 256 + l) with (256 * h + l) by lia. unfold pskip.
  change (2 =? 2) with true. cbn [andb]. set (size := N.to_nat (256 * h + l)).
  destruct (Nat.ltb_spec (length rest) size) as [L|L].
  - destruct (Nat.leb_spec size (length rest)); [lia | reflexivity].
  - destruct (Nat.leb_spec size (length rest)); [|lia]. cbn [pret result]. eexists. split.
    + f_equal. f_equal. rewrite skipn_length, firstn_length. cbn [length]. lia.
    + split; [cbn; lia|]. reflexivity.
Qed.

Lemma source_of_small p i data : Forall (fun b => b < 256) p -> source_of p = Some (i, data) -> i < 2 ^ 32.
Proof.
  intros B H. destruct p as [|t [|a [|b [|c [|d [|h [|l rest]]]]]]]; try discriminate. unfold source_of in H.
  destruct (_ && _)%bool in H; [|discriminate]. injection H as <- _.
  repeat match goal with H : Forall _ (_ :: _) |- _ => inversion H; clear H; subst end. lia.
Qed.

Lemma source_of_type p : source_of p <> None -> get_packet_type p = Ok TSource.
Proof.
  destruct p as [|t [|a [|b [|c [|d [|h [|l rest]]]]]]]; unfold source_of; try congruence.
  destruct (N.eqb_spec t 2) as [->|]; [reflexivity|]. cbn [andb]. congruence.
Qed.

(** ** The core *)

Lemma has_spec i l : has i l = true <-> In i (map fst l).
Proof.
  unfold has. rewrite existsb_exists, in_map_iff. split.
  - intros (q & Hq & E). apply N.eqb_eq in E. exists q. auto.
  - intros (q & <- & Hq). exists q. split; [exact Hq | apply N.eqb_refl].
Qed.

Lemma content_snoc l i data x : has i l = false ->
  content (l ++ [(i, data)]) x = if x =? i then data else content l x.
Proof.
  unfold content, has. induction l as [|[j e] l IH]; intros H; cbn [app find fst existsb] in *.
  - rewrite N.eqb_sym. destruct (x =? i); reflexivity.
  - apply orb_false_iff in H as [H1 H2]. destruct (N.eqb_spec j x) as [->|].
    + rewrite H1. reflexivity.
    + apply IH. exact H2.
Qed.

Definition upto (n : nat) : list N := map N.of_nat (seq 0 n).

Lemma upto_S n : upto (S n) = upto n ++ [N.of_nat n].
Proof. unfold upto. rewrite seq_S, map_app. reflexivity. Qed.

Definition delivered (c : ddec) : list (list N) := map v_data (d_log c).

Definition queue (c : ddec) (l : list (N * list N)) (n : nat) : Prop :=
  d_first c = u32 (N.of_nat n) /\ delivered c = map (content l) (upto n)
  /\ (forall i, i < N.of_nat n -> In i (map fst l)) /\ ~ In (N.of_nat n) (map fst l)
  /\ (N.of_nat n < 2 ^ 32 -> ssorted (d_ordered c) /\ forall x, In x (d_ordered c) <-> In x (map fst l) /\ N.of_nat n <= x).

(** The core of a receiver that got the sources [l] and nothing else. *)
Record plain (o : bool) (c : ddec) (l : list (N * list N)) : Prop := {
  pl_missing : d_missing c = [];
  pl_repairs : d_repairs c = [];
  pl_last : d_last c = None;
  pl_order : d_in_order c = o;
  pl_keys : forall x, In x (mkeys (d_sources c)) <-> In x (map fst l);
  pl_data : forall x, In x (map fst l) -> mfind x (d_sources c) = Some (content l x);
  pl_small : forall x, In x (map fst l) -> x < 2 ^ 32;
  pl_out : if o then exists n, queue c l n else delivered c = map snd l
}.

(** The loop over the data held back; [n] is the number of the next one. *)
Lemma flush_loop_plain m (f : N -> list N) : forall l c n,
  d_ordered c = l -> ssorted l -> hd 0 l = N.of_nat n -> l <> [] -> d_first c = N.of_nat n ->
  (forall x, In x l -> x < 2 ^ 32 /\ mfind x (d_sources c) = Some (f x)) ->
  exists c' n', flush_loop m l c = Ok c' /\ (n < n')%nat
  /\ d_first c' = u32 (N.of_nat n') /\ delivered c' = delivered c ++ map f (map N.of_nat (seq n (n' - n)))
  /\ (forall x, N.of_nat n <= x < N.of_nat n' -> In x l) /\ ~ In (N.of_nat n') l
  /\ ssorted (d_ordered c') /\ (forall x, In x (d_ordered c') <-> In x l /\ N.of_nat n' <= x)
  /\ d_sources c' = d_sources c /\ d_missing c' = d_missing c /\ d_repairs c' = d_repairs c
  /\ d_last c' = d_last c /\ d_in_order c' = d_in_order c
  /\ exists more, d_log c' = d_log c ++ more.
Proof.
  induction l as [|id l IH]; intros c n O S H1 H2 F Hx; [congruence|]. cbn [hd] in H1. subst id.
  cbn [flush_loop]. rewrite F, N.eqb_refl.
  replace (assert_ m true) with (Ok tt) by (destruct m; reflexivity). cbn [bind].
  destruct (Hx (N.of_nat n)) as [Hn Hf]; [left; reflexivity|].
  unfold callback_ordered. rewrite Hf. cbn [bind]. cbv zeta.
  cbn [with_first with_ordered callback d_first d_ordered].
  rewrite O. cbn [serase]. rewrite N.eqb_refl. rewrite F.
  apply ssorted_cons_inv in S as [S1 S2].
  match goal with |- context [flush_loop m l ?e] => set (c1 := e) end.
  assert (D1 : delivered c1 = delivered c ++ [f (N.of_nat n)]).
  { unfold delivered, c1. cbn [with_first with_ordered callback d_log]. rewrite map_app. reflexivity. }
  assert (Stop : ~ In (N.of_nat (Datatypes.S n)) l -> (l = [] \/ forall x, In x l -> N.of_nat (Datatypes.S n) <= x) ->
    exists c' n', Ok c1 = Ok c' /\ (n < n')%nat
    /\ d_first c' = u32 (N.of_nat n') /\ delivered c' = delivered c ++ map f (map N.of_nat (seq n (n' - n)))
    /\ (forall x, N.of_nat n <= x < N.of_nat n' -> In x (N.of_nat n :: l)) /\ ~ In (N.of_nat n') (N.of_nat n :: l)
    /\ ssorted (d_ordered c') /\ (forall x, In x (d_ordered c') <-> In x (N.of_nat n :: l) /\ N.of_nat n' <= x)
    /\ d_sources c' = d_sources c /\ d_missing c' = d_missing c /\ d_repairs c' = d_repairs c
    /\ d_last c' = d_last c /\ d_in_order c' = d_in_order c
    /\ exists more, d_log c' = d_log c ++ more).
  { intros Ni Hb. exists c1, (Datatypes.S n). split; [reflexivity|]. split; [lia|].
    split; [unfold c1; cbn [with_first d_first]; f_equal; lia|].
    split; [rewrite D1; replace (Datatypes.S n - n)%nat with 1%nat by lia; reflexivity|].
    split; [intros x X; left; lia|].
    split; [intros [X|X]; [lia | exact (Ni X)]|].
    split; [exact S1|].
    split; [|split; [reflexivity|]; split; [reflexivity|]; split; [reflexivity|]; split; [reflexivity|]; split; [reflexivity|]; eexists; reflexivity].
    intros x. change (d_ordered c1) with l. split.
    - intros X. split; [right; exact X|]. destruct Hb as [-> |Hb]; [destruct X | apply Hb, X].
    - intros [[X|X] Y]; [lia | exact X]. }
  destruct l as [|id' l']; [apply Stop; [intros [] | left; reflexivity]|].
  assert (Hid : N.of_nat n < id') by (apply S2; left; reflexivity).
  destruct (Hx id') as [Hid' _]; [right; left; reflexivity|].
  assert (Hu : u32 (N.of_nat n + 1) = N.of_nat (Datatypes.S n)) by (unfold u32; rewrite N.mod_small; lia).
  rewrite Hu. destruct (N.ltb_spec (N.of_nat (Datatypes.S n)) id') as [L|L].
  - assert (Ge : forall x, In x (id' :: l') -> N.of_nat (Datatypes.S n) < x).
    { apply ssorted_cons_inv in S1 as [_ S3]. intros x [<-|X]; [exact L | specialize (S3 x X); lia]. }
    apply Stop; [intros X; specialize (Ge _ X); lia | right; intros x X; specialize (Ge x X); lia].
  - assert (id' = N.of_nat (Datatypes.S n)) by lia. subst id'.
    destruct (IH c1 (Datatypes.S n)) as (c' & n' & E & K1 & K2 & K3 & K4 & K5 & K6 & K7 & K8 & K9 & K10 & K11 & K12 & more & K13);
      try assumption; try reflexivity; try discriminate.
    { intros x X. apply Hx. right. exact X. }
    exists c', n'. split; [exact E|]. split; [lia|]. split; [exact K2|].
    split.
    { rewrite K3, D1, <- app_assoc. f_equal. replace (n' - n)%nat with (Datatypes.S (n' - Datatypes.S n)) by lia. reflexivity. }
    split.
    { intros x X. destruct (N.eq_dec x (N.of_nat n)) as [->|]; [left; reflexivity | right; apply K4; lia]. }
    split; [intros [X|X]; [lia | exact (K5 X)]|]. split; [exact K6|].
    split.
    { intros x. rewrite K7. split; intros [X Y]; (split; [|exact Y]).
      - right. exact X.
      - destruct X as [<-|X]; [lia | exact X]. }
    split; [exact K8|]. split; [exact K9|]. split; [exact K10|]. split; [exact K11|]. split; [exact K12|].
    rewrite K13. unfold c1. cbn [with_first with_ordered callback d_log]. rewrite <- app_assoc. eexists. reflexivity.
Qed.

Lemma ssorted_hd l x : ssorted l -> In x l -> (forall y, In y l -> x <= y) -> hd 0 l = x.
Proof.
  intros S H M. destruct l as [|y l]; [destruct H|]. cbn [hd]. apply ssorted_cons_inv in S as [_ S].
  destruct H as [->|H]; [reflexivity|]. specialize (S x H). specialize (M y (or_introl eq_refl)). lia.
Qed.

Lemma from_all id l : (forall x, In x l -> id <= x) -> from id l = l.
Proof.
  induction l as [|y l IH]; intros H; [reflexivity|]. cbn [from filter].
  replace (id <=? y) with true by (symmetry; apply N.leb_le, H; left; reflexivity).
  f_equal. apply IH. intros x X. apply H. right. exact X.
Qed.

Lemma flush_plain m (f : N -> list N) c n :
  ssorted (d_ordered c) -> d_first c = u32 (N.of_nat n) -> N.of_nat n <= 2 ^ 32 ->
  (forall x, In x (d_ordered c) -> N.of_nat n <= x < 2 ^ 32 /\ mfind x (d_sources c) = Some (f x)) ->
  exists c' n', flush m c = Ok c' /\ (n <= n')%nat
  /\ d_first c' = u32 (N.of_nat n') /\ delivered c' = delivered c ++ map f (map N.of_nat (seq n (n' - n)))
  /\ (forall x, N.of_nat n <= x < N.of_nat n' -> In x (d_ordered c)) /\ ~ In (N.of_nat n') (d_ordered c)
  /\ ssorted (d_ordered c') /\ (forall x, In x (d_ordered c') <-> In x (d_ordered c) /\ N.of_nat n' <= x)
  /\ d_sources c' = d_sources c /\ d_missing c' = d_missing c /\ d_repairs c' = d_repairs c
  /\ d_last c' = d_last c /\ d_in_order c' = d_in_order c
  /\ exists more, d_log c' = d_log c ++ more.
Proof.
  intros S F Hn Hx. unfold flush. rewrite F.
  destruct (Sumbool.sumbool_of_bool (smem (u32 (N.of_nat n)) (d_ordered c))) as [E|E]; rewrite E.
  - apply smem_spec in E. assert (Hu : u32 (N.of_nat n) = N.of_nat n).
    { unfold u32 in *. destruct (N.eq_dec (N.of_nat n) (2 ^ 32)) as [Z|Z].
      - rewrite Z in *. destruct (Hx _ E) as [X _]. change (2 ^ 32 mod 4294967296) with 0 in X. lia.
      - rewrite N.mod_small; lia. }
    rewrite Hu in *. rewrite from_all by (intros x X; apply Hx, X).
    destruct (flush_loop_plain m f (d_ordered c) c n) as (c' & n' & E' & K1 & K); auto.
    + apply ssorted_hd; auto. intros y Y. apply Hx, Y.
    + intros Z. rewrite Z in E. destruct E.
    + intros x X. destruct (Hx x X). split; [lia | assumption].
    + exists c', n'. split; [exact E'|]. split; [lia | exact K].
  - apply smem_false in E. exists c, n. split; [reflexivity|]. split; [lia|]. split; [exact F|].
    rewrite Nat.sub_diag. cbn [seq map]. rewrite app_nil_r. split; [reflexivity|]. split; [intros; lia|].
    split; [|split; [exact S|]; split; [|do 5 (split; [reflexivity|]); exists []; symmetry; apply app_nil_r]].
    + intros X. destruct (Hx _ X) as [[_ Y] _]. apply E. unfold u32. rewrite N.mod_small; [exact X | lia].
    + intros x. split; [|tauto]. intros X. split; [exact X | apply Hx, X].
Qed.

Lemma map_content l i data n : has i l = false -> (forall x, In x n -> x <> i) ->
  map (content (l ++ [(i, data)])) n = map (content l) n.
Proof.
  intros H Hn. apply map_ext_in. intros x X. rewrite content_snoc by exact H.
  specialize (Hn x X). destruct (N.eqb_spec x i); [contradiction | reflexivity].
Qed.

Lemma upto_in n x : In x (upto n) <-> x < N.of_nat n.
Proof.
  unfold upto. rewrite in_map_iff. split.
  - intros (k & <- & K). apply in_seq in K. lia.
  - intros X. exists (N.to_nat x). split; [lia|]. apply in_seq. lia.
Qed.

Lemma upto_split n n' : (n <= n')%nat -> upto n' = upto n ++ map N.of_nat (seq n (n' - n)).
Proof.
  intros H. unfold upto. rewrite <- map_app. f_equal. replace n' with (n + (n' - n))%nat at 1 by lia. apply seq_app.
Qed.

Lemma core_plain m o c l i data : plain o c l -> i < 2 ^ 32 ->
  exists c', recv_source m c i data = Ok c' /\ plain o c' (if has i l then l else l ++ [(i, data)])
  /\ exists more, d_log c' = d_log c ++ more.
Proof.
  intros P Hi. pose proof P as P0. destruct P0.
  unfold recv_source, outdated, not_outdated. rewrite pl_last0. cbn [negb].
  destruct (has i l) eqn:Hh.
  { apply has_spec, pl_keys0, mmem_spec in Hh. rewrite Hh. exists c. split; [reflexivity|]. split; [exact P|].
    exists []. symmetry. apply app_nil_r. }
  assert (Hn : ~ In i (map fst l)) by (intros X; apply has_spec in X; congruence).
  assert (Hm : mmem i (d_sources c) = false) by (apply mmem_false; rewrite pl_keys0; exact Hn).
  rewrite Hm. set (l' := l ++ [(i, data)]).
  assert (Ids : forall x, In x (map fst l') <-> In x (map fst l) \/ x = i).
  { intros x. unfold l'. rewrite map_app, in_app_iff. cbn. intuition. }
  unfold enough. cbn [add_source].
  assert (An : exists c1, announce m c i data = Ok c1
    /\ d_sources c1 = d_sources c /\ d_missing c1 = [] /\ d_repairs c1 = [] /\ d_last c1 = None /\ d_in_order c1 = o
    /\ (exists more, d_log c1 = d_log c ++ more)
    /\ if o then exists n, d_first c1 = u32 (N.of_nat n) /\ delivered c1 = map (content l') (upto n)
         /\ (forall x, x < N.of_nat n -> In x (map fst l')) /\ ~ In (N.of_nat n) (map fst l')
         /\ ssorted (d_ordered c1) /\ (forall x, In x (d_ordered c1) <-> In x (map fst l) /\ N.of_nat n <= x)
         /\ N.of_nat n <= 2 ^ 32
       else delivered c1 = map snd l').
  { unfold announce. rewrite pl_order0. destruct o; cbn [negb].
    - destruct pl_out0 as (n & Q1 & Q2 & Q3 & Q4 & Q56).
      assert (Bn : N.of_nat n <= 2 ^ 32).
      { destruct (N.le_gt_cases (N.of_nat n) (2 ^ 32)) as [|X]; [assumption|].
        specialize (pl_small0 (2 ^ 32) (Q3 _ X)). lia. }
      assert (Bn' : N.of_nat n < 2 ^ 32).
      { destruct (N.eq_dec (N.of_nat n) (2 ^ 32)) as [Z|Z]; [|lia]. exfalso. apply Hn, Q3. lia. }
      destruct (Q56 Bn') as [Q5 Q6]. clear Q56.
      assert (Hu : u32 (N.of_nat n) = N.of_nat n) by (unfold u32; rewrite N.mod_small; lia).
      rewrite Q1, Hu. destruct (N.eqb_spec i (N.of_nat n)) as [Ei|Ei].
      + cbv zeta. cbn [callback d_first]. rewrite Q1, Hu.
        match goal with |- context [flush m ?e] => set (c0 := e) end.
        destruct (flush_plain m (content l) c0 (S n)) as (c1 & n' & E & K1 & K2 & K3 & K4 & K5 & K6 & K7 & K8 & K9 & K10 & K11 & K12 & more & K13).
        * exact Q5.
        * unfold c0. cbn [with_first d_first]. f_equal. lia.
        * lia.
        * intros x X. change (d_ordered c0) with (d_ordered c) in X. apply Q6 in X as [X Y]. split; [|apply pl_data0, X].
          specialize (pl_small0 x X). assert (x <> N.of_nat n) by (intros ->; contradiction). lia.
        * exists c1. split; [exact E|]. change (d_ordered c0) with (d_ordered c) in *.
          split; [exact K8|]. split; [rewrite K9; exact pl_missing0|]. split; [rewrite K10; exact pl_repairs0|].
          split; [rewrite K11; exact pl_last0|]. split; [rewrite K12; exact pl_order0|].
          split. { rewrite K13. unfold c0. cbn [with_first callback d_log]. rewrite <- app_assoc. eexists. reflexivity. }
          exists n'. split; [exact K2|].
          assert (D0 : delivered c0 = delivered c ++ [data]).
          { unfold delivered, c0. cbn [with_first callback d_log]. rewrite map_app. reflexivity. }
          split.
          { rewrite K3, D0, Q2, (upto_split (S n) n' K1), upto_S, !map_app. cbn [map].
            replace (content l' (N.of_nat n)) with data
              by (unfold l'; rewrite content_snoc by exact Hh; rewrite Ei, N.eqb_refl; reflexivity).
            unfold l'. rewrite !map_content; try exact Hh; [reflexivity | |].
            - intros x X. apply in_map_iff in X as (k & <- & X). apply in_seq in X. lia.
            - intros x X. apply upto_in in X. lia. }
          split.
          { intros x X. apply Ids. destruct (N.lt_trichotomy x (N.of_nat n)) as [Y|[Y|Y]].
            - left. apply Q3, Y.
            - right. congruence.
            - left. apply Q6. apply K4. lia. }
          split.
          { intros X. apply Ids in X as [X|X]; [|lia]. apply K5. apply Q6. split; [exact X | lia]. }
          split; [exact K6|]. split.
          { intros x. rewrite K7, Q6. split; [intros [[X Y] Z]; split; assumption|].
            intros [X Y]. split; [split; [exact X | lia] | exact Y]. }
          destruct (N.le_gt_cases (N.of_nat n') (2 ^ 32)) as [|X]; [assumption|]. exfalso.
          assert (Z : In (2 ^ 32) (d_ordered c)) by (apply K4; lia). apply Q6 in Z as [Z _]. specialize (pl_small0 _ Z). lia.
      + exists c. split; [reflexivity|]. do 5 (split; [first [assumption | reflexivity]|]).
        split; [exists []; symmetry; apply app_nil_r|]. exists n. split; [rewrite Q1, Hu; reflexivity|]. split.
        { rewrite Q2. unfold l'. symmetry. apply map_content; [exact Hh|]. intros x X. apply upto_in in X.
          intros ->. apply Hn, Q3, X. }
        split; [intros x X; apply Ids; left; apply Q3, X|].
        split; [intros X; apply Ids in X as [X|X]; [contradiction | congruence]|].
        split; [exact Q5|]. split; [exact Q6 | exact Bn].
    - eexists. split; [reflexivity|]. do 4 (split; [first [assumption | reflexivity]|]). split; [exact pl_order0|].
      split; [eexists; reflexivity|]. unfold delivered. cbn [callback d_log]. rewrite map_app.
      fold (delivered c). rewrite pl_out0. unfold l'. rewrite map_app. reflexivity. }
  destruct An as (c1 & E1 & A1 & A2 & A3 & A4 & A5 & A6 & A7). rewrite E1. cbn [bind].
  unfold no_longer_missing. rewrite A2. cbn [mfind bind]. rewrite A2. cbn [mkeys map scan bind].
  unfold store. cbv zeta. rewrite A1, Hm. replace (assert_ m (negb false)) with (Ok tt) by (destruct m; reflexivity).
  cbn [bind]. cbn [with_sources d_in_order d_first d_ordered]. rewrite A5.
  match goal with |- context [attempt_full_decoding m ?e] => set (c2 := e) end.
  assert (S2 : d_sources c2 = mput i data (d_sources c)) by (unfold c2; destruct (_ && _); reflexivity).
  assert (F2 : d_first c2 = d_first c1) by (unfold c2; destruct (_ && _); reflexivity).
  assert (L2 : d_log c2 = d_log c1) by (unfold c2; destruct (_ && _); reflexivity).
  assert (M2 : d_missing c2 = []) by (unfold c2; destruct (_ && _); exact A2).
  assert (R2 : d_repairs c2 = []) by (unfold c2; destruct (_ && _); exact A3).
  exists c2. split; [apply attempt_less; left; exact R2|]. split; [|rewrite L2; exact A6].
  constructor.
  - exact M2.
  - exact R2.
  - unfold c2; destruct (_ && _); exact A4.
  - unfold c2; destruct (_ && _); exact A5.
  - intros x. rewrite S2, mput_keys, pl_keys0, Ids. tauto.
  - intros x X. rewrite S2, mput_find. unfold l'. rewrite content_snoc by exact Hh.
    destruct (N.eqb_spec x i) as [->|].
    + destruct (mfind i (d_sources c)) eqn:Ef; [|reflexivity]. exfalso. apply Hn, pl_keys0, mfind_keys. eauto.
    + apply Ids in X as [X|X]; [|contradiction]. rewrite (pl_data0 x X). reflexivity.
  - intros x X. apply Ids in X as [X| ->]; [apply pl_small0, X | exact Hi].
  - destruct o.
    + destruct A7 as (n & B1 & B2 & B3 & B4 & B5 & B6 & B7). exists n. split; [rewrite F2; exact B1|].
      split; [unfold delivered; rewrite L2; exact B2|]. split; [exact B3|]. split; [exact B4|].
      intros Bn. assert (Hc : (d_first c1 <? i) = (N.of_nat n <? i)).
      { rewrite B1. unfold u32. rewrite N.mod_small by lia. reflexivity. }
      assert (O2 : d_ordered c2 = if N.of_nat n <? i then sinsert i (d_ordered c1) else d_ordered c1).
      { unfold c2. rewrite Hc. cbn [andb]. destruct (N.of_nat n <? i); reflexivity. }
      assert (i <> N.of_nat n) by (intros ->; apply B4, Ids; right; reflexivity).
      rewrite O2. destruct (N.ltb_spec (N.of_nat n) i) as [L|L].
      * split; [apply sinsert_sorted; exact B5|]. intros x. rewrite sinsert_in, B6, Ids. intuition lia.
      * split; [exact B5|]. intros x. rewrite B6, Ids. intuition lia.
    + unfold delivered. rewrite L2. exact A7.
Qed.

(** ** The whole receiver *)

Lemma count_core clk d m i data n :
  forall c, recv_source m (dc_core d) i data = Ok c -> (exists more, d_log c = d_log (dc_core d) ++ more) ->
  exists d' out, finish (count_packet d 0 1)
     ('(d0, out) <- call_core clk (count_packet d 0 1) (fun c0 => recv_source m c0 i data) ;; Ok (d0, (out, n)))
     = (d', Ok (out, n : nat)) /\ dc_core d' = c /\ delivered c = delivered (dc_core d) ++ to_user out.
Proof.
  intros c E (more & L). unfold call_core. cbn [count_packet dc_core]. rewrite E. cbn [bind].
  match goal with |- context [handle_sources ?k ?dd ?ll] => pose proof (handle_sources_user k ll dd) as [Hu Hk];
    destruct (handle_sources k dd ll) as [d1 o1] end.
  cbn [fst snd with_core dc_core] in Hu, Hk. cbn [bind finish]. exists d1, o1. split; [reflexivity|]. split; [exact Hk|].
  rewrite Hu, L. unfold delivered. rewrite L, skipn_app, skipn_all, Nat.sub_diag. cbn [skipn app]. apply map_app.
Qed.

(** One packet. *)
Lemma packet_plain m clk o d l p : plain o (dc_core d) l -> no_repair p ->
  exists d' r, dec_packet m clk d p = (d', r) /\ plain o (dc_core d') (note l p)
  /\ (source_of p <> None -> exists out n, r = Ok (out, n) /\ delivered (dc_core d') = delivered (dc_core d) ++ to_user out)
  /\ (source_of p = None -> (exists x, r = Throw x) /\ dc_core d' = dc_core d).
Proof.
  intros P (Hp & Hb & Hr). unfold dec_packet.
  assert (Ty : (_ <- assert_ m (Nat.ltb 0 (length p)) ;; get_packet_type p) = get_packet_type p)
    by (destruct p; [contradiction|]; destruct m; reflexivity).
  rewrite Ty. destruct (get_packet_type p) as [[| |]|x|x] eqn:T.
  - assert (N0 : source_of p = None).
    { destruct (source_of p) eqn:E; [|reflexivity]. pose proof (source_of_type p ltac:(congruence)). congruence. }
    exists d, (Throw PacketTypeError). split; [reflexivity|]. unfold note. rewrite N0.
    split; [exact P|]. split; [contradiction|]. intros _. split; [eauto | reflexivity].
  - assert (N0 : source_of p = None).
    { destruct (source_of p) eqn:E; [|reflexivity]. pose proof (source_of_type p ltac:(congruence)). congruence. }
    destruct (read_repair m p) as [[r n]|x|x] eqn:E.
    + exfalso. apply Hr.
      assert (X : exists r0, get_packet_type p = Ok TRepair /\ read_repair m p = Ok (r0, n)
        /\ dr_id r0 = dr_id r /\ dr_sym r0 = dr_sym r /\ dr_ids r0 = dr_ids r /\ dr_enc r0 = dr_enc r) by (exists r; auto 10).
      apply C80_reads_repair in X as (q & rest & -> & _ & A); [|exact Hb]. exists q, rest. eauto 6.
    + cbn [bind finish]. eexists _, _. split; [reflexivity|]. unfold note. rewrite N0. cbn [count_packet dc_core].
      split; [exact P|]. split; [contradiction|]. intros _. split; [eauto | reflexivity].
    + exfalso. pose proof (assert_announced m p TRepair (fun _ => T)) as Ha. rewrite read_repair_parse in E by exact Ha.
      destruct (prepair p) as [[? ?]|]; discriminate.
  - pose proof (source_of_read m p T) as R. unfold note. destruct (source_of p) as [[i data]|] eqn:So.
    + destruct R as (s & Es & Ei & Ed). rewrite Es. cbn [bind]. rewrite Ei, Ed.
      destruct (core_plain m o (dc_core d) l i data P (source_of_small _ _ _ Hb So)) as (c & Ec & Pc & Lc).
      destruct (count_core clk d m i data (7 + length data) c Ec Lc) as (d' & out & Ed' & Edc & Du).
      rewrite Ed'. exists d', (Ok (out, (7 + length data)%nat)). split; [reflexivity|]. rewrite Edc. split; [exact Pc|].
      split; [intros _; eauto | discriminate].
    + rewrite R. cbn [bind finish]. eexists _, _. split; [reflexivity|]. cbn [count_packet dc_core]. split; [exact P|].
      split; [contradiction|]. intros _. split; [eauto | reflexivity].
  - assert (N0 : source_of p = None).
    { destruct (source_of p) eqn:E; [|reflexivity]. pose proof (source_of_type p ltac:(congruence)). congruence. }
    exists d, (Throw x). split; [reflexivity|]. unfold note. rewrite N0.
    split; [exact P|]. split; [contradiction|]. intros _. split; [eauto | reflexivity].
  - exfalso. destruct p as [|b q]; [contradiction|]. unfold get_packet_type in T.
    destruct (b =? 0), (b =? 1), (b =? 2); discriminate.
Qed.

Lemma plain_new f o : plain o (new_ddec f o) [].
Proof.
  constructor; try reflexivity.
  - intros x [].
  - intros x [].
  - destruct o; [|reflexivity]. exists 0%nat. split; [reflexivity|]. split; [reflexivity|].
    split; [intros i X; lia|]. split; [intros []|]. intros _. split; [constructor|]. intros x. cbn. intuition.
Qed.

Lemma quiet_ack known d : dc_core (fst (generate_ack_of known d)) = dc_core d /\ to_user (snd (generate_ack_of known d)) = [].
Proof. split; reflexivity. Qed.

Lemma quiet_maybe clk known d : dc_core (fst (maybe_ack_of clk known d)) = dc_core d /\ to_user (snd (maybe_ack_of clk known d)) = [].
Proof.
  unfold maybe_ack_of. destruct (_ <=? _); [split; reflexivity|]. destruct (_ =? _)%Z; [split; reflexivity|].
  destruct (_ <=? _)%Z; split; reflexivity.
Qed.

Lemma to_user_app a b : to_user (a ++ b) = to_user a ++ to_user b.
Proof. induction a as [|[x|x] a IH]; cbn; [reflexivity | f_equal; exact IH | exact IH]. Qed.

Lemma run_plain m clk o ops : forall d l, plain o (dc_core d) l -> Forall hostile ops ->
  exists d' out, drun m clk d ops = Ok (d', out) /\ plain o (dc_core d') (fold_left note (given_packets ops) l)
  /\ delivered (dc_core d') = delivered (dc_core d) ++ to_user out.
Proof.
  induction ops as [|op ops IH]; intros d l P H.
  - exists d, []. cbn. rewrite app_nil_r. auto.
  - inversion H as [|x y Hop Hops]; subst.
    assert (Step : exists d1 r, dstep m clk d op = (d1, r) /\ plain o (dc_core d1) (fold_left note (given_packets [op]) l)
      /\ ((exists out, r = Ok out /\ delivered (dc_core d1) = delivered (dc_core d) ++ to_user out)
          \/ (exists x, r = Throw x) /\ dc_core d1 = dc_core d)).
    { destruct op as [p| | |t|nb]; cbn [dstep given_packets flat_map app fold_left] in *.
      - destruct (packet_plain m clk o d l p P Hop) as (d1 & r & E & P1 & A & B). rewrite E.
        destruct (source_of p) eqn:So.
        + destruct A as (out & n & -> & D); [discriminate|]. cbn [bind]. eexists _, _. split; [reflexivity|]. split; [exact P1|].
          left. eauto.
        + destruct B as ((x & ->) & D); [reflexivity|]. cbn [bind]. eexists _, _. split; [reflexivity|]. split; [exact P1|]. right. eauto.
      - unfold generate_ack. destruct (quiet_ack (mkeys (d_sources (dc_core d))) d) as [Q1 Q2].
        destruct (generate_ack_of _ d) as [d1 out]. cbn [fst snd] in *. eexists _, _. split; [reflexivity|].
        rewrite Q1. split; [exact P|]. left. exists out. rewrite Q2, app_nil_r. auto.
      - unfold maybe_ack. destruct (quiet_maybe clk (mkeys (d_sources (dc_core d))) d) as [Q1 Q2].
        destruct (maybe_ack_of clk _ d) as [d1 out]. cbn [fst snd] in *. eexists _, _. split; [reflexivity|].
        rewrite Q1. split; [exact P|]. left. exists out. rewrite Q2, app_nil_r. auto.
      - eexists _, _. split; [reflexivity|]. split; [exact P|]. left. exists []. cbn. rewrite app_nil_r. auto.
      - unfold set_ack_nb_packets. cbn [hostile] in Hop.
        replace (assert_ m (0 <? nb)) with (Ok tt)
          by (destruct m; [|reflexivity]; cbn [assert_]; destruct (N.ltb_spec 0 nb); [reflexivity | lia]).
        cbn [bind finish]. eexists _, _. split; [reflexivity|]. split; [exact P|]. left. exists []. cbn. rewrite app_nil_r. auto. }
    destruct Step as (d1 & r & E & P1 & R).
    assert (G : given_packets (op :: ops) = given_packets [op] ++ given_packets ops) by (destruct op; reflexivity).
    destruct (IH d1 _ P1 Hops) as (d2 & out2 & E2 & P2 & D2).
    cbn [drun]. rewrite E, G, fold_left_app. destruct R as [(out & -> & D)|[(x & ->) D]].
    + rewrite E2. cbn [bind]. exists d2, (out ++ out2). split; [reflexivity|]. split; [exact P2|].
      rewrite D2, D, to_user_app, app_assoc. reflexivity.
    + exists d2, out2. split; [exact E2|]. split; [exact P2|]. rewrite D2, D. reflexivity.
Qed.

(** ** C83 *)

Theorem C83_any_bytes :
  forall m clk f o ops, Forall hostile ops ->
  exists d out, drun m clk (new_dec clk f o) ops = Ok (d, out)
  /\ (o = false -> to_user out = map snd (firsts (given_packets ops)))
  /\ (o = true -> exists n, (forall i, i < N.of_nat n -> In i (map fst (firsts (given_packets ops))))
      /\ ~ In (N.of_nat n) (map fst (firsts (given_packets ops)))
      /\ to_user out = map (content (firsts (given_packets ops))) (upto n))
  /\ (forall i, In i (mkeys (d_sources (dc_core d))) <-> In i (map fst (firsts (given_packets ops)))).
Proof.
  intros m clk f o ops H.
  destruct (run_plain m clk o ops (new_dec clk f o) [] (plain_new f o) H) as (d & out & E & P & D).
  exists d, out. split; [exact E|]. change (delivered (dc_core (new_dec clk f o))) with (@nil (list N)) in D. cbn [app] in D.
  unfold firsts. destruct P. rewrite <- D. split; [intros ->; exact pl_out0|]. split; [|exact pl_keys0].
  intros ->. destruct pl_out0 as (n & _ & Q2 & Q3 & Q4 & _). exists n. auto.
Qed.
Print Assumptions C83_any_bytes.

(** Which packets are refused, in any such history. *)
Theorem C83_refused :
  forall m clk f o ops d out p, Forall hostile ops -> drun m clk (new_dec clk f o) ops = Ok (d, out) -> no_repair p ->
  exists d' r, dec_packet m clk d p = (d', r)
  /\ (source_of p <> None <-> is_ok r)
  /\ (source_of p = None -> (exists x, r = Throw x) /\ dc_core d' = dc_core d).
Proof.
  intros m clk f o ops d out p H E Hp.
  destruct (run_plain m clk o ops (new_dec clk f o) [] (plain_new f o) H) as (d0 & out0 & E0 & P & _).
  assert (d0 = d) by congruence. subst d0.
  destruct (packet_plain m clk o d _ p P Hp) as (d' & r & Ed & _ & A & B). exists d', r. split; [exact Ed|].
  split; [|exact B]. split.
  - intros S. destruct (A S) as (o1 & n & -> & _). exists (o1, n). reflexivity.
  - intros [a ->] S. destruct (B S) as [[x X] _]. discriminate.
Qed.
Print Assumptions C83_refused.

(** A forged source wins over the genuine one that comes later. *)
Theorem C83_first_wins :
  forall m clk f i forged genuine between, let src d := on_wire (write_source {| es_id := i; es_data := d |}) in
  i < 2 ^ 32 -> bytes forged -> N.of_nat (length forged) < 65536 -> bytes genuine -> N.of_nat (length genuine) < 65536 ->
  Forall no_repair between -> Forall (fun p => forall data, source_of p <> Some (i, data)) between ->
  exists d out, drun m clk (new_dec clk f false) (map DPacket (between ++ [src forged; src genuine])) = Ok (d, out)
  /\ to_user out = map snd (firsts between) ++ [forged].
Proof.
  intros m clk f i forged genuine between src Hi B1 L1 B2 L2 Hb Hn.
  assert (Src : forall d, bytes d -> N.of_nat (length d) < 65536 ->
    no_repair (src d) /\ source_of (src d) = Some (i, d)).
  { intros d B L.
    assert (E : src d = [2] ++ be 4 i ++ be 2 (N.of_nat (length d)) ++ d).
    { unfold src, on_wire, write_source. cbn [concat es_id es_data]. rewrite app_nil_r. reflexivity. }
    assert (T : get_packet_type (src d) = Ok TSource) by (rewrite E; reflexivity).
    assert (Bs : Forall (fun b => b < 256) (src d)).
    { rewrite E. apply Forall_app. split; [constructor; [lia|constructor]|]. apply Forall_app. split; [apply be_bytes|].
      apply Forall_app. split; [apply be_bytes | exact B]. }
    split.
    - split; [rewrite E; discriminate|]. split; [exact Bs|].
      intros (q & rest & id & sym & ids & enc & X & (a & b & c & e & -> & _)). rewrite E in X. discriminate.
    - pose proof (source_of_read Release (src d) T) as R.
      destruct (C01_source_roundtrip Release i d Hi L) as (s & Es & Ei & Ed). fold (src d) in Es.
      destruct (source_of (src d)) as [[j e]|]; [|congruence].
      destruct R as (s' & Es' & <- & <-). assert (s' = s) by congruence. subst s'. rewrite Ei, Ed. reflexivity. }
  destruct (Src forged B1 L1) as [F1 F2]. destruct (Src genuine B2 L2) as [G1 G2].
  assert (H : Forall hostile (map DPacket (between ++ [src forged; src genuine]))).
  { apply Forall_forall. intros x X. apply in_map_iff in X as (p & <- & X). cbn [hostile].
    apply in_app_or in X as [X|[<-|[<-|[]]]]; [|exact F1|exact G1]. rewrite Forall_forall in Hb. apply Hb, X. }
  destruct (C83_any_bytes m clk f false _ H) as (d & out & E & U & _). exists d, out. split; [exact E|].
  rewrite (U eq_refl). clear U E H.
  assert (G : forall l, given_packets (map DPacket l) = l) by (induction l as [|x l IH]; [reflexivity|]; cbn; f_equal; exact IH).
  rewrite G. unfold firsts. rewrite fold_left_app. cbn [fold_left]. set (l := fold_left note between []).
  assert (Hl : has i l = false).
  { destruct (has i l) eqn:Hh; [|reflexivity]. exfalso. apply has_spec in Hh. revert Hh. unfold l.
    assert (Q : forall ps l0, Forall (fun p => forall data, source_of p <> Some (i, data)) ps -> ~ In i (map fst l0) ->
      ~ In i (map fst (fold_left note ps l0))).
    { induction ps as [|p ps IH]; intros l0 Hps Hl0; [exact Hl0|]. inversion Hps; subst. cbn [fold_left]. apply IH; [assumption|].
      unfold note. destruct (source_of p) as [[j e]|] eqn:So; [|exact Hl0]. destruct (has j l0); [exact Hl0|].
      rewrite map_app, in_app_iff. cbn. intros [X|[X|[]]]; [exact (Hl0 X)|]. subst j. apply (H1 e). reflexivity. }
    apply Q; [exact Hn | intros []]. }
  assert (E1 : note l (src forged) = l ++ [(i, forged)]) by (unfold note; rewrite F2, Hl; reflexivity).
  rewrite E1. unfold note. rewrite G2.
  replace (has i (l ++ [(i, forged)])) with true
    by (symmetry; apply has_spec; rewrite map_app, in_app_iff; right; left; reflexivity).
  rewrite map_app. reflexivity.
Qed.
Print Assumptions C83_first_wins.

(** ** Non-vacuity *)

(** Garbage, an ack, a cut source, a cut repair, a forged source 1, the genuine sources 1, 0 and 3. *)
Definition feed : list (list N) :=
  [[77; 1; 2]; [0; 0; 1; 0; 0]; [2; 0; 0; 0; 1; 0; 9; 65]; [1; 0; 0; 0; 0; 0; 4; 8; 8]; [2; 0; 0; 0; 1; 0; 1; 66];
   [2; 0; 0; 0; 1; 0; 2; 65; 65]; [2; 0; 0; 0; 0; 0; 1; 64; 99; 99]; [2; 0; 0; 0; 3; 0; 0]].
Definition clock0 : Decoder.clock := fun _ => 0%Z.

Lemma not_repair m p : p <> [] -> forallb (fun b => b <? 256) p = true ->
  match get_packet_type p with Ok TRepair => match read_repair m p with Throw _ => True | _ => False end | _ => True end -> no_repair p.
Proof.
  intros Hp Hb H. assert (B : Forall (fun b => b < 256) p).
  { rewrite Forall_forall. rewrite forallb_forall in Hb. intros x X. apply N.ltb_lt, Hb, X. }
  split; [exact Hp|]. split; [exact B|]. intros (q & rest & id & sym & ids & enc & E & A).
  destruct (C80_reads_repair m p id sym ids enc (length q) B) as [_ X].
  destruct X as (r & T & R & _). { exists q, rest. auto. }
  rewrite T, R in H. exact H.
Qed.

Example feed_hostile : Forall hostile (map DPacket feed ++ [DAck; DMaybe; DSetNb 3]).
Proof.
  unfold feed. cbn [map app].
  repeat (apply Forall_cons; [first [exact I | reflexivity | apply (not_repair Release); [discriminate | reflexivity | exact I]]|]).
  apply Forall_nil.
Qed.

Example feed_firsts : firsts feed = [(1, [66]); (0, [64]); (3, [])].
Proof. reflexivity. Qed.

Definition given_to_user (o : bool) : option (list (list N)) :=
  match drun Debug clock0 (new_dec clock0 W8 o) (map DPacket feed) with Ok (_, out) => Some (to_user out) | _ => None end.

Example feed_ordered : given_to_user true = Some [[64]; [66]].
Proof. vm_compute. reflexivity. Qed.

Example feed_unordered : given_to_user false = Some [[66]; [64]; []].
Proof. vm_compute. reflexivity. Qed.
