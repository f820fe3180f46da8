(** * Facts about the encoder *)
From Coq Require Import NArith List Bool Lia Arith.
From Verif Require Import Outcome GF GFProofs GFField GFRegion Linear RegionFacts
  Containers ContainersFacts Packetizer PacketizerFacts Rate RateFacts Encoder EncoderRun.
Import ListNotations.
Open Scope N_scope.

(** ** Making a repair *)

Definition small (s : esource) : Prop := N.of_nat (length (es_data s)) < 65536.

Definition dlen (s : esource) : nat := length (es_data s).

Definition maxlen (l : list esource) : nat := fold_right (fun s k => Nat.max (dlen s) k) 0%nat l.

Lemma es_size_small s : small s -> es_size s = N.of_nat (dlen s).
Proof. intros H. unfold es_size, u16. now apply N.mod_small. Qed.

Lemma es_size_nat s : small s -> N.to_nat (es_size s) = dlen s.
Proof. intros H. rewrite es_size_small by assumption. apply Nat2N.id. Qed.

Lemma region_multiply_ok f src len c r : region_multiply f src len c = Ok r ->
  (len <= length src)%nat /\ aligned f len = true /\ r = rmul f c (firstn len src).
Proof.
  unfold region_multiply. destruct (Nat.ltb_spec (length src) len); [discriminate|].
  destruct (aligned f len); [|discriminate]. intros E. injection E as <-. auto.
Qed.

Lemma region_multiply_add_ok f src dst len c r : region_multiply_add f src dst len c = Ok r ->
  (len <= length src)%nat /\ (len <= length dst)%nat /\ aligned f len = true
  /\ r = xorl (rmul f c (firstn len src)) dst.
Proof.
  unfold region_multiply_add. destruct (Nat.ltb_spec (length src) len); [discriminate|].
  destruct (Nat.ltb_spec (length dst) len); [discriminate|].
  cbn [orb]. destruct (aligned f len); [|discriminate]. intros E. injection E as <-. auto.
Qed.

Lemma resize_length n l : (length l <= n)%nat -> length (resize n l) = n.
Proof.
  intros H. unfold resize. rewrite app_length, repeat_length, firstn_length. lia.
Qed.

Lemma resize_nth n l i : (length l <= n)%nat -> nth i (resize n l) 0 = nth i l 0.
Proof. intros H. unfold resize. rewrite firstn_all2 by assumption. apply nth_pad. Qed.

(** The part of the symbol that a source contributes. *)
Definition part (f : field) (id : N) (i : nat) (s : esource) : N :=
  nth i (rmul f (coefficient f id (es_id s)) (es_data s)) 0.

Definition part_size (f : field) (id : N) (s : esource) : N :=
  multiply_size f (N.of_nat (dlen s)) (coefficient f id (es_id s)).

Record combination (f : field) (id : N) (l : list esource) (r : erepair) : Prop := {
  c_id : er_id r = id;
  c_sorted : ssorted (er_ids r);
  c_ids : forall x, In x (er_ids r) <-> In x (map es_id l);
  c_enc : er_enc r = xsum (part_size f id) l;
  c_len : length (er_sym r) = maxlen l;
  c_sym : forall i, nth i (er_sym r) 0 = xsum (part f id i) l;
  c_aligned : Forall (fun s => aligned f (dlen s) = true) l
}.

Lemma encode_loop_spec f id l done r r' : Forall small l ->
  combination f id done r -> encode_loop f l r = Ok r' -> combination f id (done ++ l) r'.
Proof.
  revert done r. induction l as [|s l IH]; intros done r Hl C E.
  - cbn in E. injection E as <-. now rewrite app_nil_r.
  - cbn [encode_loop] in E. apply bind_ok in E as (sym & E1 & E2).
    apply Forall_cons_iff in Hl as [Hs Hl].
    rewrite es_size_nat in E1 by assumption.
    apply region_multiply_add_ok in E1 as (_ & L2 & A & ->).
    unfold dlen in L2, A, E2. rewrite firstn_all in E2.
    replace (done ++ s :: l) with ((done ++ [s]) ++ l) by now rewrite <- app_assoc.
    apply (IH (done ++ [s]) _ Hl) with (2 := E2). clear E2 IH.
    destruct C as [C1 C2 C3 C4 C5 C6 C7].
    set (sym := if Nat.ltb (length (er_sym r)) (length (es_data s))
                then resize (length (es_data s)) (er_sym r) else er_sym r) in *.
    assert (Ls : length sym = Nat.max (length (es_data s)) (length (er_sym r))).
    { unfold sym. destruct (Nat.ltb_spec (length (er_sym r)) (length (es_data s))).
      - rewrite resize_length; lia.
      - lia. }
    assert (Ns : forall i, nth i sym 0 = nth i (er_sym r) 0).
    { intros i. unfold sym. destruct (Nat.ltb_spec (length (er_sym r)) (length (es_data s))).
      - apply resize_nth. lia.
      - reflexivity. }
    split; cbn [er_id er_ids er_enc er_sym].
    + exact C1.
    + now apply sinsert_sorted.
    + intros x. rewrite sinsert_in, map_app, in_app_iff, C3. cbn. intuition congruence.
    + rewrite xsum_app, C4. cbn [xsum]. rewrite N.lxor_0_r, N.lxor_comm. f_equal.
      unfold part_size. now rewrite es_size_small, C1.
    + rewrite xorl_length, rmul_length, Ls, C5. unfold maxlen.
      rewrite fold_right_app. cbn [fold_right]. unfold dlen. rewrite Nat.max_0_r.
      clear. induction done as [|d done IH]; cbn [fold_right]; lia.
    + intros i. rewrite xorl_nth, Ns, C6, xsum_app. cbn [xsum].
      rewrite N.lxor_0_r, N.lxor_comm. f_equal. unfold part. now rewrite C1.
    + apply Forall_app. split; [assumption|]. constructor; [exact A|constructor].
Qed.

Lemma encode_spec f m id l r : Forall small l -> encode f m id l = Ok r ->
  combination f id l r /\ l <> [].
Proof.
  intros Hl E. unfold encode in E. apply bind_ok in E as (u & _ & E).
  destruct l as [|s l]; [discriminate|]. split; [|discriminate].
  apply bind_ok in E as (sym & E1 & E2). apply Forall_cons_iff in Hl as [Hs Hl].
  rewrite es_size_nat in E1 by assumption.
  apply region_multiply_ok in E1 as (_ & A & ->). unfold dlen in A, E2. rewrite firstn_all in E2.
  apply (encode_loop_spec f id l [s] _ _ Hl) with (2 := E2). clear E2.
  split; cbn [er_id er_ids er_enc er_sym].
  - reflexivity.
  - constructor; constructor.
  - intros x. reflexivity.
  - cbn [xsum]. rewrite N.lxor_0_r. unfold part_size. now rewrite es_size_small.
  - rewrite rmul_length. unfold maxlen. cbn [fold_right]. now rewrite Nat.max_0_r.
  - intros i. cbn [xsum]. now rewrite N.lxor_0_r.
  - constructor; [exact A|constructor].
Qed.

Lemma encode_loop_ok f l r : Forall small l ->
  Forall (fun s => aligned f (dlen s) = true) l -> exists r', encode_loop f l r = Ok r'.
Proof.
  revert r. induction l as [|s l IH]; intros r Hl Ha; [now exists r|].
  apply Forall_cons_iff in Hl as [Hs Hl]. apply Forall_cons_iff in Ha as [Hsa Ha].
  cbn [encode_loop]. rewrite es_size_nat by assumption. unfold dlen in *.
  unfold region_multiply_add. rewrite Nat.ltb_irrefl.
  set (sym := if Nat.ltb (length (er_sym r)) (length (es_data s))
              then resize (length (es_data s)) (er_sym r) else er_sym r).
  assert (Ls : (length (es_data s) <= length sym)%nat).
  { unfold sym. destruct (Nat.ltb_spec (length (er_sym r)) (length (es_data s))).
    - rewrite resize_length; lia.
    - lia. }
  destruct (Nat.ltb_spec (length sym) (length (es_data s))); [lia|]. cbn [orb].
  rewrite Hsa. cbn [negb bind]. now apply IH.
Qed.

Lemma encode_ok f m id l : Forall small l -> l <> [] ->
  Forall (fun s => aligned f (dlen s) = true) l -> exists r, encode f m id l = Ok r.
Proof.
  intros Hl Hne Ha. unfold encode. destruct l as [|s l]; [congruence|].
  replace (assert_ m (Nat.ltb 0 (length (s :: l)))) with (Ok tt) by now destruct m.
  cbn [bind]. apply Forall_cons_iff in Hl as [Hs Hl]. apply Forall_cons_iff in Ha as [Hsa Ha].
  rewrite es_size_nat by assumption. unfold region_multiply, dlen in *. rewrite Nat.ltb_irrefl.
  rewrite Hsa. cbn [negb bind]. now apply encode_loop_ok.
Qed.

Lemma combination_ids f id l r : combination f id l r -> ssorted (map es_id l) ->
  er_ids r = map es_id l.
Proof. intros C Hs. apply ssorted_ext; [apply C|exact Hs|apply C]. Qed.

Lemma maxlen_pos l : l <> [] -> Forall (fun s => (0 < dlen s)%nat) l -> (0 < maxlen l)%nat.
Proof.
  intros Hne H. destruct l as [|s l]; [congruence|]. apply Forall_cons_iff in H as [H _].
  unfold maxlen. cbn [fold_right]. lia.
Qed.

Lemma maxlen_small l : Forall small l -> N.of_nat (maxlen l) < 65536.
Proof.
  induction 1 as [|s l Hs Hl IH]; unfold maxlen in *; cbn [fold_right]; [reflexivity|].
  unfold small in Hs. unfold dlen at 1. lia.
Qed.

Lemma maxlen_ge l s : In s l -> (dlen s <= maxlen l)%nat.
Proof.
  induction l as [|t l IH]; intros H; [destruct H|]. unfold maxlen in *. cbn [fold_right].
  destruct H as [->|H]; [lia|]. specialize (IH H). lia.
Qed.

Lemma maxlen_aligned f l : Forall (fun s => aligned f (dlen s) = true) l ->
  aligned f (maxlen l) = true.
Proof.
  induction 1 as [|s l Hs Hl IH].
  - destruct f; reflexivity.
  - unfold maxlen in *. cbn [fold_right].
    destruct (Nat.max_dec (dlen s) (fold_right (fun s k => Nat.max (dlen s) k) 0%nat l)) as [E|E];
      rewrite E; assumption.
Qed.

(** ** The window *)

Definition ids_of (l : list esource) : list N := map es_id l.

Lemma erase_cons s l i ids : erase_sources (s :: l) (i :: ids)
  = if es_id s =? i then erase_sources l ids
    else if i <? es_id s then erase_sources (s :: l) ids
    else s :: erase_sources l (i :: ids).
Proof. reflexivity. Qed.

Lemma erase_incl l ids s : In s (erase_sources l ids) -> In s l.
Proof.
  revert ids. induction l as [|t l IH]; intros ids H; [destruct H|].
  induction ids as [|i ids IHi]; [exact H|]. cbn [erase_sources] in *.
  destruct (es_id t =? i); [right; eauto|]. destruct (i <? es_id t); [now apply IHi|].
  destruct H as [->|H]; [now left|]. right. eauto.
Qed.

Lemma erase_length l ids : (length (erase_sources l ids) <= length l)%nat.
Proof.
  revert ids. induction l as [|t l IH]; intros ids; [apply le_n|].
  induction ids as [|i ids IHi]; [apply le_n|]. cbn [erase_sources] in *.
  destruct (es_id t =? i); [specialize (IH ids); cbn; lia|].
  destruct (i <? es_id t); [exact IHi|]. cbn [length]. specialize (IH (i :: ids)). lia.
Qed.

Lemma erase_filter l ids : ssorted (ids_of l) -> ssorted ids ->
  erase_sources l ids = filter (fun s => negb (smem (es_id s) ids)) l.
Proof.
  revert ids. induction l as [|t l IH]; intros ids Hl Hi; [reflexivity|].
  unfold ids_of in Hl. cbn [map] in Hl. apply ssorted_cons_inv in Hl as [Hl Ht].
  induction ids as [|i ids IHi].
  - cbn [erase_sources filter smem negb]. f_equal.
    clear. induction l as [|u l IH]; [reflexivity|]. cbn. now f_equal.
  - pose proof Hi as Hi'. apply ssorted_cons_inv in Hi' as [Hs Hlow].
    rewrite erase_cons. cbn [filter smem].
    assert (Skip : forall l', (forall s, In s l' -> i < es_id s) ->
        filter (fun s => negb ((es_id s =? i) || smem (es_id s) ids)) l'
        = filter (fun s => negb (smem (es_id s) ids)) l').
    { intros l' H. induction l' as [|u l' IHl]; [reflexivity|]. cbn [filter].
      assert (i < es_id u) by (apply H; now left).
      destruct (N.eqb_spec (es_id u) i); [lia|]. cbn [orb].
      rewrite IHl by (intros s Hs'; apply H; now right). reflexivity. }
    destruct (N.eqb_spec (es_id t) i) as [E|E].
    + cbn [orb negb]. rewrite IH by assumption. symmetry. apply Skip.
      intros s Hs'. rewrite <- E. apply Ht. now apply in_map.
    + destruct (N.ltb_spec i (es_id t)) as [L|L].
      * cbn [orb]. rewrite (IHi Hs). cbn [filter].
        assert (K : forall s, In s l -> i < es_id s).
        { intros s Hs'. specialize (Ht (es_id s)). specialize (Ht (in_map es_id _ _ Hs')). lia. }
        now rewrite Skip.
      * cbn [orb].
        assert (Hn : smem (es_id t) ids = false).
        { apply smem_false. intros Hin. specialize (Hlow _ Hin). lia. }
        rewrite Hn. cbn [negb]. f_equal. rewrite IH by assumption. reflexivity.
Qed.

Lemma erase_sorted l ids : ssorted (ids_of l) -> ssorted ids ->
  ssorted (ids_of (erase_sources l ids)).
Proof.
  intros Hl Hi. rewrite erase_filter by assumption. unfold ids_of in *.
  clear Hi. induction l as [|s l IH]; cbn [filter map]; [constructor|].
  cbn [map] in Hl. apply ssorted_cons_inv in Hl as [Hl Hs].
  destruct (negb (smem (es_id s) ids)); [|now apply IH].
  cbn [map]. apply ssorted_cons; [now apply IH|]. intros y Hy.
  apply in_map_iff in Hy as (u & <- & Hu). apply filter_In in Hu as [Hu _].
  apply Hs. now apply in_map.
Qed.

(** ** One call *)

Lemma generate_repair_ok m e e' out : generate_repair m e = Ok (e', out) ->
  exists r w, encode (e_field e) m (e_repair_id e) (e_sources e) = Ok r
  /\ write_repair m r = Ok w /\ out = [concat w]
  /\ e_field e' = e_field e /\ e_systematic e' = e_systematic e /\ e_rate e' = e_rate e
  /\ e_window_size e' = e_window_size e /\ e_adaptive e' = e_adaptive e
  /\ e_source_id e' = e_source_id e /\ e_repair_id e' = u32 (e_repair_id e + 1)
  /\ e_sources e' = e_sources e /\ e_nb_sent_repairs e' = u64 (e_nb_sent_repairs e + 1)
  /\ e_nb_acks e' = e_nb_acks e /\ e_nb_sent_sources e' = e_nb_sent_sources e
  /\ e_nb_sent_packets e' = u16 (e_nb_sent_packets e + 1).
Proof.
  intros H. unfold generate_repair in H.
  apply bind_ok in H as (u & _ & H). apply bind_ok in H as (r & Er & H).
  apply bind_ok in H as (w & Ew & H). injection H as <- <-.
  exists r, w. repeat split; assumption.
Qed.

Lemma write_repair_head m r w : write_repair m r = Ok w ->
  exists tail, concat w = 1 :: be 4 (er_id r) ++ tail.
Proof.
  unfold write_repair. intros H. apply bind_ok in H as (u & _ & H). injection H as <-.
  cbn [concat app]. eexists. reflexivity.
Qed.

Lemma write_source_head s : exists tail, concat (write_source s) = 2 :: be 4 (es_id s) ++ tail.
Proof. unfold write_source. cbn [concat app]. eexists. reflexivity. Qed.

Lemma write_repair_total m r : (m = Debug -> er_sym r <> []) -> exists w, write_repair m r = Ok w.
Proof.
  intros H. unfold write_repair. destruct m; [|eexists; reflexivity].
  destruct (er_sym r) as [|x l] eqn:E; [now destruct (H eq_refl)|]. eexists. reflexivity.
Qed.

(** What a well-formed data is, for a field. *)
Definition legal (f : field) (d : list N) : Prop :=
  (0 < length d)%nat /\ N.of_nat (length d) < 65536 /\ aligned f (length d) = true.

Definition legal_window (e : enc) : Prop := Forall (fun s => legal (e_field e) (es_data s)) (e_sources e).

Lemma legal_small f l : Forall (fun s => legal f (es_data s)) l -> Forall small l.
Proof. apply Forall_impl. intros s H. apply H. Qed.

Lemma legal_aligned f l : Forall (fun s => legal f (es_data s)) l ->
  Forall (fun s => aligned f (dlen s) = true) l.
Proof. apply Forall_impl. intros s H. apply H. Qed.

Lemma legal_pos f l : Forall (fun s => legal f (es_data s)) l -> Forall (fun s => (0 < dlen s)%nat) l.
Proof. apply Forall_impl. intros s H. apply H. Qed.

Lemma generate_repair_total m e : legal_window e -> e_sources e <> [] ->
  exists e' p, generate_repair m e = Ok (e', [p]).
Proof.
  intros HL Hne. unfold generate_repair.
  replace (assert_ m (Nat.ltb 0 (length (e_sources e)))) with (Ok tt).
  2: { destruct (e_sources e); [congruence|]. now destruct m. }
  cbn [bind].
  destruct (encode_ok (e_field e) m (e_repair_id e) (e_sources e)) as [r Er];
    eauto using legal_small, legal_aligned.
  destruct (encode_spec _ _ _ _ _ (legal_small _ _ HL) Er) as [C _].
  destruct (write_repair_total m r) as [w Ew].
  { intros _ E. pose proof (c_len _ _ _ _ C) as L. rewrite E in L.
    pose proof (maxlen_pos _ Hne (legal_pos _ _ HL)). cbn in L. lia. }
  rewrite Er. cbn [bind]. rewrite Ew. cbn [bind]. eexists _, _. reflexivity.
Qed.

Lemma generate_repair_empty m e : e_sources e = [] -> is_fault (generate_repair m e).
Proof.
  intros E. unfold generate_repair, encode. rewrite E.
  destruct m; eexists; reflexivity.
Qed.

Lemma push_source_ok e s l : push_source e s = Ok l ->
  (N.of_nat (length (e_sources e)) = e_window_size e /\ exists x t, e_sources e = x :: t /\ l = t ++ [s])
  \/ (N.of_nat (length (e_sources e)) <> e_window_size e /\ l = e_sources e ++ [s]).
Proof.
  unfold push_source. destruct (N.eqb_spec (N.of_nat (length (e_sources e))) (e_window_size e)).
  - destruct (e_sources e) as [|x t]; [discriminate|]. intros H. injection H as <-.
    left. split; [assumption|]. eauto.
  - intros H. injection H as <-. now right.
Qed.

Lemma push_source_total e s : e_window_size e <> 0 -> exists l, push_source e s = Ok l.
Proof.
  intros H. unfold push_source. destruct (N.eqb_spec (N.of_nat (length (e_sources e))) (e_window_size e)).
  - destruct (e_sources e) as [|x t]; [cbn in *; congruence|]. eauto.
  - eauto.
Qed.

(** The window after a data. *)
Lemma push_source_in e s l : push_source e s = Ok l ->
  In s l /\ (forall x, In x l -> x = s \/ In x (e_sources e)) /\ l <> [].
Proof.
  intros H. apply push_source_ok in H as [(_ & x & t & E & ->)|(_ & ->)].
  - rewrite E. split; [apply in_or_app; right; now left|]. split.
    + intros y Hy. apply in_app_or in Hy as [Hy|[Hy|[]]]; [right; now right|left; congruence].
    + now destruct t.
  - split; [apply in_or_app; right; now left|]. split.
    + intros y Hy. apply in_app_or in Hy as [Hy|[Hy|[]]]; [now right|left; congruence].
    + now destruct (e_sources e).
Qed.
