(** * The basic examples: C82 *)
From Coq Require Import ZArith NArith Arith List Bool Lia Sorted.
From Verif Require Import Outcome GF Containers ContainersFacts Packetizer PacketizerFacts PropsPacketizer
  Encoder EncoderFacts EncoderHistory EncoderSafe EncoderRun DetailDecoder Decoder DecoderInv DecoderProgress
  PropsEncoder PropsSizes Basic.
Import ListNotations.
Open Scope N_scope.

(** ** The receiver *)

(** [k] sources have arrived, each with its number, and nothing else; no source has been forgotten. *)
Record tidy (d : dec) (k : nat) : Prop := {
  td_missing : d_missing (dc_core d) = [];
  td_repairs : d_repairs (dc_core d) = [];
  td_ordered : d_ordered (dc_core d) = [];
  td_in_order : d_in_order (dc_core d) = true;
  td_first : d_first (dc_core d) = N.of_nat k;
  td_last : d_last (dc_core d) = None;
  td_keys : mkeys (d_sources (dc_core d)) = consecutive 0 k;
  td_limit : dc_ack_nb d = 50;
  td_ids : a_ids (dc_ack d) = [];
  td_nb : a_nb (dc_ack d) < 50;
  td_nb_repairs : dc_nb_repairs d = 0;
  td_nb_sources : dc_nb_sources d = N.of_nat k
}.

Lemma consecutive_snoc k : consecutive 0 (S k) = consecutive 0 k ++ [N.of_nat k].
Proof. unfold consecutive. rewrite seq_S, map_app. reflexivity. Qed.

Lemma consecutive_below k x : In x (consecutive 0 k) -> x < N.of_nat k.
Proof. unfold consecutive. rewrite in_map_iff. intros (i & <- & H). apply in_seq in H. lia. Qed.

Lemma mset_end {V} k (v : V) l : (forall x, In x (mkeys l) -> x < k) -> mkeys (mset k v l) = mkeys l ++ [k].
Proof.
  induction l as [|[x w] l IH]; intros H; [reflexivity|]. cbn [mset].
  assert (Hx : x < k) by (apply H; left; reflexivity).
  replace (k <? x) with false by (symmetry; apply N.ltb_ge; lia).
  replace (k =? x) with false by (symmetry; apply N.eqb_neq; lia).
  unfold mkeys in *. cbn [map fst app]. f_equal. apply IH. intros y Hy. apply H. right. exact Hy.
Qed.

Lemma sinsert_end x l : (forall y, In y l -> y < x) -> sinsert x l = l ++ [x].
Proof.
  induction l as [|y l IH]; intros H; [reflexivity|]. cbn [sinsert].
  assert (Hy : y < x) by (apply H; left; reflexivity).
  replace (x <? y) with false by (symmetry; apply N.ltb_ge; lia).
  replace (x =? y) with false by (symmetry; apply N.eqb_neq; lia).
  cbn [app]. f_equal. apply IH. intros z Hz. apply H. right. exact Hz.
Qed.

Lemma collect_all k : fold_left (fun s x => sinsert x s) (consecutive 0 k) [] = consecutive 0 k.
Proof.
  induction k as [|k IH]; [reflexivity|]. rewrite consecutive_snoc, fold_left_app, IH. cbn [fold_left].
  apply sinsert_end. intros y. apply consecutive_below.
Qed.

(** The length of an ack of the sources 0..k-1. *)
Definition ack_len (k : nat) : N := N.of_nat (length (concat (write_ack {| a_ids := consecutive 0 k; a_nb := 0 |}))).

Lemma ack_len_any k n : N.of_nat (length (concat (write_ack {| a_ids := consecutive 0 k; a_nb := n |}))) = ack_len k.
Proof. unfold ack_len. rewrite !ack_bytes. reflexivity. Qed.

Lemma ack_len_0 : ack_len 0 = 5.
Proof. reflexivity. Qed.

Lemma ack_len_S k : N.of_nat (S k) <= 2 ^ 32 -> ack_len (S k) = 9 + 3 * ceil_div (N.of_nat k) 255.
Proof.
  intros H. unfold ack_len. rewrite ack_bytes. cbn [a_ids]. unfold ids_bytes.
  pose proof (C09_consecutive_cost 0 (S k) ltac:(lia) ltac:(lia)) as E.
  replace (N.of_nat (S k) - 1) with (N.of_nat k) in E by lia. lia.
Qed.

(** The ack made in round [k + 1] pays 85 times for every number up to [764 + k]. *)
Lemma ack_len_low k : N.of_nat k <= 2 ^ 32 -> (0 < k)%nat -> 764 + N.of_nat k <= 85 * ack_len k.
Proof.
  intros H Hk. destruct k as [|k]; [lia|]. rewrite (ack_len_S k H). unfold ceil_div.
  pose proof (N.div_mod (N.of_nat k + 255 - 1) 255 ltac:(discriminate)).
  pose proof (N.mod_lt (N.of_nat k + 255 - 1) 255 ltac:(discriminate)). lia.
Qed.

(** 5 bytes, then 9, then 12, and 15 from 257 sources on. *)
Lemma ack_len_high k : (k < 512)%nat ->
  ack_len k + N.min 10 (7 * N.of_nat (S k)) <= (if (k <? 257)%nat then 12 else 15) + N.min 10 (7 * N.of_nat k).
Proof.
  intros H. destruct k as [|k]; [vm_compute; discriminate|]. rewrite ack_len_S by lia. unfold ceil_div.
  pose proof (N.div_mod (N.of_nat k + 255 - 1) 255 ltac:(discriminate)) as D.
  pose proof (N.mod_lt (N.of_nat k + 255 - 1) 255 ltac:(discriminate)) as D'.
  remember ((N.of_nat k + 255 - 1) / 255) as q eqn:Eq. clear Eq.
  remember ((N.of_nat k + 255 - 1) mod 255) as r eqn:Er. clear Er.
  destruct (Nat.ltb_spec (S k) 257).
  - assert (q <= 1) by lia. assert (k = 0%nat -> q = 0) by lia. destruct (Nat.eq_dec k 0); lia.
  - assert (q <= 2) by lia. lia.
Qed.

Lemma core_source m c k data :
  d_missing c = [] -> d_repairs c = [] -> d_ordered c = [] -> d_in_order c = true ->
  d_first c = N.of_nat k -> d_last c = None -> mkeys (d_sources c) = consecutive 0 k ->
  N.of_nat (S k) < 2 ^ 32 ->
  exists c', recv_source m c (N.of_nat k) data = Ok c'
  /\ d_missing c' = [] /\ d_repairs c' = [] /\ d_ordered c' = [] /\ d_in_order c' = true
  /\ d_first c' = N.of_nat (S k) /\ d_last c' = None /\ mkeys (d_sources c') = consecutive 0 (S k)
  /\ d_log c' = d_log c ++ [{| v_id := N.of_nat k; v_data := data; v_known := consecutive 0 k |}].
Proof.
  intros A1 A2 A3 A4 A5 A6 A7 Hk. unfold recv_source, outdated, not_outdated. rewrite A6. cbn [negb].
  assert (Hn : ~ In (N.of_nat k) (mkeys (d_sources c))) by (rewrite A7; intros X; apply consecutive_below in X; lia).
  pose proof (proj2 (mmem_false _ _) Hn) as Hm. rewrite Hm.
  assert (Hu : u32 (N.of_nat k + 1) = N.of_nat (S k)).
  { unfold u32. rewrite N.mod_small; lia. }
  unfold enough. cbn [add_source]. unfold announce. rewrite A4, A5, N.eqb_refl. cbn [negb].
  cbn [callback d_first]. rewrite A5, Hu. unfold flush. cbn [with_first callback d_first d_ordered]. rewrite A3.
  cbn [smem existsb bind].
  unfold no_longer_missing. cbn [with_first callback d_missing]. rewrite A1. cbn [mfind bind].
  cbn [with_first callback d_missing]. rewrite A1. cbn [mkeys map scan bind].
  unfold store. cbv zeta. cbn [with_sources with_first callback d_in_order d_first d_sources d_ordered].
  rewrite Hm. replace (assert_ m (negb false)) with (Ok tt) by (destruct m; reflexivity). cbn [bind].
  replace (N.of_nat (S k) <? N.of_nat k) with false by (symmetry; apply N.ltb_ge; lia). rewrite A4. cbn [andb].
  match goal with |- exists c', attempt_full_decoding m ?e = _ /\ _ => exists e; set (c1 := e) end.
  split; [apply attempt_less; left; exact A2|].
  do 5 (split; [first [exact A1 | exact A2 | exact A3 | exact A4 | reflexivity]|]).
  split; [exact A6|].
  split.
  - unfold c1. cbn [with_sources d_sources]. unfold mput.
    destruct (mfind (N.of_nat k) (d_sources c)) eqn:Ef; [exfalso; apply Hn, mfind_keys; eauto|].
    rewrite mset_end by (rewrite A7; apply consecutive_below). rewrite A7, consecutive_snoc. reflexivity.
  - unfold c1. cbn [with_sources with_first callback d_log]. rewrite A7. reflexivity.
Qed.

(** A source and the bytes behind it. *)
Lemma dec_round m clk d k data t : tidy d k -> N.of_nat (S k) < 2 ^ 32 -> N.of_nat (length data) < 65536 ->
  exists d' out n, dec_packet m clk d (on_wire (write_source {| es_id := N.of_nat k; es_data := data |}) ++ t)
    = (d', Ok (out, n)) /\ tidy d' (S k) /\ to_user out = [data]
  /\ ((to_network out = [] /\ a_nb (dc_ack d') = a_nb (dc_ack d) + 1)
      \/ (N.of_nat (length (concat (to_network out))) = ack_len k /\ a_nb (dc_ack d') = 0)).
Proof.
  intros T Hk Hl. pose proof T as T0. destruct T0.
  set (p := on_wire (write_source {| es_id := N.of_nat k; es_data := data |})).
  destruct (C01_source_roundtrip m (N.of_nat k) data ltac:(lia) Hl) as (s & Rs & Ei & Ed). fold p in Rs.
  assert (Ty : forall u, get_packet_type (p ++ u) = Ok TSource) by reflexivity.
  assert (An : announced m p TSource) by (unfold announced; destruct m; reflexivity).
  destruct (proj2 (proj2 (C07_suffix_independent m p t)) s _ An Rs) as (s' & Rs' & Ei' & _ & Ed').
  unfold dec_packet.
  replace (assert_ m (Nat.ltb 0 (length (p ++ t)))) with (Ok tt)
    by (destruct m; [cbn [assert_]; replace (Nat.ltb 0 (length (p ++ t))) with true; [reflexivity|]; symmetry; apply Nat.ltb_lt; unfold p; cbn; lia | reflexivity]).
  cbn [bind]. rewrite Ty, Rs'. cbn [bind]. unfold call_core.
  cbn [count_packet dc_core]. rewrite Ei', Ei, Ed', Ed.
  destruct (core_source m (dc_core d) k data) as (c & Rc & B1 & B2 & B3 & B4 & B5 & B6 & B7 & B8); try assumption.
  rewrite Rc. cbn [bind]. rewrite B8, skipn_app, skipn_all, Nat.sub_diag. cbn [skipn app].
  cbn [handle_sources]. unfold handle_source. cbn [v_known v_data]. unfold maybe_ack_of.
  cbn [with_core count_packet dc_ack dc_ack_nb dc_period dc_reads dc_last_date a_nb].
  assert (Hu : u16 (a_nb (dc_ack d) + 1) = a_nb (dc_ack d) + 1) by (unfold u16; rewrite N.mod_small; lia).
  rewrite Hu, td_limit0.
  assert (Hns : u64 (dc_nb_sources d + 1) = N.of_nat (S k)).
  { rewrite td_nb_sources0. unfold u64. rewrite N.mod_small; lia. }
  assert (Hnr : u64 (dc_nb_repairs d + 0) = 0) by (rewrite td_nb_repairs0; reflexivity).
  assert (Len : forall n, N.of_nat (length (concat (write_ack
     {| a_ids := fold_left (fun s0 x => sinsert x s0) (consecutive 0 k) (a_ids (dc_ack d)); a_nb := n |}) ++ [])) = ack_len k).
  { intros n. rewrite app_nil_r, td_ids0, collect_all. apply ack_len_any. }
  destruct (50 <=? a_nb (dc_ack d) + 1) eqn:E1;
    [|apply N.leb_gt in E1; destruct (dc_period d =? 0)%Z eqn:E2;
      [|destruct (dc_period d * 1000000 <=? clk (dc_reads d) - dc_last_date d)%Z eqn:E3]];
  cbn [generate_ack_of read_clock bind finish app]; do 3 eexists; (split; [reflexivity|]); split;
  try (constructor; cbn; first [assumption | reflexivity | rewrite Hu; exact E1]).
  - split; [reflexivity|]. right. split; [apply Len | reflexivity].
  - split; [reflexivity|]. left. split; [reflexivity|]. cbn. exact Hu.
  - split; [reflexivity|]. right. split; [apply Len | reflexivity].
  - split; [reflexivity|]. left. split; [reflexivity|]. cbn. exact Hu.
Qed.

(** ** The sender *)

Definition script (ds : list (list N)) : list eop := ESetWindow 32 :: map EData ds.

(** [ds] were given, no ack has arrived: the window is the last 32 of them. *)
Record sending (m : mode) (e : enc) (ds : list (list N)) : Prop := {
  se_run : exists out, reached m W8 (script ds) e out;
  se_safe : safe W8 e;
  se_systematic : e_systematic e = true;
  se_rate : e_rate e = 5;
  se_size : e_window_size e = 32;
  se_id : e_source_id e = N.of_nat (length ds);
  se_ids : map es_id (e_sources e)
    = consecutive (N.of_nat (length ds - Nat.min (length ds) 32)) (Nat.min (length ds) 32);
  se_data : map es_data (e_sources e) = skipn (length ds - 32) ds;
  se_repairs : e_nb_sent_repairs e = N.of_nat (length ds) / 5
}.

Lemma datas_script ds : datas (script ds) = ds.
Proof. unfold script. cbn [datas flat_map app]. induction ds as [|d ds IH]; [reflexivity|]. cbn. f_equal. exact IH. Qed.

Lemma consecutive_next x n : consecutive x (S n) = consecutive x n ++ [x + N.of_nat n].
Proof. unfold consecutive. rewrite seq_S, map_app. reflexivity. Qed.

Lemma consecutive_first x n : consecutive x (S n) = x :: consecutive (x + 1) n.
Proof.
  unfold consecutive. cbn [seq map]. f_equal; [lia|]. rewrite <- seq_shift, map_map. apply map_ext. intros i. lia.
Qed.

Lemma consecutive_length x n : length (consecutive x n) = n.
Proof. unfold consecutive. rewrite map_length, seq_length. reflexivity. Qed.

Lemma skipn_next {A} n (l : list A) : skipn (S n) l = tl (skipn n l).
Proof.
  revert n. induction l as [|x l IH]; intros [|n]; try reflexivity.
  change (skipn (S (S n)) (x :: l)) with (skipn (S n) l). rewrite IH. reflexivity.
Qed.

Lemma longest_le b l : Forall (fun s => (length (es_data s) <= b)%nat) l -> (longest l <= b)%nat.
Proof. apply longest_bound. Qed.

Lemma enc_round m e ds d : sending m e ds -> legal W8 d -> Forall (legal W8) ds -> N.of_nat (S (length ds)) < 2 ^ 32 ->
  exists e' rest, enc_data m e d = Ok (e', on_wire (write_source {| es_id := N.of_nat (length ds); es_data := d |}) :: rest)
  /\ sending m e' (ds ++ [d])
  /\ (N.of_nat (S (length ds)) mod 5 <> 0 -> rest = [])
  /\ (N.of_nat (S (length ds)) mod 5 = 0 -> exists p, rest = [p]
      /\ length p = (20 + 2 * longest (e_sources e'))%nat).
Proof.
  intros S Hd Hl Hn. pose proof S as S0. destruct S0.
  destruct (enc_data_total m e d) as (e' & out & E).
  { rewrite (sf_field _ _ se_safe0). exact Hd. }
  { unfold legal_window. rewrite (sf_field _ _ se_safe0). exact (sf_window _ _ se_safe0). }
  { rewrite se_rate0. discriminate. }
  { rewrite se_size0. discriminate. }
  pose proof (enc_data_spec _ _ _ _ _ E) as A. pose proof A as A0. destruct A0.
  destruct ad_out as (first & rest & Eo & Hsys & _ & H0 & H1). specialize (Hsys se_systematic0).
  assert (Hu : u32 (e_source_id e + 1) = N.of_nat (Datatypes.S (length ds))).
  { rewrite se_id0. unfold u32. rewrite N.mod_small; lia. }
  rewrite Hu, se_rate0 in H0, H1. rewrite se_systematic0 in H0.
  assert (Hlen : length (ds ++ [d]) = Datatypes.S (length ds)) by (rewrite app_length; cbn; lia).
  assert (Hids : map es_id (e_sources e')
    = consecutive (N.of_nat (length (ds ++ [d]) - Nat.min (length (ds ++ [d])) 32)) (Nat.min (length (ds ++ [d])) 32)).
  { rewrite Hlen. apply push_source_ok in ad_push as [(W & x & t & Ex & ->)|(W & ->)];
    assert (Lm : length (e_sources e) = Nat.min (length ds) 32) by (rewrite <- (map_length es_id), se_ids0; apply consecutive_length).
    - rewrite se_size0 in W. rewrite Ex in Lm, W, se_ids0.
      assert (M : Nat.min (length ds) 32 = 32%nat) by lia.
      rewrite M in se_ids0. rewrite (consecutive_first _ 31) in se_ids0. cbn [map] in se_ids0.
      replace (Nat.min (Datatypes.S (length ds)) 32) with 32%nat by lia.
      rewrite map_app. cbn [map es_id]. rewrite (consecutive_next _ 31).
      assert (Ht : map es_id t = consecutive (N.of_nat (length ds - 32) + 1) 31) by congruence.
      rewrite Ht, se_id0.
      replace (N.of_nat (Datatypes.S (length ds) - 32)) with (N.of_nat (length ds - 32) + 1) by lia.
      do 2 f_equal. lia.
    - rewrite se_size0, Lm in W.
      assert (length ds < 32)%nat by lia.
      replace (Nat.min (Datatypes.S (length ds)) 32) with (Datatypes.S (length ds)) by lia.
      replace (Nat.min (length ds) 32) with (length ds) in se_ids0 by lia. rewrite Nat.sub_diag in *.
      rewrite map_app, se_ids0, consecutive_next. cbn [map es_id]. rewrite se_id0. reflexivity. }
  assert (Run : exists o, reached m W8 (script (ds ++ [d])) e' o).
  { destruct se_run0 as (o & R). exists (o ++ out). unfold reached, script in *. rewrite map_app.
    rewrite app_comm_cons. eapply erun_app_ok; [exact R|]. cbn [map erun estep]. rewrite E. cbn. now rewrite app_nil_r. }
  assert (Cnt : count 1 out = if N.of_nat (Datatypes.S (length ds)) mod 5 =? 0 then 1 else 0).
  { rewrite Eo, count_cons, Hsys, source_type. cbn [N.eqb Pos.eqb].
    destruct (N.eqb_spec (N.of_nat (Datatypes.S (length ds)) mod 5) 0) as [Z|Z].
    - destruct (H0 Z) as (p & -> & R). rewrite count_one, (repair_of_type _ _ _ _ _ R). reflexivity.
    - rewrite (H1 Z). reflexivity. }
  assert (Rep : e_nb_sent_repairs e' = N.of_nat (length (ds ++ [d])) / 5).
  { rewrite Hlen. assert (Q : e_nb_sent_repairs e' = N.of_nat (length ds) / 5 + count 1 out).
    { assert (N.of_nat (length ds) / 5 <= N.of_nat (length ds)) by (apply N.div_le_upper_bound; lia).
      assert (count 1 out <= 1) by (rewrite Cnt; destruct (_ =? 0); lia).
      destruct ad_nb_repairs as [Q|[Z Q]]; rewrite Q, se_repairs0; [unfold u64; rewrite N.mod_small; lia | lia]. }
    rewrite Q, Cnt. clear.
    set (n := N.of_nat (length ds)). replace (N.of_nat (Datatypes.S (length ds))) with (n + 1) by lia.
    pose proof (N.div_mod n 5 ltac:(discriminate)) as D1. pose proof (N.mod_lt n 5 ltac:(discriminate)) as D2.
    pose proof (N.div_mod (n + 1) 5 ltac:(discriminate)) as D3. pose proof (N.mod_lt (n + 1) 5 ltac:(discriminate)) as D4.
    remember (n / 5) as a eqn:Ea. remember (n mod 5) as b eqn:Eb. remember ((n + 1) / 5) as a' eqn:Ea'. remember ((n + 1) mod 5) as b' eqn:Eb'.
    clear Ea Eb Ea' Eb'. destruct (N.eqb_spec b' 0); lia. }
  assert (Snd : sending m e' (ds ++ [d])).
  { constructor; try congruence.
    - eapply after_data_safe; [exact se_safe0 | exact Hd | exact A].
    - rewrite Hlen, skipn_app. replace (Datatypes.S (length ds) - 32 - length ds)%nat with 0%nat by lia.
      assert (Lm : length (e_sources e) = Nat.min (length ds) 32) by (rewrite <- (map_length es_id), se_ids0; apply consecutive_length).
      apply push_source_ok in ad_push as [(W & x & t & Ex & ->)|(W & ->)]; rewrite map_app; cbn [map es_data skipn]; f_equal.
      + rewrite se_size0 in W. rewrite Ex in se_data0, W. cbn [map] in se_data0.
        assert (32 <= length ds)%nat by (rewrite <- Ex in W; lia).
        replace (Datatypes.S (length ds) - 32)%nat with (Datatypes.S (length ds - 32)) by lia.
        rewrite skipn_next, <- se_data0. reflexivity.
      + rewrite se_size0, Lm in W. replace (Datatypes.S (length ds) - 32)%nat with 0%nat by lia.
        rewrite se_data0. replace (length ds - 32)%nat with 0%nat by lia. reflexivity. }
  exists e', rest. split; [rewrite E, Eo, Hsys, se_id0; reflexivity|]. split; [exact Snd|]. split; [exact H1|].
  intros Z. destruct (H0 Z) as (p & -> & R). exists p. split; [reflexivity|].
  destruct se_run0 as (o & Ro).
  destruct (C62_exact_sizes m W8 (script ds) e o (EData d) e' out p Ro) as [[T _]|[_ [L _]]].
  - cbn [estep]. rewrite E. reflexivity.
  - unfold short_data. rewrite datas_app, datas_script. apply Forall_app. split.
    + eapply Forall_impl; [|exact Hl]. intros x Hx. apply Hx.
    + constructor; [apply Hd | constructor].
  - rewrite nb_data_app. unfold nb_data at 1. rewrite datas_script. unfold nb_data. cbn [datas flat_map app length]. lia.
  - rewrite Eo. right. left. reflexivity.
  - rewrite (repair_of_type _ _ _ _ _ R) in T. discriminate.
  - rewrite L, Hids. rewrite Hlen.
    set (n := Nat.min (Datatypes.S (length ds)) 32).
    pose proof (C09_consecutive_cost (N.of_nat (Datatypes.S (length ds) - n)) n ltac:(lia) ltac:(lia)) as C.
    assert (Hn5 : (5 <= n)%nat).
    { assert (5 <= Datatypes.S (length ds))%nat; [|lia].
      pose proof (N.div_mod (N.of_nat (Datatypes.S (length ds))) 5 ltac:(discriminate)) as D. rewrite Z in D. lia. }
    assert (Q : ceil_div (N.of_nat n - 1) 255 = 1).
    { unfold ceil_div. pose proof (N.div_mod (N.of_nat n - 1 + 255 - 1) 255 ltac:(discriminate)) as D.
      pose proof (N.mod_lt (N.of_nat n - 1 + 255 - 1) 255 ltac:(discriminate)) as D'.
      remember ((N.of_nat n - 1 + 255 - 1) / 255) as q eqn:Eq. clear Eq.
      remember ((N.of_nat n - 1 + 255 - 1) mod 255) as r eqn:Er. clear Er.
      assert (n <= 32)%nat by lia. assert (q <= 1) by lia. assert (1 <= q) by lia. lia. }
    rewrite Q in C. lia.
Qed.

(** ** Both sides *)

Record going (m : mode) (b : basic) (ds : list (list N)) : Prop := {
  go_sender : sending m (b_enc b) ds;
  go_receiver : tidy (b_dec b) (length ds)
}.

Lemma start_going m clk : exists b, basic_start m clk = Ok b /\ going m b [] /\ b_acks b = [] /\ a_nb (dc_ack (b_dec b)) = 0.
Proof.
  eexists. split; [destruct m; reflexivity|]. split; [|split; reflexivity]. constructor; cbn [b_enc b_dec].
  - constructor; try reflexivity.
    + exists []. destruct m; reflexivity.
    + constructor; try reflexivity. constructor.
  - constructor; reflexivity.
Qed.

(** What one datum does, before the buffers of the programs come into play. *)
Lemma both m clk b ds d : going m b ds -> Forall (legal W8) (ds ++ [d]) -> N.of_nat (length (ds ++ [d])) < 2 ^ 32 ->
  exists e rest dc out n,
  enc_data m (b_enc b) d = Ok (e, on_wire (write_source {| es_id := N.of_nat (length ds); es_data := d |}) :: rest)
  /\ dec_packet m clk (b_dec b) (concat (on_wire (write_source {| es_id := N.of_nat (length ds); es_data := d |}) :: rest))
     = (dc, Ok (out, n))
  /\ sending m e (ds ++ [d]) /\ tidy dc (length (ds ++ [d])) /\ to_user out = [d]
  /\ ((to_network out = [] /\ a_nb (dc_ack dc) = a_nb (dc_ack (b_dec b)) + 1)
      \/ (N.of_nat (length (concat (to_network out))) = ack_len (length ds) /\ a_nb (dc_ack dc) = 0))
  /\ length (concat rest) = if N.of_nat (length (ds ++ [d])) mod 5 =? 0 then (20 + 2 * longest (e_sources e))%nat else 0%nat.
Proof.
  intros [S T] HL Hn. assert (Hlen : length (ds ++ [d]) = Datatypes.S (length ds)) by (rewrite app_length; cbn; lia).
  rewrite Hlen in *. apply Forall_app in HL as [HL Hd]. inversion Hd; subst.
  destruct (enc_round m (b_enc b) ds d S) as (e & rest & E & Snd & R0 & R1); try assumption.
  destruct (dec_round m clk (b_dec b) (length ds) d (concat rest) T Hn) as (dc & out & n & D & T' & U & A).
  { apply H1. }
  exists e, rest, dc, out, n. split; [exact E|]. split; [exact D|]. split; [exact Snd|]. split; [exact T'|].
  split; [exact U|]. split; [exact A|].
  destruct (N.eqb_spec (N.of_nat (Datatypes.S (length ds)) mod 5) 0) as [Z|Z].
  - destruct (R1 Z) as (p & -> & L). cbn [concat]. rewrite app_nil_r. exact L.
  - rewrite (R0 Z). reflexivity.
Qed.

Lemma same_refl l : same l l = true.
Proof. induction l as [|x l IH]; [reflexivity|]. cbn. rewrite N.eqb_refl. exact IH. Qed.

Lemma rounds_snoc round b ds d : rounds round b (ds ++ [d]) = bind (rounds round b ds) (fun b' => round b' d).
Proof.
  revert b. induction ds as [|x ds IH]; intros b; cbn [app rounds bind].
  - destruct (round b d); reflexivity.
  - destruct (round b x); cbn [bind]; [apply IH | reflexivity | reflexivity].
Qed.

(** ** C82 *)

(** The bytes a round hands to the decoder: the source, and behind every fifth one a repair. *)
Definition round_bytes (ds : list (list N)) (d : list N) (window : list esource) : nat :=
  (7 + length d + if (N.of_nat (length (ds ++ [d])) mod 5 =? 0)%N then 20 + 2 * longest window else 0)%nat.

Lemma going_facts m b ds : going m b ds ->
  e_nb_sent_repairs (b_enc b) = N.of_nat (length ds) / 5
  /\ dc_nb_sources (b_dec b) = N.of_nat (length ds) /\ dc_nb_repairs (b_dec b) = 0
  /\ map es_data (e_sources (b_enc b)) = skipn (length ds - 32) ds
  /\ length (d_sources (dc_core (b_dec b))) = length ds.
Proof.
  intros [S T]. destruct S, T. do 4 (split; [assumption|]).
  rewrite <- (map_length fst). change (map fst (d_sources (dc_core (b_dec b)))) with (mkeys (d_sources (dc_core (b_dec b)))).
  rewrite td_keys0. apply consecutive_length.
Qed.

Lemma cpp_going m clk ds : Forall (legal W8) ds -> N.of_nat (length ds) < 2 ^ 32 ->
  exists b, cpp_basic m clk ds = Ok b /\ going m b ds /\ b_in b = last ds [].
Proof.
  intros HL Hn. unfold cpp_basic. destruct (start_going m clk) as (b0 & E0 & G0 & _). rewrite E0. cbn [bind].
  assert (I0 : b_in b0 = []) by (destruct m; injection E0 as <-; reflexivity).
  induction ds as [|d ds IH] using rev_ind.
  - exists b0. auto.
  - assert (Hlen : length (ds ++ [d]) = S (length ds)) by (rewrite app_length; cbn; lia).
    destruct IH as (b & E & G & _); [apply Forall_app in HL; apply HL | lia|].
    rewrite rounds_snoc, E. cbn [bind]. unfold cpp_round.
    destruct (both m clk b ds d G HL Hn) as (e & rest & dc & out & n & Ee & Ed & Snd & T & U & _).
    rewrite Ee. cbn [bind]. rewrite Ed. cbn [bind]. rewrite U. cbn [concat]. rewrite app_nil_r.
    assert (C : cpp_check m d d = Ok tt).
    { destruct m; [|reflexivity]. cbn [cpp_check]. rewrite Nat.ltb_irrefl, firstn_all, same_refl. reflexivity. }
    rewrite C. cbn [bind]. eexists. split; [reflexivity|]. split; [constructor; assumption|].
    rewrite last_last. reflexivity.
Qed.

Theorem C82_cpp_basic :
  forall m clk ds d, Forall (legal W8) (ds ++ [d]) -> N.of_nat (length (ds ++ [d])) < 2 ^ 32 ->
  exists b, cpp_basic m clk (ds ++ [d]) = Ok b
  /\ b_in b = d
  /\ e_nb_sent_repairs (b_enc b) = N.of_nat (length (ds ++ [d])) / 5
  /\ dc_nb_sources (b_dec b) = N.of_nat (length (ds ++ [d])) /\ dc_nb_repairs (b_dec b) = 0
  /\ map es_data (e_sources (b_enc b)) = skipn (length (ds ++ [d]) - 32) (ds ++ [d])
  /\ length (d_sources (dc_core (b_dec b))) = length (ds ++ [d]).
Proof.
  intros m clk ds d HL Hn. destruct (cpp_going m clk _ HL Hn) as (b & E & G & I).
  exists b. split; [exact E|]. split; [rewrite I; apply last_last | exact (going_facts _ _ _ G)].
Qed.
Print Assumptions C82_cpp_basic.

(** *** The C program *)

(** What one more datum does there. *)
Lemma c_step m clk b ds d : going m b ds -> Forall (legal W8) (ds ++ [d]) -> N.of_nat (length (ds ++ [d])) < 2 ^ 32 ->
  exists e acks dc, sending m e (ds ++ [d])
  /\ ((acks = [] /\ a_nb (dc_ack dc) = a_nb (dc_ack (b_dec b)) + 1)
      \/ (N.of_nat (length acks) = ack_len (length ds) /\ a_nb (dc_ack dc) = 0))
  /\ let bytes := round_bytes ds d (e_sources e) in
  (((length d <= 1024)%nat /\ (bytes <= 1024)%nat /\ (length (b_acks b ++ acks) <= 4096)%nat
    /\ exists b', c_round m clk b d = Ok b' /\ going m b' (ds ++ [d]) /\ b_in b' = d
        /\ b_enc b' = e /\ b_dec b' = dc /\ b_acks b' = b_acks b ++ acks)
   \/ (((1024 < length d)%nat \/ (1024 < bytes)%nat \/ (4096 < length (b_acks b ++ acks))%nat)
    /\ c_round m clk b d = Fault OutOfBounds)).
Proof.
  intros G HL Hn. destruct (both m clk b ds d G HL Hn) as (e & rest & dc & out & n & Ee & Ed & Snd & T & U & A & L).
  set (src := on_wire (write_source {| es_id := N.of_nat (length ds); es_data := d |})) in *.
  assert (Ls : length src = (7 + length d)%nat).
  { unfold src, write_source, on_wire. cbn [concat es_id es_data]. rewrite !app_length, !be_length. cbn [length]. lia. }
  exists e, (concat (to_network out)), dc. split; [exact Snd|]. split.
  { destruct A as [[A1 A2]|A]; [left; rewrite A1; split; [reflexivity | exact A2] | right; exact A]. }
  cbv zeta. assert (Lb : length (concat (src :: rest)) = round_bytes ds d (e_sources e)).
  { cbn [concat]. rewrite app_length, Ls, L. unfold round_bytes. reflexivity. }
  unfold c_round.
  assert (Fit : forall k l, fits k l = if N.of_nat (length l) <=? k then Ok tt else Fault OutOfBounds) by reflexivity.
  rewrite Fit. destruct (N.leb_spec (N.of_nat (length d)) 1024) as [B1|B1]; cbn [bind];
    [|right; split; [left; lia | reflexivity]].
  rewrite Ee. cbn [bind]. rewrite !Fit, Lb.
  destruct (N.leb_spec (N.of_nat (round_bytes ds d (e_sources e))) 4096) as [B2|B2]; cbn [bind];
    [|right; split; [right; left; lia | reflexivity]].
  destruct (N.leb_spec (N.of_nat (round_bytes ds d (e_sources e))) 1024) as [B3|B3]; cbn [bind];
    [|right; split; [right; left; lia | reflexivity]].
  rewrite Ed. cbn [bind]. rewrite U. cbn [last]. rewrite !Fit.
  destruct (N.leb_spec (N.of_nat (length d)) 4096) as [B4|B4]; [|lia]. cbn [bind].
  destruct (N.leb_spec (N.of_nat (length (b_acks b ++ concat (to_network out)))) 4096) as [B5|B5]; cbn [bind];
    [|right; split; [right; right; lia | reflexivity]].
  left. split; [lia|]. split; [lia|]. split; [lia|].
  rewrite Nat.eqb_refl, same_refl. eexists. split; [destruct m; reflexivity|].
  split; [constructor; assumption|]. auto.
Qed.

(** The bytes of the acks after [k] rounds, of which the last [n] made no ack, [n] below 50. *)
Definition few_acks (k : nat) (acks : list N) : Prop :=
  (k <= 512)%nat -> N.of_nat (length acks) + N.min 10 (7 * N.of_nat k) <= 12 * N.of_nat k + 3 * (N.of_nat k - 257).
Definition many_acks (k : nat) (n : N) (acks : list N) : Prop :=
  exists pending, pending <= n * (763 + N.of_nat k)
  /\ 1526 * N.of_nat k + N.of_nat k * (N.of_nat k + 1) <= 2 * (4250 * N.of_nat (length acks) + pending).

Lemma few_none k acks acks' : few_acks k acks -> acks' = [] -> few_acks (S k) (acks ++ acks').
Proof. unfold few_acks. intros F -> Hk. rewrite app_nil_r. specialize (F ltac:(lia)). lia. Qed.

Lemma few_one k acks acks' : few_acks k acks -> N.of_nat (length acks') = ack_len k -> few_acks (S k) (acks ++ acks').
Proof.
  unfold few_acks. intros F E Hk. rewrite app_length, Nat2N.inj_add, E. specialize (F ltac:(lia)).
  pose proof (ack_len_high k ltac:(lia)) as A. destruct (Nat.ltb_spec k 257); lia.
Qed.

Lemma many_none k n acks : many_acks k n acks -> many_acks (S k) (n + 1) acks.
Proof. intros (p & P1 & P2). exists (p + 763 + N.of_nat (S k)). split; nia. Qed.

Lemma many_one k n acks acks' : many_acks k n acks -> n < 50 -> N.of_nat k <= 2 ^ 32 ->
  N.of_nat (length acks') = ack_len k -> many_acks (S k) 0 (acks ++ acks').
Proof.
  intros (p & P1 & P2) Hn Hk E. exists 0. split; [lia|]. rewrite app_length, Nat2N.inj_add, E.
  assert (A : (k = 0)%nat /\ p = p \/ 764 + N.of_nat k <= 85 * ack_len k).
  { destruct k as [|k]; [left; auto | right; apply ack_len_low; lia]. }
  destruct A as [[-> _]|A].
  - rewrite ack_len_0. nia.
  - assert (p <= 49 * (763 + N.of_nat k)) by nia. nia.
Qed.

Lemma c_going m clk ds : Forall (legal W8) ds -> N.of_nat (length ds) < 2 ^ 32 ->
  (exists b, c_basic m clk ds = Ok b /\ going m b ds /\ b_in b = last ds [] /\ (length (b_acks b) <= 4096)%nat
   /\ few_acks (length ds) (b_acks b) /\ many_acks (length ds) (a_nb (dc_ack (b_dec b))) (b_acks b))
  \/ (c_basic m clk ds = Fault OutOfBounds
      /\ (~ Forall (fun d => (length d <= 332)%nat) ds \/ (325 < length ds)%nat)).
Proof.
  intros HL Hn. unfold c_basic. destruct (start_going m clk) as (b0 & E0 & G0 & A0 & N0). rewrite E0. cbn [bind].
  assert (I0 : b_in b0 = []) by (destruct m; injection E0 as <-; reflexivity).
  induction ds as [|d ds IH] using rev_ind.
  - left. exists b0. split; [reflexivity|]. split; [exact G0|]. split; [exact I0|]. rewrite A0, N0.
    split; [cbn; lia|]. split; [intros _; vm_compute; discriminate|]. exists 0. split; vm_compute; discriminate.
  - assert (Hlen : length (ds ++ [d]) = S (length ds)) by (rewrite app_length; cbn; lia).
    destruct IH as [(b & E & G & _ & L & F & M)|[E B]]; [apply Forall_app in HL; apply HL | lia| |].
    + rewrite rounds_snoc, E. cbn [bind].
      destruct (c_step m clk b ds d G HL Hn) as (e & acks & dc & Snd & A & H). cbv zeta in H.
      assert (F' : few_acks (length (ds ++ [d])) (b_acks b ++ acks)).
      { rewrite Hlen. destruct A as [[A1 _]|[A1 _]]; [apply few_none | apply few_one]; assumption. }
      destruct H as [(_ & _ & L' & b' & E' & G' & I' & He & Hd & Ha)|[H E']].
      * left. exists b'. split; [exact E'|]. split; [exact G'|]. split; [rewrite last_last; exact I'|].
        rewrite Ha. split; [exact L'|]. split; [exact F'|]. rewrite Hd, Hlen.
        destruct A as [[-> A2]|[A1 A2]]; rewrite A2.
        -- rewrite app_nil_r. apply many_none. exact M.
        -- eapply many_one; [exact M | apply (td_nb _ _ (go_receiver _ _ _ G)) | lia | exact A1].
      * right. split; [exact E'|].
        destruct (Nat.le_gt_cases (length (ds ++ [d])) 325) as [K|K]; [|right; exact K]. left. intros S332.
        assert (Hd : (length d <= 332)%nat) by (rewrite Forall_forall in S332; apply S332, in_or_app; right; left; reflexivity).
        assert (Lw : (longest (e_sources e) <= 332)%nat).
        { apply longest_le. apply Forall_forall. intros s Hs. rewrite Forall_forall in S332. apply S332.
          assert (X : In (es_data s) (map es_data (e_sources e))) by (apply in_map; exact Hs).
          rewrite (se_data _ _ _ Snd) in X. rewrite <- (firstn_skipn (length (ds ++ [d]) - 32) (ds ++ [d])).
          apply in_or_app. right. exact X. }
        assert (Rb : (round_bytes ds d (e_sources e) <= 1024)%nat) by (unfold round_bytes; destruct (_ =? 0); lia).
        specialize (F' ltac:(lia)). lia.
    + right. rewrite rounds_snoc, E. split; [reflexivity|]. destruct B as [B|B].
      * left. intros X. apply B. apply Forall_app in X. apply X.
      * right. lia.
Qed.

Theorem C82_c_basic :
  forall m clk ds d, Forall (legal W8) (ds ++ [d]) -> N.of_nat (length (ds ++ [d])) < 2 ^ 32 ->
  (c_basic m clk (ds ++ [d]) = Fault OutOfBounds
   \/ exists b, c_basic m clk (ds ++ [d]) = Ok b /\ b_in b = d
      /\ dc_nb_sources (b_dec b) = N.of_nat (length (ds ++ [d])) /\ dc_nb_repairs (b_dec b) = 0)
  /\ (Forall (fun x => (length x <= 332)%nat) (ds ++ [d]) -> (length (ds ++ [d]) <= 325)%nat ->
      exists b, c_basic m clk (ds ++ [d]) = Ok b /\ b_in b = d).
Proof.
  intros m clk ds d HL Hn. destruct (c_going m clk _ HL Hn) as [(b & E & G & I & _)|[E B]].
  - rewrite last_last in I. split; [|intros _ _; exists b; auto].
    right. exists b. destruct (going_facts _ _ _ G) as (_ & F1 & F2 & _). auto.
  - split; [left; exact E|]. intros S332 K. destruct B as [B|B]; [contradiction | lia].
Qed.
Print Assumptions C82_c_basic.

Lemma c_fault_more m clk ds more x : c_basic m clk ds = Fault x -> c_basic m clk (ds ++ more) = Fault x.
Proof.
  unfold c_basic. destruct (basic_start m clk) as [b|e|f]; cbn [bind]; try congruence.
  revert b. induction ds as [|d ds IH]; intros b H; cbn [app rounds] in *; [discriminate|].
  destruct (c_round m clk b d); cbn [bind] in *; try congruence. apply IH. exact H.
Qed.

(** Five data of 333 bytes or more, and whatever comes next. *)
Theorem C82_long_data_overflow :
  forall m clk d more, legal W8 d -> (333 <= length d)%nat -> c_basic m clk (repeat d 5 ++ more) = Fault OutOfBounds.
Proof.
  intros m clk d more Hd Hl. apply c_fault_more. change (repeat d 5) with (repeat d 4 ++ [d]).
  assert (HL : Forall (legal W8) (repeat d 4)) by (repeat (constructor; [exact Hd|]); constructor).
  assert (HL' : Forall (legal W8) (repeat d 4 ++ [d])) by (repeat (constructor; [exact Hd|]); constructor).
  destruct (c_going m clk (repeat d 4) HL ltac:(vm_compute; reflexivity)) as [(b & E & G & _)|[E _]].
  2: { apply c_fault_more. exact E. }
  unfold c_basic in *. destruct (basic_start m clk) as [b0| |]; cbn [bind] in *; try discriminate.
  rewrite rounds_snoc, E. cbn [bind].
  destruct (c_step m clk b (repeat d 4) d G HL' ltac:(vm_compute; reflexivity)) as (e & acks & dc & Snd & _ & H).
  cbv zeta in H. destruct H as [(_ & B & _)|[_ H]]; [exfalso | exact H].
  assert (D : map es_data (e_sources e) = [d; d; d; d; d]) by (rewrite (se_data _ _ _ Snd); reflexivity).
  assert (Lw : longest (e_sources e) = length d).
  { destruct (e_sources e) as [|s1 [|s2 [|s3 [|s4 [|s5 [|s6 l]]]]]]; try discriminate. cbn [map] in D.
    injection D as D1 D2 D3 D4 D5. cbn [longest fold_right]. rewrite D1, D2, D3, D4, D5. lia. }
  unfold round_bytes in B. rewrite Lw in B.
  change (N.of_nat (length (repeat d 4 ++ [d])) mod 5 =? 0) with true in B. cbn iota in B. lia.
Qed.
Print Assumptions C82_long_data_overflow.

(** The acks of 5236 rounds, whatever the data and the clock. *)
Theorem C82_many_rounds_overflow :
  forall m clk ds, Forall (legal W8) ds -> 5236 <= N.of_nat (length ds) ->
  c_basic m clk ds = Fault OutOfBounds.
Proof.
  intros m clk ds HL Hn.
  rewrite <- (firstn_skipn (N.to_nat 5236) ds). apply c_fault_more.
  set (h := firstn (N.to_nat 5236) ds).
  assert (Lh : N.of_nat (length h) = 5236) by (unfold h; rewrite firstn_length; lia).
  assert (HL' : Forall (legal W8) h).
  { apply Forall_forall. intros x Hx. rewrite Forall_forall in HL. apply HL.
    rewrite <- (firstn_skipn (N.to_nat 5236) ds). apply in_or_app. left. exact Hx. }
  destruct (c_going m clk h HL' ltac:(rewrite Lh; reflexivity)) as [(b & E & G & _ & L & _ & M)|[E _]]; [exfalso | exact E].
  destruct M as (p & P1 & P2). rewrite Lh in P1, P2. pose proof (td_nb _ _ (go_receiver _ _ _ G)).
  assert (N.of_nat (length (b_acks b)) <= 4096) by lia.
  assert (p <= 49 * (763 + 5236)) by nia. lia.
Qed.
Print Assumptions C82_many_rounds_overflow.

(** ** Examples *)

(** The programs themselves. *)
Definition abc : list N := [97; 98; 99].
Definition defg : list N := [100; 101; 102; 103].
Definition frozen : clock := fun _ => 0%Z.

Example C82_hyps : Forall (legal W8) ([abc] ++ [defg]) /\ N.of_nat (length ([abc] ++ [defg])) < 2 ^ 32
  /\ Forall (fun x => (length x <= 332)%nat) ([abc] ++ [defg]).
Proof. split; [|split; [reflexivity|]]; repeat (constructor; try (cbn; lia)). Qed.

Example C82_runs : match cpp_basic Debug frozen [abc; defg], c_basic Debug frozen [abc; defg] with
  | Ok b, Ok b' => b_in b = defg /\ b_in b' = defg /\ b_out b = [2; 0;0;0;1; 0;4; 100;101;102;103] /\ b_acks b' = []
  | _, _ => False
  end.
Proof. vm_compute. repeat split. Qed.

(** Five rounds with a clock that jumps by 200 ms: a repair behind the fifth source, five acks. *)
Example C82_five : match c_basic Debug (fun n => Z.of_nat n * 200000000)%Z (repeat [7] 5) with
  | Ok b => b_in b = [7] /\ length (b_out b) = 30%nat /\ length (b_acks b) = (5 + 9 + 12 + 12 + 12)%nat
     /\ e_nb_sent_repairs (b_enc b) = 1 /\ dc_nb_acks (b_dec b) = 5
  | _ => False
  end.
Proof. vm_compute. repeat split. Qed.

(** Data of 332 bytes fit, five times: 7 + 332 + 20 + 2 * 332 = 1023. *)
Example C82_long_data_hyps : legal W8 (repeat 1 333) /\ (333 <= length (repeat 1 333))%nat
  /\ legal W8 (repeat 1 332).
Proof. unfold legal. rewrite !repeat_length. repeat split; lia. Qed.

Example C82_many_rounds_hyps : exists ds, Forall (legal W8) ds /\ N.of_nat (length ds) = 5236.
Proof.
  exists (repeat [7] (N.to_nat 5236)). split; [|rewrite repeat_length; lia].
  apply Forall_forall. intros x Hx. apply repeat_spec in Hx as ->. unfold legal. cbn. repeat split; lia.
Qed.
