(** * 32-bit words: how far the recovery of sizes goes (C75) *)
From Coq Require Import ZArith NArith Arith List Bool Lia Sorted.
From Verif Require Import Outcome GF GFProofs GFField GFRegion Linear RegionFacts Containers ContainersFacts
  Packetizer PacketizerFacts PropsPacketizer Encoder EncoderRun EncoderFacts EncoderHistory EncoderSafe PropsEncoder
  DetailDecoder Decoder DecoderInv DecoderStep DecoderFacts DecoderOuter Genuine PropsSizes
  System SystemInv SystemRun SystemArrive SystemFifo PropsSystem PropsFifo PropsRecover.
Import ListNotations.
Open Scope N_scope.
Open Scope outcome_scope.

(** ** Products without reduction *)

Lemma xtime_below v k : v < 2 ^ k -> k < 32 -> xtime 32 (gf_poly W32) v < 2 ^ (k + 1).
Proof.
  intros Hv Hk. unfold xtime.
  assert (D : N.double v < 2 ^ (k + 1)) by (rewrite N.pow_add_r, N.double_spec; change (2 ^ 1) with 2; lia).
  rewrite (testbit_above _ (k + 1)) by (assumption || lia). exact D.
Qed.

Lemma gmul_below a c i j : 1 <= i -> i + j <= 33 -> a < 2 ^ i -> c < 2 ^ j -> gmul W32 a c < 2 ^ (i + j - 1).
Proof.
  intros Hi Hij Ha Hc. unfold gmul, gmul_gen. destruct c as [|c]; [apply N.neq_0_lt_0, N.pow_nonzero; discriminate|].
  change (wbits W32) with 32. revert j Hij Hc. induction c as [c IH|c IH|]; intros j Hij Hc; cbn [gmul_pos].
  - assert (Hj : 1 <= j) by (destruct (N.eq_dec j 0) as [->|]; [change (2 ^ 0) with 1 in Hc; lia | lia]).
    assert (Hc' : N.pos c < 2 ^ (j - 1)).
    { replace j with (1 + (j - 1)) in Hc by lia. rewrite N.pow_add_r in Hc. change (2 ^ 1) with 2 in Hc. lia. }
    specialize (IH (j - 1) ltac:(lia) Hc').
    assert (Hj2 : 1 <= j - 1) by (destruct (N.eq_dec (j - 1) 0) as [E|]; [rewrite E in Hc'; change (2 ^ 0) with 1 in Hc'; lia | lia]).
    apply lxor_below.
    + eapply N.lt_le_trans; [exact Ha|]. apply N.pow_le_mono_r; lia.
    + apply xtime_below in IH; [|lia]. replace (i + j - 1) with (i + (j - 1) - 1 + 1) by lia. exact IH.
  - assert (Hj : 1 <= j) by (destruct (N.eq_dec j 0) as [->|]; [change (2 ^ 0) with 1 in Hc; lia | lia]).
    assert (Hc' : N.pos c < 2 ^ (j - 1)).
    { replace j with (1 + (j - 1)) in Hc by lia. rewrite N.pow_add_r in Hc. change (2 ^ 1) with 2 in Hc. lia. }
    specialize (IH (j - 1) ltac:(lia) Hc').
    assert (Hj2 : 1 <= j - 1) by (destruct (N.eq_dec (j - 1) 0) as [E|]; [rewrite E in Hc'; change (2 ^ 0) with 1 in Hc'; lia | lia]).
    apply xtime_below in IH; [|lia]. replace (i + j - 1) with (i + (j - 1) - 1 + 1) by lia. exact IH.
  - assert (Hj : 1 <= j) by (destruct (N.eq_dec j 0) as [->|]; [change (2 ^ 0) with 1 in Hc; lia | lia]).
    eapply N.lt_le_trans; [exact Ha|]. apply N.pow_le_mono_r; lia.
Qed.

(** ** The sender of a world *)

Lemma reached_emits m f ops e out op e' r : reached m f ops e out -> estep m e op = (e', r) -> ~ is_fault r ->
  reached m f (ops ++ [op]) e' (out ++ emitted r).
Proof.
  intros R E Nf. unfold reached in *. apply (erun_app_ok _ _ _ _ _ _ _ _ R). cbn [erun]. rewrite E.
  destruct r as [new|x|x]; cbn [bind emitted]; [rewrite app_nil_r; reflexivity | reflexivity | exfalso; apply Nf; exists x; reflexivity].
Qed.

Lemma world_sender m clk f o w : reach m clk f o w ->
  exists ops, reached m f ops (w_enc w) (w_out w) /\ datas ops = w_sent w.
Proof.
  revert w. apply reach_ind.
  - exists []. split; reflexivity.
  - intros w a w' R (ops & H & Ed) E.
    assert (Snd : forall op data, sender m w op data = Ok w' -> datas [op] = data ->
      exists ops, reached m f ops (w_enc w') (w_out w') /\ datas ops = w_sent w').
    { intros op data Es Eq. unfold sender in Es. destruct (estep m (w_enc w) op) as [e r] eqn:Ee.
      apply bind_ok in Es. destruct Es as (out & Er & Ew).
      match type of Ew with Ok ?x = _ => assert (w' = x) by congruence end. subst w'. cbn [w_enc w_out w_sent].
      exists (ops ++ [op]). split; [|rewrite datas_app, Ed, Eq; reflexivity].
      assert (Nf : ~ is_fault r) by (intros [x ->]; discriminate).
      assert (Eo : out = emitted r) by (destruct r; cbn in *; congruence). rewrite Eo.
      eapply reached_emits; eassumption. }
    assert (Rcv : forall op arr, receiver m clk w op arr = Ok w' ->
      exists ops, reached m f ops (w_enc w') (w_out w') /\ datas ops = w_sent w').
    { intros op arr Es. apply receiver_extends in Es. destruct Es as (_ & E1 & E2 & _ & E3).
      exists ops. rewrite E1, E2, E3. auto. }
    destruct a; cbn [wstep] in E;
      try (eapply Snd; [exact E | reflexivity]); try (eapply Rcv; exact E).
    + destruct (nth_error (w_out w) k); [eapply Rcv; exact E|]. assert (w' = w) by congruence. subst. eauto.
    + destruct (nth_error (w_acks w) j); [eapply Snd; [exact E | reflexivity]|]. assert (w' = w) by congruence. subst. eauto.
Qed.

(** Each repair was made of a window of the sender. *)
Lemma repairs_made m f ops : forall e out, reached m f ops e out -> nb_data ops <= 2 ^ 32 -> count 1 out < 2 ^ 32 ->
  forall p, In p out -> type_of p = 1 ->
  exists id l, repair_of m f id l p /\ id < count 1 out /\ ssorted (map es_id l)
  /\ forall s, In s l -> es_id s < nb_data ops /\ nth_error (datas ops) (N.to_nat (es_id s)) = Some (es_data s).
Proof.
  induction ops as [|op ops IH] using rev_ind; intros e out R Hn Hc p Hp Ht.
  - unfold reached in R. cbn [erun] in R. assert (out = []) by congruence. subst. destruct Hp.
  - pose proof R as R'. unfold reached in R. apply erun_snoc in R. destruct R as (e1 & o1 & r & R1 & E & Nf & ->).
    rewrite count_app in *. pose proof Hn as Hn'. rewrite nb_data_app in Hn.
    apply in_app_iff in Hp. destruct Hp as [Hp|Hp].
    + destruct (IH e1 o1 R1 ltac:(lia) ltac:(lia) p Hp Ht) as (id & l & A & B & C & D).
      exists id, l. split; [exact A|]. split; [lia|]. split; [exact C|]. intros s Hs. destruct (D s Hs) as [D1 D2].
      rewrite nb_data_app. split; [lia|]. rewrite datas_app, nth_error_app1; [exact D2|].
      apply nth_error_Some. congruence.
    + pose proof (history_of_run m f (ops ++ [op]) e _ R') as H.
      pose proof (history_of_run m f ops e1 o1 R1) as H1.
      assert (W : forall s, In s (e_sources e) -> es_id s < nb_data (ops ++ [op])
        /\ nth_error (datas (ops ++ [op])) (N.to_nat (es_id s)) = Some (es_data s)).
      { intros s Hs. destruct (h_window _ _ _ _ H s Hs) as (k & Hk & Es).
        assert (Lk : (k < length (datas (ops ++ [op])))%nat) by (apply nth_error_Some; congruence).
        assert (Lk' : N.of_nat k < nb_data (ops ++ [op])) by (unfold nb_data; lia).
        rewrite N.mod_small in Es by (change (2 ^ 32) with 4294967296 in *; lia).
        rewrite Es, Nat2N.id. auto. }
      assert (Sd : ssorted (map es_id (e_sources e))) by (apply (proj1 (h_sorted _ _ _ _ H Hn'))).
      pose proof (h_repair_id _ _ _ _ H1) as Hid. pose proof (h_field _ _ _ _ H1) as Hfd.
      assert (Fin : forall id, repair_of m (Encoder.e_field e1) (u32 id) (e_sources e) p -> id < count 1 o1 + count 1 (emitted r) ->
        exists id l, repair_of m f id l p /\ id < count 1 o1 + count 1 (emitted r) /\ ssorted (map es_id l)
        /\ forall s, In s l -> es_id s < nb_data (ops ++ [op]) /\ nth_error (datas (ops ++ [op])) (N.to_nat (es_id s)) = Some (es_data s)).
      { intros id A B. exists id, (e_sources e). split; [|auto]. rewrite Hfd in A.
        replace id with (u32 id); [exact A|]. unfold u32. apply N.mod_small. change (2 ^ 32) with 4294967296 in *. lia. }
      assert (Some1 : 1 <= count 1 (emitted r)).
      { unfold count. assert (Z : In p (of_type 1 (emitted r))) by (apply filter_In; split; [exact Hp | rewrite Ht; reflexivity]).
        destruct (of_type 1 (emitted r)); [destruct Z | cbn [length]; lia]. }
      destruct op as [d|q| |b|k|n0|b].
      * destruct (estep_data _ _ _ _ _ E Nf) as (out & -> & A). cbn [emitted] in *.
        destruct (ad_out _ _ _ _ _ A) as (first & rest & -> & A1 & A2 & A3 & A4).
        destruct Hp as [<-|Hp].
        -- destruct (e_systematic e1) eqn:Sy.
           { exfalso. rewrite (A1 eq_refl), source_type in Ht. discriminate. }
           apply (Fin (count 1 o1)); [rewrite <- Hid; apply A2; reflexivity | lia].
        -- destruct (N.eq_dec (u32 (e_source_id e1 + 1) mod e_rate e1) 0) as [Z|Z]; [|rewrite (A4 Z) in Hp; destruct Hp].
           destruct (A3 Z) as (p' & -> & Rp). destruct Hp as [<-|[]]. destruct (e_systematic e1) eqn:Sy.
           { apply (Fin (count 1 o1)); [rewrite <- Hid; exact Rp | lia]. }
           apply (Fin (count 1 o1 + 1)).
           { rewrite Hid, EncoderHistory.u32_add in Rp. exact Rp. }
           rewrite !count_cons, Ht. rewrite (repair_of_type _ _ _ _ _ (A2 eq_refl)). cbn [N.eqb Pos.eqb]. lia.
      * destruct (estep_packet _ _ _ _ _ E Nf) as (q' & _ & _ & _ & Eq). rewrite Eq in Hp. destruct Hp.
      * destruct (estep_repair _ _ _ _ E Nf) as (out & -> & G). cbn [emitted] in *.
        apply generate_repair_ok in G. destruct G as (r0 & w & Er & Ew & -> & _ & _ & _ & _ & _ & _ & _ & Es & _).
        destruct Hp as [<-|[]]. apply (Fin (count 1 o1)); [|lia]. rewrite <- Hid, Es. exists r0, w. auto.
      * destruct (estep_setters _ _ _ _ _ E Nf I) as [-> _]. destruct Hp.
      * destruct (estep_setters _ _ _ _ _ E Nf I) as [-> _]. destruct Hp.
      * destruct (estep_setters _ _ _ _ _ E Nf I) as [-> _]. destruct Hp.
      * destruct (estep_setters _ _ _ _ _ E Nf I) as [-> _]. destruct Hp.
Qed.

Lemma write_mode m m' r c : write_repair m r = Ok c -> forall c', write_repair m' r = Ok c' -> c' = c.
Proof.
  unfold write_repair. intros H c' H'. apply bind_ok in H. destruct H as (u & _ & H). apply bind_ok in H'. destruct H' as (u' & _ & H').
  congruence.
Qed.

Definition legal_data (f : field) (w : world) : Prop :=
  Forall (fun d => (0 < length d)%nat /\ N.of_nat (length d) < 65536
            /\ aligned f (length d) = true /\ Forall (fun b => b < 256) d) (w_sent w).

(** What the receiver reads in a repair is a combination of data sent. *)
Lemma repair_found m clk f o w p m' r q : reach m clk f o w -> legal_data f w -> N.of_nat (length (w_sent w)) <= 65535 ->
  count 1 (w_out w) < 2 ^ 32 ->
  In p (w_out w) -> get_packet_type p = Ok TRepair -> read_repair m' p = Ok (r, q) ->
  exists l, combination f (dr_id r) l {| er_id := dr_id r; er_ids := dr_ids r; er_enc := dr_enc r; er_sym := dr_sym r |}
  /\ dr_id r < count 1 (w_out w) /\ dr_ids r = map es_id l /\ l <> []
  /\ forall s, In s l -> es_id s < N.of_nat (length (w_sent w)) /\ es_data s = nth (N.to_nat (es_id s)) (w_sent w) [].
Proof.
  intros R Hd Hn Hc Hp Ht Hr. destruct (world_sender _ _ _ _ _ R) as (ops & Ro & Ed).
  assert (Enb : nb_data ops = N.of_nat (length (w_sent w))) by (unfold nb_data; rewrite Ed; reflexivity).
  destruct (repairs_made m f ops _ _ Ro ltac:(rewrite Enb; change (2 ^ 32) with 4294967296; lia) Hc p Hp (SystemInv.type_of_repair p Ht)) as (id & l & (r0 & calls & He & Hw & ->) & Hid & Hs & Hl).
  rewrite Enb, Ed in Hl. assert (Hlen : Forall small l).
  { apply Forall_forall. intros s Hin. destruct (Hl s Hin) as [_ Hs2]. apply nth_error_In in Hs2. unfold legal_data in Hd.
    rewrite Forall_forall in Hd. apply (Hd _ Hs2). }
  apply encode_spec in He as [C Hne]; [|exact Hlen].
  assert (Eids : er_ids r0 = map es_id l) by (apply (combination_ids f id); assumption).
  destruct (maxlen_in l Hne) as (s0 & Hs0 & Emax). destruct (Hl s0 Hs0) as [_ Hs2]. apply nth_error_In in Hs2.
  pose proof Hd as Hd'. unfold legal_data in Hd'. rewrite Forall_forall in Hd'. destruct (Hd' _ Hs2) as (L1 & L2 & L3 & _).
  assert (Henc : er_enc r0 < 65536).
  { rewrite (c_enc _ _ _ _ C). apply (xsum_below _ _ 16). intros s _. apply multiply_size_below. }
  assert (Hlen0 : length (er_sym r0) = dlen s0) by (rewrite (c_len _ _ _ _ C); exact Emax).
  assert (Hwire : wire_ok (map es_id l)).
  { pose proof (SystemRun.bounded_wire (w_sent w) [map es_id l]) as B. unfold lim in B. specialize (B ltac:(lia)).
    assert (Q : Forall wire_ok [map es_id l]); [apply B|inversion Q; assumption]. constructor; [|constructor]. split; [exact Hs|].
    intros x Hx. apply in_map_iff in Hx. destruct Hx as (s & <- & Hx). unfold lim. apply (Hl s Hx). }
  destruct (C02_repair_roundtrip m' r0) as (calls' & d & n & W & Rd & D1 & D2 & D3 & D4 & _).
  { rewrite (c_id _ _ _ _ C). lia. }
  { rewrite Eids. split; [exact Hs|]. apply Forall_forall. intros x Hx. apply in_map_iff in Hx. destruct Hx as (s & <- & Hx).
    destruct (Hl s Hx) as [Hx' _]. change (2 ^ 32) with 4294967296. lia. }
  { rewrite Eids. apply Hwire. }
  { rewrite Eids. apply Hwire. }
  { exact Henc. }
  { intros E. rewrite E in Hlen0. unfold dlen in Hlen0. cbn in Hlen0. lia. }
  { rewrite Hlen0. exact L2. }
  rewrite (write_mode _ _ _ _ Hw _ W) in Rd. unfold on_wire in Rd. assert (d = r) by congruence. subst d. exists l.
  rewrite D1, D2, D3, D4, (c_id _ _ _ _ C). split; [|split; [exact Hid | split; [exact Eids | split; [exact Hne|]]]].
  - destruct r0 as [a b c e]. cbn [er_id er_ids er_enc er_sym] in *. pose proof (c_id _ _ _ _ C) as Q. cbn [er_id] in Q.
  rewrite Q in C. exact C.
  - intros s Hin. destruct (Hl s Hin) as [A B]. split; [exact A|]. symmetry. apply nth_error_nth. exact B.
Qed.

(** ** Runs in which all sizes fit *)

Lemma coefficient_bound n x d r : n < r -> x < d -> coefficient W32 n x <= r * (r + d).
Proof.
  intros Hn Hx. unfold coefficient. set (b := u32 _).
  assert (Hb : b <= r * (r + d)).
  { unfold b, u32. etransitivity; [apply N.mod_le; discriminate|].
    rewrite N.mul_comm. apply N.mul_le_mono.
    - etransitivity; [apply N.mod_le; discriminate|]. lia.
    - etransitivity; [apply N.mod_le; discriminate|]. apply N.add_le_mono; (etransitivity; [apply N.mod_le; discriminate|]); lia. }
  destruct (b =? 0); [|exact Hb]. nia.
Qed.

(** With [d] data shorter than 2^a bytes and [r] repairs, as long as r * (r + d) < 2^b and a + b <= 17. *)
Theorem C75_sizes :
  forall m clk o w a b, reach m clk W32 o w -> legal_data W32 w ->
  let d := N.of_nat (length (w_sent w)) in let r := count 1 (w_out w) in
  d <= 65535 -> Forall (fun x => N.of_nat (length x) < 2 ^ a) (w_sent w) ->
  r * (r + d) < 2 ^ b -> a + b <= 17 -> sizes_fit W32 w.
Proof.
  intros m clk o w a b R Hd d r Hn Hl Hr Hab _ m' p rp q x Hp Ht Hrd Hx.
  assert (Hc : count 1 (w_out w) < 2 ^ 32).
  { change (r < 2 ^ 32). assert (r <= r * (r + d) \/ r = 0) by nia. destruct H as [H|H]; [|rewrite H; reflexivity].
    eapply N.le_lt_trans; [exact H|]. eapply N.lt_le_trans; [exact Hr|]. apply N.pow_le_mono_r; lia. }
  destruct (repair_found m clk W32 o w p m' rp q R Hd Hn Hc Hp Ht Hrd) as (l & C & Hid & Eids & _ & Hs).
  rewrite Eids in Hx. apply in_map_iff in Hx. destruct Hx as (s & <- & Hx). destruct (Hs s Hx) as [Hlt Es].
  assert (Hin : In (nth (N.to_nat (es_id s)) (w_sent w) []) (w_sent w)) by (apply nth_In; lia).
  assert (Ha : N.of_nat (length (nth (N.to_nat (es_id s)) (w_sent w) [])) < 2 ^ a) by (rewrite Forall_forall in Hl; apply Hl, Hin).
  assert (H0 : (0 < length (nth (N.to_nat (es_id s)) (w_sent w) []))%nat) by (unfold legal_data in Hd; rewrite Forall_forall in Hd; apply (Hd _ Hin)).
  assert (Ha1 : 1 <= a) by (destruct (N.eq_dec a 0) as [E|]; [rewrite E in Ha; change (2 ^ 0) with 1 in Ha; lia | lia]).
  eapply N.lt_le_trans; [apply (gmul_below _ _ a b Ha1 ltac:(lia) Ha)|].
  - eapply N.le_lt_trans; [apply (coefficient_bound _ _ d r Hid Hlt) | exact Hr].
  - change 65536 with (2 ^ 16). apply N.pow_le_mono_r; lia.
Qed.
Print Assumptions C75_sizes.

(** So everything that holds of normal worlds holds of these: what is delivered was sent, once. *)
Theorem C75_small_runs :
  forall m clk o w a b, reach m clk W32 o w -> repairs_in_order w -> legal_data W32 w ->
  let d := N.of_nat (length (w_sent w)) in let r := count 1 (w_out w) in
  d <= 65535 -> Forall (fun x => N.of_nat (length x) < 2 ^ a) (w_sent w) ->
  r * (r + d) < 2 ^ b -> a + b <= 17 ->
  normal m clk W32 o w
  /\ exists which, NoDup which /\ (forall i, In i which -> (i < length (w_sent w))%nat)
     /\ (o = true -> StronglySorted lt which) /\ w_got w = map (datum w) which.
Proof.
  intros m clk o w a b R Ho Hd d r Hn Hl Hr Hab.
  assert (Nm : normal m clk W32 o w).
  { split; [exact R|]. split; [exact Ho|]. eapply C27_limits_hold; try eassumption. eapply C75_sizes; eassumption. }
  split; [exact Nm|]. destruct (delivered _ _ _ _ _ Nm) as (gs & _ & E & B & D & S). eauto 8.
Qed.
Print Assumptions C75_small_runs.

(** ** One repair of one datum, and nothing else, arrives *)

Lemma assert_true m : assert_ m true = Ok tt.
Proof. destruct m; reflexivity. Qed.

(** The state in which the source of the repair is added. *)
Definition lone_state (f : field) (o : bool) (x : N) : ddec :=
  {| d_field := f; d_in_order := o; d_first := if o then x else 0; d_ordered := []; d_repairs := []; d_sources := [];
     d_last := Some x; d_missing := []; d_useless := 0; d_failed := 0; d_decoded := 1; d_log := [] |}.

Lemma lone_core m f o r x : dr_ids r = [x] ->
  (forall y, create_source m f r = Fault y -> recv_repair m (new_ddec f o) r = Fault y)
  /\ (forall data, create_source m f r = Ok (x, data) ->
      exists d', recv_repair m (new_ddec f o) r = Ok d' /\ map v_data (d_log d') = [data]).
Proof.
  intros Ex.
  assert (E : recv_repair m (new_ddec f o) r
    = ('(id, data) <- create_source m f r ;;
       let d := with_missing (lone_state f o x) (merase id [(x, [dr_id r])]) in
       add_source (enough d) m d id data)).
  { unfold recv_repair. rewrite Ex. cbn [length Nat.eqb negb]. rewrite assert_true. cbn [bind].
    assert (Dr : drop_outdated m (new_ddec f o) x
       = Ok (with_missing (with_sources (with_first (with_last (new_ddec f o) (Some x)) (if o then x else 0)) []) [])).
    { destruct o; [|reflexivity]. unfold drop_outdated. cbn. destruct (N.eqb_spec x 0) as [->|Hx]; [reflexivity|].
      destruct x; [congruence|]. reflexivity. }
    change (outdated (new_ddec f o) (last [x] 0)) with false. cbv iota. change (d_repairs (new_ddec f o)) with (@nil (N * drepair)).
    cbn [mmem mfind]. unfold mmem at 1. cbn [mfind]. rewrite Dr. cbn [bind forallb]. unfold mmem at 1. cbn [with_missing with_sources d_sources mfind andb negb d_repairs with_first with_last new_ddec].
    unfold mmem. cbn [mfind negb]. rewrite assert_true. cbn [bind rev app link_repair with_missing with_sources d_sources mfind with_first with_last new_ddec d_missing mset sinsert].
    rewrite Ex. cbn [length Nat.eqb negb]. rewrite assert_true. cbn [bind with_repairs with_missing with_sources with_first with_last new_ddec d_field d_repairs mset].
    generalize (create_source m f r). intros c. destruct c as [[id data]|y|y]; cbn [bind]; [|reflexivity|reflexivity]. cbv zeta.
    match goal with |- context [merase (dr_id r) ?l] => replace (merase (dr_id r) l) with (@nil (N * drepair)) end.
    { match goal with |- add_source _ _ ?d _ _ = add_source _ _ ?d' _ _ => replace d with d' by reflexivity end. reflexivity. }
    cbn [count_decoded with_decoded with_repairs d_repairs merase]. rewrite N.eqb_refl. reflexivity. }
  rewrite E. split.
  - intros y ->. reflexivity.
  - intros data ->. cbn [bind merase]. rewrite N.eqb_refl. cbv zeta. change (with_missing (lone_state f o x) []) with (lone_state f o x).
    change (enough (lone_state f o x)) with 1%nat. cbn [add_source].
    assert (A : exists fi, announce m (lone_state f o x) x data = Ok (with_first (callback (lone_state f o x) x data) fi)).
    { unfold announce. destruct o; cbn [lone_state d_in_order negb d_first].
      - rewrite N.eqb_refl. unfold flush. cbn [callback with_first d_first d_ordered smem existsb]. eexists. reflexivity.
      - exists 0. reflexivity. }
    destruct A as [fi ->]. cbn [bind]. unfold no_longer_missing. cbn [with_first callback d_missing lone_state mfind bind mkeys map scan].
    unfold store. cbn [d_sources]. unfold mmem. cbn [mfind negb]. rewrite assert_true. cbn [bind].
    eexists. split; [reflexivity|]. destruct (_ && _); reflexivity.
Qed.

Lemma handed clk l : forall d, to_user (snd (handle_sources clk d l)) = map v_data l.
Proof.
  assert (A : forall known d, to_user (snd (maybe_ack_of clk known d)) = []).
  { intros known d. unfold maybe_ack_of. destruct (_ <=? _); [reflexivity|]. destruct (_ =? _)%Z; [reflexivity|].
    destruct (_ <=? _)%Z; reflexivity. }
  induction l as [|v l IH]; intros d; [reflexivity|]. cbn [handle_sources map]. unfold handle_source.
  specialize (A (v_known v) d). destruct (maybe_ack_of clk (v_known v) d) as [d1 o1]. specialize (IH d1).
  destruct (handle_sources clk d1 l) as [d2 o2]. cbn [snd] in *. cbn [app to_user]. rewrite to_user_app, A, IH. reflexivity.
Qed.

(** As long as nothing has arrived, the receiver is as it was made. *)
Lemma untouched m clk f o w : reach m clk f o w -> w_arrived w = [] -> core_of w = new_ddec f o /\ w_got w = [].
Proof.
  revert w. apply (reach_ind m clk f o (fun w => w_arrived w = [] -> core_of w = new_ddec f o /\ w_got w = [])).
  - intros _. split; reflexivity.
  - intros w a w' R IH E Ha.
    assert (Snd : forall op data, sender m w op data = Ok w' -> w_arrived w = [] /\ w_got w' = w_got w).
    { intros op data Es. apply sender_extends in Es. destruct Es as (_ & _ & E1 & E2 & _). rewrite <- E1. auto. }
    assert (Rcv : forall op, receiver m clk w op [] = Ok w' -> match op with DPacket _ => False | _ => True end ->
      w_arrived w = [] /\ w_got w' = w_got w).
    { intros op Es Hop. split.
      - apply receiver_extends in Es. destruct Es as (_ & _ & _ & E1 & _). rewrite app_nil_r in E1. congruence.
      - unfold receiver in Es. destruct (dstep m clk (w_dec w) op) as [d r] eqn:Ed. apply bind_ok in Es. destruct Es as (out & Er & Ew).
        match type of Ew with Ok ?x = _ => assert (w' = x) by congruence end. subst w'. cbn [w_got].
        assert (to_user out = []) as ->; [|apply app_nil_r].
        destruct op; try contradiction; cbn [dstep] in Ed.
        + injection Ed as _ <-. cbn in Er. injection Er as <-. reflexivity.
        + unfold maybe_ack, maybe_ack_of in Ed. destruct (_ <=? _); [injection Ed as _ <-; cbn in Er; injection Er as <-; reflexivity|].
          destruct (_ =? _)%Z; [injection Ed as _ <-; cbn in Er; injection Er as <-; reflexivity|].
          destruct (_ <=? _)%Z; injection Ed as _ <-; cbn in Er; injection Er as <-; reflexivity.
        + injection Ed as _ <-. cbn in Er. injection Er as <-. reflexivity.
        + unfold set_ack_nb_packets in Ed. destruct (assert_ m (0 <? nb)); cbn in Ed; injection Ed as _ <-; cbn in Er; try discriminate; injection Er as <-; reflexivity. }
    assert (Quiet : (forall k, a <> Arrive k) -> w_arrived w = [] -> w_got w' = w_got w -> core_of w' = new_ddec f o /\ w_got w' = []).
    { intros Hna H1 H2. rewrite (dec_kept m clk w a w' E Hna), H2. apply IH, H1. }
    destruct a; cbn [wstep] in E; try (destruct (Snd _ _ E) as [H1 H2]; apply Quiet; [discriminate | exact H1 | exact H2]);
      try (destruct (Rcv _ E I) as [H1 H2]; apply Quiet; [discriminate | exact H1 | exact H2]).
    + destruct (nth_error (w_out w) k).
      * apply receiver_extends in E. destruct E as (_ & _ & _ & E1 & _). rewrite E1 in Ha. destruct (w_arrived w); discriminate.
      * assert (w' = w) by congruence. subst. auto.
    + destruct (nth_error (w_acks w) j).
      * destruct (Snd _ _ E) as [H1 H2]. apply Quiet; [discriminate | exact H1 | exact H2].
      * assert (w' = w) by congruence. subst. auto.
Qed.

(** The step in which a repair arrives is the call of the inner decoder. *)
Lemma repair_step m clk w k p r q : nth_error (w_out w) k = Some p -> p <> [] -> get_packet_type p = Ok TRepair ->
  read_repair m p = Ok (r, q) ->
  (forall y, recv_repair m (core_of w) r = Fault y -> wstep m clk w (Arrive k) = Fault y)
  /\ (forall d', recv_repair m (core_of w) r = Ok d' -> exists w', wstep m clk w (Arrive k) = Ok w'
      /\ w_got w' = w_got w ++ map v_data (skipn (length (d_log (core_of w))) (d_log d'))).
Proof.
  intros Hp Hne Ht Hr.
  assert (Hl : assert_ m (Nat.ltb 0 (length p)) = Ok tt) by (destruct p; [congruence | apply assert_true]).
  unfold wstep. rewrite Hp. unfold receiver, dstep, dec_packet. rewrite Hl. cbn [bind]. rewrite Ht, Hr. cbn [bind].
  unfold call_core. change (dc_core (count_packet (w_dec w) 1 0)) with (core_of w). split.
  - intros y ->. reflexivity.
  - intros d' ->. cbn [bind].
    pose proof (handed clk (skipn (length (d_log (core_of w))) (d_log d')) (with_core (count_packet (w_dec w) 1 0) d')) as Hh.
    destruct (handle_sources clk _ _) as [d2 out]. cbn [snd] in Hh. cbn [bind finish survive].
    eexists. split; [reflexivity|]. cbn [w_got]. rewrite Hh. reflexivity.
Qed.

(** A buffer that begins with a multiple of some data is divided by the factor. *)
Lemma divided c sent buf size : elt W32 c -> c <> 0 -> bytes sent -> aligned W32 (length sent) = true ->
  firstn (length sent) buf = rmul W32 c sent -> (length sent <= length buf)%nat ->
  match region_multiply W32 buf (N.to_nat size) (gf_invert W32 c) with
  | Ok got => size mod 4 = 0 /\ size <= N.of_nat (length buf) /\ N.of_nat (length got) = size
      /\ firstn (length sent) got = firstn (length got) sent
  | Fault OutOfBounds => N.of_nat (length buf) < size
  | Fault GfMisaligned => size <= N.of_nat (length buf) /\ size mod 4 <> 0
  | _ => False
  end.
Proof.
  intros Hce Hc0 L3 L2 Esy Lb. unfold region_multiply.
  destruct (Nat.ltb_spec (length buf) (N.to_nat size)) as [B|B]; [lia|].
  assert (Al : aligned W32 (N.to_nat size) = (size mod 4 =? 0)).
  { unfold aligned. change (wbytes W32) with 4%nat. rewrite <- (N2Nat.id size) at 2. change 4 with (N.of_nat 4). rewrite <- Nat2N.inj_mod.
    destruct (Nat.eqb_spec (N.to_nat size mod 4) 0) as [H|H]; destruct (N.eqb_spec (N.of_nat (N.to_nat size mod 4)) 0); lia. }
  rewrite Al. destruct (N.eqb_spec (size mod 4) 0) as [M|M]; cbn [negb]; [|split; [lia | exact M]].
  split; [exact M|]. split; [lia|].
  set (got := rmul W32 (gf_invert W32 c) (firstn (N.to_nat size) buf)).
  assert (Lg : length got = N.to_nat size) by (unfold got; rewrite rmul_length, firstn_length; lia).
  split; [lia|]. rewrite Lg.
  assert (Key : forall j, (j <= N.to_nat size)%nat -> (j <= length sent)%nat -> aligned W32 j = true -> firstn j got = firstn j sent).
  { intros j J1 J2 J3. unfold got. rewrite <- rmul_firstn by (rewrite ?firstn_length; lia || exact J3).
    rewrite firstn_firstn, Nat.min_l by exact J1.
    assert (firstn j buf = rmul W32 c (firstn j sent)) as ->.
    { rewrite (rmul_firstn W32 c sent j J2 J3), <- Esy. rewrite firstn_firstn, Nat.min_l by lia. reflexivity. }
    rewrite rmul_rmul; [|apply ginv_elt; exact Hce | exact Hce | rewrite firstn_length, Nat.min_l by exact J2; exact J3].
    unfold gf_invert. rewrite ginv_l by assumption. apply rmul_1, bytes_firstn, L3. }
  destruct (Nat.leb_spec (N.to_nat size) (length sent)) as [H|H].
  - rewrite <- (Key (N.to_nat size)); [|lia | exact H | exact Al].
    rewrite !firstn_all2 by lia. reflexivity.
  - rewrite (Key (length sent)) by (lia || exact L2). rewrite !firstn_all2 by lia. reflexivity.
Qed.

(** The first packet to arrive is a repair of one datum: what the receiver does depends only on
    the size it finds there. This is the size sent if the product with the
    coefficient has 16 bits; otherwise the low bits of the product are divided by
    the coefficient and the low bits of the result are taken. *)
Theorem C75_lone_repair :
  forall m clk o w k n x p, reach m clk W32 o w -> legal_data W32 w -> N.of_nat (length (w_sent w)) <= 65535 ->
  count 1 (w_out w) < 2 ^ 32 -> w_arrived w = [] ->
  repair_packet_at m w k n [x] -> nth_error (w_out w) k = Some p ->
  let sent := datum w (N.to_nat x) in
  let c := coefficient W32 n x in
  let size := gmul W32 (gmul W32 (N.of_nat (length sent)) c mod 65536) (gf_invert W32 c) mod 65536 in
  match wstep m clk w (Arrive k) with
  | Ok w' => size mod 4 = 0 /\ size + 7 <= N.of_nat (length p)
      /\ exists got, w_got w' = [got] /\ N.of_nat (length got) = size
         /\ firstn (length sent) got = firstn (length got) sent
  | Fault OutOfBounds => N.of_nat (length p) < size + 7
  | Fault GfMisaligned => size + 7 <= N.of_nat (length p) /\ size mod 4 <> 0
  | _ => False
  end.
Proof.
  intros m clk o w k n x p R Hd Hn Hc Ha (p' & r & q & Hp & Ht & Hr & <- & Ex) Hp' sent c size.
  assert (p' = p) by congruence. subst p'. clear Hp'.
  destruct (untouched _ _ _ _ _ R Ha) as [Ec Eg].
  destruct (repair_found m clk W32 o w p m r q R Hd Hn Hc (nth_error_In _ _ Hp) Ht Hr) as (l & C & _ & El & _ & Hs).
  assert (exists s, l = [s] /\ es_id s = x) as (s & -> & Es).
  { rewrite Ex in El. destruct l as [|s [|]]; try discriminate. exists s. cbn in El. injection El as ->. auto. }
  destruct (Hs s (or_introl eq_refl)) as [Hlt Eda]. rewrite Es in Hlt, Eda. clear Hs El.
  change (nth (N.to_nat x) (w_sent w) []) with sent in Eda.
  destruct (read_repair_fits _ _ _ _ Hr) as [Eb Fs].
  assert (Hc0 : elt W32 c /\ c <> 0) by apply coefficient_elt. destruct Hc0 as [Hce Hc0].
  assert (Hin : In sent (w_sent w)) by (apply nth_In; lia).
  unfold legal_data in Hd. rewrite Forall_forall in Hd. destruct (Hd _ Hin) as (L0 & L1 & L2 & L3). clear Hd.
  assert (Esz : multiply_size W32 (dr_enc r) (gf_invert W32 c) = size).
  { destruct C as [_ _ _ C _ _ _]. cbn in C. unfold part_size in C. rewrite N.lxor_0_r in C.
    rewrite C. unfold dlen. rewrite Es, Eda. fold c. rewrite !multiply_size_w32. reflexivity. }
  clearbody size.
  assert (Esy : dr_sym r = rmul W32 c sent).
  { destruct C as [_ _ _ _ C1 C2 _]. cbn in C1, C2. rewrite Nat.max_0_r in C1. unfold dlen in C1. rewrite Eda in C1.
    apply nth_all_eq; [rewrite rmul_length; exact C1|].
    intros i. rewrite C2. unfold part. rewrite N.lxor_0_r, Es, Eda. reflexivity. }
  assert (Lb : N.of_nat (length (dr_buf r)) = N.of_nat (length p) - 7) by (rewrite Eb, skipn_length; lia).
  assert (Lp : (7 <= length p)%nat).
  { destruct (Nat.leb_spec 7 (length p)) as [H|H]; [exact H|]. exfalso.
    assert (length (dr_sym r) = length sent) by (rewrite Esy; apply rmul_length).
    unfold dr_sym in H0. rewrite firstn_length in H0. lia. }
  assert (Ls : N.to_nat (dr_size r) = length sent).
  { assert (H : length (dr_sym r) = length sent) by (rewrite Esy; apply rmul_length).
    unfold dr_sym in H. rewrite firstn_length in H. lia. }
  assert (Cs : create_source m W32 r =
    (data <- region_multiply W32 (dr_buf r) (N.to_nat size) (gf_invert W32 c) ;; Ok (x, data))%outcome).
  { unfold create_source. rewrite Ex. cbn [length Nat.eqb]. rewrite assert_true. cbn [bind]. fold c. rewrite Esz. reflexivity. }
  destruct (repair_step m clk w k p r q Hp ltac:(intros ->; cbn in Lp; lia) Ht Hr) as [S1 S2]. rewrite Ec in S1, S2.
  destruct (lone_core m W32 o r x Ex) as [F G].
  pose proof (divided c sent (dr_buf r) size Hce Hc0 L3 L2 ltac:(rewrite <- Esy, <- Ls; reflexivity) ltac:(lia)) as Dv.
  destruct (region_multiply W32 (dr_buf r) (N.to_nat size) (gf_invert W32 c)) as [got|y|y]; cbn [bind] in Cs.
  - destruct Dv as (D1 & D2 & D3). destruct (G _ Cs) as (d' & Er & El). destruct (S2 _ Er) as (w' & -> & Ew).
    split; [exact D1|]. split; [lia|]. exists got. rewrite Ew, Eg. cbn [new_ddec d_log length skipn app]. rewrite El. split; [reflexivity | exact D3].
  - destruct Dv.
  - rewrite (S1 y) by (apply F; exact Cs). destruct y; try contradiction; lia.
Qed.
Print Assumptions C75_lone_repair.

Lemma twice x : x < 65536 -> gmul W32 x 2 = 2 * x.
Proof.
  intros H. unfold gmul, gmul_gen. cbn [gmul_pos]. unfold xtime. change (wbits W32) with 32.
  assert (N.testbit (N.double x) 32 = false) as ->; [|apply N.double_spec].
  rewrite N.double_spec. apply N.bits_above_log2. destruct (N.eq_dec x 0) as [->|Hx]; [reflexivity|].
  apply N.log2_lt_pow2; [lia|]. change (2 ^ 32) with 4294967296. lia.
Qed.

Lemma half x : x < 65536 -> gmul W32 (2 * x) (gf_invert W32 2) = x.
Proof.
  intros H. rewrite <- (twice x H). assert (He : elt W32 x) by (unfold elt; change (2 ^ wbits W32) with 4294967296; lia).
  rewrite <- gmul_assoc by exact He. unfold gf_invert. rewrite ginv_r; [apply gmul_1_r | reflexivity | discriminate].
Qed.

(** The first datum is lost, a repair of it arrives: data of 32768 bytes or more are
    handed out truncated, without any error. *)
Theorem C75_first_datum :
  forall m clk o d, (0 < length d)%nat -> N.of_nat (length d) < 65536 -> aligned W32 (length d) = true ->
  Forall (fun b => b < 256) d ->
  exists w, wrun m clk (start clk W32 o) [Data d; Repair; Arrive 1] = Ok w
  /\ w_sent w = [d] /\ w_got w = [firstn (N.to_nat (N.of_nat (length d) mod 32768)) d].
Proof.
  intros m clk o d L0 L1 L2 L3.
  assert (Ez : es_size {| es_id := 0; es_data := d |} = N.of_nat (length d)).
  { unfold es_size, u16. cbn [es_data]. apply N.mod_small, L1. }
  set (r := {| er_id := 0; er_ids := [0]; er_enc := multiply_size W32 (N.of_nat (length d)) 2; er_sym := rmul W32 2 d |}).
  assert (Ee : encode W32 m 0 [{| es_id := 0; es_data := d |}] = Ok r).
  { unfold encode. cbn [length Nat.ltb Nat.leb]. rewrite assert_true. cbn [bind es_id es_data]. change (coefficient W32 0 0) with 2.
    rewrite Ez. unfold region_multiply. rewrite Nat2N.id, Nat.ltb_irrefl, L2, firstn_all. reflexivity. }
  destruct (C02_repair_roundtrip m r) as (calls & q & n & W & Rd & D1 & D2 & D3 & D4 & _).
  { reflexivity. }
  { split; [repeat constructor | repeat constructor]. }
  { intros before a b after E. destruct before as [|? [|]]; discriminate. }
  { unfold r. cbn [er_ids]. vm_compute. discriminate. }
  { apply multiply_size_below. }
  { unfold r. cbn [er_sym]. intros E. apply (f_equal (@length N)) in E. rewrite rmul_length in E. cbn in E. lia. }
  { unfold r. cbn [er_sym]. rewrite rmul_length. exact L1. }
  assert (Eg : exists e1 e2, estep m (new_encoder W32) (EData d) = (e1, Ok [concat (write_source {| es_id := 0; es_data := d |})])
    /\ estep m e1 ERepair = (e2, Ok [concat calls])).
  { exists {| Encoder.e_field := W32; e_systematic := true; e_rate := 5; e_window_size := 18446744073709551615; e_adaptive := false;
       e_source_id := 1; e_repair_id := 0; e_sources := [{| es_id := 0; es_data := d |}]; e_nb_sent_repairs := 0; e_nb_acks := 0;
       e_nb_sent_sources := 1; e_nb_sent_packets := 1 |}. eexists. split.
    - cbn [estep]. unfold enc_data. destruct (Nat.ltb_spec 0 (length d)) as [_|]; [|lia].
      cbn [new_encoder Encoder.e_field]. rewrite L2, !assert_true. cbn [bind]. reflexivity.
    - cbn [estep]. unfold generate_repair.
      cbn [Encoder.e_field e_repair_id e_sources length Nat.ltb Nat.leb].
      rewrite assert_true. cbn [bind]. rewrite Ee. cbn [bind]. rewrite W. reflexivity. }
  destruct Eg as (e1 & e2 & E1 & E2).
  set (p := concat calls).
  assert (E : exists lists, wrun m clk (start clk W32 o) [Data d; Repair] = Ok {| w_enc := e2; w_dec := new_dec clk W32 o; w_sent := [d];
    w_out := [concat (write_source {| es_id := 0; es_data := d |}); p];
    w_arrived := []; w_got := []; w_acks := []; w_lists := lists |}).
  { eexists. cbn [wrun wstep]. unfold sender. cbn [start w_enc]. rewrite E1. cbn [survive bind w_enc]. rewrite E2. cbn [survive bind].
    reflexivity. }
  destruct E as (lists & E). match type of E with _ = Ok ?w => set (w2 := w) in E end.
  pose proof (write_repair_head _ _ _ W) as (tl & Ht). fold p in Ht.
  destruct (read_repair_fits m p q n Rd) as [Eb Fs].
  assert (Ls : N.to_nat (dr_size q) = length d).
  { apply (f_equal (@length N)) in D4. unfold dr_sym in D4. rewrite firstn_length in D4. unfold r in D4. cbn [er_sym] in D4.
    rewrite rmul_length in D4. lia. }
  assert (Lp : (7 + length d <= length p)%nat) by (rewrite Eb, skipn_length in Fs; lia).
  pose proof (C75_lone_repair m clk o w2 1 0 0 p) as T. cbv zeta in T.
  change (datum w2 (N.to_nat 0)) with d in T. change (coefficient W32 0 0) with 2 in T. rewrite twice in T by exact L1.
  set (size := N.of_nat (length d) mod 32768) in *.
  assert (B : size < 32768) by (apply N.mod_lt; discriminate).
  assert (Em : (2 * N.of_nat (length d)) mod 65536 = 2 * size).
  { change 65536 with (2 * 32768). apply N.mul_mod_distr_l; discriminate. }
  rewrite Em in T. clear Em. rewrite (half size) in T by lia. rewrite (N.mod_small size 65536) in T by lia.
  assert (M : size mod 4 = 0).
  { unfold aligned in L2. change (wbytes W32) with 4%nat in L2. apply Nat.eqb_eq in L2. unfold size.
    assert (L4 : N.of_nat (length d) mod 4 = 0) by (change 4 with (N.of_nat 4); rewrite <- Nat2N.inj_mod, L2; reflexivity).
    clear - L4. apply N.mod_divide in L4; [|discriminate]. destruct L4 as [z ->]. change 32768 with (8192 * 4).
    rewrite N.mul_mod_distr_r by discriminate. apply N.mod_mul. discriminate. }
  assert (Sd : size <= N.of_nat (length d)) by (apply N.mod_le; discriminate).
  specialize (T (ex_intro _ _ E)).
  assert (H1 : legal_data W32 w2) by (constructor; [|constructor]; repeat split; assumption).
  assert (H2 : N.of_nat (length (w_sent w2)) <= 65535) by discriminate.
  assert (H3 : count 1 (w_out w2) < 2 ^ 32) by (cbn [w2 w_out]; rewrite Ht; reflexivity).
  assert (H4 : repair_packet_at m w2 1 0 [0]).
  { exists p, q, n. split; [reflexivity|]. split; [rewrite Ht; reflexivity|]. split; [exact Rd|]. split; [exact D1 | exact D2]. }
  specialize (T H1 H2 H3 eq_refl H4 eq_refl).
  destruct (wstep m clk w2 (Arrive 1)) as [w3|y|y] eqn:E3; [|contradiction | destruct y; try contradiction; lia].
  destruct T as (_ & _ & got & G1 & G2 & G3). exists w3. split; [|split].
  - change [Data d; Repair; Arrive 1] with ([Data d; Repair] ++ [Arrive 1]). rewrite (SystemRun.wrun_app _ _ _ _ _ _ E).
    cbn [wrun]. rewrite E3. reflexivity.
  - cbn [wstep] in E3. apply receiver_extends in E3. apply E3.
  - rewrite G1. f_equal. rewrite <- (Nat2N.id (length got)), G2 in G3. rewrite <- G3. symmetry. apply firstn_all2. lia.
Qed.
Print Assumptions C75_first_datum.

(** ** Small data, late in a run *)

(** The sender keeps one datum. [x] data of 4 bytes, then one of 512 bytes, then a repair of it:
    the only packet that arrives. *)
Definition late (x : nat) : list action :=
  [SetWindow 1; SetRate 1000] ++ repeat (Data [1; 2; 3; 4]) x ++ [Data (repeat 7 (N.to_nat 512)); Repair; Arrive (x + 1)].

Definition clock0 : clock := fun _ => 0%Z.

(** The receiver hands out an empty datum, which the sender refuses. *)
Theorem C75_delivered_refuted :
  exists w, wrun Release clock0 (start clock0 W32 true) (late (N.to_nat 126)) = Ok w
  /\ repairs_in_order w /\ legal_data W32 w /\ exists g, In g (w_got w) /\ ~ In g (w_sent w).
Proof.
  assert (R : exists w, wrun Release clock0 (start clock0 W32 true) (late (N.to_nat 126)) = Ok w
    /\ (w_sent w = repeat [1; 2; 3; 4] (N.to_nat 126) ++ [repeat 7 (N.to_nat 512)]) /\ w_arrived w = [N.to_nat 127] /\ w_got w = [[]]).
  { eexists. split; [vm_compute; reflexivity|]. vm_compute. auto. }
  destruct R as (w & R & Es & Ea & Eg). exists w. split; [exact R|]. split; [|split].
  - unfold repairs_in_order. rewrite Ea. cbn [filter]. destruct (repair_at w _); repeat constructor.
  - unfold legal_data. rewrite Es. apply Forall_app. split.
    + apply Forall_forall. intros d Hd. apply repeat_spec in Hd. subst d. repeat split; try (cbn; lia). repeat constructor.
    + constructor; [|constructor]. rewrite repeat_length. split; [lia|]. split; [reflexivity|]. split; [reflexivity|].
      apply Forall_forall. intros b Hb. apply repeat_spec in Hb. subst b. reflexivity.
  - exists []. rewrite Eg, Es. split; [left; reflexivity|]. intros H. apply in_app_iff in H. destruct H as [H|[H|[]]].
    + apply repeat_spec in H. discriminate.
    + apply (f_equal (@length N)) in H. rewrite repeat_length in H. discriminate.
Qed.
Print Assumptions C75_delivered_refuted.

(** The receiver reads outside of the packet; or it asks the library of finite fields for a
    number of bytes that is not a multiple of 4. All calls were legal. *)
Lemma late_legal x : Forall (legal_action W32) (late x).
Proof.
  unfold late. rewrite !Forall_app. split; [repeat constructor|]. split.
  - apply Forall_forall. intros a Ha. apply repeat_spec in Ha. subst a. cbn [legal_action]. repeat split; try (cbn; lia). repeat constructor.
  - constructor; [|repeat constructor]. cbn [legal_action]. rewrite repeat_length. split; [lia|]. split; [reflexivity|]. split; [reflexivity|].
    apply Forall_forall. intros b Hb. apply repeat_spec in Hb. subst b. reflexivity.
Qed.

Theorem C75_no_fault_refuted :
  exists l l', Forall (legal_action W32) l /\ Forall (legal_action W32) l'
  /\ wrun Release clock0 (start clock0 W32 true) l = Fault OutOfBounds
  /\ wrun Release clock0 (start clock0 W32 true) l' = Fault GfMisaligned.
Proof.
  exists (late (N.to_nat 127)), (late (N.to_nat 130)). split; [apply late_legal|]. split; [apply late_legal|].
  split; vm_compute; reflexivity.
Qed.
Print Assumptions C75_no_fault_refuted.

(** ** The hypotheses are met *)

Definition small_tale : list action := [Data [1; 2; 3; 4]; Data [5; 6; 7; 8; 9; 10; 11; 12]; Repair; Arrive 1; Arrive 2].

(** The first of two data is lost and recovered. *)
Example C75_applies : exists w, wrun Debug clock0 (start clock0 W32 true) small_tale = Ok w
  /\ reach Debug clock0 W32 true w /\ repairs_in_order w /\ legal_data W32 w
  /\ N.of_nat (length (w_sent w)) <= 65535 /\ Forall (fun x => N.of_nat (length x) < 2 ^ 12) (w_sent w)
  /\ count 1 (w_out w) * (count 1 (w_out w) + N.of_nat (length (w_sent w))) < 2 ^ 5
  /\ w_got w = w_sent w /\ length (w_arrived w) = 2%nat /\ length (w_out w) = 3%nat.
Proof.
  eexists. split; [vm_compute; reflexivity|]. split; [exists small_tale; vm_compute; reflexivity|].
  split; [vm_compute; repeat constructor|]. split; [repeat constructor|]. split; [discriminate|]. split; [repeat constructor|].
  repeat split.
Qed.

(** One datum of 4 bytes, repaired; nothing has arrived. *)
Example C75_lone_applies : exists w p, wrun Debug clock0 (start clock0 W32 true) [Data [1; 2; 3; 4]; Repair] = Ok w
  /\ legal_data W32 w /\ N.of_nat (length (w_sent w)) <= 65535 /\ count 1 (w_out w) < 2 ^ 32 /\ w_arrived w = []
  /\ repair_packet_at Debug w 1 0 [0] /\ nth_error (w_out w) 1 = Some p
  /\ exists w', wstep Debug clock0 w (Arrive 1) = Ok w' /\ w_got w' = [[1; 2; 3; 4]].
Proof.
  eexists. eexists. split; [vm_compute; reflexivity|]. split; [repeat constructor|]. split; [discriminate|].
  split; [reflexivity|]. split; [reflexivity|]. split.
  { eexists. eexists. eexists. split; [reflexivity|]. split; [reflexivity|]. split; [vm_compute; reflexivity|]. split; reflexivity. }
  split; [reflexivity|]. eexists. split; [vm_compute; reflexivity|]. reflexivity.
Qed.
