(** * A receiver that is started again while its sender goes on: C99 *)
From Coq Require Import ZArith NArith Arith List Bool Lia Sorted.
From Verif Require Import Outcome GF Containers ContainersFacts Packetizer Encoder EncoderRun DetailDecoder Decoder DecoderFacts DecoderOuter
  DecoderThrow DecoderProgress DecoderPrompt System SystemRun SystemFifo PropsDecoder PropsSystem PropsFifo Multi PropsMulti.
Import ListNotations.
Open Scope N_scope.
Open Scope outcome_scope.

(** ** Specification *)

(** The receiver 0 is called and gets packets only before the receiver 1, which takes its place; what arrives at one or the
    other has not overtaken. Acks of the first may arrive at any time. *)
Definition restarted (l : list (nat * action)) : Prop :=
  (exists before after, l = before ++ after
     /\ (forall a, In (1%nat, a) before -> of_sender a = true)
     /\ (forall a, In (0%nat, a) after -> of_sender a = true \/ exists k, a = AckArrive k))
  /\ StronglySorted le (arrivals_at 0 l ++ arrivals_at 1 l).

Definition plain (p : packet) : Prop := get_packet_type p <> Ok TRepair.

(** ** An ordered receiver that joins late *)

Record waiting (c : ddec) : Prop := {
  wt_order : d_in_order c = true;
  wt_first : d_first c = 0;
  wt_missing : d_missing c = [];
  wt_repairs : d_repairs c = [];
  wt_last : d_last c = None;
  wt_log : d_log c = []
}.

Lemma waiting_source m c id data c' : waiting c -> id <> 0 -> recv_source m c id data = Ok c' ->
  waiting c' /\ forall x, In x (mkeys (d_sources c')) <-> x = id \/ In x (mkeys (d_sources c)).
Proof.
  intros Wt Hid H. pose proof Wt as [A1 A2 A3 A4 A5 A6]. unfold recv_source, outdated, not_outdated in H. rewrite A5 in H. cbn [negb] in H.
  destruct (mmem id (d_sources c)) eqn:Em.
  { assert (c' = c) by congruence. subst c'. split; [exact Wt|]. intros x. apply mmem_spec in Em.
    split; [auto | intros [->|X]; assumption]. }
  unfold enough in H. cbn [add_source] in H.
  assert (E1 : announce m c id data = Ok c).
  { unfold announce. rewrite A1, A2. cbn [negb]. rewrite (proj2 (N.eqb_neq id 0) Hid). reflexivity. }
  rewrite E1 in H. cbn [bind] in H. unfold no_longer_missing in H. rewrite A3 in H. cbn [mfind bind] in H.
  rewrite ?A3 in H. cbn [mkeys map scan bind] in H. unfold store in H. rewrite Em in H.
  replace (assert_ m (negb false)) with (Ok tt) in H by (destruct m; reflexivity). cbn [bind] in H. cbv zeta in H.
  match type of H with context [attempt_full_decoding m ?e] => set (c1 := e) in H end.
  assert (E2 : d_repairs c1 = []) by (unfold c1; destruct (_ && _); exact A4).
  rewrite attempt_less in H by (left; exact E2). assert (c' = c1) by congruence. subst c'. clear H.
  split.
  - constructor; unfold c1; destruct (_ && _); assumption.
  - intros x. assert (Es : d_sources c1 = mput id data (d_sources c)) by (unfold c1; destruct (_ && _); reflexivity).
    rewrite Es. apply mput_keys.
Qed.

Lemma maybe_core clk known d : dc_core (fst (maybe_ack_of clk known d)) = dc_core d /\ to_user (snd (maybe_ack_of clk known d)) = [].
Proof.
  unfold maybe_ack_of. destruct (dc_ack_nb d <=? a_nb (dc_ack d)); [split; reflexivity|].
  destruct (dc_period d =? 0)%Z; [split; reflexivity|].
  destruct (dc_period d * 1000000 <=? clk (dc_reads d) - dc_last_date d)%Z; split; reflexivity.
Qed.

Lemma waiting_step m clk d op d' r : waiting (dc_core d) -> dstep m clk d op = (d', r) -> (forall x, r <> Fault x) ->
  (forall p, op = DPacket p -> plain p) ->
  (forall p s q, op = DPacket p -> get_packet_type p = Ok TSource -> read_source m p = Ok (s, q) -> ds_id s <> 0) ->
  waiting (dc_core d') /\ (forall out, r = Ok out -> to_user out = [])
  /\ incl (mkeys (d_sources (dc_core d))) (mkeys (d_sources (dc_core d')))
  /\ (forall p s q, op = DPacket p -> get_packet_type p = Ok TSource -> read_source m p = Ok (s, q) ->
      In (ds_id s) (mkeys (d_sources (dc_core d')))).
Proof.
  intros Wt H Hf Hp Hs. destruct op as [p| | |t|nb]; cbn [dstep] in H.
  - specialize (Hp p eq_refl). unfold plain in Hp. unfold dec_packet in H.
    destruct (bind (assert_ m (Nat.ltb 0 (length p))) (fun _ => get_packet_type p)) as [t|x|x] eqn:Et.
    + apply bind_ok in Et. destruct Et as (u & _ & Et). destruct t; [ |contradiction| ].
      * injection H as <- <-. split; [exact Wt|]. split; [discriminate|]. split; [apply incl_refl|]. intros p' s' q' Ep Et'. congruence.
      * destruct (read_source m p) as [[s q]|x|x] eqn:Er; cbn [bind finish] in H.
        -- unfold call_core in H. change (dc_core (count_packet d 0 1)) with (dc_core d) in H.
           destruct (recv_source m (dc_core d) (ds_id s) (ds_data s)) as [c|x|x] eqn:Ec; cbn [bind finish] in H.
           ++ destruct (waiting_source m _ _ _ _ Wt (Hs p s q eq_refl Et Er) Ec) as [W1 W2].
              rewrite (wt_log _ Wt), (wt_log _ W1) in H. cbn [length skipn handle_sources bind finish] in H.
              injection H as <- <-. cbn [with_core dc_core]. split; [exact W1|]. split; [intros out E; injection E as <-; reflexivity|].
              split; [intros x Hx; apply W2; auto|]. intros p' s' q' Ep _ Er'. injection Ep as <-. apply W2. left. congruence.
           ++ injection H as <- <-. split; [exact Wt|]. split; [discriminate|]. split; [apply incl_refl|].
              exfalso. clear - Ec Wt. exact (recv_source_quiet m _ _ _ x Ec).
           ++ injection H as <- <-. destruct (Hf x eq_refl).
        -- injection H as <- <-. split; [exact Wt|]. split; [discriminate|]. split; [apply incl_refl|]. intros p' s' q' Ep _ Er'. congruence.
        -- injection H as <- <-. destruct (Hf x eq_refl).
    + injection H as <- <-. split; [exact Wt|]. split; [discriminate|]. split; [apply incl_refl|]. intros p' s' q' Ep Et' _. injection Ep as <-.
      exfalso. rewrite Et' in Et. destruct (assert_ m (Nat.ltb 0 (length p))) eqn:Ea; cbn in Et; try discriminate.
      unfold assert_ in Ea. destruct m, (Nat.ltb 0 (length p)); discriminate.
    + injection H as <- <-. destruct (Hf x eq_refl).
  - cbn in H. injection H as <- <-. split; [exact Wt|]. split; [intros out E; injection E as <-; reflexivity|].
    split; [apply incl_refl | discriminate].
  - unfold maybe_ack in H. destruct (maybe_core clk (mkeys (d_sources (dc_core d))) d) as [M1 M2].
    destruct (maybe_ack_of clk _ d) as [d1 o1]. cbn [fst snd] in *. injection H as <- <-. rewrite M1. split; [exact Wt|].
    split; [intros out E; injection E as <-; exact M2|]. split; [apply incl_refl | discriminate].
  - injection H as <- <-. split; [exact Wt|]. split; [intros out E; injection E as <-; reflexivity|].
    split; [apply incl_refl | discriminate].
  - unfold set_ack_nb_packets in H. destruct (assert_ m (0 <? nb)); cbn [bind finish] in H; injection H as <- <-;
      (split; [exact Wt|]; split; [intros out E; try discriminate; injection E as <-; reflexivity|]; split; [apply incl_refl | discriminate]).
Qed.

(** Ordered delivery starts at the datum 0: a receiver that has missed it delivers nothing until a repair arrives, however many
    data it gets. It holds all of them, so that its acks name them. *)
Theorem C99_waits :
  forall m clk f ops d out, drun m clk (new_dec clk f true) ops = Ok (d, out) ->
  (forall p, In (DPacket p) ops -> plain p) ->
  (forall p s q, In (DPacket p) ops -> get_packet_type p = Ok TSource -> read_source m p = Ok (s, q) -> ds_id s <> 0) ->
  to_user out = []
  /\ forall p s q, In (DPacket p) ops -> get_packet_type p = Ok TSource -> read_source m p = Ok (s, q) ->
     In (ds_id s) (mkeys (d_sources (dc_core d))).
Proof.
  intros m clk f ops d out H Hp Hs.
  assert (G : forall ops d0 d out, waiting (dc_core d0) -> drun m clk d0 ops = Ok (d, out) ->
    (forall p, In (DPacket p) ops -> plain p) ->
    (forall p s q, In (DPacket p) ops -> get_packet_type p = Ok TSource -> read_source m p = Ok (s, q) -> ds_id s <> 0) ->
    to_user out = [] /\ incl (mkeys (d_sources (dc_core d0))) (mkeys (d_sources (dc_core d)))
    /\ forall p s q, In (DPacket p) ops -> get_packet_type p = Ok TSource -> read_source m p = Ok (s, q) ->
       In (ds_id s) (mkeys (d_sources (dc_core d)))).
  { clear. intros ops. induction ops as [|op ops IH]; intros d0 d out Wt H Hp Hs.
    - cbn [drun] in H. injection H as <- <-. split; [reflexivity|]. split; [apply incl_refl | intros p s q []].
    - cbn [drun] in H. destruct (dstep m clk d0 op) as [d1 r] eqn:E.
      destruct (waiting_step m clk d0 op d1 r Wt E) as (W1 & W2 & W3 & W4).
      + intros x ->. discriminate.
      + intros p ->. apply Hp. left. reflexivity.
      + intros p s q ->. apply Hs. left. reflexivity.
      + assert (K : exists out', drun m clk d1 ops = Ok (d, out') /\ to_user out = to_user out').
        { destruct r as [o1|x|x]; [|exists out; auto|discriminate]. apply bind_ok in H. destruct H as ([d2 o2] & E2 & H).
          injection H as <- <-. exists o2. split; [exact E2|]. rewrite to_user_app, (W2 o1 eq_refl). reflexivity. }
        destruct K as (out' & K1 & K2).
        destruct (IH d1 d out' W1 K1) as (I1 & I2 & I3).
        { intros p Hi. apply Hp. right. exact Hi. }
        { intros p s q Hi. apply Hs. right. exact Hi. }
        split; [congruence|]. split; [intros x Hx; apply I2, W3, Hx|].
        intros p s q [->|Hi] Ht Hr; [apply I2; eapply W4; eauto | eapply I3; eauto]. }
  destruct (G ops (new_dec clk f true) d out) as (G1 & _ & G3); auto. constructor; reflexivity.
Qed.
Print Assumptions C99_waits.

(** ** Acks of the old receiver *)

(** If no ack of the old receiver arrives at the sender, the new one is served: it makes no fault and hands out only
    data that were sent, each at most once and, if asked to, in order. *)
Theorem C99_without_old_acks :
  forall m clks f o l, restarted l ->
  sizes_fit_during m (clks 1%nat) f o (seen 1 l) ->
  Forall (fun ja => legal_action f (snd ja)) l -> N.of_nat (length (sent_data l)) <= 65535 ->
  (forall k, ~ In (0%nat, AckArrive k) l) -> (forall j a, In (j, a) l -> of_sender a = false -> (j < 2)%nat) ->
  repairs_possible m clks f [o; o] l ->
  exists w s, mrun m clks (mstart clks f [o; o]) l = Ok w /\ nth_error (u_stations w) 1 = Some s
  /\ served o (sent_data l) s.
Proof.
  intros m clks f o l [_ So] Hz Hl Hn Ha Hj Hr.
  apply (C84_only_own_acks m clks f [o; o] l 1); auto.
  - clear -So. induction (arrivals_at 0 l) as [|x xs IH]; [exact So|]. apply IH. inversion So. assumption.
  - intros j k H. pose proof (Hj j _ H eq_refl) as Y. destruct j as [|[|j]]; [destruct (Ha k H) | reflexivity | lia].
Qed.
Print Assumptions C99_without_old_acks.

(** The old receiver got the datum 1, not the datum 0, and its ack arrives. The new one gets a repair of both that was on
    its way, and then a repair of the datum 0 alone. *)
Definition early_ack : list (nat * action) :=
  [sender_does (SetRate 100); sender_does (Data (sample 10)); sender_does (Data (sample 20)); sender_does Repair;
   first_does (Arrive 1); first_does Ack; first_does (AckArrive 0);
   second_does (Arrive 2); sender_does Repair; second_does (Arrive 3); sender_does (Data (sample 30)); second_does (Arrive 4)].

Definition the_second (w : multi) : station := nth 1 (u_stations w) (new_station still W8 false).

Definition foreign_b (sent got : list (list N)) : bool :=
  existsb (fun d => negb (existsb (fun e => if list_eq_dec N.eq_dec d e then true else false) sent)) got.

Lemma foreign_spec sent got : foreign_b sent got = true -> exists d, In d got /\ ~ In d sent.
Proof.
  intros H. apply existsb_exists in H. destruct H as (d & Hd & H). exists d. split; [exact Hd|]. intros Hin. apply negb_true_iff in H.
  assert (Y : existsb (fun e => if list_eq_dec N.eq_dec d e then true else false) sent = true); [|congruence].
  apply existsb_exists. exists d. split; [exact Hin|]. destruct (list_eq_dec N.eq_dec d d); [reflexivity | contradiction].
Qed.

(** It is not enough that all acks of the old receiver have arrived before the new one starts: an assertion fails, and without
    assertions data are handed out that nobody sent. *)
Theorem C99_old_ack_refuted :
  exists before after, let l := before ++ after in restarted l
  /\ Forall (fun ja => legal_action W8 (snd ja)) l /\ (forall j k, ~ In (j, AckArrive k) after)
  /\ (forall a, In (1%nat, a) before -> of_sender a = true) /\ (forall a, In (0%nat, a) after -> of_sender a = true)
  /\ forall o, r_failed (the_second (multi_end Debug o l)) = Some AssertFailure
     /\ r_failed (the_second (multi_end Release o l)) = None
     /\ exists d, In d (r_got (the_second (multi_end Release o l))) /\ ~ In d (sent_data l).
Proof.
  exists (firstn 7 early_ack), (skipn 7 early_ack). cbv zeta. rewrite firstn_skipn.
  assert (B1 : forall a, In (1%nat, a) (firstn 7 early_ack) -> of_sender a = true).
  { intros a H. cbn [early_ack firstn In] in H. repeat (destruct H as [H|H]; [congruence|]). destruct H. }
  assert (B2 : forall a, In (0%nat, a) (skipn 7 early_ack) -> of_sender a = true).
  { intros a H. cbn [early_ack skipn In] in H. repeat (destruct H as [H|H]; [congruence|]). destruct H. }
  split.
  { split; [exists (firstn 7 early_ack), (skipn 7 early_ack); rewrite firstn_skipn; auto|]. apply sortedb_spec. reflexivity. }
  split.
  { assert (E : Forall (legal_action W8) (map snd early_ack)) by (apply legalb_spec; vm_compute; reflexivity).
    apply Forall_forall. intros ja H. rewrite Forall_forall in E. apply E, in_map, H. }
  split.
  { intros j k H. cbn [early_ack skipn In] in H. repeat (destruct H as [H|H]; [congruence|]). destruct H. }
  split; [exact B1|]. split; [exact B2|]. intros o.
  split; [destruct o; vm_compute; reflexivity|]. split; [destruct o; vm_compute; reflexivity|].
  apply foreign_spec. destruct o; vm_compute; reflexivity.
Qed.
Print Assumptions C99_old_ack_refuted.

(** ** Cases *)

(** The ack of the old receiver is lost; the new one recovers the data 0 and 1 and goes on. *)
Definition ack_lost : list (nat * action) :=
  [sender_does (SetRate 100); sender_does (Data (sample 10)); sender_does (Data (sample 20)); sender_does Repair;
   first_does (Arrive 1); first_does Ack;
   second_does (Arrive 2); sender_does Repair; second_does (Arrive 3); sender_does (Data (sample 30)); second_does (Arrive 4);
   second_does Ack; second_does (AckArrive 0)].

Example C99_case :
  restarted ack_lost /\ Forall (fun ja => legal_action W8 (snd ja)) ack_lost
  /\ (forall k, ~ In (0%nat, AckArrive k) ack_lost)
  /\ (forall j a, In (j, a) ack_lost -> of_sender a = false -> (j < 2)%nat)
  /\ forall o, r_got (the_second (multi_end Debug o ack_lost)) = map sample [10; 20; 30]
     /\ e_sources (u_enc (multi_end Debug o ack_lost)) = [].
Proof.
  split.
  { split; [|apply sortedb_spec; reflexivity]. exists (firstn 6 ack_lost), (skipn 6 ack_lost). rewrite firstn_skipn. split; [reflexivity|]. split.
    - intros a H. cbn [ack_lost firstn In] in H. repeat (destruct H as [H|H]; [congruence|]). destruct H.
    - intros a H. cbn [ack_lost skipn In] in H. repeat (destruct H as [H|H]; [congruence|]). destruct H. }
  split.
  { assert (E : Forall (legal_action W8) (map snd ack_lost)) by (apply legalb_spec; vm_compute; reflexivity).
    apply Forall_forall. intros ja H. rewrite Forall_forall in E. apply E, in_map, H. }
  split.
  { intros k H. cbn [ack_lost In] in H. repeat (destruct H as [H|H]; [congruence|]). destruct H. }
  split.
  { intros j a H Hs. cbn [ack_lost In] in H.
    repeat (destruct H as [H|H]; [injection H as <- <-; first [discriminate Hs | lia]|]). destruct H. }
  intros o. destruct o; vm_compute; auto.
Qed.

(** Data 1 to 3 arrive at an ordered receiver and wait; a repair of 2 and 3 (the window has two data) releases them all. *)
Example C99_waits_case :
  let ps := match erun Debug (new_encoder W8) [ESetRate 100; ESetWindow 2; EData [0]; EData [1]; EData [2]; EData [3]; ERepair] with
            | Ok (_, ps) => ps | _ => [] end in
  let got l := match drun Debug still (new_dec still W8 true) (map DPacket l) with Ok (_, out) => to_user out | _ => [[]] end in
  length ps = 5%nat /\ got (firstn 3 (tl ps)) = [] /\ got (tl ps) = [[1]; [2]; [3]]
  /\ forallb (fun p => match get_packet_type p with Ok TSource => true | _ => false end) (firstn 3 (tl ps)) = true.
Proof. cbv zeta. repeat split; vm_compute; reflexivity. Qed.
