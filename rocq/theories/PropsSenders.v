(** * Several senders of one receiver: C85 *)
From Coq Require Import ZArith NArith Arith List Bool Lia Sorted.
From Verif Require Import Outcome GF GFRegion Containers ContainersFacts Packetizer PacketizerFacts PropsPacketizer
  Encoder EncoderRun EncoderFacts EncoderHistory EncoderSafe DetailDecoder Decoder DecoderFacts DecoderOuter Genuine
  System SystemFifo PropsSystem PropsFifo PropsModes PropsHostile PropsLong Multi PropsMulti Senders.
Import ListNotations.
Open Scope N_scope.
Open Scope outcome_scope.

(** ** Specification *)

(** The data given to the sender [i]. *)
Definition given_to (i : nat) (l : list (nat * action)) : list (list N) :=
  flat_map (fun ja => match snd ja with Data d => if Nat.eqb (fst ja) i then [d] else [] | _ => [] end) l.

(** No sender is asked for a repair while nothing is outstanding (C24). *)
Definition repairs_ready (m : mode) (clk : clock) (f : field) (o : bool) (n : nat) (l : list (nat * action)) : Prop :=
  forall before after i w e, l = before ++ (i, Repair) :: after -> crun m clk (cstart clk f o n) before = Ok w ->
  nth_error (c_encs w) i = Some e -> e_sources e <> [].

(** Every packet that arrives is a source (the first byte is not 1). *)
Definition only_sources_arrive (m : mode) (clk : clock) (f : field) (o : bool) (n : nat) (l : list (nat * action)) : Prop :=
  forall before after i k w p, l = before ++ (i, Arrive k) :: after -> crun m clk (cstart clk f o n) before = Ok w ->
  nth_error (c_out w) k = Some p -> nth 0 p 0 <> 1.

(** ** Proofs *)

Lemma given_to_app i a b : given_to i (a ++ b) = given_to i a ++ given_to i b.
Proof. apply flat_map_app. Qed.

Lemma crun_app m clk a : forall w b, crun m clk w (a ++ b) = (w' <- crun m clk w a ;; crun m clk w' b).
Proof.
  induction a as [|x a IH]; intros w b; [reflexivity|]. cbn [app crun]. destruct (cstep m clk w x) as [w'|y|y]; cbn [bind]; [apply IH | reflexivity | reflexivity].
Qed.

Lemma replace_length {A} (l : list A) i a : length (replace l i a) = length l.
Proof. revert i. induction l as [|x l IH]; intros [|i]; cbn [replace length]; try reflexivity. rewrite IH. reflexivity. Qed.

(** What one call of a sender writes. *)
Lemma estep_writes m e op e' r : estep m e op = (e', r) -> ~ is_fault r ->
  e_source_id e' = match op with EData _ => u32 (e_source_id e + 1) | _ => e_source_id e end
  /\ forall p, In p (emitted r) -> type_of p = 1
     \/ exists d, op = EData d /\ p = concat (write_source {| es_id := e_source_id e; es_data := d |}).
Proof.
  intros E Hf. destruct op as [d|p| |b|k|n|b].
  - pose proof (estep_data _ _ _ _ _ E Hf) as (out & -> & A). destruct A. split; [exact ad_source_id|].
    cbn [emitted]. destruct ad_out as (first & rest & -> & O1 & O2 & O3 & O4). intros p [<-|H].
    + destruct (e_systematic e); [right; exists d; auto|]. left. eapply repair_of_type. apply O2. reflexivity.
    + left. destruct (N.eq_dec (u32 (e_source_id e + 1) mod e_rate e) 0) as [Z|Z].
      * destruct (O3 Z) as (q & -> & R). destruct H as [<-|[]]. eapply repair_of_type, R.
      * rewrite (O4 Z) in H. destruct H.
  - pose proof (estep_packet _ _ _ _ _ E Hf) as (q & _ & _ & A & ->). destruct A. split; [assumption | intros p0 []].
  - pose proof (estep_repair _ _ _ _ E Hf) as (out & -> & G).
    apply generate_repair_ok in G as (r & w & Er & Ew & -> & F1 & F2 & F3 & F4 & F5 & F6 & F7 & _).
    split; [exact F6|]. cbn [emitted]. intros p [<-|[]]. left. eapply repair_of_type. exists r, w. eauto.
  - apply estep_setters in E as (-> & _ & X & _); [|assumption|exact I]. split; [exact X | intros p []].
  - apply estep_setters in E as (-> & _ & X & _); [|assumption|exact I]. split; [exact X | intros p []].
  - apply estep_setters in E as (-> & _ & X & _); [|assumption|exact I]. split; [exact X | intros p []].
  - apply estep_setters in E as (-> & _ & X & _); [|assumption|exact I]. split; [exact X | intros p []].
Qed.

Section crowd.
Context (m : mode) (clk : clock) (f : field) (o : bool) (n : nat).

(** A repair, or the source of a datum that one of the senders was given. *)
Definition sent_by (l : list (nat * action)) (p : packet) : Prop :=
  type_of p = 1 \/ exists i k d, (i < n)%nat /\ nth_error (given_to i l) k = Some d /\ N.of_nat k < 2 ^ 32 /\ bytes d /\ N.of_nat (length d) < 65536
    /\ p = concat (write_source {| es_id := N.of_nat k; es_data := d |}).

Record cok (l : list (nat * action)) (w : crowd) : Prop := {
  ck_n : length (c_encs w) = n;
  ck_n' : length (c_sent w) = n;
  ck_sent : forall i, (i < n)%nat -> nth i (c_sent w) [] = given_to i l;
  ck_enc : forall i e, nth_error (c_encs w) i = Some e -> safe f e /\ e_source_id e = u32 (N.of_nat (length (given_to i l)));
  ck_out : Forall (sent_by l) (c_out w);
  ck_seen : forall p, In p (c_seen w) -> In p (c_out w) /\ type_of p <> 1;
  ck_plain : PropsHostile.plain o (dc_core (c_dec w)) (firsts (c_seen w));
  ck_got : c_got w = PropsHostile.delivered (dc_core (c_dec w));
  ck_dec : exists tr, dhistory f o tr (c_dec w);
  ck_acks : Forall (fun p => p <> [] /\ bytes p) (c_acks w)
}.

Lemma sent_by_mono l a p : sent_by l p -> sent_by (l ++ [a]) p.
Proof.
  intros [H|(i & k & d & A & B & C)]; [left; exact H|]. right. exists i, k, d. split; [exact A|]. split; [|exact C].
  rewrite given_to_app, nth_error_app1; [exact B|]. apply nth_error_Some. congruence.
Qed.

Lemma cok_start : cok [] (cstart clk f o n).
Proof.
  constructor; cbn [cstart c_encs c_sent c_out c_dec c_seen c_got c_acks].
  - apply repeat_length.
  - apply repeat_length.
  - intros i Hi. apply nth_repeat.
  - intros i e H. apply nth_error_In, repeat_spec in H. subst e. split; [apply new_safe | reflexivity].
  - constructor.
  - intros p [].
  - apply plain_new.
  - reflexivity.
  - exists []. apply dtrace_history with (m := m) (clk := clk). constructor.
  - constructor.
Qed.

Lemma csender_ok l w i op data a : cok l w -> legal_op f op ->
  (forall e, nth_error (c_encs w) i = Some e -> op = ERepair -> e_sources e <> []) ->
  (forall j, given_to j [(i, a)] = if Nat.eqb i j then data else []) ->
  data = match op with EData d => [d] | _ => [] end -> (forall d, op = EData d -> bytes d) ->
  N.of_nat (length (given_to i (l ++ [(i, a)]))) < 2 ^ 32 ->
  exists w', csender m w i op data = Ok w' /\ cok (l ++ [(i, a)]) w'.
Proof.
  intros [A1 A2 A3 A4 A5 A6 A7 A8 A9 A10] Hop Hr Hg Hd Hby Hn. unfold csender.
  assert (G : forall j, given_to j (l ++ [(i, a)]) = given_to j l ++ if Nat.eqb i j then data else []).
  { intros j. rewrite given_to_app, Hg. reflexivity. }
  destruct (nth_error (c_encs w) i) as [e|] eqn:Ei.
  2: { exists w. split; [reflexivity|]. apply nth_error_None in Ei.
       assert (Z : forall j, (j < n)%nat -> given_to j (l ++ [(i, a)]) = given_to j l).
       { intros j Hj. rewrite G. destruct (Nat.eqb_spec i j); [lia|]. apply app_nil_r. }
       constructor; try assumption.
       - intros j Hj. rewrite Z by exact Hj. apply A3, Hj.
       - intros j e H. assert (j < n)%nat by (rewrite <- A1; apply nth_error_Some; congruence). rewrite Z by assumption. apply A4, H.
       - eapply Forall_impl; [intros p; apply sent_by_mono | exact A5]. }
  destruct (A4 i e Ei) as [Sf Id].
  destruct (estep_safe m f e op Sf Hop (Hr e eq_refl)) as (e' & r & E & Hf & Sf').
  destruct (estep_writes m e op e' r E Hf) as [W1 W2]. rewrite E.
  assert (Hs : survive r = Ok (emitted r)) by (destruct r as [x|x|x]; [reflexivity | reflexivity | destruct Hf; eexists; reflexivity]).
  rewrite Hs. cbn [bind]. eexists. split; [reflexivity|].
  assert (Hi : (i < n)%nat) by (rewrite <- A1; apply nth_error_Some; congruence).
  constructor; cbn [c_encs c_sent c_out c_dec c_seen c_got c_acks]; try assumption.
  - rewrite replace_length. exact A1.
  - rewrite replace_length. exact A2.
  - intros j Hj. rewrite G. destruct (Nat.eqb_spec i j) as [<-|Hij].
    + apply nth_error_nth. rewrite (replace_same _ _ _ (nth i (c_sent w) [])); [rewrite A3 by exact Hi; reflexivity|].
      apply nth_error_nth'. lia.
    + rewrite app_nil_r. rewrite <- (A3 j Hj). rewrite <- !nth_default_eq. unfold nth_default. rewrite replace_other by exact Hij. reflexivity.
  - intros j e1 H. destruct (Nat.eq_dec i j) as [<-|Hij].
    + rewrite (replace_same _ _ _ e Ei) in H. assert (e1 = e') by congruence. subst e1. split; [exact Sf'|]. rewrite W1, G, Nat.eqb_refl, Hd, Id.
      destruct op; cbn [length]; rewrite ?app_nil_r; try reflexivity.
      rewrite app_length. cbn [length]. rewrite Nat2N.inj_add. unfold u32. rewrite N.add_mod_idemp_l by discriminate. reflexivity.
    + rewrite replace_other in H by exact Hij. rewrite G. destruct (Nat.eqb_spec i j); [contradiction|]. rewrite app_nil_r. apply A4, H.
  - apply Forall_app. split; [eapply Forall_impl; [intros p; apply sent_by_mono | exact A5]|].
    apply Forall_forall. intros p Hp. destruct (W2 p Hp) as [T|(d & -> & ->)]; [left; exact T|]. right.
    exists i, (length (given_to i l)), d. rewrite G, Nat.eqb_refl in Hn |- *. rewrite Hd in Hn |- *. rewrite app_length in Hn. cbn [length] in Hn.
    split; [exact Hi|]. split; [rewrite nth_error_app2, Nat.sub_diag by lia; reflexivity|]. split; [lia|]. split; [apply Hby; reflexivity|].
    split; [apply Hop|]. rewrite Id. unfold u32. rewrite N.mod_small by lia. reflexivity.
  - intros p Hp. destruct (A6 p Hp) as [X Y]. split; [apply in_or_app; left; exact X | exact Y].
Qed.

Lemma sent_by_plain l p : sent_by l p -> type_of p <> 1 -> no_repair p
  /\ exists i k d, (i < n)%nat /\ nth_error (given_to i l) k = Some d /\ source_of p = Some (N.of_nat k, d).
Proof.
  intros [H|(i & k & d & A & B & C & D & E & ->)] T; [contradiction|].
  destruct (source_packet_plain (N.of_nat k) d C D E) as [X Y]. split; [exact X|]. exists i, k, d. auto.
Qed.

Lemma creceiver_ok l w op seen a : cok l w -> hostile op -> given_packets [op] = seen ->
  (forall p, In p seen -> In p (c_out w) /\ type_of p <> 1) -> (forall j, given_to j [a] = []) ->
  exists w', creceiver m clk w op seen = Ok w' /\ cok (l ++ [a]) w'.
Proof.
  intros [A1 A2 A3 A4 A5 A6 A7 A8 A9 A10] Hop Hs Hi Hg. unfold creceiver.
  assert (G : forall j, given_to j (l ++ [a]) = given_to j l) by (intros j; rewrite given_to_app, Hg; apply app_nil_r).
  destruct (run_plain m clk o [op] (c_dec w) (firsts (c_seen w)) A7) as (d & out & E & P & D); [constructor; [exact Hop | constructor]|].
  cbn [drun] in E. destruct (dstep m clk (c_dec w) op) as [d1 r] eqn:Ed. destruct A9 as [tr A9].
  assert (X : d1 = d /\ survive r = Ok out /\ Forall (fun p => p <> [] /\ bytes p) (to_network out) /\ exists tr', dhistory f o tr' d1).
  { destruct r as [x|x|x]; [| |discriminate].
    - cbn [bind] in E. rewrite app_nil_r in E. assert (d1 = d) by congruence. assert (x = out) by congruence. subst d1 x.
      destruct (dstep_history _ _ _ _ _ _ _ _ _ A9 Ed) as [H1 H2]. split; [reflexivity|]. split; [reflexivity|]. split; [|eauto].
      apply Forall_forall. intros p Hp. apply In_nth_error in Hp. destruct Hp as [k Hk]. destruct (H2 k p Hk) as (ids & -> & _).
      split; [discriminate | apply write_ack_bytes].
    - assert (d1 = d) by congruence. assert (out = []) by congruence. subst d1 out. split; [reflexivity|]. split; [reflexivity|].
      split; [constructor|]. eexists. eapply dstep_throw_history; [exact A9 | exact Ed]. }
  destruct X as (-> & Sv & Ha & Hh). rewrite Sv. cbn [bind]. eexists. split; [reflexivity|].
  constructor; cbn [c_encs c_sent c_out c_dec c_seen c_got c_acks]; try assumption.
  - intros j Hj. rewrite G. apply A3, Hj.
  - intros j e H. rewrite G. apply A4, H.
  - eapply Forall_impl; [intros p; apply sent_by_mono | exact A5].
  - intros p Hp. apply in_app_iff in Hp. destruct Hp as [Hp|Hp]; [apply A6, Hp | apply Hi, Hp].
  - unfold firsts in *. rewrite fold_left_app, <- Hs. exact P.
  - rewrite A8, D. reflexivity.
  - apply Forall_app. split; assumption.
Qed.

Lemma cok_idle l w a : cok l w -> (forall j, given_to j [a] = []) -> cok (l ++ [a]) w.
Proof.
  intros [A1 A2 A3 A4 A5 A6 A7 A8 A9 A10] Hg.
  assert (G : forall j, given_to j (l ++ [a]) = given_to j l) by (intros j; rewrite given_to_app, Hg; apply app_nil_r).
  constructor; try assumption.
  - intros j Hj. rewrite G. apply A3, Hj.
  - intros j e H. rewrite G. apply A4, H.
  - eapply Forall_impl; [intros p; apply sent_by_mono | exact A5].
Qed.

Lemma cstep_ok l w i a : cok l w -> legal_action f a -> N.of_nat (length (given_to i (l ++ [(i, a)]))) < 2 ^ 32 ->
  (a = Repair -> forall e, nth_error (c_encs w) i = Some e -> e_sources e <> []) ->
  (forall k p, a = Arrive k -> nth_error (c_out w) k = Some p -> nth 0 p 0 <> 1) ->
  exists w', cstep m clk w (i, a) = Ok w' /\ cok (l ++ [(i, a)]) w'.
Proof.
  intros C Hl Hn Hr Ha. destruct a; cbn [cstep legal_action] in *;
    try (apply creceiver_ok; [exact C | first [exact I | exact Hl] | reflexivity | intros p [] | reflexivity]);
    try (apply csender_ok; [exact C | first [exact I | exact Hl] | intros e He X; try discriminate X; exact (Hr eq_refl e He)
       | intros j; cbn; destruct (Nat.eqb i j); reflexivity | reflexivity | discriminate | exact Hn]).
  - apply csender_ok; [exact C | | discriminate | intros j; cbn; destruct (Nat.eqb i j); reflexivity | reflexivity | | exact Hn].
    + split; [apply Hl|]. split; apply Hl.
    + intros d0 X. injection X as <-. apply Hl.
  - destruct (nth_error (c_out w) k) as [p|] eqn:Ek; [|exists w; split; [reflexivity | apply cok_idle; [exact C | reflexivity]]].
    assert (T : type_of p <> 1).
    { specialize (Ha k p eq_refl Ek). unfold type_of. destruct p; [discriminate | exact Ha]. }
    assert (S0 : sent_by l p) by (pose proof (ck_out _ _ C) as X; rewrite Forall_forall in X; apply X; eapply nth_error_In; exact Ek).
    apply creceiver_ok; [exact C | apply (sent_by_plain l p S0 T) | reflexivity | | reflexivity].
    intros q [<-|[]]. split; [eapply nth_error_In; exact Ek | exact T].
  - destruct (nth_error (c_acks w) j) as [p|] eqn:Ej; [|exists w; split; [reflexivity | apply cok_idle; [exact C | reflexivity]]].
    apply csender_ok; [exact C | | discriminate | intros j'; cbn; destruct (Nat.eqb i j'); reflexivity | reflexivity | discriminate | exact Hn].
    pose proof (ck_acks _ _ C) as X. rewrite Forall_forall in X. apply X. eapply nth_error_In. exact Ej.
Qed.

Lemma crowd_run l : Forall (fun ja => legal_action f (snd ja)) l -> (forall i, N.of_nat (length (given_to i l)) < 2 ^ 32) ->
  repairs_ready m clk f o n l -> only_sources_arrive m clk f o n l ->
  exists w, crun m clk (cstart clk f o n) l = Ok w /\ cok l w.
Proof.
  induction l as [|[i a] l IH] using rev_ind; intros Hl Hn Hr Ha.
  - eexists. split; [reflexivity | apply cok_start].
  - apply Forall_app in Hl. destruct Hl as [Hl Hla]. apply Forall_inv in Hla.
    destruct IH as (w & E & C).
    + exact Hl.
    + intros j. specialize (Hn j). rewrite given_to_app, app_length in Hn. lia.
    + intros b c j w e X R. apply (Hr b (c ++ [(i, a)]) j w e); [rewrite X, <- app_assoc; reflexivity | exact R].
    + intros b c j k w p X R. apply (Ha b (c ++ [(i, a)]) j k w p); [rewrite X, <- app_assoc; reflexivity | exact R].
    + destruct (cstep_ok l w i a C Hla (Hn i)) as (w' & E' & C').
      * intros -> e He. apply (Hr l [] i w e eq_refl E He).
      * intros k p -> Hk. apply (Ha l [] i k w p eq_refl E Hk).
      * exists w'. split; [|exact C']. rewrite crun_app, E. cbn [bind crun]. rewrite E'. reflexivity.
Qed.

End crowd.

Lemma firsts_in ps i d : In (i, d) (firsts ps) -> exists p, In p ps /\ source_of p = Some (i, d).
Proof.
  unfold firsts. induction ps as [|p ps IH] using rev_ind; [intros []|]. rewrite fold_left_app. cbn [fold_left].
  set (l := fold_left note ps []) in *. unfold note. destruct (source_of p) as [[j e]|] eqn:E.
  - destruct (has j l); intros H; [apply IH in H; destruct H as (q & A & B); exists q; rewrite in_app_iff; auto|].
    apply in_app_iff in H. destruct H as [H|[H|[]]]; [apply IH in H; destruct H as (q & A & B); exists q; rewrite in_app_iff; auto|].
    exists p. rewrite in_app_iff. split; [right; left; reflexivity | congruence].
  - intros H. apply IH in H. destruct H as (q & A & B). exists q. rewrite in_app_iff. auto.
Qed.

Lemma firsts_nodup ps : NoDup (map fst (firsts ps)).
Proof.
  unfold firsts. induction ps as [|p ps IH] using rev_ind; [constructor|]. rewrite fold_left_app. cbn [fold_left].
  set (l := fold_left note ps []) in *. unfold note. destruct (source_of p) as [[j e]|]; [|exact IH]. destruct (has j l) eqn:H; [exact IH|].
  rewrite map_app. cbn [map fst]. apply NoDup_Add with (a := j) (l := map fst l); [|split; [exact IH|]].
  { pose proof (Add_app j (map fst l) []) as Y. rewrite app_nil_r in Y. exact Y. } intros X. apply has_spec in X. congruence.
Qed.

(** If no repair arrives, the receiver hands out, for each identifier, the datum of this identifier that arrived first, whoever sent it:
    everything it hands out was given to a sender, but of [n] senders it never hands out more than the data
    of one. *)
Theorem C85_sources_only :
  forall m clk f o n l, Forall (fun ja => legal_action f (snd ja)) l -> (forall i, N.of_nat (length (given_to i l)) < 2 ^ 32) ->
  repairs_ready m clk f o n l -> only_sources_arrive m clk f o n l ->
  exists w, crun m clk (cstart clk f o n) l = Ok w
  /\ (o = false -> c_got w = map snd (firsts (c_seen w)))
  /\ (o = true -> exists k, (forall i, i < N.of_nat k -> In i (map fst (firsts (c_seen w))))
      /\ ~ In (N.of_nat k) (map fst (firsts (c_seen w))) /\ c_got w = map (content (firsts (c_seen w))) (upto k))
  /\ (forall d, In d (c_got w) -> exists i k, (i < n)%nat /\ nth_error (given_to i l) k = Some d)
  /\ (forall b, (forall i, (i < n)%nat -> (length (given_to i l) <= b)%nat) -> (length (c_got w) <= b)%nat).
Proof.
  intros m clk f o n l Hl Hn Hr Ha. destruct (crowd_run m clk f o n l Hl Hn Hr Ha) as (w & E & C). exists w. split; [exact E|].
  assert (F : forall i d, In (i, d) (firsts (c_seen w)) -> exists j k, (j < n)%nat /\ nth_error (given_to j l) k = Some d /\ i = N.of_nat k).
  { intros i d H. apply firsts_in in H. destruct H as (p & Hp & Es). destruct (ck_seen _ _ _ _ _ C p Hp) as [Ho T].
    pose proof (ck_out _ _ _ _ _ C) as X. rewrite Forall_forall in X. destruct (sent_by_plain n l p (X p Ho) T) as (_ & j & k & d' & A & B & D).
    exists j, k. split; [exact A|]. assert (d' = d) by congruence. subst d'. split; [exact B | congruence]. }
  assert (Fi : forall i, In i (map fst (firsts (c_seen w))) -> In (i, content (firsts (c_seen w)) i) (firsts (c_seen w))).
  { intros i H. unfold content. destruct (find (fun q => fst q =? i) (firsts (c_seen w))) as [[j e]|] eqn:X.
    - apply find_some in X. destruct X as [X Y]. cbn [fst snd] in *. apply N.eqb_eq in Y. subst j. exact X.
    - apply in_map_iff in H. destruct H as (q & <- & H). apply (find_none _ _ X) in H. rewrite N.eqb_refl in H. discriminate. }
  pose proof (pl_out _ _ _ (ck_plain _ _ _ _ _ C)) as P. rewrite (ck_got _ _ _ _ _ C).
  assert (U : o = false -> PropsHostile.delivered (dc_core (c_dec w)) = map snd (firsts (c_seen w))) by (intros ->; exact P).
  assert (O : o = true -> exists k, (forall i, i < N.of_nat k -> In i (map fst (firsts (c_seen w))))
      /\ ~ In (N.of_nat k) (map fst (firsts (c_seen w))) /\ PropsHostile.delivered (dc_core (c_dec w)) = map (content (firsts (c_seen w))) (upto k)).
  { intros ->. destruct P as (k & _ & Q2 & Q3 & Q4 & _). exists k. auto. }
  split; [exact U|]. split; [exact O|]. clear P. split.
  - intros d H. destruct o.
    + destruct (O eq_refl) as (k & O1 & _ & O3). rewrite O3 in H. apply in_map_iff in H. destruct H as (i & <- & H).
      unfold upto in H. apply in_map_iff in H. destruct H as (j & <- & H). apply in_seq in H.
      destruct (F _ _ (Fi _ (O1 (N.of_nat j) ltac:(lia)))) as (a & b & A & B & _). eauto.
    + rewrite (U eq_refl) in H. apply in_map_iff in H. destruct H as ([i e] & <- & H). destruct (F _ _ H) as (a & b & A & B & _). eauto.
  - intros b Hb. assert (Bd : forall i, In i (map fst (firsts (c_seen w))) -> i < N.of_nat b).
    { intros i H. destruct (F _ _ (Fi i H)) as (j & k & A & B & ->). specialize (Hb j A).
      assert (k < length (given_to j l))%nat by (apply nth_error_Some; congruence). lia. }
    destruct o.
    + destruct (O eq_refl) as (k & O1 & _ & ->). rewrite map_length. unfold upto. rewrite map_length, seq_length. destruct k as [|k]; [lia|].
      specialize (Bd _ (O1 (N.of_nat k) ltac:(lia))). lia.
    + rewrite (U eq_refl), map_length.
      assert (L : (length (map fst (firsts (c_seen w))) <= length (map N.of_nat (seq 0 b)))%nat).
      { apply NoDup_incl_length; [apply firsts_nodup|]. intros i H. apply in_map_iff. exists (N.to_nat i). rewrite in_seq. specialize (Bd i H). lia. }
      rewrite !map_length, seq_length in L. exact L.
Qed.
Print Assumptions C85_sources_only.

(** *** A sender that is started again *)

Local Notation old_does a := (0%nat, a).
Local Notation new_does a := (1%nat, a).
Local Notation receiver_does a := (2%nat, a).

(** The new sender sends data 0 and 1; its datum 0 counts as known, datum 1 is lost, and a repair of both arrives. *)
Definition same_size : list (nat * action) :=
  [old_does (Data [10]); receiver_does (Arrive 0); new_does (Data [20]); receiver_does (Arrive 1); new_does (Data [30]);
   new_does Repair; receiver_does (Arrive 3)].
(** The same with data of different sizes. *)
Definition other_size : list (nat * action) :=
  [old_does (Data [10; 10; 10]); receiver_does (Arrive 0); new_does (Data [20]); receiver_does (Arrive 1); new_does (Data [30]);
   new_does Repair; receiver_does (Arrive 3)].
(** The ack of the old datum 0 arrives at the new sender, whose datum 0 was lost. *)
Definition old_ack : list (nat * action) :=
  [old_does (Data [10]); receiver_does (Arrive 0); new_does (Data [20]); receiver_does Ack; new_does (AckArrive 0)].

Definition all_arrivals (l : list (nat * action)) : list nat := arrivals (map snd l).

Definition crowd_got (m : mode) (o : bool) (l : list (nat * action)) : option (list (list N) * list nat) :=
  match crun m still (cstart still W8 o 2) l with
  | Ok w => Some (c_got w, map (fun e => length (e_sources e)) (c_encs w))
  | _ => None
  end.
Definition crowd_fault (m : mode) (o : bool) (l : list (nat * action)) : option fault :=
  match crun m still (cstart still W8 o 2) l with Fault x => Some x | _ => None end.

(** All calls respect the contracts, the packets arrive in the order in which they were sent, the new sender starts
    after the last packet of the old one has arrived: in both builds and both orders the receiver hands out a datum that neither
    sender was given. *)
Theorem C85_restart_refuted :
  exists l, Forall (fun ja => legal_action W8 (snd ja)) l /\ StronglySorted le (all_arrivals l)
  /\ forall m o, exists w d, crun m still (cstart still W8 o 2) l = Ok w /\ In d (c_got w)
     /\ forall i, ~ In d (given_to i l).
Proof.
  exists same_size. split; [repeat constructor|]. split; [repeat constructor|]. intros m o.
  assert (E : crowd_got m o same_size = Some ([[10]; [152]], [1; 2]%nat)) by (destruct m, o; vm_compute; reflexivity).
  unfold crowd_got in E. destruct (crun m still (cstart still W8 o 2) same_size) as [w|x|x]; try discriminate.
  assert (G : c_got w = [[10]; [152]]) by congruence. exists w, [152]. split; [reflexivity|]. rewrite G. split; [right; left; reflexivity|].
  intros [|[|i]] H; cbn in H; intuition discriminate.
Qed.
Print Assumptions C85_restart_refuted.

(** If the sizes differ, an assertion fails, or memory behind the end of a buffer is read. *)
Theorem C85_restart_memory_refuted :
  exists l, Forall (fun ja => legal_action W8 (snd ja)) l /\ StronglySorted le (all_arrivals l)
  /\ forall o, crun Debug still (cstart still W8 o 2) l = Fault AssertFailure
     /\ crun Release still (cstart still W8 o 2) l = Fault OutOfBounds.
Proof.
  exists other_size. split; [repeat constructor|]. split; [repeat constructor|]. intros o.
  assert (E : crowd_fault Debug o other_size = Some AssertFailure /\ crowd_fault Release o other_size = Some OutOfBounds)
    by (destruct o; split; vm_compute; reflexivity).
  unfold crowd_fault in E. destruct E as [E1 E2]. split.
  - destruct (crun Debug still (cstart still W8 o 2) other_size) as [w|x|x]; try discriminate. congruence.
  - destruct (crun Release still (cstart still W8 o 2) other_size) as [w|x|x]; try discriminate. congruence.
Qed.
Print Assumptions C85_restart_memory_refuted.

(** And an ack makes the new sender forget a datum that never arrived; no repair can bring it back. *)
Theorem C85_restart_ack_refuted :
  exists l, Forall (fun ja => legal_action W8 (snd ja)) l /\ StronglySorted le (all_arrivals l)
  /\ forall m o, exists w e, crun m still (cstart still W8 o 2) l = Ok w /\ nth_error (c_encs w) 1 = Some e
     /\ given_to 1 l <> [] /\ e_sources e = [] /\ forall d, In d (given_to 1 l) -> ~ In d (c_got w).
Proof.
  exists old_ack. split; [repeat constructor|]. split; [repeat constructor|]. intros m o.
  assert (E : crowd_got m o old_ack = Some ([[10]], [1; 0]%nat)) by (destruct m, o; vm_compute; reflexivity).
  unfold crowd_got in E. destruct (crun m still (cstart still W8 o 2) old_ack) as [w|x|x]; try discriminate.
  assert (G : c_got w = [[10]]) by congruence. assert (L : map (fun e => length (e_sources e)) (c_encs w) = [1; 0]%nat) by congruence.
  destruct (c_encs w) as [|e0 [|e1 [|]]] eqn:Ee; try discriminate. exists w, e1. split; [reflexivity|]. rewrite Ee. split; [reflexivity|].
  split; [discriminate|]. split; [cbn [map] in L; apply length_zero_iff_nil; congruence|].
  rewrite G. intros d H1 H2. cbn in H1, H2. intuition congruence.
Qed.
Print Assumptions C85_restart_ack_refuted.

(** *** Example *)

(** Two senders, only sources arrive: the datum 0 of the second is ignored, its datum 1 is the first of its number. *)
Definition two_senders : list (nat * action) :=
  [old_does (Data [10]); receiver_does (Arrive 0); new_does (Data [20]); receiver_does (Arrive 1); new_does (Data [30]);
   old_does Repair; receiver_does Ack; new_does (AckArrive 0); receiver_does (Arrive 2); old_does (Data [40]); receiver_does (Arrive 4)].

Example C85_two_senders_end : crowd_got Debug true two_senders = Some ([[10]; [30]], [2; 1]%nat)
  /\ crowd_got Debug false two_senders = Some ([[10]; [30]], [2; 1]%nat).
Proof. split; vm_compute; reflexivity. Qed.

Definition crowd_checks (o : bool) (l : list (nat * action)) : bool :=
  forallb (fun k => match nth_error l k, crun Debug still (cstart still W8 o 2) (firstn k l) with
                    | Some (i, Repair), Ok w => match nth_error (c_encs w) i with Some e => negb (Nat.eqb (length (e_sources e)) 0) | None => true end
                    | Some (_, Arrive j), Ok w => match nth_error (c_out w) j with Some p => negb (nth 0 p 0 =? 1) | None => true end
                    | _, _ => true
                    end) (seq 0 (length l)).

Lemma crowd_checks_spec o l : crowd_checks o l = true ->
  repairs_ready Debug still W8 o 2 l /\ only_sources_arrive Debug still W8 o 2 l.
Proof.
  unfold crowd_checks. intros H. rewrite forallb_forall in H.
  assert (X : forall b x c w, l = b ++ x :: c -> crun Debug still (cstart still W8 o 2) b = Ok w ->
     match x with
     | (i, Repair) => match nth_error (c_encs w) i with Some e => negb (Nat.eqb (length (e_sources e)) 0) | None => true end
     | (_, Arrive j) => match nth_error (c_out w) j with Some p => negb (nth 0 p 0 =? 1) | None => true end
     | _ => true
     end = true).
  { intros b x c w E R. specialize (H (length b)). rewrite in_seq, E, app_length in H. cbn [length] in H. specialize (H ltac:(lia)).
    rewrite nth_error_app2, Nat.sub_diag in H by lia. cbn [nth_error] in H.
    rewrite firstn_app, Nat.sub_diag, firstn_O, app_nil_r, firstn_all, R in H. destruct x as [i a]. destruct a; try reflexivity; exact H. }
  split.
  - intros b c i w e E R Hi. specialize (X b _ c w E R). cbn in X. rewrite Hi in X. intros Z. rewrite Z in X. discriminate.
  - intros b c i k w p E R Hk. specialize (X b _ c w E R). cbn in X. rewrite Hk in X. intros Z. rewrite Z in X. discriminate.
Qed.

Example C85_case : forall o, Forall (fun ja => legal_action W8 (snd ja)) two_senders
  /\ (forall i, N.of_nat (length (given_to i two_senders)) < 2 ^ 32)
  /\ repairs_ready Debug still W8 o 2 two_senders /\ only_sources_arrive Debug still W8 o 2 two_senders.
Proof.
  intros o. split; [repeat constructor|]. split; [intros [|[|i]]; reflexivity|]. apply crowd_checks_spec. destruct o; vm_compute; reflexivity.
Qed.
