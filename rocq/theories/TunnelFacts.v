(** * Each direction of the tunnel is a run of the closed system *)
From Coq Require Import ZArith NArith List Bool Lia Sorted Arith.
From Verif Require Import Outcome GF Containers ContainersFacts Packetizer PacketizerFacts PropsPacketizer
  Encoder EncoderFacts EncoderSafe EncoderRun EncoderHistory Decoder DecoderOuter Dispatch DetailDecoder
  DecoderInv DecoderStep DecoderFacts DecoderHeld
  System SystemInv SystemRun SystemFifo PropsEncoder PropsSystem PropsFifo PropsSizes DecoderSuffix PropsSuffix Tunnel.
Import ListNotations.
Open Scope N_scope.

(** The encoder of [a] and the decoder of [b]. *)
Record dir (m : mode) (clk : clock) (l : list action) (w : world) (a b : side) : Prop := {
  di_sound : sound m clk W8 true l w;
  di_run : wrun m clk (start clk W8 true) l = Ok w;
  di_legal : Forall (legal_action W8) l;
  di_code : ~ In (SetCode false) l;
  di_enc : w_enc w = s_enc a;
  di_dec : rlike (w_dec w) (s_dec b);
  di_given : w_sent w = s_given a;
  di_out : w_out w = s_out a;
  di_acks : w_acks w = s_acks b;
  di_got : w_got w = s_got b;
  di_arrived : w_arrived w = s_arrived b;
  di_ops : exists ops, reached m W8 (ESetWindow 32 :: ops) (s_enc a) (s_out a)
    /\ Forall keeps_window_size ops /\ datas ops = s_given a
}.

Lemma dir_ext m clk l w a b a' b' : dir m clk l w a b ->
  s_enc a' = s_enc a -> s_given a' = s_given a -> s_out a' = s_out a ->
  s_dec b' = s_dec b -> s_acks b' = s_acks b -> s_got b' = s_got b -> s_arrived b' = s_arrived b -> dir m clk l w a' b'.
Proof. intros [H1 H2 H3 H4 H5 H6 H7 H8 H9 H10 H11 H12] E1 E2 E3 E4 E5 E6 E7. constructor; congruence || (rewrite ?E1, ?E2, ?E3, ?E4; assumption). Qed.

(** The setting up. *)
Definition setup : list action := [SetPeriod 0; SetWindow 32; SetAdaptive true].

Lemma dir_start m clk clk' a b : new_side m clk' = Ok a -> new_side m clk = Ok b -> exists w, dir m clk setup w a b.
Proof.
  intros Ea Eb.
  assert (Hl : Forall (legal_action W8) setup) by (repeat constructor).
  destruct (run_total m clk W8 true setup Hl) as [(w & E & S)|(x & y & w & E & _)].
  - cbn. lia.
  - constructor.
  - apply sizes_fit_always. discriminate.
  - exists w. pose proof E as E0. unfold new_side in Ea, Eb. destruct m; cbn in E, Ea, Eb; injection E as <-; injection Ea as <-; injection Eb as <-;
    (constructor; try reflexivity; try assumption;
     [intros [X|[X|[X|[]]]]; discriminate
     |exists (dc_core (new_dec clk W8 true)); split; [reflexivity|apply like_refl]
     |exists [ESetAdaptive true]; split; [reflexivity|split; [repeat constructor|reflexivity]]]).
  - exfalso. unfold setup in E. destruct x as [|? [|? [|? [|? x]]]]; cbn in E; discriminate.
Qed.

(** A run of the sender, one call longer. *)
Lemma reached_snoc m f ops e out op e' new : reached m f ops e out -> estep m e op = (e', Ok new) ->
  reached m f (ops ++ [op]) e' (out ++ new).
Proof.
  unfold reached. intros R E. revert R. generalize (new_encoder f) as e0. revert out. induction ops as [|o ops IH]; intros out e0 R; cbn [app erun] in *.
  - injection R as -> <-. rewrite E. cbn [bind]. rewrite app_nil_r. reflexivity.
  - destruct (estep m e0 o) as [e1 [o1|x|x]]; [|apply IH; exact R|discriminate].
    destruct (bind_ok _ _ _ R) as ([e2 o2] & R2 & Q). injection Q as <- <-. rewrite (IH o2 e1 R2). cbn [bind]. rewrite app_assoc. reflexivity.
Qed.

Section Step.
Variable m : mode.
Variable clk : clock.

Definition legal_datum (d : list N) : Prop := (0 < length d <= buffer_size)%nat /\ Forall (fun b => b < 256) d.

Lemma legal_datum_action d : legal_datum d -> legal_action W8 (Data d).
Proof.
  intros [[A B] C]. unfold buffer_size in B. cbn. split; [exact A|]. split; [lia|]. split; [|exact C].
  reflexivity.
Qed.

Lemma app_step l w a b d : dir m clk l w a b -> legal_datum d ->
  N.of_nat (length (given l)) <= 65535 -> StronglySorted le (arrivals l) ->
  exists e out, from_app m a d = (if sendable out then Runs {| s_enc := e; s_dec := s_dec a; s_seen := s_seen a;
                    s_given := s_given a ++ [d]; s_out := s_out a ++ out; s_acks := s_acks a; s_got := s_got a; s_arrived := s_arrived a |} else Stops TooLong)
  /\ forall a', s_enc a' = e -> s_given a' = s_given a ++ [d] -> s_out a' = s_out a ++ out ->
     exists w', dir m clk (l ++ [Data d]) w' a' b.
Proof.
  intros [H1 H2 H3 H4 H5 H6 H7 H8 H9 H10 H11 (ops & O1 & O2 & O3)] Hd Hn Hs.
  assert (Hl : Forall (legal_action W8) (l ++ [Data d])).
  { apply Forall_app. split; [exact H3|]. constructor; [apply legal_datum_action; exact Hd|constructor]. }
  destruct (sound_step_other m clk W8 true ltac:(discriminate) l w (Data d) H1 Hl Hn) as (w' & E & S').
  { rewrite arrivals_app. cbn. rewrite app_nil_r. exact Hs. }
  { discriminate. }
  pose proof E as E0. cbn [wstep] in E. unfold sender in E. destruct (estep m (w_enc w) (EData d)) as [e r] eqn:Ee.
  destruct (bind_ok _ _ _ E) as (out & Er & Ew). 
  assert (Nf : ~ is_fault r) by (intros [x ->]; discriminate).
  destruct (estep_data _ _ _ _ _ Ee Nf) as (out' & -> & _). cbn in Er. injection Er as ->.
  exists e, out. split.
  - unfold from_app. rewrite firstn_all2 by apply Hd. destruct d as [|x d]; [destruct Hd; cbn in *; lia|].
    rewrite <- H5. cbn [estep] in Ee. destruct (enc_data m (w_enc w) (x :: d)) as [[e1 o1]|y|y]; try discriminate.
    injection Ee as -> ->. reflexivity.
  - intros a' E1 E2 E3. exists w'. injection Ew as <-. constructor; cbn [w_enc w_dec w_sent w_out w_arrived w_got w_acks]; try congruence; try assumption.
    + rewrite wrun_app, H2. cbn [bind wrun]. rewrite E0. reflexivity.
    + intros X. apply in_app_iff in X. destruct X as [X|[X|[]]]; [exact (H4 X)|discriminate].
    + exists (ops ++ [EData d]). rewrite E1, E2, E3. split; [|split].
      * apply (reached_snoc m W8 (ESetWindow 32 :: ops) (s_enc a) (s_out a) (EData d) e out O1). rewrite <- H5. exact Ee.
      * apply Forall_app. split; [exact O2|repeat constructor].
      * unfold datas in *. rewrite flat_map_app, O3. reflexivity.
Qed.

(** The world of a direction. *)
Lemma dir_lossy l w a b : dir m clk l w a b -> N.of_nat (length (given l)) <= 65535 -> lossy_fifo m clk W8 true w.
Proof.
  intros [H1 H2 H3 H4 H5 H6 H7 H8 H9 H10 H11 _] Hn. split; [apply H1|]. split; [apply H1|].
  eapply sound_limits; try eassumption. apply sizes_fit_other. discriminate.
Qed.

Lemma out_type l w a b k p : dir m clk l w a b -> nth_error (s_out a) k = Some p ->
  get_packet_type p = Ok TRepair \/ get_packet_type p = Ok TSource.
Proof.
  intros D Hp. destruct D as [_ _ _ _ _ _ _ _ _ _ _ (ops & O1 & _)].
  pose proof (h_types _ _ _ _ (history_of_run _ _ _ _ _ O1)) as T. rewrite Forall_forall in T. specialize (T p (nth_error_In _ _ Hp)).
  unfold type_of in T. destruct p as [|x p]; [cbn in T; destruct T; discriminate|]. cbn [nth] in T.
  destruct T as [-> | ->]; [left|right]; reflexivity.
Qed.

Lemma packet_step l w a b k p tail : dir m clk l w a b -> nth_error (s_out a) k = Some p -> (length p <= buffer_size)%nat ->
  N.of_nat (length (given l)) <= 65535 -> StronglySorted le (arrivals l ++ [k]) ->
  exists d out, from_peer m clk b [k] p tail = (if sendable (to_network out) && sendable (to_user out) then
       Runs {| s_enc := s_enc b; s_dec := d; s_seen := true; s_given := s_given b; s_out := s_out b;
               s_acks := s_acks b ++ to_network out; s_got := s_got b ++ to_user out; s_arrived := s_arrived b ++ [k] |} else Stops TooLong)
  /\ forall b', s_dec b' = d -> s_acks b' = s_acks b ++ to_network out -> s_got b' = s_got b ++ to_user out -> s_arrived b' = s_arrived b ++ [k] ->
     exists w', dir m clk (l ++ [Arrive k]) w' a b'.
Proof.
  intros D Hp Hlen Hn Hs. pose proof (dir_lossy _ _ _ _ D Hn) as Lf. pose proof (out_type _ _ _ _ _ _ D Hp) as Ht.
  destruct D as [H1 H2 H3 H4 H5 H6 H7 H8 H9 H10 H11 O].
  assert (Hl : Forall (legal_action W8) (l ++ [Arrive k])) by (apply Forall_app; split; [exact H3|repeat constructor]).
  destruct (sound_step_other m clk W8 true ltac:(discriminate) l w (Arrive k) H1 Hl Hn) as (w' & E & S').
  { rewrite arrivals_app. exact Hs. }
  { discriminate. }
  pose proof E as E0. cbn [wstep] in E. rewrite H8, Hp in E. unfold receiver in E. cbn [dstep] in E.
  assert (Hle : forall i, In i (w_arrived w) -> (i <= k)%nat).
  { intros i Hi. apply (sd_arrived _ _ _ _ _ _ H1) in Hi. apply sorted_app_le in Hs. destruct Hs as [_ Hs]. apply Hs; [exact Hi|left; reflexivity]. }
  destruct (C30_fifo_arrival m clk W8 true w Lf k p) as [(d & out & n & Ed) _]; [rewrite H8; exact Hp|exact Hle|].
  rewrite Ed in E. cbn [bind survive] in E. injection E as <-.
  destruct (dec_packet_pad m clk (w_dec w) (s_dec b) p tail d out n H6 Ed) as (d' & Ed' & R').
  exists d', out. split.
  - unfold from_peer. destruct p as [|x p]; [destruct Ht; discriminate|].
    rewrite firstn_all2 by exact Hlen. unfold dispatch.
    assert (T : get_packet_type ((x :: p) ++ tail) = get_packet_type (x :: p)) by reflexivity.
    rewrite T. destruct Ht as [-> | ->]; rewrite Ed'; reflexivity.
  - intros b' E1 E2 E3 E4. eexists. constructor; [exact S'|..]; cbn [w_enc w_dec w_sent w_out w_arrived w_got w_acks]; try eassumption; try congruence.
    + rewrite wrun_app, H2. cbn [bind wrun]. rewrite E0. reflexivity.
    + intros X. apply in_app_iff in X. destruct X as [X|[X|[]]]; [exact (H4 X)|discriminate].
Qed.

Lemma ack_read l w a b j p : dir m clk l w a b -> nth_error (s_acks b) j = Some p -> N.of_nat (length (given l)) <= 65535 ->
  exists ids nb, p = concat (write_ack {| a_ids := ids; a_nb := nb |}) /\ nb < 65536 /\ id_set ids /\ wire_ok ids
  /\ forall x, In x ids -> kept_id (core_of w) x.
Proof.
  intros D Hp Hn. pose proof (dir_lossy _ _ _ _ D Hn) as (R & Fi & L).
  destruct (run_fifo m clk W8 true w w R (extends_refl w) L Fi) as (gs & B & _).
  pose proof (ok_acks _ _ _ _ _ _ B) as K. rewrite (di_acks _ _ _ _ _ _ D) in K. rewrite Forall_forall in K.
  exact (K p (nth_error_In _ _ Hp)).
Qed.

Lemma ack_step l w a b j p tail : dir m clk l w a b -> nth_error (s_acks b) j = Some p -> (length p <= buffer_size)%nat ->
  N.of_nat (length (given l)) <= 65535 -> StronglySorted le (arrivals l) ->
  forall clk', exists e, from_peer m clk' a [] p tail =
       Runs {| s_enc := e; s_dec := s_dec a; s_seen := true; s_given := s_given a; s_out := s_out a;
               s_acks := s_acks a; s_got := s_got a; s_arrived := s_arrived a |}
  /\ forall a', s_enc a' = e -> s_given a' = s_given a -> s_out a' = s_out a ->
     exists w', dir m clk (l ++ [AckArrive j]) w' a' b.
Proof.
  intros D Hp Hlen Hn Hs clk'. pose proof (ack_read _ _ _ _ _ _ D Hp Hn) as (ids & nb & Ep & Hnb & Hids & [W1 W2] & _).
  destruct D as [H1 H2 H3 H4 H5 H6 H7 H8 H9 H10 H11 (ops & O1 & O2 & O3)].
  assert (Hl : Forall (legal_action W8) (l ++ [AckArrive j])) by (apply Forall_app; split; [exact H3|repeat constructor]).
  destruct (sound_step_other m clk W8 true ltac:(discriminate) l w (AckArrive j) H1 Hl Hn) as (w' & E & S').
  { rewrite arrivals_app. cbn. rewrite app_nil_r. exact Hs. }
  { discriminate. }
  pose proof E as E0. cbn [wstep] in E. rewrite H9, Hp in E. unfold sender in E. cbn [estep] in E.
  assert (N : exists e n, notify m (w_enc w) p = (e, Ok n)).
  { destruct (notify m (w_enc w) p) as [e r] eqn:En. destruct (bind_ok _ _ _ E) as (out & Eo & _).
    destruct r as [n|x|x]; [eauto| |discriminate]. exfalso.
    destruct (notify_spec _ _ _ _ _ En) as [_ _ _ _ _ _ _ _ _ _ T]; [intros [y Y]; discriminate|]. destruct (T x eq_refl) as (_ & _ & _ & [(y & q & Eq & Ny)|[_ Rd]]).
    - rewrite Ep in Eq. cbn in Eq. injection Eq as <- _. apply Ny. reflexivity.
    - rewrite Ep in Rd. pose proof (C03_ack_roundtrip m {| a_ids := ids; a_nb := nb |} Hnb Hids W1 W2) as Rd'. unfold on_wire in Rd'. congruence. }
  destruct N as (e & n & En). rewrite En in E. cbn [bind survive] in E. injection E as <-.
  exists e. split.
  - unfold from_peer. destruct p as [|x p]; [subst; discriminate|]. rewrite firstn_all2 by exact Hlen.
    assert (T : get_packet_type ((x :: p) ++ tail) = Ok TAck).
    { assert (T0 : get_packet_type (x :: p) = Ok TAck) by (rewrite Ep; reflexivity). exact T0. }
    unfold dispatch. rewrite T, <- H5, (C63_sender m (w_enc w) (x :: p) tail e n En). cbn [bind to_network to_user sendable forallb andb].
    rewrite !app_nil_r. reflexivity.
  - intros a' E1 E2 E3. eexists. constructor; [exact S'|..]; cbn [w_enc w_dec w_sent w_out w_arrived w_got w_acks]; try eassumption; try (rewrite ?app_nil_r; congruence).
    + rewrite wrun_app, H2. cbn [bind wrun]. rewrite E0. reflexivity.
    + intros X. apply in_app_iff in X. destruct X as [X|[X|[]]]; [exact (H4 X)|discriminate].
    + exists (ops ++ [EPacket p]). rewrite E1, E2, E3. split; [|split].
      * rewrite <- (app_nil_r (s_out a)). apply (reached_snoc m W8 (ESetWindow 32 :: ops) (s_enc a) (s_out a) (EPacket p) e [] O1).
        rewrite <- H5. cbn [estep]. rewrite En. reflexivity.
      * apply Forall_app. split; [exact O2|repeat constructor].
      * unfold datas in *. rewrite flat_map_app, O3. cbn. apply app_nil_r.
Qed.

Lemma timer_step l w a b : dir m clk l w a b ->
  N.of_nat (length (given l)) <= 65535 -> StronglySorted le (arrivals l) ->
  exists d out, generate_ack (s_dec b) = (d, out) /\ to_user out = []
  /\ forall b', s_dec b' = d -> s_acks b' = s_acks b ++ to_network out -> s_got b' = s_got b -> s_arrived b' = s_arrived b ->
     exists w', dir m clk (l ++ [Ack]) w' a b'.
Proof.
  intros [H1 H2 H3 H4 H5 H6 H7 H8 H9 H10 H11 O] Hn Hs.
  assert (Hl : Forall (legal_action W8) (l ++ [Ack])) by (apply Forall_app; split; [exact H3|repeat constructor]).
  destruct (sound_step_other m clk W8 true ltac:(discriminate) l w Ack H1 Hl Hn) as (w' & E & S').
  { rewrite arrivals_app. cbn. rewrite app_nil_r. exact Hs. }
  { discriminate. }
  pose proof E as E0. cbn [wstep] in E. unfold receiver in E.
  pose proof (dstep_same m clk (w_dec w) (s_dec b) DAck H6) as Sm. cbn [dstep] in *.
  assert (Hu : forall d d1 o1, generate_ack d = (d1, o1) -> to_user o1 = []) by (intros d d1 o1 Eq; injection Eq as <- <-; reflexivity).
  destruct (generate_ack (w_dec w)) as [d1 o1] eqn:E1, (generate_ack (s_dec b)) as [d2 o2] eqn:E2. cbn [fst snd] in Sm.
  destruct Sm as [R Eo]; [intros [x X]; discriminate|]. injection Eo as <-. cbn [bind survive] in E. injection E as <-.
  exists d2, o2. split; [reflexivity|]. pose proof (Hu _ _ _ E2) as Hu2. split; [exact Hu2|].
  intros b' B1 B2 B3 B4. eexists. constructor; [exact S'|..]; cbn [w_enc w_dec w_sent w_out w_arrived w_got w_acks]; try eassumption; try congruence.
  - rewrite wrun_app, H2. cbn [bind wrun]. rewrite E0. reflexivity.
  - intros X. apply in_app_iff in X. destruct X as [X|[X|[]]]; [exact (H4 X)|discriminate].
  - rewrite Hu2, app_nil_r. congruence.
  - rewrite app_nil_r. congruence.
Qed.

End Step.

(** ** Sizes *)

Lemma sorted_length (l : list N) n : StronglySorted N.lt l -> (forall x, In x l -> x < N.of_nat n) -> (length l <= n)%nat.
Proof.
  intros S H. assert (Nd : NoDup (map N.to_nat l)).
  { induction S as [|a l S IH Ha]; cbn; constructor.
    - rewrite in_map_iff. intros (y & Ey & Hy). rewrite Forall_forall in Ha. specialize (Ha y Hy). lia.
    - apply IH. intros x Hx. apply H. right. exact Hx. }
  rewrite <- (map_length N.to_nat l), <- (seq_length n 0). apply NoDup_incl_length; [exact Nd|].
  intros x Hx. apply in_map_iff in Hx. destruct Hx as (y & <- & Hy). apply in_seq. specialize (H y Hy). lia.
Qed.

Lemma kept_below m clk w x : lossy_fifo m clk W8 true w -> kept_id (core_of w) x -> x < N.of_nat (length (w_sent w)).
Proof.
  intros (R & Fi & L) [H _]. destruct (run_fifo m clk W8 true w w R (extends_refl w) L Fi) as (gs & B & _).
  destruct B as [_ _ Ch _ D A _]. destruct D as [_ _ _ I _ _]. destruct I as [_ G _ _].
  destruct H as [H|H].
  - apply (G x). left. exact H.
  - unfold outdated, not_outdated in H. destruct A as [[E _]|(i & W & n & Ei & _ & E & _)]; rewrite E in H; cbn in H; [discriminate|].
    apply negb_true_iff, N.leb_gt in H. eapply N.lt_trans; [exact H|].
    destruct Ch as [Is _ _ _ _]. 
    assert (X : exists p, is (w_sent w) m W8 p (GRepair W n)).
    { clear - Is Ei. revert i Ei. induction Is as [|p g out gs I _ IH]; intros [|i] Ei; cbn in Ei; try discriminate; [|eauto].
      injection Ei as ->. eauto. }
    destruct X as (p & _ & Wn & _ & Wlt & Hn & _). unfold lim in Hn.
    destruct W as [|y W]; [congruence|]. eapply N.lt_le_trans; [apply Wlt; left; reflexivity|exact Hn].
Qed.

Lemma dir_sizes m clk l w a b : dir m clk l w a b -> N.of_nat (length (s_given a)) <= 21832 ->
  Forall (fun d => N.of_nat (length d) <= 32697) (s_given a) ->
  Forall (fun p => (length p <= buffer_size)%nat) (s_out a) /\ Forall (fun p => (length p <= buffer_size)%nat) (s_acks b)
  /\ Forall (fun d => (length d <= buffer_size)%nat) (s_got b).
Proof.
  intros D Hn Hd. assert (Hn0 : N.of_nat (length (given l)) <= 65535).
  { rewrite <- (sd_sent _ _ _ _ _ _ (di_sound _ _ _ _ _ _ D)), (di_given _ _ _ _ _ _ D). lia. }
  pose proof (dir_lossy _ _ _ _ _ _ D Hn0) as Lf. unfold buffer_size. split; [|split].
  - destruct (di_ops _ _ _ _ _ _ D) as (ops & O1 & O2 & O3).
    pose proof (C62_bound m W8 32 (N.to_nat 32697) ops _ _ O1 O2) as B.
    unfold nb_data in B. rewrite O3 in B. specialize (B ltac:(lia)). apply (Forall_impl _ (P := fun p => N.of_nat (length p) <= 14 + 2 * N.of_nat (N.to_nat 32697) + 3 * 32)); [intros p; lia|].
    apply B; [|lia]. apply (Forall_impl _ (P := fun d => N.of_nat (length d) <= 32697)); [intros d; lia|exact Hd].
  - apply Forall_forall. intros p Hp. apply In_nth_error in Hp. destruct Hp as [j Hp].
    destruct (ack_read _ _ _ _ _ _ _ _ D Hp Hn0) as (ids & nb & -> & _ & [Hs _] & _ & Hk).
    rewrite ack_bytes. cbn [a_ids]. destruct (ids_bytes_bounds ids) as (Bd & _ & _).
    assert (Hi : (length ids <= length (s_given a))%nat).
    { apply sorted_length; [exact Hs|]. intros x Hx. rewrite <- (di_given _ _ _ _ _ _ D). eapply kept_below; [exact Lf|]. apply Hk, Hx. }
    lia.
  - destruct (C29_in_order _ _ _ _ (lossy_normal _ _ _ _ _ Lf)) as (which & _ & Hw & Eg).
    rewrite (di_got _ _ _ _ _ _ D) in Eg. rewrite Eg. apply Forall_forall. intros d Hx. apply in_map_iff in Hx. destruct Hx as (i & <- & Hi).
    apply Hw in Hi. unfold datum. rewrite (di_given _ _ _ _ _ _ D) in *. rewrite Forall_forall in Hd. specialize (Hd _ (nth_In _ [] Hi)). lia.
Qed.
