(** * The one-way accelerator: C71 *)
From Coq Require Import ZArith NArith List Bool Lia Sorted Arith.
From Verif Require PropsProxy.
From Verif Require Import Outcome GF Containers ContainersFacts Packetizer PacketizerFacts PropsPacketizer
  Encoder EncoderFacts EncoderSafe EncoderRun EncoderHistory Decoder DecoderOuter DetailDecoder
  DecoderInv DecoderStep DecoderFacts DecoderHeld
  System SystemInv SystemRun SystemFifo PropsEncoder PropsSystem PropsFifo PropsSizes DecoderSuffix PropsSuffix Tunnel TunnelFacts Oneway.
Import ListNotations.
Open Scope N_scope.

(** ** Vocabulary *)

(** The data of the application, the positions of the packets that arrive. *)
Definition o_data (l : list oaction) : list (list N) := flat_map (fun a => match a with OApp d => [d] | _ => [] end) l.
Definition o_arrivals (l : list oaction) : list nat := flat_map (fun a => match a with ODatagram k => [k] | _ => [] end) l.

(** Datagrams of 1 to 4096 bytes, at most 65535 of them; no packet arrives after a newer one. *)
Definition o_proper (l : list oaction) : Prop :=
  Forall (fun d => (0 < length d)%nat /\ N.of_nat (length d) <= 4096 /\ Forall (fun b => b < 256) d) (o_data l)
  /\ N.of_nat (length (o_data l)) <= 65535
  /\ StronglySorted le (o_arrivals l).

(** A packet or an ack of more than 4096 bytes arrives, or, after more than 21833 data, the receiver
    makes an ack that is too long for UDP. *)
Definition o_oversized (m : mode) (clk : clock) (s : oneway) (a : oaction) : Prop :=
  (exists p, 4096 < N.of_nat (length p)
   /\ ((exists k, a = ODatagram k /\ nth_error (o_out s) k = Some p)
       \/ exists j stale, a = OAck j stale /\ nth_error (o_acks s) j = Some p))
  \/ (21833 < N.of_nat (length (o_given s)) /\ ostep m clk s a = Stops TooLong
      /\ (a = OTick \/ exists k, a = ODatagram k)).

(** What the application got: data of the other one, unchanged, in order, none twice. *)
Definition o_faithful (l : list oaction) (s : oneway) : Prop :=
  exists which, StronglySorted lt which /\ (forall i, In i which -> (i < length (o_data l))%nat)
  /\ o_got s = map (fun i => nth i (o_data l) []) which.

(** ** The programs are a run of the closed system *)

Record mirror (m : mode) (clk : clock) (l : list action) (w : world) (s : oneway) : Prop := {
  mi_sound : sound m clk W8 true l w;
  mi_run : wrun m clk (start clk W8 true) l = Ok w;
  mi_legal : Forall (legal_action W8) l;
  mi_code : ~ In (SetCode false) l;
  mi_enc : w_enc w = o_enc s;
  mi_dec : w_dec w = o_dec s;
  mi_given : w_sent w = o_given s;
  mi_out : w_out w = o_out s;
  mi_acks : w_acks w = o_acks s;
  mi_got : w_got w = o_got s;
  mi_arrived : w_arrived w = o_arrived s;
  mi_ops : exists ops, reached m W8 (ESetWindow 256 :: ops) (o_enc s) (o_out s)
    /\ Forall keeps_window_size ops /\ datas ops = o_given s
}.

Definition o_setup : list action := [SetPeriod 5; SetNb 64; SetWindow 256; SetAdaptive true].

Lemma mirror_start m clk : exists s w, new_oneway m clk = Ok s /\ mirror m clk o_setup w s.
Proof.
  assert (Hl : Forall (legal_action W8) o_setup) by (repeat constructor; discriminate).
  destruct (run_total m clk W8 true o_setup Hl) as [(w & E & S)|(x & y & w & E & _)].
  - cbn. lia.
  - constructor.
  - apply sizes_fit_always. discriminate.
  - exists (match new_oneway m clk with Ok s => s | _ => {| o_enc := new_encoder W8; o_dec := new_dec clk W8 true; o_up := false; o_given := []; o_out := []; o_acks := []; o_got := []; o_arrived := [] |} end), w.
    pose proof E as E0. destruct m; cbn in E; injection E as <-; (split; [reflexivity|]);
    (constructor; try reflexivity; try assumption;
     [intros [X|[X|[X|[X|[]]]]]; discriminate
     |exists [ESetAdaptive true]; split; [reflexivity|split; [repeat constructor|reflexivity]]]).
  - exfalso. unfold o_setup in E. destruct x as [|? [|? [|? [|? [|? x]]]]]; cbn in E; discriminate.
Qed.

Section Step.
Variable m : mode.
Variable clk : clock.

Lemma mirror_lossy l w s : mirror m clk l w s -> N.of_nat (length (given l)) <= 65535 -> lossy_fifo m clk W8 true w.
Proof.
  intros [H1 H2 H3 H4 H5 H6 H7 H8 H9 H10 H11 _] Hn. split; [apply H1|]. split; [apply H1|].
  eapply sound_limits; try eassumption. apply sizes_fit_other. discriminate.
Qed.

Lemma small_sendable l : Forall (fun p => N.of_nat (length p) <= 65507) l -> sendable l = true.
Proof. intros H. unfold sendable. apply forallb_forall. intros x Hx. rewrite Forall_forall in H. apply N.leb_le, H, Hx. Qed.

(** The packets of the encoder fit into datagrams. *)
Lemma mirror_sizes l w s b : mirror m clk l w s -> N.of_nat (length (given l)) <= 65535 + 1 -> b <= 4096 ->
  Forall (fun d => N.of_nat (length d) <= b) (o_given s) ->
  Forall (fun p => N.of_nat (length p) <= 14 + 2 * b + 768) (o_out s).
Proof.
  intros D Hn Hb Hd. destruct (mi_ops _ _ _ _ _ D) as (ops & O1 & O2 & O3).
  pose proof (C62_bound m W8 256 (N.to_nat b) ops _ _ O1 O2) as B. unfold nb_data in B. rewrite O3 in B.
  rewrite <- (mi_given _ _ _ _ _ D), (sd_sent _ _ _ _ _ _ (mi_sound _ _ _ _ _ D)) in B at 1. specialize (B ltac:(lia)).
  apply (Forall_impl _ (P := fun p => N.of_nat (length p) <= 14 + 2 * N.of_nat (N.to_nat b) + 3 * 256)); [intros p; lia|].
  apply B; [|lia]. apply (Forall_impl _ (P := fun d => N.of_nat (length d) <= b)); [intros d; lia | exact Hd].
Qed.

Definition o_legal (d : list N) : Prop := (0 < length d)%nat /\ N.of_nat (length d) <= 4096 /\ Forall (fun b => b < 256) d.

Lemma oapp_step l w s d : mirror m clk l w s -> o_legal d -> Forall o_legal (o_given s) ->
  N.of_nat (length (given l)) <= 65535 -> StronglySorted le (arrivals l) ->
  exists s' w', oapp m s d = Runs s' /\ mirror m clk (l ++ [Data d]) w' s' /\ o_given s' = o_given s ++ [d].
Proof.
  intros D (L1 & L2 & L3) Lg Hn Hs. pose proof D as D0. destruct D as [H1 H2 H3 H4 H5 H6 H7 H8 H9 H10 H11 (ops & O1 & O2 & O3)].
  assert (Hl : Forall (legal_action W8) (l ++ [Data d])).
  { apply Forall_app. split; [exact H3|]. constructor; [|constructor]. cbn. split; [exact L1|]. split; [lia|]. split; [reflexivity | exact L3]. }
  destruct (sound_step_other m clk W8 true ltac:(discriminate) l w (Data d) H1 Hl Hn) as (w' & E & S').
  { rewrite arrivals_app. cbn. rewrite app_nil_r. exact Hs. }
  { discriminate. }
  pose proof E as E0. cbn [wstep] in E. unfold sender in E. destruct (estep m (w_enc w) (EData d)) as [e r] eqn:Ee.
  destruct (bind_ok _ _ _ E) as (out & Er & Ew).
  assert (Nf : ~ is_fault r) by (intros [x ->]; discriminate).
  destruct (estep_data _ _ _ _ _ Ee Nf) as (out' & -> & _). cbn in Er. injection Er as ->.
  set (s' := {| o_enc := e; o_dec := o_dec s; o_up := o_up s; o_given := o_given s ++ [d];
                o_out := o_out s ++ out; o_acks := o_acks s; o_got := o_got s; o_arrived := o_arrived s |}).
  assert (M : mirror m clk (l ++ [Data d]) w' s').
  { injection Ew as <-. constructor; unfold s'; cbn [w_enc w_dec w_sent w_out w_arrived w_got w_acks o_enc o_dec o_given o_out o_acks o_got o_arrived]; try congruence; try assumption.
    - rewrite wrun_app, H2. cbn [bind wrun]. rewrite E0. reflexivity.
    - intros X. apply in_app_iff in X. destruct X as [X|[X|[]]]; [exact (H4 X)|discriminate].
    - exists (ops ++ [EData d]). split; [|split].
      + apply (reached_snoc m W8 (ESetWindow 256 :: ops) (o_enc s) (o_out s) (EData d) e out O1). rewrite <- H5. exact Ee.
      + apply Forall_app. split; [exact O2|repeat constructor].
      + unfold datas in *. rewrite flat_map_app, O3. reflexivity. }
  exists s', w'. split; [|split; [exact M | reflexivity]].
  assert (Sz : sendable out = true).
  { apply small_sendable. pose proof (mirror_sizes _ _ _ 4096 M) as B. rewrite given_app, app_length in B. cbn [given length] in B.
    specialize (B ltac:(cbn; lia) ltac:(lia)). assert (B' : Forall (fun p => N.of_nat (length p) <= 14 + 2 * 4096 + 768) (o_out s')).
    { apply B. unfold s'. cbn [o_given]. apply Forall_app. split; [|repeat constructor; exact L2].
      apply (Forall_impl _ (P := o_legal)); [intros x (_ & X & _); exact X | exact Lg]. }
    unfold s' in B'. cbn [o_out] in B'. apply Forall_app in B'. apply (Forall_impl _ (P := fun p => N.of_nat (length p) <= 14 + 2 * 4096 + 768)); [intros p; lia | apply B']. }
  unfold oapp. rewrite firstn_all2 by (unfold small_buffer; lia). destruct d as [|x d]; [cbn in L1; lia|].
  rewrite <- H5. cbn [estep] in Ee. destruct (enc_data m (w_enc w) (x :: d)) as [[e1 o1]|y|y]; try discriminate.
  injection Ee as -> ->. rewrite Sz. reflexivity.
Qed.

Lemma got_sizes l w s : mirror m clk l w s -> N.of_nat (length (given l)) <= 65535 -> Forall o_legal (o_given s) ->
  Forall (fun d => N.of_nat (length d) <= 65507) (o_got s).
Proof.
  intros D Hn Lg. pose proof (mirror_lossy _ _ _ D Hn) as Lf. destruct (C29_in_order _ _ _ _ (lossy_normal _ _ _ _ _ Lf)) as (which & _ & Hw & Eg).
  rewrite (mi_got _ _ _ _ _ D) in Eg. rewrite Eg. apply Forall_forall. intros d Hx. apply in_map_iff in Hx. destruct Hx as (i & <- & Hi).
  apply Hw in Hi. unfold datum. rewrite (mi_given _ _ _ _ _ D) in *. rewrite Forall_forall in Lg. destruct (Lg _ (nth_In _ [] Hi)) as (_ & X & _). lia.
Qed.

Lemma oack_read l w s j p : mirror m clk l w s -> nth_error (o_acks s) j = Some p -> N.of_nat (length (given l)) <= 65535 ->
  exists ids nb, p = concat (write_ack {| a_ids := ids; a_nb := nb |}) /\ nb < 65536 /\ id_set ids /\ wire_ok ids
  /\ forall x, In x ids -> kept_id (core_of w) x.
Proof.
  intros D Hp Hn. pose proof (mirror_lossy _ _ _ D Hn) as (R & Fi & L).
  destruct (run_fifo m clk W8 true w w R (extends_refl w) L Fi) as (gs & B & _).
  pose proof (ok_acks _ _ _ _ _ _ B) as K. rewrite (mi_acks _ _ _ _ _ D) in K. rewrite Forall_forall in K.
  exact (K p (nth_error_In _ _ Hp)).
Qed.

(** An ack has at most three bytes per datum, and six. *)
Lemma ack_sizes l w s : mirror m clk l w s -> N.of_nat (length (given l)) <= 65535 ->
  Forall (fun p => N.of_nat (length p) <= 6 + 3 * N.of_nat (length (o_given s))) (o_acks s).
Proof.
  intros D Hn. pose proof (mirror_lossy _ _ _ D Hn) as Lf. apply Forall_forall. intros p Hp. apply In_nth_error in Hp. destruct Hp as [j Hp].
  destruct (oack_read _ _ _ _ _ D Hp Hn) as (ids & nb & -> & _ & [Hs _] & _ & Hk).
  rewrite ack_bytes. cbn [a_ids]. destruct (ids_bytes_bounds ids) as (Bd & _ & _).
  assert (Hi : (length ids <= length (o_given s))%nat).
  { apply sorted_length; [exact Hs|]. intros x Hx. rewrite <- (mi_given _ _ _ _ _ D). eapply kept_below; [exact Lf|]. apply Hk, Hx. }
  lia.
Qed.

Lemma mirror_given l w s : mirror m clk l w s -> o_given s = given l.
Proof. intros D. rewrite <- (mi_given _ _ _ _ _ D). apply (sd_sent _ _ _ _ _ _ (mi_sound _ _ _ _ _ D)). Qed.

(** What the receiver sends is sent, or the ack is too long. *)
Lemma deliver_step l w s d out ks : Forall o_legal (o_given s) -> N.of_nat (length (given l)) <= 65535 ->
  (forall s', o_enc s' = o_enc s -> o_dec s' = d -> o_given s' = o_given s -> o_out s' = o_out s ->
     o_acks s' = o_acks s ++ to_network out -> o_got s' = o_got s ++ to_user out -> o_arrived s' = o_arrived s ++ ks ->
     mirror m clk l w s') ->
  exists s', (mirror m clk l w s' /\ o_given s' = o_given s)
  /\ (deliver s d out ks = Runs s' \/ (21833 < N.of_nat (length (o_given s)) /\ deliver s d out ks = Stops TooLong)).
Proof.
  intros Lg Hn K. set (s' := {| o_enc := o_enc s; o_dec := d; o_up := true; o_given := o_given s; o_out := o_out s;
            o_acks := o_acks s ++ to_network out; o_got := o_got s ++ to_user out; o_arrived := o_arrived s ++ ks |}).
  assert (M : mirror m clk l w s') by (apply K; reflexivity).
  exists s'. split; [split; [exact M | reflexivity]|]. unfold deliver. fold s'.
  assert (Su : sendable (to_user out) = true).
  { apply small_sendable. pose proof (got_sizes _ _ _ M Hn Lg) as B. unfold s' in B. cbn [o_got] in B. apply Forall_app in B. apply B. }
  rewrite Su, andb_true_r. destruct (sendable (to_network out)) eqn:E; [left; reflexivity | right; split; [|reflexivity]].
  pose proof (ack_sizes _ _ _ M Hn) as B. unfold s' in B. cbn [o_acks o_given] in B. apply Forall_app in B. destruct B as [_ B].
  destruct (N.ltb_spec 21833 (N.of_nat (length (o_given s)))) as [X|X]; [exact X|]. exfalso.
  rewrite (small_sendable (to_network out)) in E; [discriminate|].
  revert B. apply Forall_impl. intros p. lia.
Qed.

Lemma opacket_step l w s k p : mirror m clk l w s -> Forall o_legal (o_given s) -> nth_error (o_out s) k = Some p -> N.of_nat (length p) <= 4096 ->
  N.of_nat (length (given l)) <= 65535 -> StronglySorted le (arrivals l ++ [k]) ->
  exists s' w', (mirror m clk (l ++ [Arrive k]) w' s' /\ o_given s' = o_given s)
  /\ (opacket m clk s k p = Runs s' \/ (21833 < N.of_nat (length (o_given s)) /\ opacket m clk s k p = Stops TooLong)).
Proof.
  intros D Lg Hp Hlen Hn Hs. pose proof (mirror_lossy _ _ _ D Hn) as Lf.
  destruct D as [H1 H2 H3 H4 H5 H6 H7 H8 H9 H10 H11 O].
  assert (Hl : Forall (legal_action W8) (l ++ [Arrive k])) by (apply Forall_app; split; [exact H3|repeat constructor]).
  destruct (sound_step_other m clk W8 true ltac:(discriminate) l w (Arrive k) H1 Hl Hn) as (w' & E & S').
  { rewrite arrivals_app. exact Hs. }
  { discriminate. }
  pose proof E as E0. cbn [wstep] in E. rewrite H8, Hp in E. unfold receiver in E. cbn [dstep] in E.
  assert (Hle : forall i, In i (w_arrived w) -> (i <= k)%nat).
  { intros i Hi. apply (sd_arrived _ _ _ _ _ _ H1) in Hi. apply sorted_app_le in Hs. destruct Hs as [_ Hs]. apply Hs; [exact Hi|left; reflexivity]. }
  destruct (C30_fifo_arrival m clk W8 true w Lf k p) as [(d & out & n & Ed) _]; [rewrite H8; exact Hp|exact Hle|].
  rewrite Ed in E. cbn [bind survive] in E. injection E as <-.
  destruct (deliver_step (l ++ [Arrive k]) (match wstep m clk w (Arrive k) with Ok v => v | _ => w end) s d out [k]) as (s' & K1 & K2).
  - exact Lg.
  - rewrite given_app. cbn. rewrite app_nil_r. exact Hn.
  - intros s' E1 E2 E3 E4 E5 E6 E7. rewrite E0. constructor; [exact S'|..]; cbn [w_enc w_dec w_sent w_out w_arrived w_got w_acks]; try eassumption; try congruence.
    + rewrite wrun_app, H2. cbn [bind wrun]. rewrite E0. reflexivity.
    + intros X. apply in_app_iff in X. destruct X as [X|[X|[]]]; [exact (H4 X)|discriminate].
    + rewrite E1, E3, E4. exact O.
  - exists s'. eexists. split; [exact K1|]. unfold opacket. rewrite firstn_all2 by (unfold small_buffer; lia).
    destruct p as [|x p]; [exfalso|].
    + destruct O as (ops & O1 & _). pose proof (h_types _ _ _ _ (history_of_run _ _ _ _ _ O1)) as T. rewrite Forall_forall in T.
      specialize (T [] (nth_error_In _ _ Hp)). destruct T; discriminate.
    + rewrite <- H6, Ed. exact K2.
Qed.

Lemma otick_step l w s : mirror m clk l w s -> Forall o_legal (o_given s) ->
  N.of_nat (length (given l)) <= 65535 -> StronglySorted le (arrivals l) ->
  exists l' s' w', (mirror m clk l' w' s' /\ o_given s' = o_given s) /\ given l' = given l /\ arrivals l' = arrivals l
  /\ (otick s = Runs s' \/ (21833 < N.of_nat (length (o_given s)) /\ otick s = Stops TooLong)).
Proof.
  intros D Lg Hn Hs. unfold otick. destruct (o_up s).
  2:{ exists l, s, w. split; [split; [exact D|reflexivity]|]. split; [reflexivity|]. split; [reflexivity|]. left. reflexivity. }
  destruct D as [H1 H2 H3 H4 H5 H6 H7 H8 H9 H10 H11 O]. exists (l ++ [Ack]).
  assert (Hl : Forall (legal_action W8) (l ++ [Ack])) by (apply Forall_app; split; [exact H3|repeat constructor]).
  destruct (sound_step_other m clk W8 true ltac:(discriminate) l w Ack H1 Hl Hn) as (w' & E & S').
  { rewrite arrivals_app. cbn. rewrite app_nil_r. exact Hs. }
  { discriminate. }
  pose proof E as E0. cbn [wstep] in E. unfold receiver in E. cbn [dstep] in E. rewrite H6 in E.
  destruct (generate_ack (o_dec s)) as [d out]. cbn [bind survive] in E. injection E as <-.
  assert (G : given (l ++ [Ack]) = given l) by (rewrite given_app; cbn; apply app_nil_r).
  destruct (deliver_step (l ++ [Ack]) (match wstep m clk w Ack with Ok v => v | _ => w end) s d out []) as (s' & K1 & K2).
  - exact Lg.
  - rewrite G. exact Hn.
  - intros s' E1 E2 E3 E4 E5 E6 E7. rewrite E0. constructor; [exact S'|..]; cbn [w_enc w_dec w_sent w_out w_arrived w_got w_acks]; try eassumption; try congruence.
    + rewrite wrun_app, H2. cbn [bind wrun]. rewrite E0. reflexivity.
    + intros X. apply in_app_iff in X. destruct X as [X|[X|[]]]; [exact (H4 X)|discriminate].
    + rewrite E1, E3, E4. exact O.
  - exists s'. eexists. split; [exact K1|]. split; [exact G|]. split; [|exact K2]. rewrite arrivals_app. cbn. apply app_nil_r.
Qed.

Lemma oack_step l w s j p stale : mirror m clk l w s -> nth_error (o_acks s) j = Some p -> N.of_nat (length p) <= 4096 ->
  N.of_nat (length (given l)) <= 65535 -> StronglySorted le (arrivals l) ->
  exists s' w', oack m s p stale = Runs s' /\ mirror m clk (l ++ [AckArrive j]) w' s' /\ o_given s' = o_given s.
Proof.
  intros D Hp Hlen Hn Hs. pose proof (oack_read _ _ _ _ _ D Hp Hn) as (ids & nb & Ep & Hnb & Hids & [W1 W2] & _).
  destruct D as [H1 H2 H3 H4 H5 H6 H7 H8 H9 H10 H11 (ops & O1 & O2 & O3)].
  assert (Hl : Forall (legal_action W8) (l ++ [AckArrive j])) by (apply Forall_app; split; [exact H3|repeat constructor]).
  destruct (sound_step_other m clk W8 true ltac:(discriminate) l w (AckArrive j) H1 Hl Hn) as (w' & E & S').
  { rewrite arrivals_app. cbn. rewrite app_nil_r. exact Hs. }
  { discriminate. }
  pose proof E as E0. cbn [wstep] in E. rewrite H9, Hp in E. unfold sender in E. cbn [estep] in E.
  assert (N : exists e n, notify m (w_enc w) p = (e, Ok n)).
  { destruct (notify m (w_enc w) p) as [e r] eqn:En. destruct (bind_ok _ _ _ E) as (out & Eo & _).
    destruct r as [n|x|x]; [eauto| |discriminate]. exfalso.
    destruct (notify_spec _ _ _ _ _ En) as [_ _ _ _ _ _ _ _ _ _ T]; [intros [y Y]; discriminate|]. destruct (T x eq_refl) as (_ & _ & _ & [(y & q & Eq & Ny)|[_ Rd]]).
    - rewrite Ep in Eq. cbn in Eq. injection Eq as <- _. apply Ny. reflexivity.
    - rewrite Ep in Rd. pose proof (C03_ack_roundtrip m {| a_ids := ids; a_nb := nb |} Hnb Hids W1 W2) as Rd'. unfold on_wire in Rd'. congruence. }
  destruct N as (e & n & En). rewrite En in E. cbn [bind survive] in E. injection E as <-.
  exists {| o_enc := e; o_dec := o_dec s; o_up := o_up s; o_given := o_given s; o_out := o_out s;
            o_acks := o_acks s; o_got := o_got s; o_arrived := o_arrived s |}.
  eexists. split; [|split; [|reflexivity]].
  - unfold oack. rewrite firstn_all2 by (unfold small_buffer; lia). destruct p as [|x p]; [subst; discriminate|].
    rewrite <- H5, (C63_sender m (w_enc w) (x :: p) _ e n En). reflexivity.
  - constructor; [exact S'|..]; cbn [w_enc w_dec w_sent w_out w_arrived w_got w_acks o_enc o_dec o_given o_out o_acks o_got o_arrived]; try eassumption; try (rewrite ?app_nil_r; congruence).
    + rewrite wrun_app, H2. cbn [bind wrun]. rewrite E0. reflexivity.
    + intros X. apply in_app_iff in X. destruct X as [X|[X|[]]]; [exact (H4 X)|discriminate].
    + exists (ops ++ [EPacket p]). split; [|split].
      * rewrite <- (app_nil_r (o_out s)). apply (reached_snoc m W8 (ESetWindow 256 :: ops) (o_enc s) (o_out s) (EPacket p) e [] O1).
        rewrite <- H5. cbn [estep]. rewrite En. reflexivity.
      * apply Forall_app. split; [exact O2|repeat constructor].
      * unfold datas in *. rewrite flat_map_app, O3. cbn. apply app_nil_r.
Qed.

Lemma onoop_step l w s k : mirror m clk l w s -> nth_error (o_out s) k = None ->
  N.of_nat (length (given l)) <= 65535 -> StronglySorted le (arrivals l ++ [k]) ->
  mirror m clk (l ++ [Arrive k]) w s.
Proof.
  intros [H1 H2 H3 H4 H5 H6 H7 H8 H9 H10 H11 O] Hk Hn Hs.
  assert (Hl : Forall (legal_action W8) (l ++ [Arrive k])) by (apply Forall_app; split; [exact H3|repeat constructor]).
  destruct (sound_step_other m clk W8 true ltac:(discriminate) l w (Arrive k) H1 Hl Hn) as (w' & E & S').
  { rewrite arrivals_app. exact Hs. }
  { discriminate. }
  pose proof E as E0. cbn [wstep] in E. rewrite H8, Hk in E. injection E as <-.
  constructor; try assumption.
  - rewrite wrun_app, H2. cbn [bind wrun]. rewrite E0. reflexivity.
  - intros X. apply in_app_iff in X. destruct X as [X|[X|[]]]; [exact (H4 X)|discriminate].
Qed.

End Step.

(** ** Runs *)

Definition good (m : mode) (clk : clock) (l : list oaction) (s : oneway) : Prop :=
  exists acts w, mirror m clk acts w s /\ given acts = o_data l /\ arrivals acts = o_arrivals l.

Lemma o_data_snoc l a : o_data (l ++ [a]) = o_data l ++ o_data [a].
Proof. apply flat_map_app. Qed.
Lemma o_arrivals_snoc l a : o_arrivals (l ++ [a]) = o_arrivals l ++ o_arrivals [a].
Proof. apply flat_map_app. Qed.

Lemma o_proper_before l a : o_proper (l ++ [a]) -> o_proper l.
Proof.
  intros (A & B & C). rewrite o_data_snoc in A, B. rewrite o_arrivals_snoc in C. split; [|split].
  - apply Forall_app in A. apply A.
  - rewrite app_length in B. lia.
  - apply sorted_app_le in C. apply C.
Qed.

Lemma good_step m clk l s a : good m clk l s -> o_proper (l ++ [a]) ->
  (exists s', ostep m clk s a = Runs s' /\ good m clk (l ++ [a]) s') \/ o_oversized m clk s a.
Proof.
  intros (acts & w & D & Eg & Ea) Pr. pose proof (o_proper_before _ _ Pr) as (Pd & Pn & Ps). destruct Pr as (Pd' & Pn' & Ps').
  rewrite o_data_snoc in Pd', Pn'. rewrite o_arrivals_snoc in Ps'.
  assert (N1 : N.of_nat (length (given acts)) <= 65535) by (rewrite Eg; exact Pn).
  assert (S1 : StronglySorted le (arrivals acts)) by (rewrite Ea; exact Ps).
  assert (Lg : Forall o_legal (o_given s)) by (rewrite (mirror_given _ _ _ _ _ D), Eg; exact Pd).
  unfold good. rewrite o_data_snoc, o_arrivals_snoc. destruct a as [d| |k|j stale]; cbn [ostep o_data o_arrivals flat_map app] in *; rewrite ?app_nil_r in *.
  - apply Forall_app in Pd'. destruct Pd' as [_ Pd']. inversion Pd' as [|? ? Hd _]; subst.
    destruct (oapp_step m clk acts w s d D Hd Lg N1 S1) as (s' & w' & E & M & _). left. exists s'. split; [exact E|].
    exists (acts ++ [Data d]), w'. split; [exact M|]. rewrite given_app, arrivals_app, Eg, Ea. cbn. rewrite app_nil_r. split; reflexivity.
  - destruct (otick_step m clk acts w s D Lg N1 S1) as (acts' & s' & w' & [M _] & G & A & [E|[X E]]).
    + left. exists s'. split; [exact E|]. exists acts', w'. split; [exact M|]. split; congruence.
    + right. right. split; [exact X|]. split; [exact E|]. left. reflexivity.
  - destruct (nth_error (o_out s) k) as [p|] eqn:Hk.
    + destruct (N.ltb_spec 4096 (N.of_nat (length p))) as [Hp|Hp]; [right; left; exists p; split; [exact Hp|]; left; eauto|].
      destruct (opacket_step m clk acts w s k p D Lg Hk Hp N1) as (s' & w' & [M _] & [E|[X E]]); [rewrite Ea; exact Ps'|..].
      * left. exists s'. split; [exact E|]. exists (acts ++ [Arrive k]), w'. split; [exact M|]. rewrite given_app, arrivals_app, Eg, Ea. cbn. rewrite app_nil_r. split; reflexivity.
      * right. right. split; [exact X|]. cbn [ostep]. rewrite Hk. split; [exact E|]. right. eauto.
    + left. exists s. split; [reflexivity|]. exists (acts ++ [Arrive k]), w. split; [apply onoop_step; try assumption; rewrite Ea; exact Ps'|].
      rewrite given_app, arrivals_app, Eg, Ea. cbn. rewrite app_nil_r. split; reflexivity.
  - destruct (nth_error (o_acks s) j) as [p|] eqn:Hj.
    + destruct (N.ltb_spec 4096 (N.of_nat (length p))) as [Hp|Hp]; [right; left; exists p; split; [exact Hp|]; right; eauto|].
      destruct (oack_step m clk acts w s j p stale D Hj Hp N1 S1) as (s' & w' & E & M & _).
      left. exists s'. split; [exact E|]. exists (acts ++ [AckArrive j]), w'. split; [exact M|]. rewrite given_app, arrivals_app, Eg, Ea. cbn. rewrite !app_nil_r. split; reflexivity.
    + left. exists s. split; [reflexivity|]. exists acts, w. split; [exact D|]. split; assumption.
Qed.

Lemma orun_app m clk l l' : forall s, orun m clk s (l ++ l') = match orun m clk s l with Runs s' => orun m clk s' l' | Stops x => Stops x end.
Proof. induction l as [|a l IH]; intros s; [reflexivity|]. cbn [app orun]. destruct (ostep m clk s a); [apply IH|reflexivity]. Qed.

Lemma oneway_run_snoc m clk l a : oneway_run m clk (l ++ [a]) = match oneway_run m clk l with Runs s => ostep m clk s a | Stops x => Stops x end.
Proof.
  unfold oneway_run. destruct (new_oneway m clk); try reflexivity. rewrite orun_app. destruct (orun m clk a0 l); [|reflexivity].
  cbn [orun]. destruct (ostep m clk a1 a); reflexivity.
Qed.

Lemma good_run m clk l : o_proper l ->
  (exists s, oneway_run m clk l = Runs s /\ good m clk l s)
  \/ exists before a after s, l = before ++ a :: after /\ oneway_run m clk before = Runs s
     /\ o_proper before /\ good m clk before s /\ o_oversized m clk s a.
Proof.
  induction l as [|a l IH] using rev_ind; intros Pr.
  - left. destruct (mirror_start m clk) as (s & w & E & M). exists s. unfold oneway_run. rewrite E. split; [reflexivity|].
    exists o_setup, w. split; [exact M|]. split; reflexivity.
  - destruct (IH (o_proper_before _ _ Pr)) as [(s & E & B)|(x & b & y & s & -> & E & Px & Bx & Ov)].
    + destruct (good_step _ _ _ _ _ B Pr) as [(s' & E' & B')|Ov].
      * left. exists s'. split; [|exact B']. rewrite oneway_run_snoc, E. exact E'.
      * right. exists l, a, [], s. pose proof (o_proper_before _ _ Pr). auto 7.
    + right. exists x, b, (y ++ [a]), s. split; [rewrite <- app_assoc; reflexivity|]. auto 7.
Qed.

Lemma good_faithful m clk l s : o_proper l -> good m clk l s -> o_faithful l s.
Proof.
  intros Pr (acts & w & D & Eg & _).
  assert (N1 : N.of_nat (length (given acts)) <= 65535) by (rewrite Eg; apply Pr).
  pose proof (mirror_lossy _ _ _ _ _ D N1) as Lf.
  destruct (C29_in_order _ _ _ _ (lossy_normal _ _ _ _ _ Lf)) as (which & So & Hw & Ew). exists which.
  assert (Es : w_sent w = o_data l) by (rewrite (mi_given _ _ _ _ _ D), (mirror_given _ _ _ _ _ D); exact Eg).
  rewrite <- (mi_got _ _ _ _ _ D), <- Es. split; [exact So|]. split; [exact Hw|exact Ew].
Qed.

(** ** Theorems *)

(** Both programs run, and the data that arrive are right, as long as nothing is oversized. *)
Theorem C71_oneway :
  forall m clk l, o_proper l ->
  (exists s, oneway_run m clk l = Runs s /\ o_faithful l s)
  \/ exists before a after s, l = before ++ a :: after /\ oneway_run m clk before = Runs s
     /\ o_faithful before s /\ o_oversized m clk s a.
Proof.
  intros m clk l Pr. destruct (good_run m clk l Pr) as [(s & E & B)|(x & a & y & s & -> & E & Px & Bx & Ov)].
  - left. exists s. split; [exact E|]. eapply good_faithful; eassumption.
  - right. exists x, a, y, s. split; [reflexivity|]. split; [exact E|]. split; [|exact Ov]. eapply good_faithful; eassumption.
Qed.
Print Assumptions C71_oneway.

(** Enough to rule that out: data of at most 1657 bytes, at most 1363 of them. *)
Definition o_small (l : list oaction) : Prop :=
  N.of_nat (length (o_data l)) <= 1363 /\ Forall (fun d => N.of_nat (length d) <= 1657) (o_data l).

Lemma good_small m clk before a after s : good m clk before s -> o_small (before ++ a :: after) -> ~ o_oversized m clk s a.
Proof.
  intros (acts & w & D & Eg & _) [S1 S2] Ov. unfold o_data in S1, S2. rewrite flat_map_app in S1, S2. fold o_data in S1, S2.
  rewrite app_length in S1. apply Forall_app in S2. destruct S2 as [S2 _]. change (flat_map _ before) with (o_data before) in S1, S2.
  pose proof (mirror_given _ _ _ _ _ D) as G. rewrite Eg in G.
  destruct Ov as [(p & Hp & [(k & -> & Hk)|(j & stale & -> & Hj)])|[X _]].
  - pose proof (mirror_sizes m clk acts w s 1657 D) as B. rewrite Eg, G in B. specialize (B ltac:(lia) ltac:(lia) S2).
    rewrite Forall_forall in B. specialize (B p (nth_error_In _ _ Hk)). cbn beta in B. lia.
  - pose proof (ack_sizes m clk acts w s D) as B. rewrite Eg, G in B. specialize (B ltac:(lia)).
    rewrite Forall_forall in B. specialize (B p (nth_error_In _ _ Hj)). cbn beta in B. lia.
  - rewrite G in X. lia.
Qed.

Theorem C71_small_data :
  forall m clk l, o_proper l -> o_small l ->
  exists s, oneway_run m clk l = Runs s /\ o_faithful l s.
Proof.
  intros m clk l Pr Sm. destruct (good_run m clk l Pr) as [(s & E & B)|(x & a & y & s & -> & _ & _ & B & Ov)].
  - exists s. split; [exact E|]. eapply good_faithful; eassumption.
  - exfalso. eapply good_small; eassumption.
Qed.
Print Assumptions C71_small_data.

(** All packets arrive, once and in order: all data reach the application, whatever happens to the acks. *)
Theorem C71_lossless :
  forall m clk l s, o_proper l -> o_small l -> oneway_run m clk l = Runs s ->
  o_arrived s = seq 0 (length (o_out s)) -> o_got s = o_data l.
Proof.
  intros m clk l s Pr Sm E Ha. destruct (good_run m clk l Pr) as [(s' & E' & acts & w & D & Eg & _)|(x & a & y & s' & -> & _ & _ & B & Ov)].
  2:{ exfalso. eapply good_small; eassumption. }
  assert (s' = s) by congruence. subst s'.
  assert (N1 : N.of_nat (length (given acts)) <= 65535) by (rewrite Eg; apply Pr).
  destruct (mirror_lossy _ _ _ _ _ D N1) as (_ & _ & L).
  rewrite <- (mi_got _ _ _ _ _ D), <- Eg, <- (mirror_given _ _ _ _ _ D), <- (mi_given _ _ _ _ _ D).
  eapply C42_all_delivered; try eassumption; [apply D|apply D|].
  unfold first_arrived. rewrite (mi_arrived _ _ _ _ _ D), (mi_out _ _ _ _ _ D). exact Ha.
Qed.
Print Assumptions C71_lossless.

(** The receiver is silent until the first packet has arrived; from then on each tick sends exactly one ack. *)
Theorem C71_acks :
  forall m clk l s, oneway_run m clk l = Runs s ->
  (o_arrived s = [] -> o_acks s = [] /\ ostep m clk s OTick = Runs s)
  /\ (o_arrived s <> [] -> forall s', ostep m clk s OTick = Runs s' -> exists ack, o_acks s' = o_acks s ++ [ack]).
Proof.
  intros m clk l s H.
  assert (I : (o_arrived s = [] -> o_up s = false /\ o_acks s = []) /\ (o_arrived s <> [] -> o_up s = true)).
  { unfold oneway_run in H. destruct (new_oneway m clk) as [s0| |] eqn:E0; try discriminate.
    assert (I0 : (o_arrived s0 = [] -> o_up s0 = false /\ o_acks s0 = []) /\ (o_arrived s0 <> [] -> o_up s0 = true)).
    { unfold new_oneway in E0. destruct (set_window_size _ _ _); cbn [bind] in E0; try discriminate.
      destruct (set_ack_nb_packets _ _ _); cbn [bind] in E0; try discriminate. injection E0 as <-. cbn. split; [auto|congruence]. }
    clear E0. revert s0 I0 H. induction l as [|a l IH]; intros s0 I0 H; cbn [orun] in H; [injection H as <-; exact I0|].
    destruct (ostep m clk s0 a) as [s1|] eqn:E1; [|discriminate]. apply (IH s1); [|exact H]. clear IH H.
    assert (Dl : forall d out k s', (k <> [] \/ o_up s0 = true) -> deliver s0 d out k = Runs s' ->
               (o_arrived s' = [] -> o_up s' = false /\ o_acks s' = []) /\ (o_arrived s' <> [] -> o_up s' = true)).
    { intros d out k s' Hk E. unfold deliver in E. destruct (_ && _); [|discriminate]. injection E as <-. cbn [o_arrived o_up o_acks].
      split; [|reflexivity]. intros E. apply app_eq_nil in E. destruct E as [Ea Ek]. destruct Hk as [Hk|Hk]; [congruence|].
      destruct (proj1 I0 Ea). congruence. }
    destruct a as [d| |k|j stale]; cbn [ostep] in E1.
    - unfold oapp in E1. destruct (firstn _ d); [injection E1 as <-; exact I0|].
      destruct (enc_data _ _ _) as [[e out]| |]; try discriminate. destruct (sendable out); [|discriminate]. injection E1 as <-. exact I0.
    - unfold otick in E1. destruct (o_up s0) eqn:U; [|injection E1 as <-; rewrite U; exact I0].
      destruct (generate_ack _) as [d out]. eapply Dl; [right; reflexivity | exact E1].
    - destruct (nth_error _ _) as [p|]; [|injection E1 as <-; exact I0]. unfold opacket in E1. destruct (firstn _ p); [injection E1 as <-; exact I0|].
      destruct (dec_packet _ _ _ _) as [d [[out n']| |]]; try discriminate. eapply (Dl _ _ [k]); [left; discriminate | exact E1].
    - destruct (nth_error _ _) as [p|]; [|injection E1 as <-; exact I0]. unfold oack in E1. destruct (firstn _ p); [injection E1 as <-; exact I0|].
      destruct (notify _ _ _) as [e [x'| |]]; try discriminate. injection E1 as <-. exact I0. }
  destruct I as [I1 I2]. split.
  - intros N. destruct (I1 N) as [U A]. split; [exact A|]. cbn [ostep]. unfold otick. rewrite U. reflexivity.
  - intros N s' E. cbn [ostep] in E. unfold otick in E. rewrite (I2 N) in E. unfold generate_ack, generate_ack_of, deliver in E.
    destruct (_ && _); [|discriminate]. injection E as <-. eexists. reflexivity.
Qed.
Print Assumptions C71_acks.

(** ** The limits are real *)

Lemma sources_written m f ops : forall e out, reached m f ops e out ->
  Forall (fun p => type_of p = 2 -> exists id d, p = concat (write_source {| es_id := id; es_data := d |}) /\ id < 2 ^ 32 /\ In d (datas ops)) out.
Proof.
  induction ops as [|op ops IH] using rev_ind; intros e out R.
  - injection R as <- <-. constructor.
  - destruct (erun_snoc _ _ _ _ _ _ R) as (e1 & o1 & r & R1 & E & Nf & ->). rewrite datas_app. apply Forall_app. split.
    + specialize (IH _ _ R1). revert IH. apply Forall_impl. intros p H T. destruct (H T) as (id & d & A & B & C). exists id, d.
      split; [exact A|]. split; [exact B|]. apply in_app_iff. left. exact C.
    + assert (Hr : forall l p id, EncoderHistory.repair_of m (Encoder.e_field e1) id l p -> type_of p = 2 -> exists id d, p = concat (write_source {| es_id := id; es_data := d |}) /\ id < 2 ^ 32 /\ In d (datas ops ++ datas [op])).
      { intros l p id H T. apply repair_of_type in H. congruence. }
      destruct op as [d|p| |b|k|n0|b].
      * destruct (estep_data _ _ _ _ _ E Nf) as (out & -> & A). cbn [emitted]. destruct (ad_out _ _ _ _ _ A) as (first & rest & -> & A1 & A2 & A3 & A4).
        constructor.
        -- intros T. destruct (e_systematic e1) eqn:Sy; [|eapply Hr; [apply A2; reflexivity|exact T]]. exists (e_source_id e1), d.
           split; [apply A1; reflexivity|]. split; [|apply in_app_iff; right; left; reflexivity].
           rewrite (h_source_id _ _ _ _ (history_of_run _ _ _ _ _ R1)). unfold u32. apply N.mod_lt. discriminate.
        -- destruct (N.eq_dec (u32 (e_source_id e1 + 1) mod e_rate e1) 0) as [Z|Z]; [|rewrite (A4 Z); constructor].
           destruct (A3 Z) as (p & -> & Rp). constructor; [|constructor]. intros T. eapply Hr; eassumption.
      * destruct (estep_packet _ _ _ _ _ E Nf) as (q & _ & _ & _ & ->). constructor.
      * destruct (estep_repair _ _ _ _ E Nf) as (out & -> & G). cbn [emitted].
        apply generate_repair_ok in G. destruct G as (r & w & Er & Ew & -> & _). constructor; [|constructor].
        intros T. eapply Hr; [|exact T]. exists r, w. split; [exact Er|]. split; [exact Ew|reflexivity].
      * destruct (estep_setters _ _ _ _ _ E Nf I) as [-> _]. constructor.
      * destruct (estep_setters _ _ _ _ _ E Nf I) as [-> _]. constructor.
      * destruct (estep_setters _ _ _ _ _ E Nf I) as [-> _]. constructor.
      * destruct (estep_setters _ _ _ _ _ E Nf I) as [-> _]. constructor.
Qed.

Lemma sender_reached m clk l s : oneway_run m clk l = Runs s ->
  exists ops, reached m W8 ops (o_enc s) (o_out s) /\ Forall (fun d => (length d <= small_buffer)%nat) (datas ops).
Proof.
  revert s. induction l as [|a l IH] using rev_ind; intros s E.
  - destruct (mirror_start m clk) as (s0 & w & E0 & M). unfold oneway_run in E. rewrite E0 in E. injection E as <-.
    destruct m; cbn in E0; injection E0 as <-; (exists [ESetWindow 256; ESetAdaptive true]; split; [reflexivity|constructor]).
  - rewrite oneway_run_snoc in E. destruct (oneway_run m clk l) as [s0|x]; [|discriminate]. destruct (IH s0 eq_refl) as (ops & R & Q).
    assert (De : forall d out ks, deliver s0 d out ks = Runs s -> exists ops, reached m W8 ops (o_enc s) (o_out s) /\ Forall (fun d => (length d <= small_buffer)%nat) (datas ops)).
    { intros d out ks X. unfold deliver in X. destruct (sendable _ && sendable _); [|discriminate]. injection X as <-. eauto. }
    assert (Sa : Runs s0 = Runs s -> exists ops, reached m W8 ops (o_enc s) (o_out s) /\ Forall (fun d => (length d <= small_buffer)%nat) (datas ops)) by (intros X; injection X as <-; eauto).
    destruct a as [d| |k|j stale]; cbn [ostep] in E.
    + unfold oapp in E. destruct (firstn small_buffer d) as [|y c] eqn:Ec; [auto|].
      destruct (enc_data m (o_enc s0) (y :: c)) as [[e out]| |] eqn:Ee; try discriminate. destruct (sendable out); [|discriminate]. injection E as <-.
      exists (ops ++ [EData (y :: c)]). cbn [o_enc o_out]. split; [eapply reached_snoc; [exact R|]; cbn [estep]; rewrite Ee; reflexivity|].
      rewrite datas_app. apply Forall_app. split; [exact Q|]. constructor; [|constructor]. rewrite <- Ec. apply firstn_le_length.
    + unfold otick in E. destruct (o_up s0); [|auto]. destruct (generate_ack (o_dec s0)) as [d out]. eauto.
    + destruct (nth_error (o_out s0) k) as [p|]; [|auto]. unfold opacket in E. destruct (firstn small_buffer p) as [|y c]; [auto|].
      destruct (dec_packet m clk (o_dec s0) _) as [d [[out n]| |]]; try discriminate. eauto.
    + destruct (nth_error (o_acks s0) j) as [p|]; [|auto]. unfold oack in E. destruct (firstn small_buffer p) as [|y c]; [auto|].
      destruct (notify m (o_enc s0) _) as [e [n| |]] eqn:En; try discriminate. injection E as <-.
      match type of En with notify _ _ ?q = _ => exists (ops ++ [EPacket q]) end. cbn [o_enc o_out]. split.
      * rewrite <- (app_nil_r (o_out s0)). eapply reached_snoc; [exact R|]. cbn [estep]. rewrite En. reflexivity.
      * rewrite datas_app. cbn. rewrite app_nil_r. exact Q.
Qed.

(** A source packet of more than 4096 bytes ends the receiver when it arrives, in any run whatever. *)
Theorem C71_long_source_ends :
  forall m clk l s k p, oneway_run m clk l = Runs s ->
  nth_error (o_out s) k = Some p -> get_packet_type p = Ok TSource -> 4096 < N.of_nat (length p) ->
  ostep m clk s (ODatagram k) = Stops (Uncaught OverflowError).
Proof.
  intros m clk l s k p E Hk Ty Hp. destruct (sender_reached _ _ _ _ E) as (ops & R & Q).
  pose proof (sources_written _ _ _ _ _ R) as W. rewrite Forall_forall in W. 
  destruct (W p (nth_error_In _ _ Hk) (type_2 p Ty)) as (id & data & Ep & Hid & Hd).
  rewrite Forall_forall in Q. specialize (Q data Hd). unfold small_buffer in Q.
  assert (Lp : length p = (7 + length data)%nat) by (rewrite Ep; apply source_bytes).
  destruct (PropsProxy.C68_long_refuted m clk (o_dec s) id data Hid ltac:(lia)) as [d' Ed].
  cbn [ostep]. rewrite Hk. unfold opacket. change (firstn small_buffer p) with (PropsProxy.cut p). rewrite Ep.
  change (concat (write_source {| es_id := id; es_data := data |})) with (on_wire (write_source {| es_id := id; es_data := data |})) in *.
  destruct (PropsProxy.cut _) as [|x c] eqn:Ec.
  - exfalso. rewrite <- Ep in Ec. apply (f_equal (@length N)) in Ec. unfold PropsProxy.cut in Ec. rewrite firstn_length in Ec. cbn [length] in Ec. lia.
  - rewrite Ed. reflexivity.
Qed.
Print Assumptions C71_long_source_ends.

(** So a datagram of more than 4089 bytes, once it arrives, ends the receiver. *)
Theorem C71_any_length_refuted :
  forall m clk d, 4089 < N.of_nat (length d) ->
  (exists s, oneway_run m clk [OApp d] = Runs s)
  /\ oneway_run m clk [OApp d; ODatagram 0] = Stops (Uncaught OverflowError).
Proof.
  intros m clk d Hd.
  set (e := set_adaptive (match set_window_size m (new_encoder W8) 256 with Ok e => e | _ => new_encoder W8 end) true).
  assert (X : exists s0, new_oneway m clk = Ok s0 /\ o_enc s0 = e /\ o_out s0 = []) by (unfold e; destruct m; eexists; split; try reflexivity; split; reflexivity).
  destruct X as (s0 & E0 & Ee & Eo).
  set (c := firstn small_buffer d). assert (Lc : (4089 < N.of_nat (length c) <= 4096)) by (unfold c, small_buffer; rewrite firstn_length; lia).
  destruct (enc_data_total m e c) as (e1 & o1 & E1).
  { unfold e. destruct m; (split; [lia|]; split; [lia|reflexivity]). }
  { unfold e. destruct m; constructor. }
  { unfold e. destruct m; discriminate. }
  { unfold e. destruct m; discriminate. }
  pose proof (enc_data_spec _ _ _ _ _ E1) as A. destruct (ad_out _ _ _ _ _ A) as (first & rest & Eq & Hsys & _ & _ & H1).
  assert (Sy : e_systematic e = true /\ e_source_id e = 0 /\ e_rate e = 5) by (unfold e; destruct m; repeat split).
  destruct Sy as (Sy & Si & Ra). specialize (Hsys Sy). rewrite Si in Hsys. rewrite Si, Ra in H1. specialize (H1 ltac:(discriminate)). subst first rest o1.
  set (p := concat (write_source {| es_id := 0; es_data := c |})) in *.
  assert (Lp : length p = (7 + length c)%nat) by apply source_bytes.
  assert (Hs : sendable [p] = true) by (cbn [sendable forallb]; rewrite andb_true_r; apply N.leb_le; lia).
  assert (Ea : exists s1, oapp m s0 d = Runs s1 /\ o_out s1 = [p]).
  { unfold oapp. fold c. clearbody p c. destruct c as [|x c]; [cbn in Lc; lia|]. rewrite Ee, E1. match goal with |- context [sendable ?x] => replace (sendable x) with true by (symmetry; exact Hs) end. eexists. split; [reflexivity|]. cbn [o_out]. rewrite Eo. reflexivity. }
  destruct Ea as (s1 & Ea & Op).
  assert (R1 : oneway_run m clk [OApp d] = Runs s1) by (unfold oneway_run; rewrite E0; cbn [orun ostep]; rewrite Ea; reflexivity).
  split; [eauto|]. change [OApp d; ODatagram 0] with ([OApp d] ++ [ODatagram 0]). rewrite oneway_run_snoc, R1.
  eapply C71_long_source_ends; [exact R1|rewrite Op; reflexivity|reflexivity|lia].
Qed.
Print Assumptions C71_any_length_refuted.

(** ** Example *)

(** Five data; the third source is lost and comes back by the repair; an ack arrives before bytes of
    an earlier packet, twice. *)
Definition C71_events : list oaction :=
  [OTick; OApp [1; 2]; OApp [3]; ODatagram 0; OApp [4; 5; 6]; ODatagram 1; OTick; OAck 0 [7; 7; 7; 7; 7; 7; 7; 7; 7; 7; 7; 7; 7; 7; 7; 7];
   OApp [7]; OApp [8; 9]; OAck 0 []; ODatagram 3; ODatagram 4; ODatagram 5].

Example C71_case : o_proper C71_events /\ o_small C71_events
  /\ exists s, oneway_run Debug still C71_events = Runs s /\ o_got s = [[1; 2]; [3]; [4; 5; 6]; [7]; [8; 9]]
     /\ e_sources (o_enc s) <> [].
Proof.
  assert (P : o_proper C71_events).
  { split; [|split].
    - repeat constructor; cbn; try lia.
    - cbn. lia.
    - repeat constructor; cbn; lia. }
  assert (Q : o_small C71_events) by (split; [cbn; lia | repeat constructor; cbn; lia]).
  split; [exact P|]. split; [exact Q|].
  eexists. split; [vm_compute; reflexivity|]. split; [vm_compute; reflexivity | discriminate].
Qed.

(** The tick before the first packet sends nothing, the other one an ack. *)
Example C71_acks_case :
  (exists s, oneway_run Debug still (firstn 3 C71_events) = Runs s /\ o_arrived s = [] /\ o_out s <> [])
  /\ exists s, oneway_run Debug still (firstn 7 C71_events) = Runs s /\ o_arrived s = [0; 1]%nat /\ length (o_acks s) = 1%nat.
Proof. split; eexists; (split; [vm_compute; reflexivity|]); split; try (vm_compute; reflexivity). discriminate. Qed.
