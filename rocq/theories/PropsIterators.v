(** * C78: no iterator and no pointer that the receiver keeps ever dangles

    Everywhere else a kept iterator is the key of its element. Here elements are objects with addresses. *)
From Coq Require Import ZArith NArith Arith List Bool Lia Sorted.
From Verif Require Import Outcome GF Containers ContainersFacts Packetizer PacketizerFacts PropsPacketizer Matrix
  Encoder DetailDecoder DecoderFacts Decoder PropsDecoder PropsModes System SystemRun PropsSystem Iterators IteratorsFacts.
From Verif Require PropsFifo.
Import ListNotations.
Open Scope N_scope.
Open Scope outcome_scope.

(** ** The receiver of packets, with addresses (decoder.hh 118-159, as [core_packet]) *)

Definition node_packet (strict : bool) (m : mode) (n : ndec) (p : packet) : outcome ndec :=
  t <- (_ <- assert_ m (Nat.ltb 0 (length p)) ;; get_packet_type p) ;;
  match t with
  | TRepair => '(r, _) <- read_repair m p ;; nrecv_repair strict m n r
  | TSource => '(s, _) <- read_source m p ;; nrecv_source m n (ds_id s) (ds_data s)
  | TAck => Throw PacketTypeError
  end.

Fixpoint node_run (strict : bool) (m : mode) (n : ndec) (ps : list packet) : outcome ndec :=
  match ps with
  | [] => Ok n
  | p :: l =>
      match node_packet strict m n p with
      | Ok n' => node_run strict m n' l
      | Throw _ => node_run strict m n l
      | Fault x => Fault x
      end
  end.

(** ** Vocabulary *)

(** Everything that the receiver keeps by address exists and is the right object:
    a repair linked to a missing source encodes this source, a pointer waiting
    under an identifier points to the source with this identifier. No two objects share an address. *)
Record alive (n : ndec) : Prop := {
  al_links : forall id q links p, In (id, (q, links)) (n_missing n) -> In p links ->
    exists r rep, In (r, (p, rep)) (n_repairs n) /\ In id (dr_ids rep);
  al_once : forall id q links, In (id, (q, links)) (n_missing n) -> NoDup links;
  al_waiting : forall id p, In (id, p) (n_ordered n) -> exists data, In (id, (p, data)) (n_sources n);
  al_repairs : forall r r' p rep rep', In (r, (p, rep)) (n_repairs n) -> In (r', (p, rep')) (n_repairs n) -> r = r' /\ rep = rep';
  al_sources : forall x x' p data data', In (x, (p, data)) (n_sources n) -> In (x', (p, data')) (n_sources n) -> x = x' /\ data = data'
}.

(** The name of the repair at an address. *)
Definition named (n : ndec) (p : N) : N := match node_at p (n_repairs n) with Some (r, _) => r | None => 0 end.

(** The same receiver, each address replaced by the key of its object. *)
Definition keyed (n : ndec) : ddec := {|
  d_field := n_field n; d_in_order := n_in_order n; d_first := n_first n; d_ordered := mkeys (n_ordered n);
  d_repairs := plain (n_repairs n); d_sources := plain (n_sources n); d_last := n_last n;
  d_missing := map (fun '(id, (_, links)) => (id, map (named n) links)) (n_missing n);
  d_useless := n_useless n; d_failed := n_failed n; d_decoded := n_decoded n; d_log := n_log n |}.

Lemma points_named n l l' : Forall2 (points (n_repairs n)) l l' -> map (named n) l = l'.
Proof.
  induction 1 as [|p r l l' [rep H] _ IH]; [reflexivity|]. cbn [map]. f_equal; [|exact IH]. unfold named. rewrite H. reflexivity.
Qed.

Lemma same_keyed n d : same n d -> d = keyed n.
Proof.
  intros S. destruct d as [f o fi od rp sr la mi us fa de lg]. unfold keyed.
  pose proof (s_graph _ _ S) as G. pose proof (s_shelf _ _ S) as H. pose proof S as S'.
  destruct S' as [A1 A2 A3 A4 A5 A6 A7 A8 _ _ _]. cbn [d_field d_in_order d_first d_last d_useless d_failed d_decoded d_log] in *.
  fields_in G. fields_in H.
  assert (M : map (fun '(id, (_, links)) => (id, map (named n) links)) (n_missing n) = mi).
  { pose proof (g_links _ _ _ _ _ G) as L. clear - L. induction L as [|[x [q l]] [x' l'] M M' [E1 E2] L IH]; [reflexivity|].
    cbn [map fst snd] in *. subst x'. rewrite (points_named _ _ _ E2), IH. reflexivity. }
  rewrite M, (g_plain _ _ _ _ _ G), (h_plain _ _ _ _ _ H), (h_keys _ _ _ _ _ H). congruence.
Qed.

Lemma same_alive n d : same n d -> alive n.
Proof.
  intros S. pose proof (s_graph _ _ S) as G. pose proof (s_shelf _ _ S) as H.
  destruct (graph_sorted _ _ _ _ _ G) as [_ Ms].
  assert (L : forall id q links, In (id, (q, links)) (n_missing n) -> exists l', mfind id (d_missing d) = Some l' /\ Forall2 (points (n_repairs n)) links l').
  { intros id q links Hi. pose proof (rel_find _ _ _ id (g_links _ _ _ _ _ G)) as F. apply in_mfind in Hi; [|exact Ms]. rewrite Hi in F.
    destruct (mfind id (d_missing d)) as [l'|]; [eauto | contradiction]. }
  assert (U : forall V (l : nodes V) x x' p v v', NoDup (addrs l) -> In (x, (p, v)) l -> In (x', (p, v')) l -> x = x' /\ v = v').
  { intros V l x x' p v v' Hu A B. apply node_of in A; [|exact Hu]. apply node_of in B; [|exact Hu]. rewrite A in B.
    split; congruence. }
  constructor.
  - intros id q links p Hi Hp. destruct (L _ _ _ Hi) as (l' & E & F).
    assert (X : exists r, In r l' /\ points (n_repairs n) p r).
    { clear - F Hp. induction F as [|a b l l' P F IH]; [destruct Hp|]. destruct Hp as [->|Hp].
      - exists b. split; [left; reflexivity | exact P].
      - destruct (IH Hp) as (r & A & B). exists r. split; [right; exact A | exact B]. }
    destruct X as (r & Hr & rep & E1). exists r, rep. split; [apply node_in, E1|].
    destruct (g_linked _ _ _ _ _ G id l' r E Hr) as (rep' & A & B).
    rewrite (graph_repair _ _ _ _ _ _ _ _ G E1) in A. congruence.
  - intros id q links Hi. destruct (L _ _ _ Hi) as (l' & E & F). pose proof (ssorted_NoDup _ (g_ls _ _ _ _ _ G id l' E)) as Hn.
    clear - F Hn. induction F as [|a b l l' [rep P] F IH]; [constructor|]. inversion Hn as [|? ? Hb Hn']; subst.
    constructor; [|apply IH, Hn']. intros Ha. apply Hb.
    clear - F Ha P. induction F as [|c e l l' [rep' Q] F IH]; [destruct Ha|]. destruct Ha as [->|Ha].
    + left. congruence.
    + right. apply IH, Ha.
  - intros id p Hi. destruct (h_ptrs _ _ _ _ _ H id p Hi) as [v Hv]. exists v. apply node_in, Hv.
  - intros r r' p rep rep'. apply U, G.
  - intros x x' p v v'. apply U, H.
Qed.

(** ** The theorems *)

Lemma node_packet_sim m n d p : same n d -> sim same (node_packet false m n p) (core_packet m d p).
Proof.
  intros S. unfold node_packet, core_packet. apply sim_same. intros t _. destruct t; [reflexivity | |].
  - apply sim_same. intros [r k] E. apply recv_repair_sim; [exact S|].
    destruct (proj2 (C08_parsed_ids m p) r k E) as [Hs _]. exact Hs.
  - apply sim_same. intros [s k] E. apply recv_source_sim, S.
Qed.

Lemma node_run_sim m ps : forall n d, same n d -> sim same (node_run false m n ps) (core_run m d ps).
Proof.
  induction ps as [|p ps IH]; intros n d S; [exact S|]. cbn [node_run core_run].
  pose proof (node_packet_sim m n d p S) as X.
  destruct (node_packet false m n p) as [n1|e|e], (core_packet m d p) as [d1|e'|e']; cbn [sim] in X; try contradiction.
  - apply IH, X.
  - apply IH, S.
  - exact X.
Qed.

(** For any packets (any bytes, from anywhere), in both builds: the receiver
    with addresses ends as the one with keys does, with the same fault if there is one; whenever it does
    not end by a fault, it holds the same and has delivered the same, and everything that it keeps by address is alive. *)
Theorem C78_identities :
  forall m f o ps,
  match node_run false m (new_ndec f o) ps, core_run m (new_ddec f o) ps with
  | Ok n, Ok d => d = keyed n /\ alive n
  | Fault x, Fault y => x = y
  | _, _ => False
  end.
Proof.
  intros m f o ps. pose proof (node_run_sim m ps _ _ (same_new f o)) as H.
  assert (T : forall ps d x, core_run m d ps <> Throw x).
  { clear. induction ps as [|p ps IH]; intros d x; cbn [core_run]; [discriminate|].
    destruct (core_packet m d p); [apply IH | apply IH | discriminate]. }
  specialize (T ps (new_ddec f o)).
  destruct (node_run _ _ _ _) as [n|x|x], (core_run _ _ _) as [d|y|y]; cbn [sim] in H; try contradiction; try exact H.
  - split; [apply same_keyed, H | eapply same_alive, H].
  - exact (T _ eq_refl).
Qed.
Print Assumptions C78_identities.

(** The same for the receiver with its acks, its clock and its settings. *)
Theorem C78_receiver :
  forall m clk f o ops, Forall legal_setting ops ->
  match drun m clk (new_dec clk f o) ops with
  | Ok (d, out) => exists n, node_run false m (new_ndec f o) (packets ops) = Ok n /\ dc_core d = keyed n /\ alive n
      /\ to_user out = map v_data (n_log n)
  | Throw _ => False
  | Fault x => node_run false m (new_ndec f o) (packets ops) = Fault x
  end.
Proof.
  intros m clk f o ops L. pose proof (drun_core m clk ops L (new_dec clk f o)) as H. pose proof (C78_identities m f o (packets ops)) as I.
  change (dc_core (new_dec clk f o)) with (new_ddec f o) in H.
  destruct (core_run m (new_ddec f o) (packets ops)) as [c|x|x]; [|contradiction|].
  - destruct H as (d & out & new & -> & E & G & U). destruct (node_run _ _ _ _) as [n|x|x]; try contradiction.
    destruct I as [-> A]. exists n. split; [reflexivity|]. split; [exact E|]. split; [exact A|].
    change (d_log (dc_core (new_dec clk f o))) with (d_log (new_ddec f o)) in G; unfold new_ddec in G; cbn [d_log] in G; cbn [app] in G. rewrite U, <- G. reflexivity.
  - rewrite H. destruct (node_run _ _ _ _) as [n|y|y]; try contradiction. congruence.
Qed.
Print Assumptions C78_receiver.

Lemma other_calls m clk d op d' r : dstep m clk d op = (d', r) -> (forall p, op <> DPacket p) -> dc_core d' = dc_core d.
Proof.
  intros H N. destruct op as [p| | |t|n]; [destruct (N p eq_refl)| | | |]; cbn [dstep] in H.
  - injection H as <- _. reflexivity.
  - unfold maybe_ack, maybe_ack_of, generate_ack_of in H.
    destruct (_ <=? _); [|destruct (_ =? _)%Z; [|destruct (_ <=? _)%Z]]; injection H as <- _; reflexivity.
  - injection H as <- _. reflexivity.
  - unfold set_ack_nb_packets in H. destruct (assert_ m (0 <? n)); cbn [bind finish] in H; injection H as <- _; reflexivity.
Qed.

Lemma core_run_snoc m ps : forall d d1 p, core_run m d ps = Ok d1 ->
  core_run m d (ps ++ [p]) = match core_packet m d1 p with Ok d2 => Ok d2 | Throw _ => Ok d1 | Fault x => Fault x end.
Proof.
  induction ps as [|q ps IH]; intros d d1 p H; cbn [core_run app] in *.
  - assert (d1 = d) by congruence. subst d1. destruct (core_packet m d p); reflexivity.
  - destruct (core_packet m d q); [apply IH, H | apply IH, H | discriminate].
Qed.

(** In the closed system the receiver that got the packets that arrived is alive, whatever was lost,
    repeated or reordered, as long as no call ended by a fault. *)
Theorem C78_system :
  forall m clk f o w, reach m clk f o w ->
  exists ps n, Forall2 (fun k p => nth_error (w_out w) k = Some p) (w_arrived w) ps
  /\ node_run false m (new_ndec f o) ps = Ok n /\ dc_core (w_dec w) = keyed n /\ alive n.
Proof.
  intros m clk f o w R.
  assert (X : exists ps, Forall2 (fun k p => nth_error (w_out w) k = Some p) (w_arrived w) ps /\ core_run m (new_ddec f o) ps = Ok (dc_core (w_dec w))).
  { revert w R. apply (reach_ind m clk f o (fun w => exists ps, Forall2 (fun k p => nth_error (w_out w) k = Some p) (w_arrived w) ps
      /\ core_run m (new_ddec f o) ps = Ok (dc_core (w_dec w)))).
    - exists []. split; [constructor | reflexivity].
    - intros w a w' _ (ps & F & E) H. pose proof (wstep_extends _ _ _ _ _ H) as Ex. destruct (x_out _ _ Ex) as [l El].
      assert (F' : Forall2 (fun k p => nth_error (w_out w') k = Some p) (w_arrived w) ps).
      { clear - F El. induction F as [|k p ks ps Hk F IH]; constructor; [|exact IH]. rewrite El, nth_error_app1; [exact Hk|].
        apply nth_error_Some. congruence. }
      assert (Snd : forall op data, sender m w op data = Ok w' -> exists ps, Forall2 (fun k p => nth_error (w_out w') k = Some p) (w_arrived w') ps
        /\ core_run m (new_ddec f o) ps = Ok (dc_core (w_dec w'))).
      { intros op data Hs. apply sender_extends in Hs. destruct Hs as (_ & _ & A & _ & _ & B). exists ps. rewrite A, B. auto. }
      assert (Rcv : forall op, receiver m clk w op [] = Ok w' -> (forall p, op <> DPacket p) ->
        exists ps, Forall2 (fun k p => nth_error (w_out w') k = Some p) (w_arrived w') ps
        /\ core_run m (new_ddec f o) ps = Ok (dc_core (w_dec w'))).
      { intros op Hs Hn. exists ps. pose proof (receiver_extends _ _ _ _ _ _ Hs) as (_ & _ & _ & A & _). rewrite A, app_nil_r.
        split; [exact F'|]. rewrite E. f_equal. unfold receiver in Hs. destruct (dstep m clk (w_dec w) op) as [d r] eqn:Ed.
        apply bind_ok in Hs. destruct Hs as (out & _ & Hs). injection Hs as <-. cbn [w_dec]. symmetry. eapply other_calls; eassumption. }
      destruct a; cbn [wstep] in H; try (eapply Snd; exact H); try (eapply Rcv; [exact H | discriminate]).
      + destruct (nth_error (w_out w) k) as [p|] eqn:Ek.
        * exists (ps ++ [p]). pose proof (receiver_extends _ _ _ _ _ _ H) as (_ & _ & B & A & _). rewrite A. split.
          -- apply Forall2_app; [exact F'|]. constructor; [|constructor]. rewrite B. exact Ek.
          -- rewrite (core_run_snoc _ _ _ _ p E). unfold receiver in H. destruct (dstep m clk (w_dec w) (DPacket p)) as [d r] eqn:Ed.
             cbn [dstep] in Ed. pose proof (dec_packet_core m clk (w_dec w) p) as X.
             destruct (core_packet m (dc_core (w_dec w)) p) as [c|x|x].
             ++ destruct X as (d1 & out & n & new & X & Xc & _). rewrite X in Ed. injection Ed as <- <-. cbn [bind survive] in H.
                injection H as <-. cbn [w_dec]. congruence.
             ++ destruct X as (d1 & X & Xc). rewrite X in Ed. injection Ed as <- <-. cbn [bind survive] in H.
                injection H as <-. cbn [w_dec]. congruence.
             ++ destruct X as (d1 & X). rewrite X in Ed. injection Ed as <- <-. discriminate H.
        * injection H as <-. eauto.
      + destruct (nth_error (w_acks w) j) as [p|] eqn:Ek; [eapply Snd; exact H|]. injection H as <-. eauto. }
  destruct X as (ps & F & E). pose proof (C78_identities m f o ps) as I. rewrite E in I.
  destruct (node_run _ _ _ _) as [n|x|x] eqn:En; try contradiction. exists ps, n. destruct I as [I A]. auto.
Qed.
Print Assumptions C78_system.

(** Over a channel that loses and repeats but does not reorder, the next packet is
    processed without any fault. *)
Theorem C78_fifo :
  forall m clk f o w, PropsFifo.lossy_fifo m clk f o w ->
  exists ps n, Forall2 (fun k p => nth_error (w_out w) k = Some p) (w_arrived w) ps
  /\ node_run false m (new_ndec f o) ps = Ok n /\ alive n
  /\ forall k p, nth_error (w_out w) k = Some p -> (forall i, In i (w_arrived w) -> (i <= k)%nat) ->
     exists n', node_packet false m n p = Ok n' /\ alive n'.
Proof.
  intros m clk f o w L. destruct (C78_system m clk f o w (proj1 L)) as (ps & n & F & R & E & A).
  exists ps, n. split; [exact F|]. split; [exact R|]. split; [exact A|]. intros k p Hk Hle.
  destruct (PropsFifo.C30_fifo_arrival m clk f o w L k p Hk Hle) as [(d & out & j & Hd) _].
  pose proof (dec_packet_core m clk (w_dec w) p) as X.
  destruct (core_packet m (dc_core (w_dec w)) p) as [c|x|x] eqn:Ec.
  - pose proof (node_run_sim m ps _ _ (same_new f o)) as Sm. rewrite R in Sm.
    destruct (core_run m (new_ddec f o) ps) as [d0| |]; try contradiction. cbn [sim] in Sm.
    pose proof (same_keyed _ _ Sm) as Ek. rewrite <- E in Ek. subst d0.
    pose proof (node_packet_sim m _ _ p Sm) as Y. rewrite Ec in Y. destruct (node_packet false m n p) as [n'| |]; try contradiction.
    exists n'. split; [reflexivity | eapply same_alive, Y].
  - destruct X as (d' & X & _). congruence.
  - destruct X as (d' & X). congruence.
Qed.
Print Assumptions C78_fifo.

(** Three data, the first two lost, and a repair for them: the two missing sources hold the iterator of this repair,
    the third datum waits behind its pointer. *)
Definition two_lost : list action := [Data (sample 0); Data (sample 1); Data (sample 2); Repair; Arrive 2; Arrive 3].

Definition arrived_packets (w : world) : list packet := map (fun k => nth k (w_out w) []) (w_arrived w).

Example C78_case :
  let w := ending Debug W8 true two_lost in
  PropsFifo.lossy_fifo Debug PropsSystem.still W8 true w
  /\ match node_run false Debug (new_ndec W8 true) (arrived_packets w) with
     | Ok n => n_missing n = [(0, (3, [1])); (1, (2, [1]))] /\ n_ordered n = [(2, 0)]
               /\ map (fun '(r, (p, rep)) => (r, p, dr_ids rep)) (n_repairs n) = [(0, 1, [0; 1])]
               /\ map (fun '(x, (p, _)) => (x, p)) (n_sources n) = [(2, 0)]
     | _ => False
     end.
Proof.
  split.
  - apply PropsFifo.run_lossy with two_lost; [discriminate | |]; vm_compute; reflexivity.
  - vm_compute. repeat split.
Qed.

(** ** The documented rule of flat_set *)

(** By its documentation [flat_set::erase] invalidates the iterators at and behind the erased element,
    and lines 102-127 of decoder.cc go on with such a reverse iterator. With this rule ([strict]) nothing changes
    for a repair that encodes no source that the receiver has. *)

Lemma link_strict m p : forall i n r rep, node_at p (n_repairs n) = Some (r, rep) ->
  (forall id, In id (firstn i (dr_ids rep)) -> mfind id (n_sources n) = None) ->
  nlink_repair true m i p n = nlink_repair false m i p n.
Proof.
  induction i as [|i IH]; intros n r rep E H; [reflexivity|]. cbn [nlink_repair]. rewrite (deref_some _ _ _ E). cbn [bind].
  destruct (nth_error (dr_ids rep) i) as [id|] eqn:En; [|reflexivity]. rewrite (firstn_nth _ _ _ En) in H.
  unfold find_node. rewrite (H id) by (apply in_or_app; right; left; reflexivity).
  assert (H' : forall x, In x (firstn i (dr_ids rep)) -> mfind x (n_sources n) = None) by (intros x Hx; apply H, in_or_app; left; exact Hx).
  destruct (mfind id (n_missing n)) as [[q links]|].
  - destruct (links_emplace (n_repairs n) p links) as [l| |]; cbn [bind]; try reflexivity. apply (IH _ r rep); assumption.
  - apply (IH _ r rep); assumption.
Qed.

Lemma flush_loop_sources m l : forall n n', nflush_loop m l n = Ok n' -> n_sources n' = n_sources n.
Proof.
  induction l as [|[x p] l IH]; intros n n' H; cbn [nflush_loop] in H; [injection H as <-; reflexivity|].
  apply bind_ok in H. destruct H as (u & _ & H). apply bind_ok in H. destruct H as (n1 & E & H).
  unfold ncallback_at in E. apply bind_ok in E. destruct E as ([y data] & _ & E). injection E as <-.
  destruct l as [|[x' p'] l']; [injection H as <-; reflexivity|]. destruct (_ <? _); [injection H as <-; reflexivity|].
  apply IH in H. rewrite H. reflexivity.
Qed.

Lemma deliver_outdated_sources l : forall n n', ndeliver_outdated l n = Ok n' -> n_sources n' = n_sources n.
Proof.
  induction l as [|[x p] l IH]; intros n n' H; cbn [ndeliver_outdated] in H; [injection H as <-; reflexivity|].
  apply bind_ok in H. destruct H as (n1 & E & H).
  unfold ncallback_at in E. apply bind_ok in E. destruct E as ([y data] & _ & E). injection E as <-.
  apply IH in H. rewrite H. reflexivity.
Qed.

Lemma drop_repairs_sources m id fuel : forall it n n', ndrop_repairs m id fuel it n = Ok n' -> n_sources n' = n_sources n.
Proof.
  induction fuel as [|fuel IH]; intros it n n' H; destruct it as [p|]; cbn [ndrop_repairs] in H; try discriminate; try (injection H as <-; reflexivity).
  apply bind_ok in H. destruct H as ([r rep] & _ & H). apply bind_ok in H. destruct H as (u & _ & H).
  destruct (dr_ids rep) as [|first ids]; [discriminate|]. destruct (first <? id); [|apply IH in H; exact H].
  apply bind_ok in H. destruct H as (M & _ & H). apply IH in H. exact H.
Qed.

Lemma drop_outdated_sources m n id n' : ndrop_outdated m n id = Ok n' -> n_sources n' = mfrom id (n_sources n).
Proof.
  unfold ndrop_outdated. intros H. apply bind_ok in H. destruct H as (n1 & E1 & H). apply bind_ok in H. destruct H as (n2 & E2 & H).
  injection H as <-. cbn [n_sources set_missing set_sources]. apply drop_repairs_sources in E1. f_equal.
  rewrite <- E1 at 1. clear E1. destruct (n_in_order n1); [|injection E2 as <-; reflexivity].
  apply bind_ok in E2. destruct E2 as (n3 & E3 & E2). apply deliver_outdated_sources in E3. unfold nflush in E2.
  destruct (n_first n3 <? id); destruct (mmem _ _) in E2; try (injection E2 as <-; exact E3); apply flush_loop_sources in E2; rewrite E2; exact E3.
Qed.

Theorem C78_documented_rule :
  forall m f o ps n r, node_run false m (new_ndec f o) ps = Ok n ->
  (forall id, In id (dr_ids r) -> ~ In id (mkeys (n_sources n))) ->
  nrecv_repair true m n r = nrecv_repair false m n r.
Proof.
  intros m f o ps n r R H. pose proof (node_run_sim m ps _ _ (same_new f o)) as S. rewrite R in S.
  destruct (core_run m (new_ddec f o) ps) as [d| |]; try contradiction. cbn [sim] in S. clear R.
  unfold nrecv_repair. destruct (assert_ m _); cbn [bind]; try reflexivity.
  destruct (dr_ids r) as [|first ids] eqn:Ei; [reflexivity|]. destruct (noutdated _ _); [reflexivity|].
  destruct (mmem _ (n_repairs n)) eqn:Em; [reflexivity|]. pose proof (drop_outdated_sim m n d first S) as X.
  destruct (ndrop_outdated m n first) as [n1| |] eqn:Ed; cbn [bind]; try reflexivity.
  destruct (drop_outdated m d first) as [d1| |]; try contradiction. destruct X as [S1 F1].
  destruct (forallb _ _); [reflexivity|]. destruct (assert_ m _); cbn [bind]; try reflexivity. cbv zeta.
  rewrite (link_strict m (n_next n1) _ _ (dr_id r) r).
  - reflexivity.
  - cbn [n_repairs set_next set_repairs]. rewrite at_mset, N.eqb_refl; [reflexivity| |].
    + intros X. apply F1 in X. apply mmem_spec in X. congruence.
    + intros X. apply (g_rf _ _ _ _ _ (s_graph _ _ S1)) in X. lia.
  - intros id Hid. rewrite Ei, firstn_all in Hid. cbn [n_sources set_next set_repairs]. rewrite (drop_outdated_sources _ _ _ _ Ed).
    apply mfind_none. intros X. apply (H id Hid). unfold mfrom in X. apply in_map_iff in X. destruct X as ([k v] & <- & X).
    apply filter_In in X. destruct X as [X _]. apply (in_map fst) in X. exact X.
Qed.
Print Assumptions C78_documented_rule.

(** But two data, the first received, the second lost, and a repair suffice for the use of an invalidated iterator. *)
Definition one_lost : list action := [Data (sample 0); Data (sample 1); Repair; Arrive 0; Arrive 2].

Theorem C78_documented_rule_refuted :
  exists w ps, PropsFifo.lossy_fifo Debug PropsSystem.still W8 true w
  /\ Forall2 (fun k p => nth_error (w_out w) k = Some p) (w_arrived w) ps
  /\ node_run true Debug (new_ndec W8 true) ps = Fault DeadIterator
  /\ exists n, node_run false Debug (new_ndec W8 true) ps = Ok n.
Proof.
  exists (ending Debug W8 true one_lost), (arrived_packets (ending Debug W8 true one_lost)).
  assert (L : PropsFifo.lossy_fifo Debug PropsSystem.still W8 true (ending Debug W8 true one_lost)).
  { apply PropsFifo.run_lossy with one_lost; [discriminate | |]; vm_compute; reflexivity. }
  assert (F : Forall2 (fun k p => nth_error (w_out (ending Debug W8 true one_lost)) k = Some p)
    (w_arrived (ending Debug W8 true one_lost)) (arrived_packets (ending Debug W8 true one_lost))).
  { vm_compute. repeat constructor. }
  split; [exact L|]. split; [exact F|]. split; [vm_compute; reflexivity|].
  destruct (C78_fifo _ _ _ _ _ L) as (ps & n & F' & R & _). exists n.
  assert (E : ps = arrived_packets (ending Debug W8 true one_lost)); [|rewrite <- E; exact R].
  clear - F F'. revert F'. generalize ps. induction F as [|k p ks l Hk F IH]; intros l' F'; inversion F' as [|? p' ? ps' Hk' F2]; subst; [reflexivity|].
  f_equal; [congruence | apply IH, F2].
Qed.
Print Assumptions C78_documented_rule_refuted.
