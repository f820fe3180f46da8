(** * Facts about the receiver, for all packets and all sequences of calls *)
From Coq Require Import ZArith NArith List Bool Lia.
From Verif Require Import Outcome GF Containers ContainersFacts Packetizer PacketizerFacts
  Encoder DetailDecoder Decoder DecoderStep DecoderFacts.
Import ListNotations.
Open Scope N_scope.
Open Scope outcome_scope.

Lemma to_user_app a b : to_user (a ++ b) = to_user a ++ to_user b.
Proof. induction a as [|[d|p] a IH]; cbn; [reflexivity | now rewrite IH | exact IH]. Qed.
Lemma to_network_app a b : to_network (a ++ b) = to_network a ++ to_network b.
Proof. induction a as [|[d|p] a IH]; cbn; [reflexivity | exact IH | now rewrite IH]. Qed.

(** The parts of the receiver that acknowledging leaves alone. *)
Record kept (d d' : dec) : Prop := {
  kp_core : dc_core d' = dc_core d;
  kp_period : dc_period d' = dc_period d;
  kp_ack_nb : dc_ack_nb d' = dc_ack_nb d;
  kp_repairs : dc_nb_repairs d' = dc_nb_repairs d;
  kp_sources : dc_nb_sources d' = dc_nb_sources d
}.

Lemma kept_refl d : kept d d.
Proof. constructor; reflexivity. Qed.
Lemma kept_trans a b c : kept a b -> kept b c -> kept a c.
Proof. intros [A1 A2 A3 A4 A5] [B1 B2 B3 B4 B5]. constructor; congruence. Qed.

Definition the_ack (ids : list N) (nb : N) : packet := concat (write_ack {| a_ids := ids; a_nb := nb |}).

Lemma generate_ack_of_spec known d d' out : a_ids (dc_ack d) = [] -> ssorted known ->
  generate_ack_of known d = (d', out) ->
  kept d d' /\ dc_ack d' = {| a_ids := []; a_nb := 0 |} /\ dc_nb_acks d' = u64 (dc_nb_acks d + 1)
  /\ dc_last_date d' = dc_last_date d /\ dc_reads d' = dc_reads d
  /\ out = [ToNetwork (the_ack known (a_nb (dc_ack d)))].
Proof.
  intros Ha Hs H. unfold generate_ack_of in H. rewrite Ha in H.
  change (fold_left (fun s x => sinsert x s) known []) with (set_of known) in H.
  rewrite set_of_sorted in H by exact Hs.
  apply pair_equal_spec in H. destruct H as [<- <-].
  split; [constructor; reflexivity|]. repeat (split; [reflexivity|]). reflexivity.
Qed.

(** The condition of [maybe_ack]. *)
Definition due (clk : clock) (d : dec) : Prop :=
  dc_ack_nb d <= a_nb (dc_ack d)
  \/ (dc_period d <> 0 /\ dc_last_date d + dc_period d * 1000000 <= clk (dc_reads d))%Z.

Lemma maybe_ack_of_spec clk known d d' out : a_ids (dc_ack d) = [] -> ssorted known ->
  maybe_ack_of clk known d = (d', out) ->
  kept d d' /\ a_ids (dc_ack d') = []
  /\ ((due clk d /\ out = [ToNetwork (the_ack known (a_nb (dc_ack d)))]
       /\ dc_ack d' = {| a_ids := []; a_nb := 0 |} /\ dc_nb_acks d' = u64 (dc_nb_acks d + 1)
       /\ dc_last_date d' = clk (dc_reads d))
      \/ (~ due clk d /\ out = [] /\ dc_ack d' = dc_ack d /\ dc_nb_acks d' = dc_nb_acks d
          /\ dc_last_date d' = dc_last_date d)).
Proof.
  intros Ha Hs H. unfold maybe_ack_of in H. unfold due.
  destruct (generate_ack_of known d) as [d1 o] eqn:E.
  pose proof (generate_ack_of_spec _ _ _ _ Ha Hs E) as (K & A & B & C & R & ->).
  assert (Emit : due clk d -> (d', out) = (read_clock clk true d1, [ToNetwork (the_ack known (a_nb (dc_ack d)))]) ->
    kept d d' /\ a_ids (dc_ack d') = []
    /\ ((due clk d /\ out = [ToNetwork (the_ack known (a_nb (dc_ack d)))]
       /\ dc_ack d' = {| a_ids := []; a_nb := 0 |} /\ dc_nb_acks d' = u64 (dc_nb_acks d + 1)
       /\ dc_last_date d' = clk (dc_reads d))
      \/ (~ due clk d /\ out = [] /\ dc_ack d' = dc_ack d /\ dc_nb_acks d' = dc_nb_acks d
          /\ dc_last_date d' = dc_last_date d))).
  { intros Hd X. apply pair_equal_spec in X. destruct X as [-> ->].
    split; [apply kept_trans with d1; [exact K | constructor; reflexivity]|].
    cbn [read_clock dc_ack dc_nb_acks dc_last_date]. rewrite A, B, R. split; [reflexivity|]. left.
    repeat (split; [exact Hd || reflexivity|]). reflexivity. }
  unfold due in Emit.
  destruct (N.leb_spec (dc_ack_nb d) (a_nb (dc_ack d))); [apply Emit; [left; assumption | symmetry; exact H]|].
  destruct (Z.eqb_spec (dc_period d) 0).
  { apply pair_equal_spec in H. destruct H as [<- <-]. split; [apply kept_refl|]. split; [exact Ha|]. right.
    split; [intros [X|[X _]]; [lia | contradiction]|]. repeat (split; [reflexivity|]). reflexivity. }
  destruct (Z.leb_spec (dc_period d * 1000000) (clk (dc_reads d) - dc_last_date d)).
  { apply Emit; [right; split; [assumption | lia] | symmetry; exact H]. }
  apply pair_equal_spec in H. destruct H as [<- <-]. split; [constructor; reflexivity|]. split; [exact Ha|]. right.
  split; [intros [X|[_ X]]; lia|]. repeat (split; [reflexivity|]). reflexivity.
Qed.

Lemma u64_add a b : u64 (u64 a + b) = u64 (a + b).
Proof. unfold u64. apply N.add_mod_idemp_l. discriminate. Qed.

(** The acks of one call: each lists one of [ids]; only the first one counts packets. *)
Record many (d d' : dec) (acks : list packet) (ids : list (list N)) : Prop := {
  my_kept : kept d d';
  my_ids : a_ids (dc_ack d') = [];
  my_none : acks = [] -> dc_ack d' = dc_ack d /\ dc_nb_acks d' = dc_nb_acks d;
  my_some : acks <> [] ->
    a_nb (dc_ack d') = 0 /\ dc_nb_acks d' = u64 (dc_nb_acks d + N.of_nat (length acks));
  my_each : forall k p, nth_error acks k = Some p -> exists l, In l ids
    /\ p = the_ack l (if Nat.eqb k 0 then a_nb (dc_ack d) else 0)
}.

Lemma handle_sources_spec clk l : forall d d' out, a_ids (dc_ack d) = [] ->
  Forall (fun v => ssorted (v_known v)) l -> handle_sources clk d l = (d', out) ->
  to_user out = map v_data l /\ many d d' (to_network out) (map v_known l).
Proof.
  induction l as [|v l IH]; intros d d' out Ha Hs H; cbn [handle_sources] in H.
  - apply pair_equal_spec in H. destruct H as [<- <-]. split; [reflexivity|].
    constructor; [apply kept_refl | exact Ha | auto | intros X; contradiction X; reflexivity|].
    intros [|k] p; discriminate.
  - inversion Hs as [|? ? Hv Hl]; subst. unfold handle_source in H.
    destruct (maybe_ack_of clk (v_known v) d) as [d1 o1] eqn:E1.
    destruct (handle_sources clk d1 l) as [d2 o2] eqn:E2.
    apply pair_equal_spec in H. destruct H as [-> <-].
    apply maybe_ack_of_spec in E1; [|exact Ha | exact Hv]. destruct E1 as (K1 & Ha1 & E1).
    destruct (IH d1 d' o2 Ha1 Hl E2) as [U M]. cbn [app to_user to_network].
    rewrite to_user_app, to_network_app.
    destruct M as [M1 M2 M3 M4 M5].
    destruct E1 as [(_ & -> & A & B & _)|(_ & -> & A & B & _)]; cbn [to_user to_network app map].
    + split; [now rewrite U|]. constructor.
      * eapply kept_trans; eassumption.
      * exact M2.
      * discriminate.
      * intros _. cbn [length]. destruct (to_network o2) as [|p ps] eqn:Ep.
        { destruct (M3 eq_refl) as [X Y]. rewrite X, Y, A, B. split; reflexivity. }
        { destruct M4 as [X Y]; [discriminate|]. split; [exact X|]. rewrite Y, B, u64_add. f_equal.
          cbn [length]. lia. }
      * intros [|k] p Hk; cbn [nth_error Nat.eqb] in *.
        { exists (v_known v). split; [left; reflexivity | congruence]. }
        { apply M5 in Hk. destruct Hk as (ids & I & ->). exists ids. split; [right; exact I|].
          rewrite A. cbn [a_nb]. destruct (Nat.eqb k 0); reflexivity. }
    + split; [now rewrite U|]. rewrite A in *. rewrite B in *. constructor.
      * eapply kept_trans; eassumption.
      * exact M2.
      * exact M3.
      * exact M4.
      * intros k p Hk. apply M5 in Hk. destruct Hk as (ids & I & E). exists ids. split; [right; exact I | exact E].
Qed.

(** ** One packet *)

(** What a call of the decoding algorithm did: [new] are the calls of the callback. *)
Definition ran (d d' : dec) (sources repairs : N) (c : ddec) (new : list event) (out : list dout) : Prop :=
  d_log c = d_log (dc_core d) ++ new /\ dc_core d' = c
  /\ dc_nb_sources d' = u64 (dc_nb_sources d + sources)
  /\ dc_nb_repairs d' = u64 (dc_nb_repairs d + repairs)
  /\ Forall (observed (dc_core d) c) new
  /\ to_user out = map v_data new
  /\ many (with_core (count_packet d repairs sources) c) d' (to_network out) (map v_known new).

Lemma skipn_length_app {A} (a b : list A) : skipn (length a) (a ++ b) = b.
Proof. induction a; [reflexivity | assumption]. Qed.

Lemma call_core_ok clk d run d' out c new sources repairs :
  a_ids (dc_ack d) = [] ->
  call_core clk (count_packet d repairs sources) run = Ok (d', out) ->
  run (dc_core d) = Ok c ->
  d_log c = d_log (dc_core d) ++ new -> Forall (observed (dc_core d) c) new ->
  ran d d' sources repairs c new out.
Proof.
  intros Ha H E L F. unfold call_core in H. cbn [count_packet dc_core] in H. rewrite E in H. cbn [bind] in H.
  rewrite L, skipn_length_app in H.
  assert (X : handle_sources clk (with_core (count_packet d repairs sources) c) new = (d', out)) by congruence.
  apply handle_sources_spec in X; [|exact Ha | eapply Forall_impl; [|exact F]; intros v Hv; apply Hv].
  destruct X as [U M]. pose proof (my_kept _ _ _ _ M) as [K1 K2 K3 K4 K5].
  split; [exact L|]. split; [exact K1|]. split; [exact K5|]. split; [exact K4|]. split; [exact F|].
  split; [exact U | exact M].
Qed.

Lemma type_ok m p t : (_ <- assert_ m (Nat.ltb 0 (length p)) ;; get_packet_type p) = Ok t <-> get_packet_type p = Ok t.
Proof. destruct p as [|b p]; destruct m; cbn; split; intros H; try discriminate; exact H. Qed.

Lemma read_repair_sorted m p r n : read_repair m p = Ok (r, n) -> ssorted (dr_ids r).
Proof.
  intros H. unfold read_repair in H. pose proof H as H'.
  apply bind_ok in H. destruct H as (u & Eu & _). destruct u.
  change (read_repair m p = Ok (r, n)) in H'. rewrite (read_repair_parse m p Eu) in H'.
  apply result_ok in H'; [|apply wfp_repair]. destruct H' as (a & used & rest & P & -> & _).
  destruct a as [[[id size] ids] enc]. cbn [mk_repair_of dr_ids].
  unfold prepair, pbind in P.
  destruct (pbe 1 0 p) as [[x1 s1]|]; [|discriminate].
  destruct (pbe 4 0 s1) as [[x2 s2]|]; [|discriminate].
  destruct (pbe 2 0 s2) as [[x3 s3]|]; [|discriminate].
  destruct (pskip (N.to_nat x3) s3) as [[x4 s4]|]; [|discriminate].
  destruct (pids s4) as [[x5 s5]|] eqn:E5; [|discriminate].
  destruct (pbe 2 0 s5) as [[x6 s6]|]; [|discriminate].
  unfold pret in P. assert (ids = x5) by congruence. subst.
  apply (pids_wf _ _ _ E5).
Qed.

(** A packet that was processed. *)
Inductive processed (m : mode) (d : dec) (p : packet) (d' : dec) (out : list dout) (n : nat) : Prop :=
| Processed_source s c new :
    get_packet_type p = Ok TSource -> read_source m p = Ok (s, n) ->
    recv_source m (dc_core d) (ds_id s) (ds_data s) = Ok c -> ran d d' 1 0 c new out ->
    processed m d p d' out n
| Processed_repair r c new :
    get_packet_type p = Ok TRepair -> read_repair m p = Ok (r, n) -> ssorted (dr_ids r) ->
    recv_repair m (dc_core d) r = Ok c -> ran d d' 0 1 c new out ->
    processed m d p d' out n.

Lemma finish_ok {A} d (x : outcome (dec * A)) d' a : finish d x = (d', Ok a) -> x = Ok (d', a).
Proof. destruct x as [[d1 b]| |]; cbn; intros H; try discriminate. f_equal. congruence. Qed.

Lemma dec_packet_ok m clk d p d' out n : good 0 (dc_core d) -> a_ids (dc_ack d) = [] ->
  dec_packet m clk d p = (d', Ok (out, n)) -> processed m d p d' out n.
Proof.
  intros G Ha H. unfold dec_packet in H.
  destruct (_ <- assert_ m (Nat.ltb 0 (length p)) ;; get_packet_type p) as [t| |] eqn:Et; try discriminate.
  apply type_ok in Et. destruct t; [discriminate| |].
  - cbv zeta in H. apply finish_ok in H. apply bind_ok in H. destruct H as ([r k] & E1 & H).
    apply bind_ok in H. destruct H as ([d1 o] & E2 & H).
    assert (Y : d1 = d' /\ o = out /\ k = n) by (repeat split; congruence). destruct Y as (-> & -> & ->).
    pose proof (read_repair_sorted _ _ _ _ E1) as Hr.
    pose proof E2 as E3. unfold call_core in E2. cbn [count_packet dc_core] in E2.
    apply bind_ok in E2. destruct E2 as (c & Ec & _).
    destruct (recv_repair_observed _ _ _ _ G Hr Ec) as (new & L & F).
    eapply Processed_repair; [exact Et | exact E1 | exact Hr | exact Ec |].
    eapply call_core_ok; [exact Ha | exact E3 | exact Ec | exact L | exact F].
  - cbv zeta in H. apply finish_ok in H. apply bind_ok in H. destruct H as ([s k] & E1 & H).
    apply bind_ok in H. destruct H as ([d1 o] & E2 & H).
    assert (Y : d1 = d' /\ o = out /\ k = n) by (repeat split; congruence). destruct Y as (-> & -> & ->).
    pose proof E2 as E3. unfold call_core in E2. cbn [count_packet dc_core] in E2.
    apply bind_ok in E2. destruct E2 as (c & Ec & _).
    destruct (recv_source_observed _ _ _ _ _ G Ec) as (new & L & F).
    eapply Processed_source; [exact Et | exact E1 | exact Ec |].
    eapply call_core_ok; [exact Ha | exact E3 | exact Ec | exact L | exact F].
Qed.

(** A packet that was refused: either nothing changed, or it was only counted. *)
Lemma dec_packet_throw m clk d p d' e : dec_packet m clk d p = (d', Throw e) ->
  (get_packet_type p <> Ok TSource /\ get_packet_type p <> Ok TRepair /\ d' = d)
  \/ (get_packet_type p = Ok TSource /\ d' = count_packet d 0 1)
  \/ (get_packet_type p = Ok TRepair /\ d' = count_packet d 1 0).
Proof.
  intros H. unfold dec_packet in H.
  destruct (_ <- assert_ m (Nat.ltb 0 (length p)) ;; get_packet_type p) as [t| |] eqn:Et; [|left|discriminate].
  - apply type_ok in Et. destruct t; cbv zeta in H.
    + left. rewrite Et. split; [discriminate|]. split; [discriminate | congruence].
    + right. right. split; [exact Et|]. unfold finish in H.
      destruct ('(r, n) <- read_repair m p ;; _) as [[d1 a]| |]; congruence.
    + right. left. split; [exact Et|]. unfold finish in H.
      destruct ('(r, n) <- read_source m p ;; _) as [[d1 a]| |]; congruence.
  - destruct (get_packet_type p) as [t| |] eqn:E.
    + exfalso. unfold assert_ in Et. destruct m; [destruct (Nat.ltb _ _)|]; discriminate.
    + split; [discriminate|]. split; [discriminate | congruence].
    + split; [discriminate|]. split; [discriminate | congruence].
Qed.

(** ** Sequences of calls *)

(** The calls made so far with what the handlers got, in order. Exceptions
    are survived, faults are not. *)
Inductive dtrace (m : mode) (clk : clock) (d0 : dec) : list (dop * list dout) -> dec -> Prop :=
| Trace_start : dtrace m clk d0 [] d0
| Trace_step tr d op out d' : dtrace m clk d0 tr d -> dstep m clk d op = (d', Ok out) ->
    dtrace m clk d0 (tr ++ [(op, out)]) d'
| Trace_throw tr d op e d' : dtrace m clk d0 tr d -> dstep m clk d op = (d', Throw e) ->
    dtrace m clk d0 (tr ++ [(op, [])]) d'.

Lemma drun_dtrace m clk d0 ops : forall tr d d' out, dtrace m clk d0 tr d ->
  drun m clk d ops = Ok (d', out) ->
  exists tr', dtrace m clk d0 (tr ++ tr') d' /\ map fst tr' = ops /\ concat (map snd tr') = out.
Proof.
  induction ops as [|op ops IH]; intros tr d d' out T H; cbn [drun] in H.
  - exists []. rewrite app_nil_r. assert (d' = d /\ out = []) as [-> ->] by (split; congruence). auto.
  - destruct (dstep m clk d op) as [d1 [o|e|e]] eqn:E; [| |discriminate].
    + apply bind_ok in H. destruct H as ([d2 o2] & E2 & H).
      assert (d2 = d' /\ out = o ++ o2) as [-> ->] by (split; congruence).
      destruct (IH _ _ _ _ (Trace_step _ _ _ _ _ _ _ _ T E) E2) as (tr' & A & B & C).
      exists ((op, o) :: tr'). rewrite <- app_assoc in A. split; [exact A|].
      cbn [map concat fst snd]. split; [now rewrite B | now rewrite C].
    + destruct (IH _ _ _ _ (Trace_throw _ _ _ _ _ _ _ _ T E) H) as (tr' & A & B & C).
      exists ((op, []) :: tr'). rewrite <- app_assoc in A. split; [exact A|].
      cbn [map concat fst snd]. split; [now rewrite B | exact C].
Qed.

(** The packets of the network start with their type. *)
Definition has_type (t : N) (p : packet) : bool := match p with [] => false | b :: _ => b =? t end.

Lemma type_byte p : match get_packet_type p with
  | Ok TAck => has_type 0 p = true
  | Ok TRepair => has_type 1 p = true
  | Ok TSource => has_type 2 p = true
  | _ => has_type 0 p = false /\ has_type 1 p = false /\ has_type 2 p = false
  end.
Proof.
  destruct p as [|b p]; cbn; [auto|]. unfold get_packet_type. cbn [nth_error].
  destruct b as [|[[q|q|]|[q|q|]|]]; cbn; auto.
Qed.

Lemma type_excl p t u : has_type t p = true -> u <> t -> has_type u p = false.
Proof.
  destruct p as [|b p]; cbn; [discriminate|]. intros H Hu. apply N.eqb_eq in H. subst. apply N.eqb_neq. congruence.
Qed.

(** Number of packets of a type given to the decoder. *)
Fixpoint given (t : N) (tr : list (dop * list dout)) : N :=
  match tr with
  | [] => 0
  | (DPacket p, _) :: tr' => (if has_type t p then 1 else 0) + given t tr'
  | _ :: tr' => given t tr'
  end.

Lemma given_app t a b : given t (a ++ b) = given t a + given t b.
Proof.
  induction a as [|[op out] a IH]; [reflexivity|]. cbn [app given]. destruct op; rewrite IH; lia.
Qed.

(** What the handlers got. *)
Definition outputs (tr : list (dop * list dout)) : list dout := concat (map snd tr).

Lemma outputs_snoc tr op out : outputs (tr ++ [(op, out)]) = outputs tr ++ out.
Proof. unfold outputs. rewrite map_app, concat_app. cbn. now rewrite app_nil_r. Qed.

(** Number of source and repair packets given since the last ack, where the
    calls are listed from the last one to the first one. *)
Fixpoint since_rev (tr : list (dop * list dout)) : N :=
  match tr with
  | [] => 0
  | (op, out) :: tr' =>
      match to_network out with
      | [] => match op with
              | DPacket p => if has_type 1 p || has_type 2 p then 1 + since_rev tr' else since_rev tr'
              | _ => since_rev tr'
              end
      | _ => 0
      end
  end.
Definition since (tr : list (dop * list dout)) : N := since_rev (rev tr).

(** Number of packets the call itself brings. *)
Definition brings (op : dop) : N :=
  match op with
  | DPacket p => if has_type 1 p || has_type 2 p then 1 else 0
  | _ => 0
  end.

Lemma since_snoc tr op out : since (tr ++ [(op, out)]) =
  match to_network out with [] => since tr + brings op | _ => 0 end.
Proof.
  unfold since. rewrite rev_app_distr. cbn [rev app since_rev]. destruct (to_network out); [|reflexivity].
  destruct op; cbn [brings]; try lia. destruct (_ || _); lia.
Qed.

Record dhistory (f : field) (o : bool) (tr : list (dop * list dout)) (d : dec) : Prop := {
  dh_good : good 0 (dc_core d);
  dh_field : d_field (dc_core d) = f;
  dh_in_order : d_in_order (dc_core d) = o;
  dh_ids : a_ids (dc_ack d) = [];
  dh_since : a_nb (dc_ack d) = u16 (since tr);
  dh_sources : dc_nb_sources d = u64 (given 2 tr);
  dh_repairs : dc_nb_repairs d = u64 (given 1 tr);
  dh_acks : dc_nb_acks d = u64 (N.of_nat (length (to_network (outputs tr))));
  dh_log : to_user (outputs tr) = map v_data (d_log (dc_core d));
  dh_nb : 0 <= dc_ack_nb d <= 128
}.

Lemma u16_add a b : u16 (u16 a + b) = u16 (a + b).
Proof. unfold u16. apply N.add_mod_idemp_l. discriminate. Qed.

(** What one call emits. *)
Definition emits (op : dop) (tr : list (dop * list dout)) (d d' : dec) (out : list dout) : Prop :=
  forall k p, nth_error (to_network out) k = Some p ->
  exists l, p = the_ack l (if Nat.eqb k 0 then u16 (since tr + brings op) else 0) /\ ssorted l
  /\ (forall x, In x (keys (dc_core d)) -> In x (keys (dc_core d')) -> In x l)
  /\ (forall x, In x l -> In x (keys (dc_core d)) \/ In x (keys (dc_core d'))).

Lemma brings_given p : get_packet_type p = Ok TSource \/ get_packet_type p = Ok TRepair ->
  brings (DPacket p) = 1.
Proof.
  intros H. cbn [brings]. pose proof (type_byte p) as T.
  destruct H as [H|H]; rewrite H in T; rewrite T; [rewrite orb_true_r|]; reflexivity.
Qed.

Lemma many_history d d' acks ids c sources repairs nacks (s b : N) :
  many (with_core (count_packet d repairs sources) c) d' acks ids ->
  a_nb (dc_ack d) = u16 s -> b = 1 -> dc_nb_acks d = u64 nacks ->
  a_nb (dc_ack d') = u16 (match acks with [] => s + b | _ => 0 end)
  /\ dc_nb_acks d' = u64 (nacks + N.of_nat (length acks)).
Proof.
  intros [M1 M2 M3 M4 M5] Hs Hb Hn. cbn [with_core count_packet dc_ack a_nb dc_nb_acks] in M3, M4.
  destruct acks as [|p ps].
  - destruct (M3 eq_refl) as [A B]. rewrite A, B. cbn [a_nb length]. rewrite Hs, u16_add, Hb, N.add_0_r.
    split; [reflexivity | exact Hn].
  - destruct M4 as [A B]; [discriminate|]. rewrite A, B, Hn, u64_add. split; reflexivity.
Qed.

Lemma dstep_history m clk f o tr d op d' out : dhistory f o tr d -> dstep m clk d op = (d', Ok out) ->
  dhistory f o (tr ++ [(op, out)]) d' /\ emits op tr d d' out.
Proof.
  intros [G F I A S NS NR NA L B] H. destruct op as [p| | |t|n]; cbn [dstep] in H.
  - destruct (dec_packet m clk d p) as [d1 r] eqn:E.
    assert (X : d1 = d' /\ exists n, r = Ok (out, n)).
    { destruct r as [[o1 n]| |]; cbn in H; [|congruence|congruence].
      split; [congruence|]. exists n. congruence. }
    clear H. destruct X as [-> [n ->]].
    apply dec_packet_ok in E; [|exact G | exact A].
    pose proof (type_byte p) as T.
    destruct E as [s c new Et Er Ec R|r c new Et Er Hr Ec R]; rewrite Et in T;
      pose proof R as (Hl & Hc & Hns & Hnr & Ho & Hu & M).
    + assert (Hb : brings (DPacket p) = 1) by (apply brings_given; auto).
      pose proof (many_history _ _ _ _ _ _ _ _ _ _ M S Hb NA) as [MS MA].
      destruct (my_kept _ _ _ _ M) as [K1 K2 K3 K4 K5].
      cbn [with_core count_packet dc_ack_nb] in K3.
      pose proof (recv_source_moves _ _ _ _ _ Ec) as V.
      split.
      * constructor.
        -- rewrite Hc. eapply recv_source_good; [exact G | exact Ec].
        -- rewrite Hc, (mv_field _ _ V). exact F.
        -- rewrite Hc, (mv_in_order _ _ V). exact I.
        -- apply (my_ids _ _ _ _ M).
        -- rewrite since_snoc. exact MS.
        -- rewrite given_app, Hns, NS, u64_add. cbn [given]. rewrite T. f_equal; lia.
        -- rewrite given_app, Hnr, NR, u64_add. cbn [given]. rewrite (type_excl _ 2 1 T) by discriminate. f_equal; lia.
        -- rewrite outputs_snoc, to_network_app, app_length, MA. f_equal; lia.
        -- rewrite outputs_snoc, to_user_app, L, Hu, Hc, Hl, map_app. reflexivity.
        -- lia.
      * intros k q Hk. apply (my_each _ _ _ _ M) in Hk. destruct Hk as (l & Hi & ->).
        apply in_map_iff in Hi. destruct Hi as (v & <- & Hv). rewrite Forall_forall in Ho.
        destruct (Ho v Hv) as (O1 & O2 & O3). exists (v_known v). rewrite Hc. split; [|auto].
        cbn [with_core count_packet dc_ack a_nb]. rewrite S, u16_add, Hb. reflexivity.
    + assert (Hb : brings (DPacket p) = 1) by (apply brings_given; auto).
      pose proof (many_history _ _ _ _ _ _ _ _ _ _ M S Hb NA) as [MS MA].
      destruct (my_kept _ _ _ _ M) as [K1 K2 K3 K4 K5].
      cbn [with_core count_packet dc_ack_nb] in K3.
      pose proof (recv_repair_moves _ _ _ _ Ec) as V.
      split.
      * constructor.
        -- rewrite Hc. eapply recv_repair_good; [exact G | exact Hr | exact Ec].
        -- rewrite Hc, (mv_field _ _ V). exact F.
        -- rewrite Hc, (mv_in_order _ _ V). exact I.
        -- apply (my_ids _ _ _ _ M).
        -- rewrite since_snoc. exact MS.
        -- rewrite given_app, Hns, NS, u64_add. cbn [given]. rewrite (type_excl _ 1 2 T) by discriminate. f_equal; lia.
        -- rewrite given_app, Hnr, NR, u64_add. cbn [given]. rewrite T. f_equal; lia.
        -- rewrite outputs_snoc, to_network_app, app_length, MA. f_equal; lia.
        -- rewrite outputs_snoc, to_user_app, L, Hu, Hc, Hl, map_app. reflexivity.
        -- lia.
      * intros k q Hk. apply (my_each _ _ _ _ M) in Hk. destruct Hk as (l & Hi & ->).
        apply in_map_iff in Hi. destruct Hi as (v & <- & Hv). rewrite Forall_forall in Ho.
        destruct (Ho v Hv) as (O1 & O2 & O3). exists (v_known v). rewrite Hc. split; [|auto].
        cbn [with_core count_packet dc_ack a_nb]. rewrite S, u16_add, Hb. reflexivity.
  - destruct (generate_ack d) as [d1 o1] eqn:E. assert (d1 = d' /\ o1 = out) as [-> ->] by (split; congruence).
    unfold generate_ack in E. apply generate_ack_of_spec in E; [|exact A | apply G].
    destruct E as (K & E1 & E2 & E3 & E4 & ->). destruct K as [K1 K2 K3 K4 K5]. split.
    + constructor; rewrite ?K1; try assumption.
      * rewrite E1. reflexivity.
      * rewrite E1, since_snoc. reflexivity.
      * rewrite given_app, K5, NS. cbn [given]. f_equal; lia.
      * rewrite given_app, K4, NR. cbn [given]. f_equal; lia.
      * rewrite outputs_snoc, to_network_app, app_length, E2, NA, u64_add. cbn [to_network length]. f_equal; lia.
      * rewrite outputs_snoc, to_user_app, L. cbn [to_user]. apply app_nil_r.
      * lia.
    + intros [|k] p Hk; [|destruct k; discriminate]. cbn [to_network nth_error] in Hk. exists (keys (dc_core d)). rewrite K1.
      split; [|split; [apply G | split; auto]]. cbn [Nat.eqb brings]. rewrite N.add_0_r, <- S. unfold keys. congruence.
  - destruct (maybe_ack clk d) as [d1 o1] eqn:E. assert (d1 = d' /\ o1 = out) as [-> ->] by (split; congruence).
    unfold maybe_ack in E. apply maybe_ack_of_spec in E; [|exact A | apply G].
    destruct E as (K & E0 & E). destruct K as [K1 K2 K3 K4 K5].
    destruct E as [(_ & -> & E1 & E2 & _)|(_ & -> & E1 & E2 & _)]; split.
    + constructor; rewrite ?K1; try assumption.
      * rewrite E1, since_snoc. reflexivity.
      * rewrite given_app, K5, NS. cbn [given]. f_equal; lia.
      * rewrite given_app, K4, NR. cbn [given]. f_equal; lia.
      * rewrite outputs_snoc, to_network_app, app_length, E2, NA, u64_add. cbn [to_network length]. f_equal; lia.
      * rewrite outputs_snoc, to_user_app, L. cbn [to_user]. apply app_nil_r.
      * lia.
    + intros [|k] p Hk; [|destruct k; discriminate]. cbn [to_network nth_error] in Hk. exists (keys (dc_core d)). rewrite K1.
      split; [|split; [apply G | split; auto]]. cbn [Nat.eqb brings]. rewrite N.add_0_r, <- S. unfold keys. congruence.
    + constructor; rewrite ?K1; try assumption.
      * rewrite E1, since_snoc. cbn [to_network brings]. rewrite N.add_0_r. exact S.
      * rewrite given_app, K5, NS. cbn [given]. f_equal; lia.
      * rewrite given_app, K4, NR. cbn [given]. f_equal; lia.
      * rewrite outputs_snoc, app_nil_r, E2, NA. reflexivity.
      * rewrite outputs_snoc, app_nil_r, L. reflexivity.
      * lia.
    + intros [|k] p Hk; discriminate.
  - assert (d' = set_ack_period d t /\ out = []) as [-> ->] by (split; congruence). split.
    + constructor; try assumption.
      * rewrite since_snoc. cbn [to_network brings]. rewrite N.add_0_r. exact S.
      * rewrite given_app. cbn [given]. rewrite N.add_0_r. exact NS.
      * rewrite given_app. cbn [given]. rewrite N.add_0_r. exact NR.
      * rewrite outputs_snoc, app_nil_r. exact NA.
      * rewrite outputs_snoc, app_nil_r. exact L.
    + intros [|k] p Hk; discriminate.
  - apply finish_ok in H. apply bind_ok in H. destruct H as (d1 & E & H).
    unfold set_ack_nb_packets in E. apply bind_ok in E. destruct E as (u & _ & E).
    assert (d' = with_ack_params d (dc_period d) (N.min n 128) /\ out = []) as [-> ->] by (split; congruence). split.
    + constructor; try assumption.
      * rewrite since_snoc. cbn [to_network brings]. rewrite N.add_0_r. exact S.
      * rewrite given_app. cbn [given]. rewrite N.add_0_r. exact NS.
      * rewrite given_app. cbn [given]. rewrite N.add_0_r. exact NR.
      * rewrite outputs_snoc, app_nil_r. exact NA.
      * rewrite outputs_snoc, app_nil_r. exact L.
      * cbn [with_ack_params dc_ack_nb]. lia.
    + intros [|k] p Hk; discriminate.
Qed.

Lemma dstep_throw m clk d op d' e : dstep m clk d op = (d', Throw e) ->
  exists p, op = DPacket p /\ dec_packet m clk d p = (d', Throw e).
Proof.
  destruct op as [p| | |t|n]; cbn [dstep]; intros H.
  - exists p. split; [reflexivity|]. destruct (dec_packet m clk d p) as [d1 [[o n]| |]]; cbn in H; congruence.
  - destruct (generate_ack d). congruence.
  - destruct (maybe_ack clk d). congruence.
  - congruence.
  - exfalso. unfold set_ack_nb_packets, assert_ in H. destruct m; [destruct (0 <? n)|]; cbn in H; congruence.
Qed.

Lemma dstep_throw_history m clk f o tr d op d' e : dhistory f o tr d -> dstep m clk d op = (d', Throw e) ->
  dhistory f o (tr ++ [(op, [])]) d'.
Proof.
  intros [G F I A S NS NR NA L B] H. apply dstep_throw in H. destruct H as (p & -> & H).
  apply dec_packet_throw in H. pose proof (type_byte p) as T.
  assert (X : outputs (tr ++ [(DPacket p, [])]) = outputs tr) by (rewrite outputs_snoc; apply app_nil_r).
  destruct H as [(N2 & N1 & ->)|[(Et & ->)|(Et & ->)]].
  - assert (has_type 1 p = false /\ has_type 2 p = false) as [T1 T2].
    { destruct (get_packet_type p) as [[]| |]; try tauto.
      split; apply (type_excl _ 0); auto; discriminate. }
    constructor; rewrite ?X; try assumption.
    + rewrite since_snoc. cbn [to_network brings]. rewrite T1, T2, N.add_0_r. exact S.
    + rewrite given_app. cbn [given]. rewrite T2. change (0 + 0) with 0. rewrite N.add_0_r. exact NS.
    + rewrite given_app. cbn [given]. rewrite T1. change (0 + 0) with 0. rewrite N.add_0_r. exact NR.
  - rewrite Et in T. pose proof (type_excl _ 2 1 T ltac:(discriminate)) as T1.
    constructor; rewrite ?X; cbn [count_packet dc_core dc_ack a_ids a_nb dc_nb_sources dc_nb_repairs dc_nb_acks dc_ack_nb]; try assumption.
    + rewrite since_snoc, S, u16_add. cbn [to_network brings]. rewrite T, orb_true_r. reflexivity.
    + rewrite given_app, NS, u64_add. cbn [given]. rewrite T. f_equal; lia.
    + rewrite given_app, NR, u64_add. cbn [given]. rewrite T1. f_equal; lia.
  - rewrite Et in T. pose proof (type_excl _ 1 2 T ltac:(discriminate)) as T2.
    constructor; rewrite ?X; cbn [count_packet dc_core dc_ack a_ids a_nb dc_nb_sources dc_nb_repairs dc_nb_acks dc_ack_nb]; try assumption.
    + rewrite since_snoc, S, u16_add. cbn [to_network brings]. rewrite T. reflexivity.
    + rewrite given_app, NS, u64_add. cbn [given]. rewrite T2. f_equal; lia.
    + rewrite given_app, NR, u64_add. cbn [given]. rewrite T. f_equal; lia.
Qed.

Theorem dtrace_history m clk f o tr d : dtrace m clk (new_dec clk f o) tr d -> dhistory f o tr d.
Proof.
  intros H. induction H as [|tr d op out d' T IH E|tr d op e d' T IH E].
  - constructor; try reflexivity; [apply good_new | cbn; lia].
  - eapply dstep_history; eassumption.
  - eapply dstep_throw_history; eassumption.
Qed.
