(** * Runs of any length, and the distance that the format cannot express: C30, C43, C66 *)
From Coq Require Import ZArith NArith Arith List Bool Lia Sorted.
From Verif Require Import Outcome GF GFRegion Containers ContainersFacts Packetizer PacketizerFacts PropsPacketizer
  Encoder EncoderRun EncoderFacts EncoderHistory EncoderSafe PropsEncoder DetailDecoder Decoder DecoderFacts DecoderOuter DecoderProgress DecoderHeld
  System SystemInv SystemRun SystemFifo PropsSystem PropsFifo PropsModes PropsHostile PropsWrap PropsBuilds.
Import ListNotations.
Open Scope N_scope.
Open Scope outcome_scope.

(** ** Any number of data *)

(** The identifier lists of all repairs and acks up to each point of the run fit the format. *)
Definition lists_fit_during (m : mode) (clk : clock) (f : field) (o : bool) (l : list action) : Prop :=
  forall before after w, l = before ++ after -> wrun m clk (start clk f o) before = Ok w -> Forall wire_ok (w_lists w).

Lemma long_limits m clk f o l w : sound m clk f o l w -> Forall (legal_action f) l -> N.of_nat (length (given l)) < 2 ^ 32 ->
  Forall wire_ok (w_lists w) -> sizes_fit f w -> within_limits f w.
Proof.
  intros [_ _ _ Es _] Hl Hn Hw Hz. constructor; try assumption.
  - rewrite Es. apply Forall_forall. intros d Hd. unfold given in Hd. apply in_flat_map in Hd.
    destruct Hd as (a & Ha & Hd). rewrite Forall_forall in Hl. specialize (Hl a Ha).
    destruct a; try contradiction. destruct Hd as [<-|[]]. exact Hl.
  - rewrite Es. exact Hn.
Qed.

Lemma long_total m clk f o l : sizes_fit_during m clk f o l -> Forall (legal_action f) l -> N.of_nat (length (given l)) < 2 ^ 32 ->
  lists_fit_during m clk f o l -> StronglySorted le (arrivals l) ->
  (exists w, wrun m clk (start clk f o) l = Ok w /\ sound m clk f o l w)
  \/ exists before after w, l = before ++ Repair :: after /\ wrun m clk (start clk f o) before = Ok w /\ e_sources (w_enc w) = [].
Proof.
  induction l as [|a l IH] using rev_ind; intros Hz Hl Hn Hw Hs.
  - left. eexists. split; [reflexivity | apply sound_start].
  - pose proof Hl as Hl0. apply Forall_app in Hl0. destruct Hl0 as [Hl0 _].
    assert (Hn0 : N.of_nat (length (given l)) < 2 ^ 32) by (rewrite given_app, app_length in Hn; lia).
    assert (Hs0 : StronglySorted le (arrivals l)) by (rewrite arrivals_app in Hs; eapply sorted_prefix; exact Hs).
    destruct IH as [(w & R & Sd)|(b & c & w & E & R & X)]; try assumption.
    { intros b c w E R. apply (Hz b (c ++ [a]) w); [|exact R]. rewrite E, app_assoc. reflexivity. }
    { intros b c w E R. apply (Hw b (c ++ [a]) w); [|exact R]. rewrite E, app_assoc. reflexivity. }
    2: { right. exists b, (c ++ [a]), w. split; [rewrite E, <- app_assoc; reflexivity|]. auto. }
    assert (Dec : a = Repair /\ e_sources (w_enc w) = [] \/ (a = Repair -> e_sources (w_enc w) <> [])).
    { destruct a; try (right; discriminate). destruct (e_sources (w_enc w)); [left; auto | right; discriminate]. }
    destruct Dec as [[-> X]|Hr]; [right; exists l, [], w; auto|].
    destruct (limited_step m clk f o l w a Sd Hl) as (w' & E & Sd'); try assumption.
    + apply (long_limits m clk f o l w Sd Hl0 Hn0); [apply (Hw l [a] w eq_refl R) | apply (Hz l [a] w eq_refl R)].
    + left. exists w'. split; [|exact Sd']. rewrite SystemFifo.wrun_app, R. cbn [bind wrun]. rewrite E. reflexivity.
Qed.

Lemma long_run m clk f o l : sizes_fit_during m clk f o l -> Forall (legal_action f) l -> N.of_nat (length (given l)) < 2 ^ 32 ->
  lists_fit_during m clk f o l -> StronglySorted le (arrivals l) ->
  (forall before after w, l = before ++ Repair :: after -> wrun m clk (start clk f o) before = Ok w -> e_sources (w_enc w) <> []) ->
  exists w, wrun m clk (start clk f o) l = Ok w /\ sound m clk f o l w.
Proof.
  intros Hz Hl Hn Hw Hs Hr. destruct (long_total m clk f o l Hz Hl Hn Hw Hs) as [H|(b & c & w & E & R & X)]; [exact H|].
  exfalso. exact (Hr b c w E R X).
Qed.

(** C30 for fewer than 2^32 data, as long as the lists of identifiers that are sent fit the format. *)
Theorem C30_any_length :
  forall m clk f o l, sizes_fit_during m clk f o l -> Forall (legal_action f) l -> N.of_nat (length (given l)) < 2 ^ 32 ->
  lists_fit_during m clk f o l -> StronglySorted le (arrivals l) ->
  (exists w, wrun m clk (start clk f o) l = Ok w)
  \/ exists before after w, l = before ++ Repair :: after
     /\ wrun m clk (start clk f o) before = Ok w /\ e_sources (w_enc w) = [].
Proof.
  intros m clk f o l Hz Hl Hn Hw Hs. destruct (long_total m clk f o l Hz Hl Hn Hw Hs) as [(w & E & _)|H]; eauto.
Qed.
Print Assumptions C30_any_length.

(** C66 as well: both builds do the same. *)
Theorem C66_any_length :
  forall clk f o l, sizes_fit_during Debug clk f o l -> Forall (legal_action f) l -> N.of_nat (length (given l)) < 2 ^ 32 ->
  lists_fit_during Debug clk f o l -> StronglySorted le (arrivals l) ->
  wrun Debug clk (start clk f o) l = wrun Release clk (start clk f o) l
  \/ exists before after w, l = before ++ Repair :: after
     /\ wrun Debug clk (start clk f o) before = Ok w /\ wrun Release clk (start clk f o) before = Ok w
     /\ e_sources (w_enc w) = [].
Proof.
  intros clk f o l Hz Hl Hn Hw Hs.
  destruct (C30_any_length Debug clk f o l Hz Hl Hn Hw Hs) as [(w & E)|(b & a & w & -> & E & Z)].
  - left. rewrite E. symmetry. apply C66_tested. exact E.
  - right. exists b, a, w. split; [reflexivity|]. split; [exact E|]. split; [apply C66_tested; exact E|exact Z].
Qed.
Print Assumptions C66_any_length.

(** C43 for fewer than 2^32 data, as long as the lists of identifiers that are sent fit the format. *)
Theorem C43_any_length :
  forall m clk f o l, sizes_fit_during m clk f o l -> Forall (legal_action f) l -> N.of_nat (length (given l)) < 2 ^ 32 ->
  lists_fit_during m clk f o l -> StronglySorted le (arrivals l) ->
  (forall before after w, l = before ++ Repair :: after -> wrun m clk (start clk f o) before = Ok w ->
     e_sources (w_enc w) <> []) ->
  exists w which, wrun m clk (start clk f o) l = Ok w
  /\ w_got w = map (fun i => nth i (given l) []) which
  /\ NoDup which /\ (forall i, In i which -> (i < length (given l))%nat)
  /\ (o = true -> StronglySorted lt which).
Proof.
  intros m clk f o l Hz Hl Hn Hw Hs Hr. destruct (long_run m clk f o l Hz Hl Hn Hw Hs Hr) as (w & E & Sd).
  assert (L : within_limits f w).
  { apply (long_limits m clk f o l w Sd Hl Hn); [apply (Hw l [] w) | apply (Hz l [] w)]; try exact E; symmetry; apply app_nil_r. }
  assert (Lf : lossy_fifo m clk f o w).
  { split; [apply (sd_reach _ _ _ _ _ _ Sd)|]. split; [apply (sd_fifo _ _ _ _ _ _ Sd) | exact L]. }
  destruct (PropsSystem.delivered _ _ _ _ _ (lossy_normal _ _ _ _ _ Lf)) as (gs & _ & Eg & Hb & Nd & So).
  exists w, (map N.to_nat (handed (core_of w))). rewrite <- (sd_sent _ _ _ _ _ _ Sd). auto.
Qed.
Print Assumptions C43_any_length.

(** A run of at most 65535 data has lists that fit; so has [tale]. *)
Lemma short_lists m clk f o l : sizes_fit_during m clk f o l -> Forall (legal_action f) l -> N.of_nat (length (given l)) <= 65535 ->
  StronglySorted le (arrivals l) ->
  (forall before after w, l = before ++ Repair :: after -> wrun m clk (start clk f o) before = Ok w -> e_sources (w_enc w) <> []) ->
  lists_fit_during m clk f o l.
Proof.
  intros Hz Hl Hn Hs Hr b a w E R.
  assert (Hl0 : Forall (legal_action f) b) by (rewrite E in Hl; apply Forall_app in Hl; apply Hl).
  assert (Hn0 : N.of_nat (length (given b)) <= 65535) by (rewrite E, given_app, app_length in Hn; lia).
  assert (Hz0 : sizes_fit_during m clk f o b) by (intros b' a' w' E' R'; apply (Hz b' (a' ++ a) w'); [rewrite E, E', app_assoc; reflexivity | exact R']).
  assert (Hs0 : StronglySorted le (arrivals b)) by (rewrite E, arrivals_app in Hs; eapply sorted_prefix; exact Hs).
  destruct (run_total m clk f o b Hl0 Hn0 Hs0 Hz0) as [(w' & R' & Sd)|(b' & a' & w' & E' & R' & X)].
  - assert (w' = w) by congruence. subst w'.
    apply (sound_limits m clk f o b w Sd Hl0 Hn0 (Hz0 b [] w (eq_sym (app_nil_r b)) R)).
  - exfalso. apply (Hr b' (a' ++ a) w'); [rewrite E, E', <- app_assoc; reflexivity | exact R' | exact X].
Qed.

Example C43_any_length_case : forall o, sizes_fit_during Debug still W8 o tale /\ lists_fit_during Debug still W8 o tale.
Proof.
  intros o. assert (Hz : sizes_fit_during Debug still W8 o tale) by (apply sizes_fit_always; discriminate). split; [exact Hz|].
  destruct C30_C43_case as (A & B & C). apply short_lists; try assumption. apply C43_repairs_case.
Qed.

(** ** The refutation for longer runs *)

(** The packet of a source, as [PropsHostile] reads it. *)
Lemma source_packet_plain i d : i < 2 ^ 32 -> bytes d -> N.of_nat (length d) < 65536 ->
  let p := concat (write_source {| es_id := i; es_data := d |}) in no_repair p /\ source_of p = Some (i, d).
Proof.
  intros Hi B L p.
  assert (E : p = [2] ++ be 4 i ++ be 2 (N.of_nat (length d)) ++ d).
  { unfold p, write_source. cbn [concat es_id es_data]. rewrite app_nil_r. reflexivity. }
  assert (T : get_packet_type p = Ok TSource) by (rewrite E; reflexivity).
  assert (Bs : Forall (fun b => b < 256) p).
  { rewrite E. apply Forall_app. split; [constructor; [lia|constructor]|]. apply Forall_app. split; [apply be_bytes|].
    apply Forall_app. split; [apply be_bytes | exact B]. }
  split.
  - split; [rewrite E; discriminate|]. split; [exact Bs|].
    intros (q & rest & id & sym & ids & enc & X & (a & b & c & e & -> & _)). rewrite E in X. discriminate.
  - pose proof (source_of_read Release p T) as R.
    destruct (C01_source_roundtrip Release i d Hi L) as (s & Es & Ei & Ed). unfold on_wire in Es. fold p in Es.
    destruct (source_of p) as [[j e]|]; [|congruence].
    destruct R as (s' & Es' & <- & <-). assert (s' = s) by congruence. subst s'. rewrite Ei, Ed. reflexivity.
Qed.

(** A receiver without repairs and without the first source gets a repair that seems to be of the first source only. *)
Lemma lone_repair m o c l r : plain o c l -> ~ In 0 (map fst l) -> dr_ids r = [0] ->
  (forall x, create_source m (d_field c) r = Fault x -> recv_repair m c r = Fault x)
  /\ forall data, create_source m (d_field c) r = Ok (0, data) ->
     exists c' more, recv_repair m c r = Ok c' /\ d_log c' = d_log c ++ more /\ In data (map v_data more).
Proof.
  intros P H0 Hr. destruct P as [pl_missing0 pl_repairs0 pl_last0 pl_order0 pl_keys0 pl_data0 pl_small0 pl_out0].
  assert (Hm : mmem 0 (d_sources c) = false) by (apply mmem_false; rewrite pl_keys0; exact H0).
  assert (Hf : mfind 0 (d_sources c) = None).
  { destruct (mfind 0 (d_sources c)) eqn:E; [|reflexivity]. exfalso. apply H0, pl_keys0, mfind_keys. eauto. }
  assert (Q : o = true -> d_first c = 0 /\ ssorted (d_ordered c)
     /\ forall x, In x (d_ordered c) -> In x (map fst l)).
  { intros ->. destruct pl_out0 as (n & Q1 & _ & Q3 & _ & Q5). destruct n as [|n]; [|exfalso; apply H0, Q3; lia].
    destruct (Q5 ltac:(lia)) as [Q6 Q7]. split; [exact Q1|]. split; [exact Q6|]. intros x X. apply Q7, X. }
  assert (Fr : forall l0, (forall x, In x l0 -> In x (map fst l)) -> smem 0 l0 = false).
  { intros l0 H. apply smem_false. intros X. apply H0, H, X. }
  assert (Mf : forall V (l0 : list (N * V)), mfrom 0 l0 = l0).
  { intros V l0. induction l0 as [|[k v] l0 IH]; [reflexivity|]. cbn [mfrom filter fst]. destruct (N.leb_spec 0 k); [|lia].
    f_equal. exact IH. }
  assert (D : exists c1, drop_outdated m c 0 = Ok c1 /\ d_sources c1 = d_sources c /\ d_missing c1 = [] /\ d_repairs c1 = []
     /\ d_in_order c1 = o /\ d_first c1 = d_first c /\ d_ordered c1 = d_ordered c /\ d_log c1 = d_log c /\ d_field c1 = d_field c).
  { unfold drop_outdated. cbv zeta. cbn [with_last d_repairs]. rewrite pl_repairs0. cbn [drop_repairs bind].
    change (d_in_order (with_last c (Some 0))) with (d_in_order c). rewrite pl_order0. destruct o.
    - destruct (Q eq_refl) as (Q1 & Q2 & Q3).
      replace (before 0 (d_ordered (with_last c (Some 0)))) with (@nil N).
      2: { cbn [with_last d_ordered]. unfold before. clear. induction (d_ordered c) as [|x xs IH]; [reflexivity|]. cbn [filter].
           destruct (N.ltb_spec x 0); [lia | exact IH]. }
      cbn [deliver_outdated bind]. cbn [with_last d_first]. rewrite Q1. change (0 <? 0) with false. cbv iota.
      unfold flush. cbn [with_last d_first d_ordered]. rewrite Q1, (Fr _ Q3). cbn [bind].
      eexists. split; [reflexivity|]. cbn [with_missing with_sources with_last d_sources d_missing d_repairs d_in_order d_first d_ordered d_log d_field].
      rewrite !Mf. do 7 (split; [first [assumption | reflexivity | congruence]|]). reflexivity.
    - cbn [bind]. eexists. split; [reflexivity|].
      cbn [with_missing with_sources with_last d_sources d_missing d_repairs d_in_order d_first d_ordered d_log d_field].
      rewrite !Mf. do 7 (split; [first [assumption | reflexivity | congruence]|]). reflexivity. }
  destruct D as (c1 & D & A1 & A2 & A3 & A4 & A5 & A6 & A7 & A8).
  unfold recv_repair. rewrite Hr. cbn [length]. replace (assert_ m (negb (Nat.eqb 1 0))) with (Ok tt) by (destruct m; reflexivity).
  cbn [bind last]. unfold outdated, not_outdated. rewrite pl_last0. cbn [negb]. rewrite pl_repairs0. cbn [mmem existsb].
  change (mmem (dr_id r) ([] : list (N * drepair))) with false. cbv iota.
  rewrite D. cbn [bind forallb]. rewrite A1, Hm. cbn [andb].
  rewrite A3. change (mmem (dr_id r) ([] : list (N * drepair))) with false.
  replace (assert_ m (negb false)) with (Ok tt) by (destruct m; reflexivity). cbn [bind rev app link_repair].
  rewrite A1, Hf, A2. cbn [mfind bind]. cbv zeta. rewrite Hr. cbn [length].
  replace (assert_ m (negb (Nat.eqb 1 0))) with (Ok tt) by (destruct m; reflexivity). cbn [bind Nat.eqb].
  cbn [with_repairs with_missing d_field]. rewrite A8. split; [intros x ->; reflexivity|]. intros data Hc. rewrite Hc. cbn [bind].
  match goal with |- context [add_source (enough ?e) m ?e 0 data] => set (c2 := e) end.
  assert (B : d_sources c2 = d_sources c /\ d_missing c2 = [] /\ d_repairs c2 = []
     /\ d_in_order c2 = o /\ d_first c2 = d_first c /\ d_ordered c2 = d_ordered c /\ d_log c2 = d_log c).
  { unfold c2, count_decoded. cbn [with_repairs with_missing with_decoded d_sources d_missing d_repairs d_in_order d_first d_ordered d_log].
    do 3 (split; [first [assumption | rewrite ?A3; cbn [mset merase]; rewrite N.eqb_refl; reflexivity | reflexivity]|]).
    auto. }
  destruct B as (B1 & B2 & B3 & B4 & B5 & B6 & B7).
  unfold enough. rewrite B2. cbn [length add_source].
  assert (An : exists c3 more, announce m c2 0 data = Ok c3 /\ d_log c3 = d_log c ++ more /\ In data (map v_data more)
     /\ d_sources c3 = d_sources c /\ d_missing c3 = [] /\ d_repairs c3 = []).
  { unfold announce. rewrite B4. destruct o; cbn [negb].
    - destruct (Q eq_refl) as (Q1 & Q2 & Q3). rewrite B5, Q1. change (0 =? 0) with true. cbv iota zeta.
      cbn [callback d_first]. rewrite B5, Q1. change (u32 (0 + 1)) with 1.
      match goal with |- context [flush m ?e] => set (c4 := e) end.
      destruct (flush_plain m (content l) c4 1) as (c5 & n' & E & _ & _ & _ & _ & _ & _ & _ & K8 & K9 & K10 & _ & _ & more & K13).
      + unfold c4. cbn [with_first callback d_ordered]. rewrite B6. exact Q2.
      + reflexivity.
      + lia.
      + unfold c4. cbn [with_first callback d_ordered d_sources]. rewrite B6, B1. intros x X. apply Q3 in X. split; [|apply pl_data0, X].
        specialize (pl_small0 x X). assert (x <> 0) by (intros ->; contradiction). lia.
      + exists c5. eexists. split; [exact E|]. split.
        { rewrite K13. unfold c4. cbn [with_first callback d_log]. rewrite B7, <- app_assoc. reflexivity. }
        split; [left; reflexivity|]. rewrite K8, K9, K10. unfold c4. cbn [with_first callback d_sources d_missing d_repairs]. auto.
    - eexists. eexists. split; [reflexivity|]. cbn [callback d_log d_sources d_missing d_repairs]. rewrite B7. split; [reflexivity|].
      split; [left; reflexivity|]. auto. }
  destruct An as (c3 & more & E3 & L3 & I3 & S3 & M3 & R3). rewrite E3. cbn [bind].
  unfold no_longer_missing. rewrite M3. cbn [mfind bind]. rewrite M3. cbn [mkeys map scan bind].
  unfold store. rewrite S3, Hm. replace (assert_ m (negb false)) with (Ok tt) by (destruct m; reflexivity). cbn [bind]. cbv zeta.
  eexists. exists more. split; [reflexivity|]. split; [|exact I3]. destruct (_ && _); cbn [with_sources with_ordered d_log]; exact L3.
Qed.

(** The receiver of a run has a history of calls. *)
Lemma reach_dtrace m clk f o w : reach m clk f o w -> exists tr, dtrace m clk (new_dec clk f o) tr (w_dec w).
Proof.
  revert w. apply (reach_ind m clk f o (fun w => exists tr, dtrace m clk (new_dec clk f o) tr (w_dec w))); [exists []; constructor|].
  intros w a w' _ [tr IH] H.
  assert (Snd : forall op data, sender m w op data = Ok w' -> exists tr, dtrace m clk (new_dec clk f o) tr (w_dec w')).
  { intros op data E. apply sender_extends in E. destruct E as (_ & _ & _ & _ & _ & ->). eauto. }
  assert (Rcv : forall op arr, System.receiver m clk w op arr = Ok w' -> exists tr, dtrace m clk (new_dec clk f o) tr (w_dec w')).
  { intros op arr E. unfold System.receiver in E. destruct (dstep m clk (w_dec w) op) as [d r] eqn:Ed.
    apply bind_ok in E. destruct E as (out & Es & E).
    assert (Ew : w_dec w' = d).
    { apply (f_equal (fun r => match r with Ok y => w_dec y | _ => d end)) in E. symmetry. exact E. }
    rewrite Ew. destruct r as [x|x|x]; [| |discriminate].
    - eexists. eapply Trace_step; eassumption.
    - eexists. eapply Trace_throw; eassumption. }
  destruct a; cbn [wstep] in H; try (eapply Snd; exact H); try (eapply Rcv; exact H).
  - destruct (nth_error (w_out w) k); [eapply Rcv; exact H|]. assert (w' = w) by congruence. subst. eauto.
  - destruct (nth_error (w_acks w) j); [eapply Snd; exact H|]. assert (w' = w) by congruence. subst. eauto.
Qed.

Definition other_datum : list N := [1].

(** ** Runs whose first and last data are lost *)

Section far.
Context (long : bool).

Definition first_datum : list N := if long then [7; 7; 7; 7; 7] else [7].
Definition last_datum : list N := if long then [3; 3; 3] else [3].

Lemma first_legal : legal W8 first_datum.
Proof. unfold first_datum. destruct long; (split; [cbn; lia|]; split; reflexivity). Qed.
Lemma last_legal : legal W8 last_datum.
Proof. unfold last_datum. destruct long; (split; [cbn; lia|]; split; reflexivity). Qed.

Definition source_of_id (i : N) : esource := {| es_id := i; es_data := if i =? 0 then first_datum else other_datum |}.
Local Notation upto := PropsPacketizer.consecutive.

Definition ids1 (n : nat) : list N := upto 1 n.

(** The first datum is lost, [n] others have arrived, no repair has been sent. *)
Record filling (m : mode) (clk : clock) (o : bool) (n : nat) (w : world) : Prop := {
  fi_reach : reach m clk W8 o w;
  fi_safe : safe W8 (w_enc w);
  fi_window : e_sources (w_enc w) = map source_of_id (upto 0 (Datatypes.S n));
  fi_id : e_source_id (w_enc w) = N.of_nat (Datatypes.S n);
  fi_rate : e_rate (w_enc w) = 100000;
  fi_systematic : e_systematic (w_enc w) = true;
  fi_adaptive : e_adaptive (w_enc w) = false;
  fi_size : e_window_size (w_enc w) = 18446744073709551615;
  fi_repair : e_repair_id (w_enc w) = 0;
  fi_out : length (w_out w) = Datatypes.S n;
  fi_plain : PropsHostile.plain o (dc_core (w_dec w)) (map (fun i => (i, other_datum)) (ids1 n))
}.

Definition opening : list action := [SetRate 100000; SetAdaptive false; Data first_datum].
Definition round (k : nat) : list action := [Data other_datum; Arrive (Datatypes.S k)].

Lemma consecutive_S x n : upto x (Datatypes.S n) = upto x n ++ [x + N.of_nat n].
Proof. unfold PropsPacketizer.consecutive. rewrite seq_S, map_app. reflexivity. Qed.

Lemma filling_start m clk o : exists w, wrun m clk (start clk W8 o) opening = Ok w /\ filling m clk o 0 w.
Proof.
  exists (match wrun m clk (start clk W8 o) opening with Ok w => w | _ => start clk W8 o end).
  unfold opening. split; [unfold first_datum; destruct long, m; reflexivity|].
  constructor; try (unfold source_of_id, first_datum; destruct long, m; reflexivity).
  - exists opening. unfold opening, first_datum. destruct long, m; reflexivity.
  - constructor; try (unfold first_datum; destruct long, m; reflexivity).
    unfold first_datum. destruct long, m; (constructor; [cbn; unfold legal; cbn; repeat split; try lia; try reflexivity | constructor]).
  - unfold first_datum. destruct long, m; apply plain_new.
Qed.

Lemma filling_step m clk o n w : N.of_nat n < 65535 -> filling m clk o n w ->
  exists w', wrun m clk w (round n) = Ok w' /\ filling m clk o (Datatypes.S n) w'.
Proof.
  intros Hn [R Sf Wi Id Ra Sy Ad Si Re Ou Pl]. unfold round. cbn [wrun].
  destruct (estep_safe m W8 (w_enc w) (EData other_datum) Sf) as (e & r & E & Hf & Sf').
  { split; [cbn; lia|]. split; reflexivity. }
  { discriminate. }
  pose proof (estep_data _ _ _ _ _ E Hf) as (out & Er & A). subst r.
  assert (E1 : wstep m clk w (Data other_datum) = Ok {| w_enc := e; w_dec := w_dec w; w_sent := w_sent w ++ [other_datum];
     w_out := w_out w ++ out; w_arrived := w_arrived w; w_got := w_got w; w_acks := w_acks w;
     w_lists := w_lists w ++ map (fun _ => map es_id (e_sources e)) (of_type 1 out) |}).
  { cbn [wstep]. unfold sender. rewrite E. reflexivity. }
  rewrite E1. cbn [bind]. set (w1 := {| w_enc := e |}) in *.
  assert (R1 : reach m clk W8 o w1) by (eapply reach_step; eassumption).
  destruct A. destruct ad_out as (first & rest & Eo & O1 & _ & _ & O4).
  assert (Eid : N.of_nat (Datatypes.S n) < 2 ^ 32) by lia.
  assert (Er : rest = []).
  { apply O4. rewrite Id, Ra. clear - Hn Eid. unfold u32. rewrite (N.mod_small _ (2 ^ 32)) by lia. rewrite N.mod_small by lia. lia. }
  subst rest. rewrite (O1 Sy), Id in Eo. set (p := concat (write_source {| es_id := N.of_nat (Datatypes.S n); es_data := other_datum |})) in *.
  assert (Hp : nth_error (w_out w1) (Datatypes.S n) = Some p).
  { unfold w1. cbn [w_out]. rewrite Eo, nth_error_app2 by lia. rewrite Ou, Nat.sub_diag. reflexivity. }
  destruct (source_packet_plain (N.of_nat (Datatypes.S n)) other_datum Eid) as [N1 N2]; [constructor; [lia | constructor] | cbn; lia|]. fold p in N1, N2.
  destruct (packet_plain m clk o (w_dec w1) _ p Pl N1) as (d & r & Ed & Pd & A1 & _).
  destruct A1 as (out1 & k1 & -> & _); [congruence|].
  assert (E2 : exists w2, wstep m clk w1 (Arrive (Datatypes.S n)) = Ok w2 /\ w_enc w2 = e /\ w_dec w2 = d /\ w_out w2 = w_out w1).
  { cbn [wstep]. rewrite Hp. unfold System.receiver. cbn [dstep]. rewrite Ed. cbn [bind survive]. eexists. split; [reflexivity|].
    split; [reflexivity|]. split; reflexivity. }
  destruct E2 as (w2 & E2 & X1 & X2 & X3). rewrite E2. cbn [bind]. exists w2. split; [reflexivity|].
  constructor; rewrite ?X1, ?X2, ?X3; try congruence.
  - eapply reach_step; eassumption.
  - unfold push_source in ad_push. rewrite Wi, map_length, Si in ad_push. unfold PropsPacketizer.consecutive in ad_push at 1.
    rewrite map_length, seq_length in ad_push. destruct (N.eqb_spec (N.of_nat (Datatypes.S n)) 18446744073709551615); [lia|].
    assert (Ee : e_sources e = map source_of_id (upto 0 (Datatypes.S n)) ++ [{| es_id := e_source_id (w_enc w); es_data := other_datum |}]) by congruence.
    rewrite Ee, Id, (consecutive_S 0 (Datatypes.S n)), map_app. cbn [map]. f_equal.
  - rewrite ad_source_id, Id. unfold u32. rewrite N.mod_small by lia. lia.
  - assert (C : count 1 out = 0) by (rewrite Eo; reflexivity).
    destruct ad_repair_id as [Y|[_ Y]]; rewrite Y, ?C, Re; reflexivity.
  - unfold w1. cbn [w_out]. rewrite Eo, app_length, Ou. cbn [length]. lia.
  - unfold note in Pd. rewrite N2 in Pd.
    assert (Hh : has (N.of_nat (Datatypes.S n)) (map (fun i => (i, other_datum)) (ids1 n)) = false).
    { destruct (has _ _) eqn:Y; [|reflexivity]. apply has_spec in Y. rewrite map_map in Y. cbn [fst] in Y. rewrite map_id in Y.
      unfold ids1, PropsPacketizer.consecutive in Y. apply in_map_iff in Y. destruct Y as (j & Y & Z). apply in_seq in Z. lia. }
    rewrite Hh in Pd. unfold ids1. rewrite consecutive_S, map_app. cbn [map]. replace (1 + N.of_nat n) with (N.of_nat (Datatypes.S n)) by lia. exact Pd.
Qed.

Fixpoint rounds (n : nat) : list action := match n with O => [] | Datatypes.S k => rounds k ++ round k end.

Lemma filling_run m clk o n : N.of_nat n <= 65535 -> exists w, wrun m clk (start clk W8 o) (opening ++ rounds n) = Ok w /\ filling m clk o n w.
Proof.
  induction n as [|n IH]; intros H.
  - cbn [rounds]. rewrite app_nil_r. apply filling_start.
  - destruct (IH ltac:(lia)) as (w & E & F). destruct (filling_step m clk o n w ltac:(lia) F) as (w' & E' & F').
    exists w'. split; [|exact F']. cbn [rounds]. rewrite app_assoc, SystemFifo.wrun_app, E. exact E'.
Qed.

Lemma filter_none {A} (g : A -> bool) l : (forall x, In x l -> g x = false) -> filter g l = [].
Proof.
  induction l as [|x l IH]; intros H; [reflexivity|]. cbn [filter]. rewrite (H x (or_introl eq_refl)). apply IH. intros y Y. apply H. right. exact Y.
Qed.

Lemma consecutive_sorted x n : ssorted (upto x n).
Proof.
  induction n as [|n IH]; [constructor|]. rewrite consecutive_S. apply ssorted_app; [exact IH | constructor; [constructor|constructor]|].
  intros a b Ha [<-|[]]. unfold PropsPacketizer.consecutive in Ha. apply in_map_iff in Ha. destruct Ha as (j & <- & Hj). apply in_seq in Hj. lia.
Qed.

Lemma consecutive_in x n y : In y (upto x n) <-> x <= y < x + N.of_nat n.
Proof.
  unfold PropsPacketizer.consecutive. rewrite in_map_iff. split.
  - intros (j & <- & Hj). apply in_seq in Hj. lia.
  - intros H. exists (N.to_nat (y - x)). rewrite in_seq. lia.
Qed.

Lemma consecutive_close x n : close_ids (upto x n).
Proof.
  intros b y z a E. pose proof (f_equal (fun l => nth (length b) l 0) E) as E1. pose proof (f_equal (fun l => nth (Datatypes.S (length b)) l 0) E) as E2.
  cbn beta in E1, E2. rewrite nth_middle in E1. change (y :: z :: a) with ([y] ++ z :: a) in E2.
  rewrite app_assoc in E2. replace (Datatypes.S (length b)) with (length (b ++ [y])) in E2 at 2 by (rewrite app_length; cbn; lia).
  rewrite nth_middle in E2.
  assert (L : (Datatypes.S (length b) < n)%nat).
  { apply (f_equal (@length N)) in E. unfold PropsPacketizer.consecutive in E. rewrite map_length, seq_length, app_length in E. cbn [length] in E. lia. }
  unfold PropsPacketizer.consecutive in E1, E2.
  rewrite (nth_indep _ 0 (x + N.of_nat 0)), (map_nth (fun i => x + N.of_nat i)), seq_nth in E1 by (rewrite ?map_length, ?seq_length; lia).
  rewrite (nth_indep _ 0 (x + N.of_nat 0)), (map_nth (fun i => x + N.of_nat i)), seq_nth in E2 by (rewrite ?map_length, ?seq_length; lia).
  lia.
Qed.

(** The receiver acks, the sender keeps the first datum only. *)
Record acked_all (m : mode) (clk : clock) (o : bool) (n : nat) (w : world) : Prop := {
  aa_safe : safe W8 (w_enc w);
  aa_window : e_sources (w_enc w) = [source_of_id 0];
  aa_id : e_source_id (w_enc w) = N.of_nat (Datatypes.S n);
  aa_rate : e_rate (w_enc w) = 100000;
  aa_systematic : e_systematic (w_enc w) = true;
  aa_size : e_window_size (w_enc w) = 18446744073709551615;
  aa_repair : e_repair_id (w_enc w) = 0;
  aa_out : length (w_out w) = Datatypes.S n;
  aa_field : d_field (dc_core (w_dec w)) = W8;
  aa_plain : PropsHostile.plain o (dc_core (w_dec w)) (map (fun i => (i, other_datum)) (ids1 n))
}.

Lemma acked_step m clk o n w : 1 <= N.of_nat n <= 65535 -> filling m clk o n w ->
  exists w', wrun m clk w [Ack; AckArrive (length (w_acks w))] = Ok w' /\ acked_all m clk o n w'.
Proof.
  intros Hn [R Sf Wi Id Ra Sy Ad Si Re Ou Pl]. cbn [wrun].
  destruct (reach_dtrace _ _ _ _ _ R) as [tr T]. apply dtrace_history in T.
  set (d := w_dec w) in *. set (c := dc_core d) in *.
  assert (K : mkeys (d_sources c) = ids1 n).
  { apply ssorted_ext; [apply (dh_good _ _ _ _ T) | apply consecutive_sorted|].
    intros x. rewrite (pl_keys _ _ _ Pl), map_map. cbn [fst]. rewrite map_id. reflexivity. }
  destruct (generate_ack d) as [d1 out] eqn:G. pose proof G as G0. unfold generate_ack in G. fold c in G. rewrite K in G.
  pose proof (quiet_ack (ids1 n) d) as [Q _]. rewrite G in Q. cbn [fst] in Q.
  destruct (generate_ack_of_spec _ _ _ _ (dh_ids _ _ _ _ T) (consecutive_sorted 1 n) G) as (_ & _ & _ & _ & _ & ->).
  set (a := {| a_ids := ids1 n; a_nb := a_nb (dc_ack d) |}). set (p := the_ack (ids1 n) (a_nb (dc_ack d))) in *.
  assert (E1 : exists w1, wstep m clk w Ack = Ok w1 /\ w_enc w1 = w_enc w /\ w_dec w1 = d1 /\ w_out w1 = w_out w /\ w_acks w1 = w_acks w ++ [p]).
  { cbn [wstep]. unfold System.receiver. cbn [dstep]. fold d. rewrite G0. cbn [bind survive].
    eexists. split; [reflexivity|]. split; [reflexivity|]. split; [reflexivity|]. split; reflexivity. }
  destruct E1 as (w1 & E1 & A1 & A2 & A3 & A4). rewrite E1. cbn [bind wstep]. rewrite A4, nth_error_app2, Nat.sub_diag by lia. cbn [nth_error].
  assert (Rd : read_ack m p = Ok (a, length p)).
  { apply (C03_ack_roundtrip m a).
    - cbn [a a_nb]. rewrite (dh_since _ _ _ _ T). apply u16_lt.
    - split; [apply consecutive_sorted|]. apply Forall_forall. intros x X. apply consecutive_in in X. lia.
    - apply consecutive_close.
    - unfold run_count_fits. cbn [a a_ids]. unfold ids1. rewrite C09_consecutive_cost by lia. unfold ceil_div.
      assert ((N.of_nat n - 1 + 255 - 1) / 255 <= 65534); [|lia].
      apply N.div_le_upper_bound; [discriminate|lia]. }
  assert (Ty : get_packet_type p = Ok TAck) by reflexivity.
  assert (E2 : exists w2, sender m w1 (EPacket p) [] = Ok w2 /\ apply_ack (with_ack (w_enc w)) a = Ok (w_enc w2) /\ w_dec w2 = d1 /\ w_out w2 = w_out w).
  { unfold sender. rewrite A1. cbn [estep]. unfold notify. rewrite Ty. replace (assert_ m (Nat.ltb 0 (length p))) with (Ok tt) by (destruct m; reflexivity).
    cbn [bind]. rewrite Rd. unfold apply_ack. cbn [with_ack e_adaptive]. rewrite Ad. cbn [bind survive].
    eexists. split; [reflexivity|]. cbn [w_enc w_dec w_out]. rewrite A2, A3, app_nil_r. auto. }
  destruct E2 as (w2 & E2 & B1 & B2 & B3). rewrite E2. cbn [bind]. exists w2. split; [reflexivity|].
  unfold apply_ack in B1. cbn [with_ack e_adaptive] in B1. rewrite Ad in B1. cbn [bind] in B1.
  assert (Ew : erase_sources (e_sources (w_enc w)) (ids1 n) = [source_of_id 0]).
  { rewrite Wi, erase_unlisted; [|unfold ids_of; rewrite map_map; cbn [es_id source_of_id]; rewrite map_id; apply consecutive_sorted | apply consecutive_sorted].
    change (upto 0 (Datatypes.S n)) with (0 :: map (fun i => 0 + N.of_nat i) (seq 1 n)). rewrite <- seq_shift, map_map.
    cbn [map]. unfold unlisted. cbn [filter es_id source_of_id].
    replace (existsb (N.eqb 0) (ids1 n)) with false.
    2: { symmetry. apply not_true_is_false. intros X. apply existsb_exists in X. destruct X as (x & X & Y). apply N.eqb_eq in Y. subst x.
         apply consecutive_in in X. lia. }
    cbn [negb]. f_equal. rewrite map_map. apply filter_none. intros s X. apply in_map_iff in X. destruct X as (j & <- & X). apply in_seq in X.
    cbn [es_id source_of_id]. apply negb_false_iff, existsb_exists. exists (0 + N.of_nat (Datatypes.S j)). split; [apply consecutive_in; lia | apply N.eqb_refl]. }
  assert (B : forall V (g : enc -> V) e', Ok e' = Ok (w_enc w2) -> g (w_enc w2) = g e') by (intros V g e' X; congruence).
  destruct Sf. constructor.
  - constructor.
    + rewrite (B _ e_field _ B1). assumption.
    + rewrite (B _ e_sources _ B1). cbn [e_sources with_ack a_ids a]. rewrite Ew. constructor; [exact first_legal | constructor].
    + rewrite (B _ e_rate _ B1). assumption.
    + rewrite (B _ e_window_size _ B1). assumption.
    + rewrite (B _ e_nb_sent_packets _ B1). reflexivity.
  - rewrite (B _ e_sources _ B1). exact Ew.
  - rewrite (B _ e_source_id _ B1). exact Id.
  - rewrite (B _ e_rate _ B1). exact Ra.
  - rewrite (B _ e_systematic _ B1). exact Sy.
  - rewrite (B _ e_window_size _ B1). exact Si.
  - rewrite (B _ e_repair_id _ B1). exact Re.
  - rewrite B3. exact Ou.
  - rewrite B2, Q. apply (dh_field _ _ _ _ T).
  - rewrite B2, Q. exact Pl.
Qed.

(** The repair of the first and the last datum. *)
Definition far_sources : list esource :=
  [{| es_id := 0; es_data := first_datum |}; {| es_id := 65536; es_data := last_datum |}].
Definition far_packet (m : mode) (p : packet) : Prop :=
  exists r ws, encode W8 m 0 far_sources = Ok r /\ write_repair m r = Ok ws /\ p = concat ws.

Lemma far_sent m clk o n w : N.of_nat n = 65535 -> acked_all m clk o n w ->
  exists w' p, wrun m clk w [Data last_datum; Repair] = Ok w' /\ w_dec w' = w_dec w
  /\ nth_error (w_out w') (Datatypes.S (Datatypes.S n)) = Some p /\ far_packet m p.
Proof.
  intros Hn [Sf Wi Id Ra Sy Si Re Ou Fi Pl]. cbn [wrun].
  destruct (estep_safe m W8 (w_enc w) (EData last_datum) Sf) as (e & r & E & Hf & Sf').
  { exact last_legal. }
  { discriminate. }
  pose proof (estep_data _ _ _ _ _ E Hf) as (out & Er & A). subst r.
  assert (E1 : exists w1, wstep m clk w (Data last_datum) = Ok w1 /\ w_enc w1 = e /\ w_dec w1 = w_dec w /\ w_out w1 = w_out w ++ out).
  { cbn [wstep]. unfold sender. rewrite E. cbn [bind survive]. eexists. split; [reflexivity|]. auto. }
  destruct E1 as (w1 & E1 & A1 & A2 & A3). rewrite E1. cbn [bind].
  destruct A. destruct ad_out as (first & rest & Eo & O1 & _ & _ & O4).
  assert (rest = []).
  { apply O4. rewrite Id, Ra. clear - Hn. unfold u32. rewrite (N.mod_small _ (2 ^ 32)) by lia. rewrite N.mod_small by lia. lia. }
  subst rest.
  assert (Ew : e_sources e = far_sources).
  { unfold push_source in ad_push. rewrite Wi, Si in ad_push. cbn [length] in ad_push. change (N.of_nat 1 =? 18446744073709551615) with false in ad_push.
    assert (Ee : e_sources e = [source_of_id 0] ++ [{| es_id := e_source_id (w_enc w); es_data := last_datum |}]) by congruence.
    rewrite Ee, Id. replace (N.of_nat (Datatypes.S n)) with 65536 by lia. reflexivity. }
  assert (Er : e_repair_id e = 0).
  { destruct ad_repair_id as [Y|[_ Y]]; [|congruence]. rewrite Y, Re.
    assert (Z : first = concat (write_source {| es_id := e_source_id (w_enc w); es_data := last_datum |})) by exact (O1 Sy).
    rewrite Eo, Z. reflexivity. }
  destruct (estep_safe m W8 e ERepair Sf' I) as (e2 & r & E2 & Hf2 & _); [intros _; rewrite Ew; discriminate|].
  pose proof (estep_repair _ _ _ _ E2 Hf2) as (out2 & -> & G).
  pose proof (generate_repair_ok _ _ _ _ G) as (r & ws & G1 & G2 & G3 & _).
  rewrite (sf_field _ _ Sf'), Er, Ew in G1.
  assert (Fp : far_packet m (concat ws)) by (exists r, ws; auto).
  set (p := concat ws) in *. clearbody p.
  assert (E3 : exists w2, wstep m clk w1 Repair = Ok w2 /\ w_dec w2 = w_dec w /\ w_out w2 = w_out w ++ [first] ++ [p]).
  { cbn [wstep]. unfold sender. rewrite A1, E2, G3. cbn [bind survive]. eexists. split; [reflexivity|]. cbn [w_dec w_out].
    split; [exact A2|]. rewrite A3, Eo, <- app_assoc. reflexivity. }
  destruct E3 as (w2 & E3 & B1 & B2). rewrite E3. cbn [bind]. exists w2, p. split; [reflexivity|]. split; [exact B1|]. split; [|exact Fp].
  rewrite B2, nth_error_app2 by lia. replace (Datatypes.S (Datatypes.S n) - length (w_out w))%nat with 1%nat by lia. reflexivity.
Qed.

Lemma given_rounds n : given (rounds n) = repeat other_datum n.
Proof.
  induction n as [|n IH]; [reflexivity|]. cbn [rounds]. rewrite SystemFifo.given_app, IH. cbn [round given flat_map app].
  replace (Datatypes.S n) with (n + 1)%nat by lia. rewrite repeat_app. reflexivity.
Qed.

Lemma arrivals_rounds n : arrivals (rounds n) = seq 1 n.
Proof.
  induction n as [|n IH]; [reflexivity|]. cbn [rounds]. rewrite arrivals_app, IH, seq_S. reflexivity.
Qed.

Lemma seq_sorted a n : StronglySorted le (seq a n).
Proof.
  revert a. induction n as [|n IH]; intros a; [constructor|]. cbn [seq]. constructor; [apply IH|]. apply Forall_forall. intros x X. apply in_seq in X. lia.
Qed.

(** The run up to the arrival of that repair. *)
Lemma far_run m clk o : exists l k w p, wrun m clk (start clk W8 o) l = Ok w
  /\ Forall (legal_action W8) (l ++ [Arrive k]) /\ N.of_nat (length (given (l ++ [Arrive k]))) = 65537 /\ StronglySorted le (arrivals (l ++ [Arrive k]))
  /\ (forall d, In d (given (l ++ [Arrive k])) -> In d [first_datum; other_datum; last_datum])
  /\ nth_error (w_out w) k = Some p /\ far_packet m p
  /\ d_field (dc_core (w_dec w)) = W8
  /\ exists s, PropsHostile.plain o (dc_core (w_dec w)) s /\ ~ In 0 (map fst s).
Proof.
  assert (Big : exists n, N.of_nat n = 65535) by (exists (N.to_nat 65535); apply N2Nat.id).
  destruct Big as [n Hn].
  destruct (filling_run m clk o n ltac:(lia)) as (w0 & E0 & F).
  destruct (acked_step m clk o n w0 ltac:(lia) F) as (w1 & E1 & A).
  destruct (far_sent m clk o n w1 Hn A) as (w2 & p & E2 & G1 & G2 & G3).
  exists ((opening ++ rounds n) ++ [Ack; AckArrive (length (w_acks w0))] ++ [Data last_datum; Repair]), (Datatypes.S (Datatypes.S n)), w2, p.
  split; [rewrite SystemFifo.wrun_app, E0; cbn [bind]; rewrite SystemFifo.wrun_app, E1; exact E2|].
  assert (Lg : forall d, bytes d -> legal W8 d -> legal_action W8 (Data d)) by (intros d X (Y1 & Y2 & Y3); repeat split; assumption).
  assert (Bf : bytes first_datum) by (unfold first_datum; destruct long; repeat constructor).
  assert (Bl : bytes last_datum) by (unfold last_datum; destruct long; repeat constructor).
  split.
  { apply Forall_app. split; [|repeat constructor]. apply Forall_app. split; [apply Forall_app; split|].
    - constructor; [reflexivity|]. constructor; [exact I|]. constructor; [|constructor]. apply Lg; [exact Bf | exact first_legal].
    - clear. induction n as [|n IH]; [constructor|]. cbn [rounds]. apply Forall_app. split; [exact IH|]. repeat constructor.
    - constructor; [exact I|]. constructor; [exact I|]. constructor; [apply Lg; [exact Bl | exact last_legal]|]. repeat constructor. }
  rewrite !SystemFifo.given_app, given_rounds, !arrivals_app, arrivals_rounds.
  split; [rewrite !app_length, repeat_length; cbn [given opening flat_map length app]; lia|].
  split.
  { change (arrivals opening) with (@nil nat). cbn [arrivals flat_map app]. rewrite app_nil_r. apply sorted_snoc; [apply seq_sorted|].
    intros i X. apply in_seq in X. lia. }
  split.
  { intros d. rewrite !in_app_iff. cbn [given opening flat_map In app].
    intros [[[[X|[]]|X]|[[]|[X|[]]]]|[]]; auto. apply repeat_spec in X. auto. }
  split; [exact G2|]. split; [exact G3|]. rewrite G1. destruct A as [Sf Wi Id Ra Sy Si Re Ou Fi Pl]. split; [exact Fi|].
  eexists. split; [exact Pl|]. rewrite map_map. cbn [fst]. rewrite map_id. intros X. apply consecutive_in in X. lia.
Qed.

End far.

(** What the receiver reads in that repair, and makes of it. *)
Definition far_read (long : bool) (m : mode) : option (list N * outcome (N * list N)) :=
  match (r <- encode W8 m 0 (far_sources long) ;; write_repair m r) with
  | Ok w => match get_packet_type (concat w), read_repair m (concat w) with
            | Ok TRepair, Ok (r, _) => Some (dr_ids r, create_source m W8 r)
            | _, _ => None
            end
  | _ => None
  end.
Lemma far_read_is long m : far_read long m = Some ([0], if long then Ok (0, [3]) else Fault OutOfBounds).
Proof. destruct long, m; vm_compute; reflexivity. Qed.

Lemma far_known long m p : far_packet long m p -> get_packet_type p = Ok TRepair
  /\ exists r k, read_repair m p = Ok (r, k) /\ dr_ids r = [0]
  /\ create_source m W8 r = if long then Ok (0, [3]) else Fault OutOfBounds.
Proof.
  intros (r & ws & E1 & E2 & ->). pose proof (far_read_is long m) as F. unfold far_read in F. rewrite E1 in F.
  change (bind (Ok r) (fun r => write_repair m r)) with (write_repair m r) in F. rewrite E2 in F. cbn iota in F.
  set (p := concat ws) in *. clearbody p.
  destruct (get_packet_type p) as [[| |]|x|x]; try discriminate. split; [reflexivity|].
  destruct (read_repair m p) as [[rr k]|x|x]; try discriminate. exists rr, k. split; [reflexivity|]. split; congruence.
Qed.

(** Beyond 65536 data the claim fails although every call is legal, no packet is reordered and
    every list of identifiers is short: the distance of two identifiers is sent in 16 bits,
    and the repair of data 0 and 65536 reads as a repair of datum 0 alone. *)
Theorem C43_far_refuted :
  forall m clk o, exists l w d, wrun m clk (start clk W8 o) l = Ok w
  /\ Forall (legal_action W8) l /\ N.of_nat (length (given l)) = 65537 /\ StronglySorted le (arrivals l)
  /\ In d (w_got w) /\ ~ In d (given l).
Proof.
  intros m clk o. destruct (far_run true m clk o) as (l & k & w & p & E & A1 & A2 & A3 & A4 & A5 & A6 & Fi & s & Pl & H0).
  destruct (far_known true m p A6) as (Ty & rr & q & Rr & Hi & Cs).
  destruct (lone_repair m o (dc_core (w_dec w)) s rr Pl H0 Hi) as [_ L]. rewrite Fi in L. destruct (L [3] Cs) as (c & more & L1 & L2 & L3).
  assert (G : exists w', wstep m clk w (Arrive k) = Ok w' /\ In [3] (w_got w')).
  { cbn [wstep]. rewrite A5. unfold System.receiver. cbn [dstep]. unfold dec_packet. rewrite Ty.
    assert (Ln : assert_ m (Nat.ltb 0 (length p)) = Ok tt) by (destruct p; [destruct m; discriminate | destruct m; reflexivity]).
    rewrite Ln. cbn [bind]. rewrite Rr. cbn [bind]. unfold call_core. cbn [count_packet dc_core]. rewrite L1. cbn [bind].
    match goal with |- context [handle_sources ?k ?dd ?ll] => pose proof (handle_sources_user k ll dd) as [Hu Hk];
      destruct (handle_sources k dd ll) as [d1 o1] end.
    cbn [fst snd] in Hu. cbn [bind finish survive]. eexists. split; [reflexivity|]. cbn [w_got]. rewrite Hu, L2, skipn_app, skipn_all, Nat.sub_diag.
    cbn [skipn app]. apply in_or_app. right. exact L3. }
  destruct G as (w' & E' & G). exists (l ++ [Arrive k]), w', [3].
  split; [rewrite SystemFifo.wrun_app, E; cbn [bind wrun]; rewrite E'; reflexivity|].
  split; [exact A1|]. split; [exact A2|]. split; [exact A3|]. split; [exact G|].
  intros X. apply A4 in X. destruct X as [X|[X|[X|[]]]]; discriminate.
Qed.
Print Assumptions C43_far_refuted.

(** The same with shorter data: the receiver reads beyond the end of that repair, in both builds. *)
Theorem C30_far_refuted :
  forall m clk o, exists l k w, wrun m clk (start clk W8 o) l = Ok w
  /\ Forall (legal_action W8) (l ++ [Arrive k]) /\ N.of_nat (length (given l)) = 65537 /\ StronglySorted le (arrivals (l ++ [Arrive k]))
  /\ wrun m clk (start clk W8 o) (l ++ [Arrive k]) = Fault OutOfBounds.
Proof.
  intros m clk o. destruct (far_run false m clk o) as (l & k & w & p & E & A1 & A2 & A3 & A4 & A5 & A6 & Fi & s & Pl & H0).
  destruct (far_known false m p A6) as (Ty & rr & q & Rr & Hi & Cs).
  destruct (lone_repair m o (dc_core (w_dec w)) s rr Pl H0 Hi) as [L _]. rewrite Fi in L. specialize (L OutOfBounds Cs).
  exists l, k, w. split; [exact E|]. split; [exact A1|].
  split; [rewrite SystemFifo.given_app, app_length in A2; cbn [given flat_map length] in A2; rewrite Nat.add_0_r in A2; exact A2|]. split; [exact A3|].
  rewrite SystemFifo.wrun_app, E. cbn [bind wrun wstep]. rewrite A5. unfold System.receiver. cbn [dstep]. unfold dec_packet. rewrite Ty.
  assert (Ln : assert_ m (Nat.ltb 0 (length p)) = Ok tt) by (destruct p; [destruct m; discriminate | destruct m; reflexivity]).
  rewrite Ln. cbn [bind]. rewrite Rr. cbn [bind]. unfold call_core. cbn [count_packet dc_core]. rewrite L. reflexivity.
Qed.
Print Assumptions C30_far_refuted.
