(** * C66: builds with and without assertions

    Where no assertion fails, both builds do the same. *)
From Coq Require Import ZArith NArith PeanoNat List Bool Sorted Lia.
From Verif Require Import Outcome GF GFField PropsGF Containers Matrix MatrixFacts PropsMatrix Packetizer PropsPacketizer Encoder EncoderRun DetailDecoder Decoder System
  SystemInv SystemFifo PropsDecoder PropsSystem PropsFifo.
Import ListNotations.
Open Scope N_scope.
Open Scope outcome_scope.

Definition agree {A} (debug release : outcome A) : Prop := debug = release \/ debug = Fault AssertFailure.

Lemma agree_refl {A} (x : outcome A) : agree x x.
Proof. left. reflexivity. Qed.

Lemma agree_bind {A B} (x y : outcome A) (k k' : A -> outcome B) :
  agree x y -> (forall a, y = Ok a -> agree (k a) (k' a)) -> agree (bind x k) (bind y k').
Proof.
  intros [->| ->] H; [|right; reflexivity]. destruct y as [a|e|e]; cbn [bind]; [apply H; reflexivity|left; reflexivity|left; reflexivity].
Qed.

Lemma agree_assert b : agree (assert_ Debug b) (assert_ Release b).
Proof. destruct b; [left|right]; reflexivity. Qed.

Create HintDb agree.
Global Hint Resolve agree_refl agree_assert : agree.

Ltac agr :=
  repeat (cbv zeta; match goal with
   | |- agree ?x ?x => apply agree_refl
   | |- agree (bind _ _) (bind _ _) => apply agree_bind; [|intros ? _]
   | |- agree (match ?x with _ => _ end) (match ?x with _ => _ end) => destruct x
   | |- _ => solve [auto with agree]
   end).

Lemma flush_loop_agree l : forall d, agree (flush_loop Debug l d) (flush_loop Release l d).
Proof. induction l as [|id l IH]; intros d; cbn [flush_loop]; agr. Qed.
Global Hint Resolve flush_loop_agree : agree.
Lemma flush_agree d : agree (flush Debug d) (flush Release d).
Proof. unfold flush. agr. Qed.
Global Hint Resolve flush_agree : agree.
Lemma remove_data_agree f id data r : agree (remove_data Debug f id data r) (remove_data Release f id data r).
Proof. unfold remove_data. agr. Qed.
Global Hint Resolve remove_data_agree : agree.
Lemma remove_source_agree f id data r : agree (remove_source Debug f id data r) (remove_source Release f id data r).
Proof. unfold remove_source. agr. Qed.
Global Hint Resolve remove_source_agree : agree.
Lemma create_source_agree f r : agree (create_source Debug f r) (create_source Release f r).
Proof. unfold create_source. agr. Qed.
Global Hint Resolve create_source_agree : agree.
Lemma announce_agree d id data : agree (announce Debug d id data) (announce Release d id data).
Proof. unfold announce. agr. Qed.
Global Hint Resolve announce_agree : agree.
Lemma remove_from_repairs_agree f id data rs : forall reps,
  agree (remove_from_repairs Debug f id data rs reps) (remove_from_repairs Release f id data rs reps).
Proof. induction rs as [|r rs IH]; intros reps; cbn [remove_from_repairs]; agr. Qed.
Global Hint Resolve remove_from_repairs_agree : agree.
Lemma no_longer_missing_agree d id data : agree (no_longer_missing Debug d id data) (no_longer_missing Release d id data).
Proof. unfold no_longer_missing. agr. Qed.
Global Hint Resolve no_longer_missing_agree : agree.
Lemma scan_agree rec rec' keys : (forall d id data, agree (rec d id data) (rec' d id data)) ->
  forall d, agree (scan rec Debug keys d) (scan rec' Release keys d).
Proof. intros H. induction keys as [|k keys IH]; intros d; cbn [scan]; agr. Qed.
Lemma store_agree d id data : agree (store Debug d id data) (store Release d id data).
Proof. unfold store. agr. Qed.
Global Hint Resolve store_agree : agree.
Lemma add_source_agree fuel : forall d id data, agree (add_source fuel Debug d id data) (add_source fuel Release d id data).
Proof.
  induction fuel as [|fuel IH]; intros d id data; cbn [add_source]; [agr|].
  apply agree_bind; [agr|]. intros d1 _. apply agree_bind; [agr|]. intros d2 _. apply agree_bind; [apply scan_agree; exact IH|]. intros d3 _. agr.
Qed.
Global Hint Resolve add_source_agree : agree.
Lemma drop_repairs_agree id reps : forall d, agree (drop_repairs Debug id reps d) (drop_repairs Release id reps d).
Proof. induction reps as [|[r rep] reps IH]; intros d; cbn [drop_repairs]; agr. Qed.
Global Hint Resolve drop_repairs_agree : agree.
Lemma drop_outdated_agree d id : agree (drop_outdated Debug d id) (drop_outdated Release d id).
Proof. unfold drop_outdated. agr. Qed.
Global Hint Resolve drop_outdated_agree : agree.
Lemma decode_symbol_agree f n l : agree (decode_symbol Debug f n l) (decode_symbol Release f n l).
Proof. induction l as [|[c r] l IH]; cbn [decode_symbol]; agr. Qed.
Global Hint Resolve decode_symbol_agree : agree.
Lemma add_decoded_agree d id data : agree (add_decoded Debug d id data) (add_decoded Release d id data).
Proof. unfold add_decoded. agr. Qed.
Global Hint Resolve add_decoded_agree : agree.
Lemma decode_all_agree n inv reps missing : forall col d,
  agree (decode_all Debug n inv reps col missing d) (decode_all Release n inv reps col missing d).
Proof. induction missing as [|id l IH]; intros col d; cbn [decode_all]; agr. Qed.
Global Hint Resolve decode_all_agree : agree.
Lemma attempt_agree d : agree (attempt_full_decoding Debug d) (attempt_full_decoding Release d).
Proof. unfold attempt_full_decoding. agr. Qed.
Global Hint Resolve attempt_agree : agree.
Lemma recv_source_agree d id data : agree (recv_source Debug d id data) (recv_source Release d id data).
Proof. unfold recv_source. agr. Qed.
Global Hint Resolve recv_source_agree : agree.
Lemma link_repair_agree ids : forall d r, agree (link_repair Debug ids d r) (link_repair Release ids d r).
Proof. induction ids as [|id ids IH]; intros d r; cbn [link_repair]; agr. Qed.
Global Hint Resolve link_repair_agree : agree.
Lemma recv_repair_agree d r : agree (recv_repair Debug d r) (recv_repair Release d r).
Proof. unfold recv_repair. agr. Qed.
Global Hint Resolve recv_repair_agree : agree.

(** ** Readers: a packet of the right type is read in the same way. *)
Lemma assert_type_same p t : get_packet_type p = Ok t -> assert_type Debug p t = assert_type Release p t.
Proof. intros H. unfold assert_type. rewrite H. cbn [bind]. destruct t; reflexivity. Qed.

Lemma read_repair_same p : get_packet_type p = Ok TRepair -> read_repair Debug p = read_repair Release p.
Proof. intros H. unfold read_repair. rewrite (assert_type_same _ _ H). reflexivity. Qed.
Lemma read_source_same p : get_packet_type p = Ok TSource -> read_source Debug p = read_source Release p.
Proof. intros H. unfold read_source. rewrite (assert_type_same _ _ H). reflexivity. Qed.
Lemma read_ack_same p : get_packet_type p = Ok TAck -> read_ack Debug p = read_ack Release p.
Proof. intros H. unfold read_ack. rewrite (assert_type_same _ _ H). reflexivity. Qed.

(** ** Calls with a state *)

Definition agree2 {S A} (x y : S * outcome A) : Prop := x = y \/ snd x = Fault AssertFailure.

Lemma agree2_snd {S A B} (x y : S * outcome A) (k : A -> outcome B) : agree2 x y ->
  agree2 (let '(s, r) := x in (s, bind r k)) (let '(s, r) := y in (s, bind r k)).
Proof. intros [->|H]; [left; reflexivity|]. right. destruct x as [s r]. cbn [snd] in *. rewrite H. reflexivity. Qed.

Lemma finish_agree {A} d (x y : outcome (dec * A)) : agree x y -> agree2 (finish d x) (finish d y).
Proof. intros [->| ->]; [left|right]; reflexivity. Qed.

Lemma dec_packet_agree clk d p : agree2 (dec_packet Debug clk d p) (dec_packet Release clk d p).
Proof.
  unfold dec_packet. destruct (Nat.ltb 0 (length p)); cbn [assert_ bind]; [|right; reflexivity].
  destruct (get_packet_type p) as [[| |]| |] eqn:T; try (left; reflexivity).
  - apply finish_agree. rewrite (read_repair_same p T). apply agree_bind; [agr|]. intros [r n] _. apply agree_bind; [unfold call_core; agr|]. agr.
  - apply finish_agree. rewrite (read_source_same p T). apply agree_bind; [agr|]. intros [r n] _. apply agree_bind; [unfold call_core; agr|]. agr.
Qed.

Lemma dstep_agree clk d op : agree2 (dstep Debug clk d op) (dstep Release clk d op).
Proof.
  destruct op as [p| | |t|n]; cbn [dstep]; try (left; reflexivity).
  - apply agree2_snd. apply dec_packet_agree.
  - apply finish_agree. apply agree_bind; [|agr]. unfold set_ack_nb_packets. agr.
Qed.

Lemma encode_agree f id l : agree (encode f Debug id l) (encode f Release id l).
Proof. unfold encode. agr. Qed.
Global Hint Resolve encode_agree : agree.
Lemma write_repair_agree r : agree (write_repair Debug r) (write_repair Release r).
Proof. unfold write_repair. agr. Qed.
Global Hint Resolve write_repair_agree : agree.
Lemma generate_repair_agree e : agree (generate_repair Debug e) (generate_repair Release e).
Proof. unfold generate_repair. agr. Qed.
Global Hint Resolve generate_repair_agree : agree.
Lemma send_source_agree e s : agree (send_source Debug e s) (send_source Release e s).
Proof. unfold send_source. agr. Qed.
Global Hint Resolve send_source_agree : agree.
Lemma commit_agree e d : agree (commit Debug e d) (commit Release e d).
Proof. unfold commit. agr. Qed.
Global Hint Resolve commit_agree : agree.
Lemma enc_data_agree e d : agree (enc_data Debug e d) (enc_data Release e d).
Proof. unfold enc_data. agr. Qed.
Global Hint Resolve enc_data_agree : agree.
Lemma notify_agree e p : agree2 (notify Debug e p) (notify Release e p).
Proof.
  unfold notify. destruct (Nat.ltb 0 (length p)); cbn [assert_ bind]; [|right; reflexivity].
  destruct (get_packet_type p) as [[| |]| |] eqn:T; try (left; reflexivity).
  rewrite (read_ack_same p T). left. reflexivity.
Qed.

Lemma estep_agree e op : agree2 (estep Debug e op) (estep Release e op).
Proof.
  assert (L : forall x y : outcome (enc * list packet), agree x y ->
    agree2 (match x with Ok (e', out) => (e', Ok out) | Throw z => (e, Throw z) | Fault z => (e, Fault z) end)
           (match y with Ok (e', out) => (e', Ok out) | Throw z => (e, Throw z) | Fault z => (e, Fault z) end)).
  { intros x y [->| ->]; [left|right]; reflexivity. }
  destruct op as [d|p| |b|r|n|b]; cbn [estep]; try (left; reflexivity).
  - apply L. agr.
  - apply agree2_snd. apply notify_agree.
  - apply L. agr.
  - apply L. apply agree_bind; [|agr]. unfold set_rate. agr.
  - apply L. apply agree_bind; [|agr]. unfold set_window_size. agr.
Qed.

(** ** C66 *)

(** A build with assertions either does exactly what a build without them does, or an assertion
    fails: for each call ... *)
Theorem C66_calls :
  (forall e op, estep Debug e op = estep Release e op \/ snd (estep Debug e op) = Fault AssertFailure)
  /\ (forall clk d op, dstep Debug clk d op = dstep Release clk d op \/ snd (dstep Debug clk d op) = Fault AssertFailure).
Proof. split; [exact estep_agree | exact dstep_agree]. Qed.
Print Assumptions C66_calls.

(** ... and for each sequence of calls. *)
Theorem C66_runs :
  (forall ops e, erun Debug e ops = erun Release e ops \/ erun Debug e ops = Fault AssertFailure)
  /\ (forall clk ops d, drun Debug clk d ops = drun Release clk d ops \/ drun Debug clk d ops = Fault AssertFailure)
  /\ (forall clk l w, wrun Debug clk w l = wrun Release clk w l \/ wrun Debug clk w l = Fault AssertFailure).
Proof.
  split; [|split].
  - induction ops as [|op ops IH]; intros e; [left; reflexivity|]. cbn [erun].
    destruct (estep_agree e op) as [->|H].
    + destruct (estep Release e op) as [e' [out|x|x]]; [|apply IH|left; reflexivity].
      apply agree_bind; [apply IH|]. intros [e2 o2] _. left. reflexivity.
    + destruct (estep Debug e op) as [e' r]. cbn [snd] in H. rewrite H. right. reflexivity.
  - intros clk. induction ops as [|op ops IH]; intros d; [left; reflexivity|]. cbn [drun].
    destruct (dstep_agree clk d op) as [->|H].
    + destruct (dstep Release clk d op) as [d' [out|x|x]]; [|apply IH|left; reflexivity].
      apply agree_bind; [apply IH|]. intros [e2 o2] _. left. reflexivity.
    + destruct (dstep Debug clk d op) as [e' r]. cbn [snd] in H. rewrite H. right. reflexivity.
  - intros clk.
    assert (S : forall w op data, agree (sender Debug w op data) (sender Release w op data)).
    { intros w op data. unfold sender. destruct (estep_agree (w_enc w) op) as [->|H]; [left; reflexivity|].
      destruct (estep Debug (w_enc w) op) as [e r]. cbn [snd] in H. rewrite H. right. reflexivity. }
    assert (R : forall w op k, agree (System.receiver Debug clk w op k) (System.receiver Release clk w op k)).
    { intros w op k. unfold System.receiver. destruct (dstep_agree clk (w_dec w) op) as [->|H]; [left; reflexivity|].
      destruct (dstep Debug clk (w_dec w) op) as [e r]. cbn [snd] in H. rewrite H. right. reflexivity. }
    induction l as [|a l IH]; intros w; [left; reflexivity|]. cbn [wrun].
    apply agree_bind; [|intros w' _; apply IH]. destruct a; cbn [wstep]; auto with agree.
    + destruct (nth_error (w_out w) k); auto with agree.
    + destruct (nth_error (w_acks w) j); auto with agree.
Qed.
Print Assumptions C66_runs.

(** So a run that returns in a build with assertions returns the same in the other one. *)
Theorem C66_tested :
  (forall ops e e' out, erun Debug e ops = Ok (e', out) -> erun Release e ops = Ok (e', out))
  /\ (forall clk ops d d' out, drun Debug clk d ops = Ok (d', out) -> drun Release clk d ops = Ok (d', out))
  /\ (forall clk l w w', wrun Debug clk w l = Ok w' -> wrun Release clk w l = Ok w').
Proof.
  destruct C66_runs as (A & B & C). split; [|split].
  - intros ops e e' out H. destruct (A ops e) as [E|E]; congruence.
  - intros clk ops d d' out H. destruct (B clk ops d) as [E|E]; congruence.
  - intros clk l w w' H. destruct (C clk l w) as [E|E]; congruence.
Qed.
Print Assumptions C66_tested.

(** Over a channel without overtaking, with legal data, no assertion fails: both builds
    do the same, up to a repair that is asked for while nothing is outstanding. *)
Theorem C66_fifo :
  forall clk f o l, sizes_fit_during Debug clk f o l -> Forall (legal_action f) l -> N.of_nat (length (given l)) <= 65535 ->
  StronglySorted le (arrivals l) ->
  wrun Debug clk (start clk f o) l = wrun Release clk (start clk f o) l
  \/ exists before after w, l = before ++ Repair :: after
     /\ wrun Debug clk (start clk f o) before = Ok w /\ wrun Release clk (start clk f o) before = Ok w
     /\ e_sources (w_enc w) = [].
Proof.
  intros clk f o l Hz Hl Hn Hs. destruct (C30_fifo_runs Debug clk f o l Hz Hl Hn Hs) as [(w & E)|(b & a & w & -> & E & Z)].
  - left. rewrite E. symmetry. apply C66_tested. exact E.
  - right. exists b, a, w. split; [reflexivity|]. split; [exact E|]. split; [apply C66_tested; exact E|exact Z].
Qed.
Print Assumptions C66_fifo.

(** The unconditional claims are false. Without assertions, an empty datum is sent, also to the
    receiver's user. *)
Theorem C66_same_refuted :
  exists l, wrun Debug still (start still W8 true) l = Fault AssertFailure
  /\ exists w, wrun Release still (start still W8 true) l = Ok w /\ w_got w = [[]].
Proof. exists [Data []; Arrive 0]. split; [vm_compute; reflexivity|]. eexists. split; [vm_compute; reflexivity|reflexivity]. Qed.
Print Assumptions C66_same_refuted.

(** The assertions do not detect all undefined behaviour: a single repair that claims a long datum is read
    beyond its end in both builds. *)
Theorem C66_guarded_refuted :
  exists p, forall m o, succeeds (read_repair m p) = true
  /\ drun m still (new_dec still W8 o) [DPacket p] = Fault OutOfBounds.
Proof.
  exists [1; 0; 0; 0; 0; 0; 4; 0; 3; 6; 0; 0; 1; 0; 0; 0; 0; 255; 255]. intros m o. split; destruct m; try destruct o; vm_compute; reflexivity.
Qed.

(** A reader called directly with a packet of a wrong type: an exception with assertions, a value
    without them. *)
Theorem C66_readers_refuted :
  exists p s n, read_source Debug p = Throw PacketTypeError /\ read_source Release p = Ok (s, n).
Proof. exists [9; 0; 0; 0; 5; 0; 1; 77]. eexists _, _. split; vm_compute; reflexivity. Qed.

Print Assumptions C66_guarded_refuted.
Print Assumptions C66_readers_refuted.

(** The run of C30 (it meets the hypotheses of C66_fifo: [C30_C43_case]), with losses and duplicates, returns in both builds. *)
Example C66_case : exists w, wrun Debug still (start still W8 true) tale = Ok w /\ length (w_got w) = 4%nat.
Proof. eexists. split; [vm_compute; reflexivity|]. vm_compute. reflexivity. Qed.

(** The assertions that the model leaves out hold: galois_field.hh 100 (a coefficient is an element of the field) and
    137 (no inverse of zero is asked for). The coefficients of repairs and their inverses; the entries of an inverted
    matrix, by which sizes are multiplied; the diagonal entry that the inversion divides by, after the exchange of rows,
    in any state of the inversion. *)
Theorem C66_field_assertions :
  forall f,
  (forall r s, is_elt f (coefficient f r s) /\ coefficient f r s <> 0 /\ is_elt f (gf_invert f (coefficient f r s)))
  /\ (forall reps missing inv mat' inv', reps <> [] -> length missing = length reps -> length inv = (length reps * length reps)%nat ->
      invert f (length reps) (coefficients f reps missing) inv = Ok (inr (mat', inv')) -> Forall (is_elt f) inv')
  /\ (forall n i j mat mat' x, length mat = (n * n)%nat -> (i < n)%nat ->
      find_row n i mat (n - Datatypes.S i) (Datatypes.S i) = Ok j -> j <> n -> swap_rows n i j mat = Ok mat' ->
      get mat' (i * n + i) = Ok x -> x <> 0).
Proof.
  intros f. split; [|split].
  - intros r s. destruct (C12_coefficient_nonzero f r s) as [A B]. split; [exact A|]. split; [exact B|]. apply ginv_elt. exact A.
  - intros reps missing inv mat' inv' Hr Hm Hi E.
    assert (M : is_matrix f (length reps) (coefficients f reps missing)).
    { unfold coefficients. split.
      - rewrite <- Hm at 2. clear. induction reps as [|[r rep] reps IH]; [reflexivity|]. cbn [map concat length].
        rewrite app_length, map_length, IH. reflexivity.
      - intros x Hx. apply in_concat in Hx. destruct Hx as (l & Hl & Hx). apply in_map_iff in Hl. destruct Hl as ([r rep] & <- & _).
        apply in_map_iff in Hx. destruct Hx as (id & <- & _). destruct (smem id (dr_ids rep)); [apply C12_coefficient_nonzero|].
        destruct f; reflexivity. }
    destruct (C15_inversion_sound f (length reps) (coefficients f reps missing) inv) as (r & E' & H); [destruct reps; [contradiction|discriminate]|exact M|exact Hi|].
    rewrite E in E'. injection E' as <-. destruct (H mat' inv' eq_refl) as ((_ & H1) & _). apply Forall_forall. exact H1.
  - intros n i j mat mat' x Hl Hi Ef Hj Es Eg.
    destruct (find_row_spec n i mat (n - Datatypes.S i) (Datatypes.S i) Hl Hi) as (r & Er & Hr & _ & Hz); [lia|].
    rewrite Ef in Er. injection Er as <-. assert (Hlt : (j < n)%nat) by lia.
    destruct (swap_rows_spec n i j mat Hl Hi Hlt) as (v & Ev & Wv & Hv); [lia|]. rewrite Es in Ev. injection Ev as <-.
    rewrite (get_at n mat' i i Wv Hi Hi) in Eg. injection Eg as <-. rewrite Hv by assumption. rewrite Nat.eqb_refl. apply Hz. exact Hlt.
Qed.
Print Assumptions C66_field_assertions.

Example C66_field_case :
  let reps := [(0, {| dr_id := 0; dr_ids := [1; 2]; dr_enc := 0; dr_buf := []; dr_size := 0 |});
               (1, {| dr_id := 1; dr_ids := [2]; dr_enc := 0; dr_buf := []; dr_size := 0 |})] in
  (exists mat inv, invert W8 2 (coefficients W8 reps [1; 2]) (repeat 0 4) = Ok (inr (mat, inv)))
  /\ find_row 2 0 [0; 3; 5; 1] 1 1 = Ok 1%nat.
Proof. split; [eexists _, _|]; vm_compute; reflexivity. Qed.
