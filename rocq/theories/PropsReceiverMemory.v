(** * The receiver when memory runs out

    C97: what holds after std::bad_alloc, and what does not. *)
From Coq Require Import ZArith NArith PeanoNat List Bool Lia.
From Verif Require Import Outcome GF Containers Packetizer Matrix
  DetailDecoder Decoder PropsDecoder Encoder EncoderRun Handlers DecoderHandlers SenderMemory ReceiverMemory.
Import ListNotations.
Open Scope N_scope.
Open Scope outcome_scope.

(** ** Vocabulary *)

Definition plenty (mem : memory) : Prop := forall n, mem n = false.

(** The allocations number [bad] fail. *)
Definition short_of (bad : list nat) : memory := fun n => existsb (Nat.eqb n) bad.

(** Handlers that never throw. *)
Definition calm_handlers : uhandler := fun _ _ => false.

(** ** Lemmas: the model with memory follows the model of C59 until an allocation fails *)

Section Sim.
Variable mem : memory.

Lemma attempts_plenty k : plenty mem -> forall n, snd (attempts mem k n) = true.
Proof. intros Hm. induction k as [|k IH]; intros n; cbn [attempts]; [reflexivity|]. rewrite Hm. apply IH. Qed.

Lemma attempts_bad k n n' : attempts mem k n = (n', false) -> ~ plenty mem.
Proof. intros H Hm. pose proof (attempts_plenty k Hm n) as A. rewrite H in A. discriminate. Qed.

Definition longer (tr : list ucall) (o : outer) : Prop := exists more, snd o = tr ++ more.

Lemma longer_refl o : longer (snd o) o.
Proof. exists []. rewrite app_nil_r. reflexivity. Qed.

Lemma longer_trans tr o o' : longer tr o -> longer (snd o) o' -> longer tr o'.
Proof. intros (a & E) (b & E'). exists (a ++ b). rewrite E', E, app_assoc. reflexivity. Qed.

Definition starts (tr : list ucall) (y : tres outer) : Prop :=
  match y with TOk o _ => longer tr o | TThrew _ _ => False | _ => True end.

(** [x]: with the memory [mem]; [y]: with memory enough; both began with the trace [tr]. *)
Definition follows (tr : list ucall) (x : tres (outer * nat)) (y : tres outer) : Prop :=
  starts tr y /\
  match x with
  | TOk (o, _) d => y = TOk o d
  | TThrew (o, _) _ => ~ plenty mem /\ starts (snd o) y /\ longer tr o
  | TTerminate => ~ plenty mem \/ y = TTerminate
  | TError e => y = TError e
  | TFault e => y = TFault e
  end.

Lemma f_ok o n d : follows (snd o) (TOk (o, n) d) (TOk o d).
Proof. split; [apply longer_refl | reflexivity]. Qed.

Lemma f_fault tr e : follows tr (TFault e) (TFault e).
Proof. split; [exact I | reflexivity]. Qed.

Lemma f_bind tr x y k k' : follows tr x y -> (forall o n d, follows (snd o) (k (o, n) d) (k' o d)) ->
  follows tr (tbind x k) (tbind y k').
Proof.
  intros [S F] K. assert (S' : forall tr, starts tr y -> starts tr (tbind y k')).
  { intros tr'. destruct y as [o d|o d| | |]; cbn [starts tbind]; auto. intros L.
    destruct (K o 0%nat d) as [S2 _]. destruct (k' o d); cbn [starts] in *; auto. eapply longer_trans; eassumption. }
  split; [apply S', S|].
  destruct x as [[o n] d|[o n] d|e| |e]; cbn [tbind].
  - subst y. cbn [tbind starts] in *. destruct (K o n d) as [_ F2]. revert F2. unfold outer in *.
    destruct (k (o, n) d) as [[o1 n1] d1|[o1 n1] d1|e| |e]; intros F2; try exact F2.
    destruct F2 as (P & F2 & L). split; [exact P|]. split; [exact F2 | eapply longer_trans; eassumption].
  - destruct F as (P & F & L). split; [exact P|]. split; [apply S', F | exact L].
  - subst y. reflexivity.
  - destruct F as [F| ->]; [left; exact F | right; reflexivity].
  - subst y. reflexivity.
Qed.

Lemma f_lift {A} tr (x : outcome A) k k' : (forall a, follows tr (k a) (k' a)) -> follows tr (tlift x k) (tlift x k').
Proof. intros K. destruct x; cbn [tlift]; [apply K | split; [exact I | reflexivity]..]. Qed.

Lemma f_noexcept tr x y : follows tr x y -> follows tr (tnoexcept x) (tnoexcept y).
Proof.
  intros [S F]. split; [destruct y; cbn [tnoexcept starts] in *; auto|].
  destruct x as [[o n] d|[o n] d|e| |e]; cbn [tnoexcept].
  - subst y. reflexivity.
  - left. apply F.
  - subst y. right. reflexivity.
  - destruct F as [F| ->]; [left; exact F | right; reflexivity].
  - subst y. reflexivity.
Qed.

Lemma f_spend k o n d next y : (forall n, follows (snd o) (next (o, n)) y) -> follows (snd o) (spend mem k (o, n) d next) y.
Proof.
  intros K. unfold spend. cbn [fst snd]. destruct (attempts mem k n) as [n' ok] eqn:E. destruct ok; [apply K|].
  split; [apply (K 0%nat)|]. split; [eapply attempts_bad, E|]. split; [apply (K 0%nat) | apply longer_refl].
Qed.

Lemma f_spend_noexcept k o n next y : (forall n, follows (snd o) (next (o, n)) y) -> follows (snd o) (spend_noexcept mem k (o, n) next) y.
Proof.
  intros K. unfold spend_noexcept. cbn [fst snd]. destruct (attempts mem k n) as [n' ok] eqn:E. destruct ok; [apply K|].
  split; [apply (K 0%nat)|]. left. eapply attempts_bad, E.
Qed.

Variable cbx : outer * nat -> event -> (outer * nat) * bool.
Variable cb : outer -> event -> outer * bool.
Hypothesis CB : forall o n v o1 n1 bad o2 bad2, cbx (o, n) v = ((o1, n1), bad) -> cb o v = (o2, bad2) ->
  bad2 = false /\ longer (snd o) o2 /\ if bad then ~ plenty mem /\ longer (snd o1) o2 /\ longer (snd o) o1 else o1 = o2.

Lemma f_callback o n d id data : follows (snd o) (tcallback cbx (o, n) d id data) (tcallback cb o d id data).
Proof.
  unfold tcallback. destruct (cbx (o, n) _) as [[o1 n1] bad] eqn:E1. destruct (cb o _) as [o2 bad2] eqn:E2.
  destruct (CB _ _ _ _ _ _ _ _ E1 E2) as (-> & L & H). destruct bad.
  - split; [exact L | exact H].
  - subst o2. split; [exact L | reflexivity].
Qed.

Lemma f_callback_ordered o n d id : follows (snd o) (tcallback_ordered cbx (o, n) d id) (tcallback_ordered cb o d id).
Proof. unfold tcallback_ordered. destruct (mfind id _); [apply f_callback | apply f_fault]. Qed.

Lemma f_flush_loop m l : forall o n d, follows (snd o) (tflush_loop cbx m l (o, n) d) (tflush_loop cb m l o d).
Proof.
  induction l as [|id l IH]; intros o n d; cbn [tflush_loop]; [apply f_ok|].
  apply f_lift. intros _. apply f_bind; [apply f_callback_ordered|]. intros o1 n1 d1. cbv zeta.
  destruct l as [|id' l]; [apply f_ok|]. destruct (_ <? id'); [apply f_ok | apply IH].
Qed.

Lemma f_flush m o n d : follows (snd o) (tflush cbx m (o, n) d) (tflush cb m o d).
Proof. unfold tflush. destruct (smem _ _); [apply f_flush_loop | apply f_ok]. Qed.

Lemma f_first m o n d id data :
  follows (snd o) (tbind (tcallback cbx (o, n) d id data) (fun t d => tflush cbx m t (with_first d (u32 (d_first d + 1)))))
    (tbind (tcallback cb o d id data) (fun t d => tflush cb m t (with_first d (u32 (d_first d + 1))))).
Proof. apply f_bind; [apply f_callback|]. intros o1 n1 d1. apply f_flush. Qed.

Lemma f_announce m o n d id data : follows (snd o) (tannounce cbx m (o, n) d id data) (tannounce cb m o d id data).
Proof.
  unfold tannounce. destruct (negb _); [apply f_callback|]. destruct (id =? d_first d); [apply f_first | apply f_ok].
Qed.

Lemma f_scan recx rec m keys : (forall o n d id data, follows (snd o) (recx (o, n) d id data) (rec o d id data)) ->
  forall o n d, follows (snd o) (xscan mem recx m keys (o, n) d) (tscan rec m keys o d).
Proof.
  intros R. induction keys as [|k keys IH]; intros o n d; cbn [xscan tscan]; [apply f_ok|].
  destruct (mfind k (d_missing d)) as [[|r [|r2 rs]]|]; try apply IH.
  destruct (mfind r (d_repairs d)) as [rep|]; [|apply f_fault].
  destruct (Nat.eqb _ 1); [|apply IH].
  apply f_lift. intros _. apply f_lift. intros _. apply f_lift. intros [id data].
  apply f_spend_noexcept. intros n1. apply f_bind; [apply R|]. intros o1 n2 d1.
  destruct (find _ keys) as [k'|]; [|apply f_ok]. destruct (mmem k' _); [apply IH | apply f_fault].
Qed.

Lemma f_store m o n d id data :
  follows (snd o) (xstore mem m (o, n) d id data) (tlift (store m d id data) (fun d => TOk o d)).
Proof.
  unfold xstore, store. destruct (assert_ m _) as [[]|x|x]; cbn [tlift bind]; [|split; [exact I | reflexivity]..].
  apply f_spend. intros n1. cbv zeta. destruct (_ && _); [|apply f_ok]. apply f_spend. intros n2. apply f_ok.
Qed.

Lemma f_add_source m fuel : forall o n d id data,
  follows (snd o) (xadd_source mem cbx fuel m (o, n) d id data) (tadd_source cb fuel m o d id data).
Proof.
  induction fuel as [|fuel IH]; intros o n d id data; cbn [xadd_source tadd_source]; [apply f_fault|].
  apply f_bind; [apply f_announce|]. intros o1 n1 d1. apply f_lift. intros d2.
  apply f_bind; [apply f_scan, IH|]. intros o3 n3 d3. apply f_store.
Qed.

Lemma f_deliver_outdated l : forall o n d, follows (snd o) (tdeliver_outdated cbx l (o, n) d) (tdeliver_outdated cb l o d).
Proof.
  induction l as [|id l IH]; intros o n d; cbn [tdeliver_outdated]; [apply f_ok|].
  apply f_bind; [apply f_callback_ordered|]. intros o1 n1 d1. apply IH.
Qed.

Lemma f_drop_outdated m o n d id : follows (snd o) (tdrop_outdated cbx m (o, n) d id) (tdrop_outdated cb m o d id).
Proof.
  unfold tdrop_outdated. apply f_noexcept. cbv zeta. apply f_lift. intros d1. apply f_bind.
  - destruct (d_in_order d1); [|apply f_ok]. apply f_bind; [apply f_deliver_outdated|]. intros o2 n2 d2. apply f_flush.
  - intros o2 n2 d2. apply f_ok.
Qed.

Lemma f_add_decoded m o n d id data : follows (snd o) (xadd_decoded mem cbx m (o, n) d id data) (tadd_decoded cb m o d id data).
Proof.
  unfold xadd_decoded, tadd_decoded. apply f_lift. intros _. apply f_spend. intros n1. cbv zeta.
  destruct (negb _); [apply f_callback|]. destruct (id =? _); [apply f_first|]. apply f_spend. intros n2. apply f_ok.
Qed.

Lemma f_decode_all m k inv reps missing : forall col o n d,
  follows (snd o) (xdecode_all mem cbx m k inv reps col missing (o, n) d) (tdecode_all cb m k inv reps col missing o d).
Proof.
  induction missing as [|id missing IH]; intros col o n d; cbn [xdecode_all tdecode_all]; [apply f_ok|].
  cbv zeta. apply f_lift. intros data. apply f_spend. intros n1.
  apply f_bind; [apply f_add_decoded|]. intros o2 n2 d2. apply IH.
Qed.

Lemma f_unlink r ids : forall o n d nextx next,
  (forall n, follows (snd o) (nextx (o, n) (with_missing d (unlink_or_create r ids (d_missing d)))) next) ->
  follows (snd o) (xunlink mem r ids (o, n) d nextx) next.
Proof.
  induction ids as [|id ids IH]; intros o n d nextx next K; cbn [xunlink unlink_or_create] in *.
  - replace d with (with_missing d (d_missing d)) by (destruct d; reflexivity). apply K.
  - destruct (mfind id (d_missing d)) as [links|].
    + apply IH. exact K.
    + apply f_spend. intros n1. apply IH. exact K.
Qed.

Lemma f_attempt m o n d : follows (snd o) (xattempt mem cbx m (o, n) d) (tattempt cb m o d).
Proof.
  unfold xattempt, tattempt. cbv zeta. destruct (_ || _); [apply f_ok|]. destruct (Nat.ltb (length (d_repairs d)) _); [apply f_ok|].
  apply f_lift. intros _. apply f_lift. intros _. destruct (negb _); [apply f_fault|].
  apply f_lift. intros r. apply f_spend. intros n1. destruct r as [k|[a inv]].
  - unfold failed_decoding. cbv zeta. change (d_repairs (with_failed d (d_failed d + 1))) with (d_repairs d).
    destruct (nth_error (d_repairs d) k) as [[r rep]|]; [|apply f_fault].
    cbn [tlift]. apply f_unlink. intros n2. apply f_ok.
  - apply f_spend. intros n2. apply f_bind; [apply f_decode_all|]. intros o3 n3 d3. apply f_ok.
Qed.

Lemma f_recv_source m o n d id data : follows (snd o) (xrecv_source mem cbx m (o, n) d id data) (trecv_source cb m o d id data).
Proof.
  unfold xrecv_source, trecv_source. destruct (outdated d id); [apply f_ok|]. destruct (mmem id _); [apply f_ok|].
  apply f_bind; [apply f_add_source|]. intros o1 n1 d1. apply f_attempt.
Qed.

Lemma f_link m ids : forall o n d r nextx next,
  (forall n d r, follows (snd o) (nextx (o, n) d r) (next (d, r))) ->
  follows (snd o) (xlink mem m ids (o, n) d r nextx) (tlift (link_repair m ids d r) next).
Proof.
  induction ids as [|id ids IH]; intros o n d r nextx next K; cbn [xlink link_repair]; [apply K|].
  destruct (mfind id (d_sources d)) as [data|].
  - destruct (remove_data m _ id data r) as [r1|x|x]; cbn [tlift bind]; [apply IH, K | split; [exact I | reflexivity]..].
  - destruct (mfind id (d_missing d)) as [l|]; cbv zeta; apply f_spend; intros n1; apply IH, K.
Qed.

Lemma f_recv_repair m o n d r : follows (snd o) (xrecv_repair mem cbx m (o, n) d r) (trecv_repair cb m o d r).
Proof.
  unfold xrecv_repair, trecv_repair. apply f_lift. intros _. destruct (dr_ids r) as [|first l]; [apply f_fault|].
  destruct (outdated d _); [apply f_ok|]. destruct (mmem (dr_id r) _); [apply f_ok|].
  apply f_bind; [apply f_drop_outdated|]. intros o1 n1 d1. destruct (forallb _ _); [apply f_ok|].
  apply f_lift. intros _. apply f_spend. intros n2. apply f_link. intros n3 d3 r3. cbv zeta.
  apply f_lift. intros _. destruct (Nat.eqb _ 1); [|apply f_attempt].
  apply f_lift. intros [id data]. apply f_spend_noexcept. intros n4. apply f_add_source.
Qed.

End Sim.

(** ** The outer class *)

Lemma ufeed_calm calls : forall tr, ufeed calm_handlers tr calls = (tr ++ map UPacket calls, false).
Proof.
  induction calls as [|c calls IH]; intros tr; cbn [ufeed map]; [rewrite app_nil_r; reflexivity|].
  change (calm_handlers tr (UPacket c)) with false. cbv iota. rewrite IH, <- app_assoc. reflexivity.
Qed.

Lemma xfill_ok mem known : forall d n d' n' ok, xfill mem known d n = (d', n', ok) ->
  (if ok then d' = fill_ack known d else ~ plenty mem)
  /\ (exists ids, d' = fill_ack ids d /\ incl ids known).
Proof.
  induction known as [|x l IH]; intros d n d' n' ok H; cbn [xfill] in H.
  - injection H as <- _ <-. split; [destruct d as [a b c [i k] e f g h j]; reflexivity|].
    exists []. split; [destruct d as [a b c [i k] e f g h j]; reflexivity | apply incl_refl].
  - destruct (mem n) eqn:E.
    + injection H as <- _ <-. split; [intros P; rewrite P in E; discriminate|].
      exists []. split; [destruct d as [a b c [i k] e f g h j]; reflexivity | intros y []].
    + apply IH in H. destruct H as (H1 & ids & H2 & H3). split.
      * destruct ok; [|exact H1]. rewrite H1. reflexivity.
      * exists (x :: ids). split; [rewrite H2; reflexivity|]. intros y [->|Hy]; [left; reflexivity | right; apply H3, Hy].
Qed.

Lemma xgenerate_follows mem known o n o1 n1 bad o2 bad2 :
  xgenerate_ack mem known o n = (o1, n1, bad) -> ugenerate_ack calm_handlers known o = (o2, bad2) ->
  bad2 = false /\ longer (snd o) o2 /\ if bad then ~ plenty mem /\ longer (snd o1) o2 /\ longer (snd o) o1 else o1 = o2.
Proof.
  destruct o as [d tr]. unfold xgenerate_ack, ugenerate_ack. rewrite ufeed_calm.
  destruct (xfill mem known d n) as [[d' n'] ok] eqn:E. apply xfill_ok in E. destruct E as (E & _).
  intros H1 H2. injection H2 as <- <-. split; [reflexivity|]. split; [eexists; reflexivity|].
  destruct ok.
  - subst d'. destruct (attempts mem _ n') as [n2 ok] eqn:Ea. destruct ok; injection H1 as <- _ <-; [reflexivity|].
    split; [eapply attempts_bad, Ea|]. cbn [snd]. split; [|eexists; reflexivity].
    exists (skipn 2 (map UPacket (packet_calls (write_ack (dc_ack (fill_ack known d)))))). cbn [snd].
    rewrite <- app_assoc. f_equal.
  - injection H1 as <- _ <-. split; [exact E|]. cbn [snd]. split; [eexists; reflexivity | exists []; rewrite app_nil_r; reflexivity].
Qed.

Lemma xmaybe_follows mem clk known o n o1 n1 bad o2 bad2 :
  xmaybe_ack mem clk known o n = (o1, n1, bad) -> umaybe_ack calm_handlers clk known o = (o2, bad2) ->
  bad2 = false /\ longer (snd o) o2 /\ if bad then ~ plenty mem /\ longer (snd o1) o2 /\ longer (snd o) o1 else o1 = o2.
Proof.
  unfold xmaybe_ack, umaybe_ack. cbv zeta.
  destruct (xgenerate_ack mem known o n) as [[o3 n3] bad3] eqn:E3. destruct (ugenerate_ack calm_handlers known o) as [o4 bad4] eqn:E4.
  destruct (xgenerate_follows _ _ _ _ _ _ _ _ _ E3 E4) as (-> & L & R).
  destruct (_ <=? a_nb _).
  - intros H1 H2. injection H2 as <- <-. split; [reflexivity|]. split; [exact L|].
    destruct bad3; injection H1 as <- _ <-; [exact R | subst o4; reflexivity].
  - destruct (_ =? 0)%Z.
    + intros H1 H2. injection H1 as <- _ <-. injection H2 as <- <-. split; [reflexivity|]. split; [apply longer_refl | reflexivity].
    + destruct (_ <=? _)%Z; intros H1 H2; injection H2 as <- <-.
      * split; [reflexivity|]. split; [exact L|]. destruct bad3; injection H1 as <- _ <-; [exact R | subst o4; reflexivity].
      * injection H1 as <- _ <-. split; [reflexivity|]. split; [exists []; rewrite app_nil_r; reflexivity | reflexivity].
Qed.

Lemma xhandle_follows mem clk o n v o1 n1 bad o2 bad2 :
  xhandle_source mem clk (o, n) v = ((o1, n1), bad) -> uhandle_source calm_handlers clk o v = (o2, bad2) ->
  bad2 = false /\ longer (snd o) o2 /\ if bad then ~ plenty mem /\ longer (snd o1) o2 /\ longer (snd o) o1 else o1 = o2.
Proof.
  destruct o as [d tr]. unfold xhandle_source, uhandle_source. change (calm_handlers tr (UData (v_data v))) with false. cbv iota.
  destruct (xmaybe_ack mem clk _ _ n) as [[o3 n3] bad3] eqn:E3. intros H1 H2. injection H1 as -> _ ->.
  destruct (xmaybe_follows _ _ _ _ _ _ _ _ _ _ E3 H2) as (-> & L & R).
  assert (L0 : forall o', longer (tr ++ [UData (v_data v)]) o' -> longer tr o').
  { intros o' (more & E). rewrite <- app_assoc in E. eexists. exact E. }
  split; [reflexivity|]. split; [apply L0, L|]. destruct bad; [|exact R].
  destruct R as (P & R1 & R2). split; [exact P|]. split; [exact R1 | apply L0, R2].
Qed.

(** What one call does, compared with the call when memory suffices. *)
Definition compared (mem : memory) (o : outer) (x : outer * nat * xres) (y : outer * ures) : Prop :=
  let '(o1, _, r1) := x in
  let '(o2, r2) := y in
  match r1 with
  | XRes UTerminate => ~ plenty mem \/ (r2 = UTerminate /\ o1 = o2)
  | XRes r => r = r2 /\ o1 = o2
  | XNoMemory => ~ plenty mem /\ longer (snd o) o1 /\ (r2 = UDone -> longer (snd o1) o2)
  end.

Lemma compared_finish mem o n x y : follows mem (snd o) x y -> compared mem o (xfinish o n x) (ufinish o y).
Proof.
  intros [S F]. destruct x as [[[d1 tr1] n1] c|[[d1 tr1] n1] c|e| |e]; cbn [xfinish].
  - subst y. cbn. auto.
  - destruct F as (P & F & L). destruct y as [[d2 tr2] c2|[d2 tr2] c2|e| |e]; cbn [compared ufinish starts snd] in *;
      (split; [exact P|]; split; [exact L|]; intros X; try discriminate X). exact F.
  - subst y. cbn. auto.
  - destruct F as [F| ->]; [|cbn; auto]. destruct (ufinish o y). left. exact F.
  - subst y. cbn. auto.
Qed.

Lemma xstep_compared mem m clk o n op : compared mem o (xstep mem m clk o n op) (ustep calm_handlers m clk o op).
Proof.
  destruct op as [p| | |t|k]; cbn [xstep ustep].
  - unfold xpacket, upacket. destruct o as [d tr]. destruct (bind _ _) as [t|x|x]; [|cbn; auto..].
    destruct (attempts mem 1 n) as [n1 ok] eqn:E1. destruct ok.
    + destruct t.
      * destruct (attempts mem 1 n1) as [n2 ok] eqn:E2. destruct ok; [cbn; auto|]. cbn [compared].
        split; [eapply attempts_bad, E2|]. split; [apply longer_refl | discriminate].
      * destruct (attempts mem 1 n1) as [n2 ok] eqn:E2. destruct ok.
        -- destruct (read_repair m p) as [[r k]|x|x]; [|cbn; auto..].
           apply (compared_finish mem (count_packet d 1 0, tr)). apply (f_recv_repair mem _ _ (xhandle_follows mem clk)).
        -- assert (P : ~ plenty mem) by (eapply attempts_bad, E2).
           assert (L : forall y, y = upacket calm_handlers m clk (d, tr) p -> True) by auto. clear L.
           destruct (read_repair m p) as [[r k]|x|x]; [|cbn [compared]; split; [exact P|]; split; [exists []; rewrite app_nil_r; reflexivity | discriminate]..].
           pose proof (f_recv_repair mem _ _ (xhandle_follows mem clk) m (count_packet d 1 0, tr) 0 (dc_core (count_packet d 1 0)) r) as [S _].
           destruct (trecv_repair _ _ _ _ _) as [[d2 tr2] c2|[d2 tr2] c2|e| |e]; cbn [ufinish compared starts snd] in *;
             (split; [exact P|]; split; [exists []; rewrite app_nil_r; reflexivity|]; intros X; try discriminate X).
           exact S.
      * destruct (read_source m p) as [[s k]|x|x]; [|cbn; auto..].
        apply (compared_finish mem (count_packet d 0 1, tr)). apply (f_recv_source mem _ _ (xhandle_follows mem clk)).
    + assert (P : ~ plenty mem) by (eapply attempts_bad, E1).
      assert (G : forall y : outer * ures, (snd y = UDone -> longer tr (fst y)) -> compared mem (d, tr) ((d, tr), n1, XNoMemory) y).
      { intros [o2 r2] H. cbn [compared snd fst] in *. split; [exact P|]. split; [apply longer_refl | exact H]. }
      apply G. destruct t.
      * discriminate.
      * destruct (read_repair m p) as [[r k]|x|x]; [|discriminate..].
        pose proof (f_recv_repair mem _ _ (xhandle_follows mem clk) m (count_packet d 1 0, tr) 0 (dc_core (count_packet d 1 0)) r) as [S _].
        destruct (trecv_repair _ _ _ _ _) as [[d2 tr2] c2|[d2 tr2] c2|e| |e]; cbn [ufinish starts snd fst] in *; try discriminate.
        intros _. exact S.
      * destruct (read_source m p) as [[s k]|x|x]; [|discriminate..].
        pose proof (f_recv_source mem _ _ (xhandle_follows mem clk) m (count_packet d 0 1, tr) 0 (dc_core (count_packet d 0 1)) (ds_id s) (ds_data s)) as [S _].
        destruct (trecv_source _ _ _ _ _ _) as [[d2 tr2] c2|[d2 tr2] c2|e| |e]; cbn [ufinish starts snd fst] in *; try discriminate.
        intros _. exact S.
  - destruct (xgenerate_ack _ _ _ _) as [[o1 n1] bad] eqn:E1. destruct (ugenerate_ack _ _ _) as [o2 bad2] eqn:E2.
    destruct (xgenerate_follows _ _ _ _ _ _ _ _ _ E1 E2) as (-> & L & R). destruct bad; cbn [compared]; [|auto].
    destruct R as (P & R1 & R2). auto.
  - destruct (xmaybe_ack _ _ _ _ _) as [[o1 n1] bad] eqn:E1. destruct (umaybe_ack _ _ _ _) as [o2 bad2] eqn:E2.
    destruct (xmaybe_follows _ _ _ _ _ _ _ _ _ _ E1 E2) as (-> & L & R). destruct bad; cbn [compared]; [|auto].
    destruct R as (P & R1 & R2). auto.
  - cbn. auto.
  - destruct (set_ack_nb_packets m (fst o) k); cbn; auto.
Qed.

(** ** C97 *)

(** While memory suffices this model is the one of C59, with handlers that do not throw. *)
Theorem C97_enough_memory :
  forall mem m clk ops o n, plenty mem ->
  xrun mem m clk o n ops
  = (fst (urun calm_handlers m clk o ops), map (fun x => (fst x, XRes (snd x))) (snd (urun calm_handlers m clk o ops))).
Proof.
  intros mem m clk ops. induction ops as [|op ops IH]; intros o n P; cbn [xrun urun]; [reflexivity|].
  pose proof (xstep_compared mem m clk o n op) as C. destruct (xstep mem m clk o n op) as [[o1 n1] r1].
  destruct (ustep calm_handlers m clk o op) as [o2 r2]. cbn [compared] in C.
  assert (E : r1 = XRes r2 /\ o1 = o2).
  { destruct r1 as [r|]; [|destruct C as (C & _); contradiction].
    destruct r; try (destruct C as (-> & ->); auto; fail). destruct C as [C|(-> & ->)]; [contradiction | auto]. }
  destruct E as (-> & ->). rewrite (IH o2 n1 P). destruct (urun calm_handlers m clk o2 ops) as [o3 rs]. destruct r2; reflexivity.
Qed.
Print Assumptions C97_enough_memory.

(** A call that runs out of memory hands to the user a beginning of what it would have handed over. *)
Theorem C97_beginning :
  forall mem m clk o n op o' n', xstep mem m clk o n op = (o', n', XNoMemory) ->
  (exists calls, snd o' = snd o ++ calls)
  /\ forall o2, ustep calm_handlers m clk o op = (o2, UDone) -> exists rest, snd o2 = snd o' ++ rest.
Proof.
  intros mem m clk o n op o' n' H. pose proof (xstep_compared mem m clk o n op) as C. rewrite H in C.
  destruct (ustep calm_handlers m clk o op) as [o2 r2]. destruct C as (_ & C1 & C2). split; [exact C1|].
  intros o3 E. injection E as <- ->. apply C2. reflexivity.
Qed.
Print Assumptions C97_beginning.

(** A repair for whose copy or list of identifiers memory is missing is lost: nothing is handed over, and what the
    receiver knows and will acknowledge is as before; the packet is counted unless its copy failed. *)
Theorem C97_unread_repair :
  forall mem m clk o n p o' n' r, xstep mem m clk o n (DPacket p) = (o', n', r) ->
  get_packet_type p = Ok TRepair -> mem n = true \/ mem (S n) = true ->
  r = XNoMemory /\ snd o' = snd o /\ dc_core (fst o') = dc_core (fst o)
  /\ a_ids (dc_ack (fst o')) = a_ids (dc_ack (fst o)) /\ dc_nb_acks (fst o') = dc_nb_acks (fst o)
  /\ (mem n = true -> o' = o)
  /\ (mem n = false -> dc_nb_repairs (fst o') = u64 (dc_nb_repairs (fst o) + 1) /\ a_nb (dc_ack (fst o')) = u16 (a_nb (dc_ack (fst o)) + 1)).
Proof.
  intros mem m clk o n p o' n' r H T Hm. cbn [xstep] in H. unfold xpacket in H. destruct o as [d tr].
  rewrite T in H. assert (A : assert_ m (Nat.ltb 0 (length p)) = Ok tt) by (destruct p, m; (discriminate T || reflexivity)).
  rewrite A in H. cbn [bind] in H. destruct (attempts mem 1 n) as [n1 ok] eqn:E1. destruct ok.
  - assert (n1 = S n /\ mem n = false) as (-> & E0).
    { cbn [attempts] in E1. destruct (mem n) eqn:E; [discriminate|]. injection E1 as <-. auto. }
    destruct Hm as [Hm|Hm]; [congruence|]. cbn [attempts] in H. rewrite Hm in H. injection H as <- _ <-. cbn.
    repeat (split; [reflexivity|]). split; [congruence | auto].
  - assert (E0 : mem n = true) by (cbn [attempts] in E1; destruct (mem n); [reflexivity | discriminate]).
    injection H as <- _ <-. cbn. repeat (split; [reflexivity|]). intros; congruence.
Qed.
Print Assumptions C97_unread_repair.

(** Without ordering, a source on which the receiver runs out of memory is lost as well, or its datum was handed
    over before anything else. *)
Theorem C97_source :
  forall mem m clk o n p s k o' n', xstep mem m clk o n (DPacket p) = (o', n', XNoMemory) ->
  get_packet_type p = Ok TSource -> read_source m p = Ok (s, k) -> d_in_order (dc_core (fst o)) = false ->
  o' = o \/ exists more, snd o' = snd o ++ UData (ds_data s) :: more.
Proof.
  intros mem m clk o n p s k o' n' H T R O. cbn [xstep] in H. unfold xpacket in H. destruct o as [d tr].
  rewrite T in H. assert (A : assert_ m (Nat.ltb 0 (length p)) = Ok tt) by (destruct p, m; (discriminate T || reflexivity)).
  rewrite A in H. cbn [bind] in H. destruct (attempts mem 1 n) as [n1 ok]. destruct ok; [|injection H as <- _; left; reflexivity].
  rewrite R in H. right. cbn [fst snd] in *. set (d1 := count_packet d 0 1) in *.
  assert (O1 : d_in_order (dc_core d1) = false) by exact O.
  unfold xrecv_source in H. destruct (outdated (dc_core d1) (ds_id s)); [discriminate|].
  destruct (mmem (ds_id s) (d_sources (dc_core d1))); [discriminate|].
  unfold enough in H. cbn [xadd_source] in H.
  assert (An : exists d2 tr2 n2 bad, tannounce (xhandle_source mem clk) m ((d1, tr), n1) (dc_core d1) (ds_id s) (ds_data s)
      = (if bad : bool then TThrew ((d2, tr2), n2) (dc_core d1) else TOk ((d2, tr2), n2) (callback (dc_core d1) (ds_id s) (ds_data s)))
    /\ longer (tr ++ [UData (ds_data s)]) (d2, tr2)).
  { unfold tannounce. rewrite O1. cbn [negb]. unfold tcallback, xhandle_source. cbn [v_data v_known].
    destruct (xmaybe_ack mem clk _ _ n1) as [[[d2 tr2] n2] bad] eqn:E. exists d2, tr2, n2, bad. split; [destruct bad; reflexivity|].
    destruct (umaybe_ack calm_handlers clk (mkeys (d_sources (dc_core d1))) (d1, tr ++ [UData (ds_data s)])) as [o3 bad3] eqn:E3.
    destruct (xmaybe_follows _ _ _ _ _ _ _ _ _ _ E E3) as (_ & L & X). destruct bad; [apply X | subst o3; exact L]. }
  destruct An as (d2 & tr2 & n2 & bad & Ea & L). rewrite Ea in H. clear Ea.
  assert (L0 : forall o3, longer (tr ++ [UData (ds_data s)]) o3 -> exists more, snd o3 = tr ++ UData (ds_data s) :: more).
  { intros o3 (more & E). rewrite <- app_assoc in E. eexists. exact E. }
  destruct bad.
  - cbn [tbind xfinish] in H. injection H as <- _. apply (L0 (with_core d2 (dc_core d1), tr2)). exact L.
  - cbn [tbind] in H. set (c1 := callback (dc_core d1) (ds_id s) (ds_data s)) in *.
    pose (K := fun (t : outer * nat) (d : ddec) => tlift (no_longer_missing m d (ds_id s) (ds_data s)) (fun d =>
      tbind (xscan mem (xadd_source mem (xhandle_source mem clk) (length (d_missing (dc_core d1))) m) m (mkeys (d_missing d)) t d) (fun t d =>
      xstore mem m t d (ds_id s) (ds_data s)))).
    pose (K' := fun (t : outer) (d : ddec) => tlift (no_longer_missing m d (ds_id s) (ds_data s)) (fun d =>
      tbind (tscan (tadd_source (uhandle_source calm_handlers clk) (length (d_missing (dc_core d1))) m) m (mkeys (d_missing d)) t d) (fun t d =>
      tlift (store m d (ds_id s) (ds_data s)) (fun d => TOk t d)))).
    assert (F : follows mem tr2 (tbind (K ((d2, tr2), n2) c1) (fun t d => xattempt mem (xhandle_source mem clk) m t d))
      (tbind (K' (d2, tr2) c1) (fun t d => tattempt (uhandle_source calm_handlers clk) m t d))).
    { apply (f_bind mem (snd (d2, tr2))); [|intros; apply f_attempt, xhandle_follows].
      unfold K, K'. apply f_lift. intros d3. apply f_bind; [|intros; apply f_store].
      apply f_scan. intros. apply f_add_source, xhandle_follows. }
    change (xfinish (d1, tr) n1 (tbind (K ((d2, tr2), n2) c1) (fun t d => xattempt mem (xhandle_source mem clk) m t d)) = (o', n', XNoMemory)) in H.
    destruct F as (_ & F). destruct (tbind (K _ c1) _) as [[[d3 tr3] n3] c|[[d3 tr3] n3] c|e| |e]; try discriminate.
    destruct F as (_ & _ & F). cbn [xfinish] in H. injection H as <- _. apply (L0 (with_core d3 c, tr3)).
    destruct L as (a & La), F as (b & Fb). cbn [snd] in *. exists (a ++ b). cbn [snd]. rewrite Fb, La, <- app_assoc. reflexivity.
Qed.
Print Assumptions C97_source.

(** An ack for which memory is missing is not ended. Its identifiers are kept for the next ack, and each of them
    was kept before or is held. *)
Theorem C97_ack :
  forall mem m clk o n o' n', xstep mem m clk o n DAck = (o', n', XNoMemory) ->
  dc_core (fst o') = dc_core (fst o) /\ dc_nb_acks (fst o') = dc_nb_acks (fst o)
  /\ a_nb (dc_ack (fst o')) = a_nb (dc_ack (fst o))
  /\ (exists calls, snd o' = snd o ++ calls /\ ~ In (UPacket HEnd) calls)
  /\ exists kept, a_ids (dc_ack (fst o')) = fold_left (fun s x => sinsert x s) kept (a_ids (dc_ack (fst o)))
     /\ incl kept (map fst (d_sources (dc_core (fst o)))).
Proof.
  intros mem m clk [d tr] n o' n' H. cbn [xstep fst] in H. unfold xgenerate_ack in H.
  destruct (xfill mem _ d n) as [[d1 n1] ok] eqn:E. apply xfill_ok in E. destruct E as (_ & ids & -> & I).
  destruct ok.
  - destruct (attempts mem _ n1) as [n2 ok]. destruct ok; [discriminate|]. injection H as <- _. cbn [fst snd].
    repeat (split; [reflexivity|]). split; [|exists ids; split; [reflexivity | exact I]].
    eexists. split; [reflexivity|]. unfold write_ack, packet_calls. cbn [map app firstn].
    intros [X|[X|X]]; try discriminate. exact X.
  - injection H as <- _. cbn [fst snd]. repeat (split; [reflexivity|]). split; [|exists ids; split; [reflexivity | exact I]].
    exists []. rewrite app_nil_r. split; [reflexivity | intros []].
Qed.
Print Assumptions C97_ack.

(** ** What does not hold *)

Definition sent_packets (ops : list eop) : list packet :=
  match erun Debug (new_encoder W8) ops with Ok (_, ps) => ps | _ => [] end.

(** Two data are lost, and memory runs out while the repair is linked with them. The next source makes
    a build without assertions hand over bytes that nobody sent, and violates an assertion in the other
    build. *)
Theorem C97_integrity_refuted :
  exists mem ops p r later, sent_packets ops = p ++ [r; later]
  /\ let got m := snd (xrun mem m still (new_dec still W8 false, []) 0 [DPacket r; DPacket later]) in
     (exists x, In (UData x) (concat (map fst (got Release))) /\ ~ In (EData x) ops)
     /\ map snd (got Debug) = [XNoMemory; XRes (UFault AssertFailure)].
Proof.
  exists (short_of [5%nat]), [EData [1; 2]; EData [3; 4]; ERepair; EData [5; 6]], (firstn 2 (sent_packets [EData [1; 2]; EData [3; 4]])).
  do 2 eexists. split; [vm_compute; reflexivity|]. cbv zeta. split.
  - exists ([202; 139] ++ repeat 0 139). split; [vm_compute; right; left; reflexivity|]. vm_compute. intros [H|[H|[H|[H|[]]]]]; discriminate.
  - vm_compute. reflexivity.
Qed.
Print Assumptions C97_integrity_refuted.

(** A source that was handed over but not stored is handed over again when a repair brings it back; nothing was lost
    or repeated on the way. *)
Theorem C97_at_most_once_refuted :
  exists mem o d, snd (xrun mem Debug still (new_dec still W8 false, []) 0
      (map DPacket (sent_packets [EData d; ERepair]))) = o
  /\ o = [([UData d], XNoMemory); ([UData d], XRes UDone)].
Proof. exists (short_of [1%nat]). eexists. exists [1; 2]. split; [vm_compute; reflexivity | reflexivity]. Qed.
Print Assumptions C97_at_most_once_refuted.

(** With ordered delivery: a source was stored but not queued. Then the receiver holds the three data and acknowledges
    them, so that the sender forgets them, but it hands over the first one only. *)
Theorem C97_withheld_refuted :
  exists mem d0 d1 d2 o rs,
  xrun mem Debug still (new_dec still W8 true, []) 0
    (map DPacket (tl (sent_packets [EData d0; EData d1; ERepair; EData d2])) ++ [DAck]) = (o, rs)
  /\ map snd rs = [XNoMemory; XRes UDone; XRes UDone; XRes UDone]
  /\ d_sources (dc_core (fst o)) = [(0, d0); (1, d1); (2, d2)] /\ d_missing (dc_core (fst o)) = []
  /\ concat (map fst rs) = UData d0 :: map UPacket (packet_calls (write_ack {| a_ids := [0; 1; 2]; a_nb := 3 |})).
Proof.
  exists (short_of [2%nat]), [1; 2], [3; 4], [5; 6]. do 2 eexists. split; [vm_compute; reflexivity|].
  split; [reflexivity|]. split; [reflexivity|]. split; reflexivity.
Qed.
Print Assumptions C97_withheld_refuted.

(** Memory that is missing when a datum is recovered ends the program. *)
Theorem C97_survives_refuted :
  exists mem o r, snd (xrun mem Debug still (new_dec still W8 o, []) 0 [DPacket r]) = [([], XRes UTerminate)]
  /\ sent_packets [EData [1; 2]; ERepair] = [[2; 0; 0; 0; 0; 0; 2; 1; 2]; r].
Proof. exists (short_of [5%nat]), false. eexists. split; [|vm_compute; reflexivity]. vm_compute. reflexivity. Qed.
Print Assumptions C97_survives_refuted.

(** ** Cases *)

Example C97_enough_case : plenty (short_of []).
Proof. intros n. reflexivity. Qed.

(** The hypotheses of the theorems above: a repair that is not read, a source that is handed over and not stored, an ack
    that stops within its identifiers. *)
Example C97_case :
  let ps := sent_packets [EData [1; 2]; ERepair] in
  let run mem ops := map snd (snd (xrun mem Debug still (new_dec still W8 false, []) 0 ops)) in
  run (short_of [1%nat]) [DPacket (nth 1 ps [])] = [XNoMemory]
  /\ run (short_of [1%nat]) [DPacket (nth 0 ps [])] = [XNoMemory]
  /\ run (short_of [0%nat]) [DPacket (nth 0 ps []); DPacket (nth 1 ps [])] = [XNoMemory; XRes UDone]
  /\ run (short_of [3%nat]) [DPacket (nth 0 ps []); DAck; DAck] = [XRes UDone; XNoMemory; XRes UDone].
Proof. repeat split; vm_compute; reflexivity. Qed.
