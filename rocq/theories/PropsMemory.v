(** * C67: what the receiver keeps *)
From Coq Require Import ZArith NArith PeanoNat List Bool Sorted Permutation Lia.
From Verif Require Import Outcome GF Containers ContainersFacts Packetizer PacketizerFacts PropsPacketizer Encoder EncoderRun EncoderFacts DetailDecoder Decoder
  DecoderFacts DecoderOuter DecoderAlgebra DecoderInv DecoderStep DecoderProgress System SystemInv SystemRun SystemFifo PropsSystem PropsFifo PropsModes PropsDecoder.
Import ListNotations.
Open Scope N_scope.
Open Scope outcome_scope.

(** The oldest datum the receiver still cares for: the first one of the newest window it knows. *)
Definition oldest (d : dec) : N := match d_last (dc_core d) with Some x => x | None => 0 end.

Definition count {A} (l : list A) : N := N.of_nat (length l).

Lemma span (l : list N) a b : NoDup l -> (forall x, In x l -> a <= x < b) -> count l <= b - a.
Proof.
  intros D H. unfold count.
  assert (L : (length l <= length (map (fun k => a + N.of_nat k)%N (seq 0 (N.to_nat (b - a)))))%nat).
  { apply NoDup_incl_length; [exact D|]. intros x Hx. apply in_map_iff. exists (N.to_nat (x - a)).
    specialize (H x Hx). split; [lia|]. apply in_seq. lia. }
  rewrite map_length, seq_length in L. lia.
Qed.

Lemma nodup_cat (a b : list N) : NoDup a -> NoDup b -> (forall x, In x a -> ~ In x b) -> NoDup (a ++ b).
Proof.
  induction a as [|x a IH]; intros A B H; [exact B|]. inversion A; subst. cbn [app]. constructor.
  - rewrite in_app_iff. intros [X|X]; [contradiction|]. apply (H x (or_introl eq_refl) X).
  - apply IH; [assumption|assumption|]. intros y Hy. apply H. right. exact Hy.
Qed.

(** As long as no repair overtakes another: all data kept or missing are among those sent since the oldest
    one of the newest window that was announced, and the repairs kept wait for missing data only. *)
Theorem C67_bounds :
  forall m clk f o w, normal m clk f o w ->
  (forall r rep x, In (r, rep) (pending (w_dec w)) -> In x (dr_ids rep) -> In x (missing (w_dec w)))
  /\ count (held (w_dec w)) + count (missing (w_dec w)) <= count (w_sent w) - oldest (w_dec w).
Proof.
  intros m clk f o w N. destruct (delivered _ _ _ _ _ N) as (gs & B & _).
  destruct (do_inv _ _ _ _ (ok_dec _ _ _ _ _ _ B)) as [C G Lg Id]. unfold pending, missing, held, count.
  change (dc_core (w_dec w)) with (core_of w) in *. split.
  - intros r rep x Hr Hx. apply in_mfind in Hr; [|apply C]. exact (c_live _ _ _ _ C r rep x Hr Hx).
  - rewrite <- Nat2N.inj_add, <- app_length. apply span.
    + apply nodup_cat.
      * apply ssorted_NoDup. apply (c_sources _ _ _ _ C).
      * apply ssorted_NoDup. apply (c_msorted _ _ _ _ C).
      * intros x H1 H2. apply (c_disj _ _ _ _ C x H2). left. exact H1.
    + intros x Hx. assert (Hk : K [] (core_of w) x \/ miss (core_of w) x).
      { apply in_app_or in Hx. destruct Hx as [Hx|Hx]; [left; left; exact Hx|right; exact Hx]. }
      destruct (G x Hk) as [H1 H2]. split; [|exact H2]. unfold oldest. change (dc_core (w_dec w)) with (core_of w).
      unfold not_outdated in H1. destruct (d_last (core_of w)); [apply N.leb_le, H1|lia].
Qed.
Print Assumptions C67_bounds.

(** Over a channel without overtaking: fewer repairs than missing data are kept. *)
Theorem C67_repairs :
  forall m clk f o w, lossy_fifo m clk f o w ->
  pending (w_dec w) = [] \/ count (pending (w_dec w)) < count (missing (w_dec w)).
Proof.
  intros m clk f o w (R & Fi & L).
  destruct (run_fifo m clk f o w w R (extends_refl w) L Fi) as (gs & B & _ & Q & _).
  destruct (do_inv _ _ _ _ (ok_dec _ _ _ _ _ _ B)) as [C G Lg Id]. unfold pending, missing, count.
  change (dc_core (w_dec w)) with (core_of w) in *. rewrite map_length.
  destruct (calm_fewer _ _ 0 (N.le_0_l _) _ _ C Q) as [X|X]; [left; exact X|right; lia].
Qed.
Print Assumptions C67_repairs.

(** In [tale], the oldest datum is not the first one, a repair waits, and the bound is met. *)
Example C67_case : let d := w_dec (ending Debug W8 true tale) in
  lossy_fifo Debug still W8 true (ending Debug W8 true tale)
  /\ (oldest d, count (held d), count (missing d), count (pending d), count (w_sent (ending Debug W8 true tale))) = (8, 1, 4, 1, 13).
Proof. split; [apply C30_lossy_case|]. vm_compute. reflexivity. Qed.


(** ** Without repairs nothing is forgotten *)

Lemma inv_empty f o T l : inv f T l (new_ddec f o).
Proof.
  constructor.
  - constructor; try reflexivity; try apply msorted_nil; try discriminate; cbn.
    + split; [apply msorted_nil | discriminate].
    + intros x [].
    + intros x [].
  - intros x [[[]|[]]|[]].
  - constructor; cbn.
    + intros v [].
    + intros v x [].
    + constructor.
    + intros _. constructor; cbn; try (apply ssorted_nil); try (intros ? []); try (intros; lia).
  - left. reflexivity.
Qed.

Lemma flush_loop_sources m l : forall d d', flush_loop m l d = Ok d' -> d_sources d' = d_sources d /\ d_missing d' = d_missing d.
Proof.
  induction l as [|x l IH]; intros d d' H; cbn [flush_loop] in H; [injection H as <-; auto|].
  apply bind_ok in H. destruct H as (u & _ & H). apply bind_ok in H. destruct H as (d1 & E1 & H).
  unfold callback_ordered in E1. destruct (mfind x (d_sources d)); [|discriminate E1]. injection E1 as <-.
  destruct l as [|y l]; [injection H as <-; auto|]. cbv zeta in H.
  match type of H with (if ?c then _ else _) = _ => destruct c end; [injection H as <-; auto|].
  apply IH in H. exact H.
Qed.

Lemma announce_sources m d x data d' : announce m d x data = Ok d' -> d_sources d' = d_sources d /\ d_missing d' = d_missing d.
Proof.
  unfold announce. destruct (d_in_order d); cbn [negb]; [destruct (x =? d_first d)|]; intros H.
  - unfold flush in H. match type of H with (if ?c then _ else _) = _ => destruct c end.
    + apply flush_loop_sources in H. exact H.
    + injection H as <-. auto.
  - injection H as <-. auto.
  - injection H as <-. auto.
Qed.

Lemma lone_source m d x data d' : d_missing d = [] -> outdated d x = false -> mmem x (d_sources d) = false ->
  recv_source m d x data = Ok d' -> d_sources d' = mput x data (d_sources d).
Proof.
  intros M O K H. unfold recv_source in H. rewrite O, K in H. apply bind_ok in H. destruct H as (d1 & E1 & H).
  unfold enough in E1. cbn [add_source] in E1. apply bind_ok in E1. destruct E1 as (d2 & A & E1).
  apply announce_sources in A. destruct A as [A1 A2]. rewrite M in A2.
  unfold no_longer_missing in E1. rewrite A2 in E1. cbn [mfind bind] in E1. rewrite A2 in E1. cbn [mkeys map scan bind] in E1.
  unfold store in E1. apply bind_ok in E1. destruct E1 as (u & _ & E1).
  assert (X : d_sources d1 = mput x data (d_sources d) /\ d_missing d1 = []).
  { injection E1 as <-. rewrite <- A1. match goal with |- context [if ?c then _ else _] => destruct c end; auto. }
  destruct X as [X1 X2]. unfold attempt_full_decoding in H. rewrite X2 in H. cbn [length Nat.eqb] in H. rewrite orb_true_r in H.
  injection H as <-. exact X1.
Qed.

Definition source_packet (data : N -> list N) (x : N) : packet := on_wire (write_source {| es_id := x; es_data := data x |}).

(** A receiver, in order or not, that gets any number of different source packets, in any order, and no
    repair, keeps all of them, whatever it delivered and whatever acks it sent. *)
Theorem C67_without_repairs :
  forall m clk f o data ids, (forall x, good_data f (data x)) -> NoDup ids -> (forall x, In x ids -> x < 4294967295) ->
  exists d out, drun m clk (new_dec clk f o) (map (fun x => DPacket (source_packet data x)) ids) = Ok (d, out)
  /\ Permutation (held d) ids.
Proof.
  intros m clk f o data ids Hd D B.
  assert (G : forall l d, incl l ids -> NoDup l -> (forall x, In x l -> ~ In x (held d)) ->
    inv f data LIM (dc_core d) -> d_missing (dc_core d) = [] -> d_repairs (dc_core d) = [] -> d_last (dc_core d) = None ->
    exists d' out, drun m clk d (map (fun x => DPacket (source_packet data x)) l) = Ok (d', out)
    /\ Permutation (held d') (held d ++ l)).
  { induction l as [|x l IH]; intros d Inc N1 N2 I M R La.
    - exists d, []. split; [reflexivity|]. rewrite app_nil_r. reflexivity.
    - inversion N1; subst. cbn [map drun dstep].
      assert (Hx : x < LIM) by (apply B, Inc; left; reflexivity).
      destruct (C01_source_roundtrip m x (data x)) as (s & Es & Ei & Eda); [unfold LIM in Hx; lia|apply Hd|].
      fold (source_packet data x) in Es.
      destruct (source_progress f data m LIM (N.le_refl _) (dc_core d) x I) as (c & Ec & _ & Rc & Mc);
        [apply calm_nil, R | exact Hx | unfold miss; rewrite M; auto|].
      assert (Ho : outdated (dc_core d) x = false) by (unfold outdated, not_outdated; rewrite La; reflexivity).
      assert (Hm : mmem x (d_sources (dc_core d)) = false) by (apply mmem_false, N2; left; reflexivity).
      pose proof (lone_source m _ x _ _ M Ho Hm Ec) as Sc.
      destruct (recv_source_spec f data m LIM (N.le_refl _) Hd _ x c I Hx Ec) as (I' & V & _ & Lc & _).
      unfold dec_packet. assert (Ty : (_ <- assert_ m (Nat.ltb 0 (length (source_packet data x))) ;; get_packet_type (source_packet data x)) = Ok TSource).
      { apply type_ok. reflexivity. }
      rewrite Ty. rewrite Es. cbn [bind]. rewrite Ei, Eda. unfold call_core. cbn [count_packet dc_core]. rewrite Ec. cbn [bind].
      match goal with |- context [handle_sources ?k ?dd ?ll] => pose proof (handle_sources_user k ll dd) as [_ Hk];
        destruct (handle_sources k dd ll) as [d1 o1] end.
      cbn [fst with_core dc_core] in Hk. cbn [bind finish].
      assert (Hh : Permutation (held d1) (x :: held d)).
      { unfold held. rewrite Hk, Sc. apply NoDup_Permutation.
        - apply ssorted_NoDup. apply mput_sorted. apply (c_sources _ _ _ _ (i_core _ _ _ _ I)).
        - constructor; [apply mmem_false, Hm|]. apply ssorted_NoDup. apply (c_sources _ _ _ _ (i_core _ _ _ _ I)).
        - intros y. pose proof (mput_keys x (data x) (d_sources (dc_core d)) y) as Q. unfold mkeys in Q. rewrite Q. cbn [In]. intuition congruence. }
      destruct (IH d1) as (d2 & o2 & E2 & P2); try (rewrite Hk; congruence).
      + intros y Hy. apply Inc. right. exact Hy.
      + assumption.
      + intros y Hy Hin. apply (Permutation_in _ Hh) in Hin. destruct Hin as [<-|Hin]; [contradiction|].
        apply (N2 y); [right; exact Hy|exact Hin].
      + rewrite E2. cbn [bind]. eexists _, _. split; [reflexivity|]. rewrite P2, Hh. cbn [app]. apply Permutation_middle. }
  destruct (G ids (new_dec clk f o)) as (d & out & E & P); try reflexivity; try assumption.
  - apply incl_refl.
  - intros x _ [].
  - apply inv_empty.
  - exists d, out. split; [exact E|]. exact P.
Qed.
Print Assumptions C67_without_repairs.

(** No number bounds what a receiver keeps. *)
Theorem C67_bounded_refuted :
  forall m clk f o n, n < 4294967295 -> exists ops d out,
  drun m clk (new_dec clk f o) ops = Ok (d, out) /\ count (held d) = n.
Proof.
  intros m clk f o n Hn.
  destruct (C67_without_repairs m clk f o (fun _ => []) (map N.of_nat (seq 0 (N.to_nat n)))) as (d & out & E & P).
  - intros _. split; [constructor|]. split; [reflexivity|]. destruct f; reflexivity.
  - apply FinFun.Injective_map_NoDup; [exact Nat2N.inj | apply seq_NoDup].
  - intros x Hx. apply in_map_iff in Hx. destruct Hx as (k & <- & Hk). apply in_seq in Hk. lia.
  - eexists _, d, out. split; [exact E|]. unfold count. rewrite (Permutation_length P), map_length, seq_length. apply N2Nat.id.
Qed.
Print Assumptions C67_bounded_refuted.

(** Three packets, the newest first. *)
Example C67_case2 : let ids := [5; 0; 3] in let data := fun x => [x mod 256; 7] in
  NoDup ids /\ (forall x, In x ids -> x < 4294967295) /\ (forall x, good_data W8 (data x)).
Proof.
  split; [|split].
  - repeat constructor; cbn; intuition discriminate.
  - intros x [<-|[<-|[<-|[]]]]; reflexivity.
  - intros x. split; [|split; reflexivity]. repeat constructor. apply N.mod_lt. discriminate.
Qed.
