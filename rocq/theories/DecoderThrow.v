(** * The decoding algorithm raises no exception *)
From Coq Require Import Arith NArith List Bool Lia.
From Verif Require Import Outcome GF Containers ContainersFacts Packetizer Matrix MatrixFacts DetailDecoder
  DecoderStep.
Import ListNotations.
Open Scope N_scope.

Definition quiet {A} (x : outcome A) : Prop := forall e, x <> Throw e.

Lemma quiet_ok {A} (a : A) : quiet (Ok a).
Proof. intros e. discriminate. Qed.
Lemma quiet_fault {A} x : quiet (@Fault A x).
Proof. intros e. discriminate. Qed.
Lemma quiet_bind {A B} (x : outcome A) (k : A -> outcome B) :
  quiet x -> (forall a, x = Ok a -> quiet (k a)) -> quiet (bind x k).
Proof. intros H K. destruct x as [a|e|e]; cbn; [apply K; reflexivity | exfalso; apply (H e); reflexivity | apply quiet_fault]. Qed.
Lemma quiet_assert m b : quiet (assert_ m b).
Proof. unfold assert_. destruct m; [destruct b|]; intros e; discriminate. Qed.
Lemma quiet_multiply f src n c : quiet (region_multiply f src n c).
Proof. unfold region_multiply. destruct (Nat.ltb _ _); [apply quiet_fault|]. destruct (negb _); [apply quiet_fault | apply quiet_ok]. Qed.
Lemma quiet_multiply_add f src dst n c : quiet (region_multiply_add f src dst n c).
Proof. unfold region_multiply_add. destruct (Nat.ltb _ _ || Nat.ltb _ _); [apply quiet_fault|]. destruct (negb _); [apply quiet_fault | apply quiet_ok]. Qed.

Create HintDb quiet.
Global Hint Resolve quiet_ok quiet_fault quiet_assert quiet_multiply quiet_multiply_add : quiet.

Ltac calm := repeat
  (cbv zeta;
   match goal with
   | |- quiet (bind _ _) => apply quiet_bind; [|intros ? _]
   | |- quiet (match ?x with _ => _ end) => destruct x
   | H : forall _, _ |- _ => solve [apply H]
   | |- _ => solve [auto with quiet nocore]
   end).

Lemma quiet_callback_ordered d id : quiet (callback_ordered d id).
Proof. unfold callback_ordered. calm. Qed.
Global Hint Resolve quiet_callback_ordered : quiet.

Lemma quiet_flush_loop m l : forall d, quiet (flush_loop m l d).
Proof. induction l as [|id l IH]; intros d; cbn [flush_loop]; calm. Qed.
Global Hint Resolve quiet_flush_loop : quiet.

Lemma quiet_flush m d : quiet (flush m d).
Proof. unfold flush. calm. Qed.
Global Hint Resolve quiet_flush : quiet.

Lemma quiet_announce m d id data : quiet (announce m d id data).
Proof. unfold announce. calm. Qed.

Lemma quiet_remove_source m f id data r : quiet (remove_source m f id data r).
Proof. unfold remove_source, remove_data. calm. Qed.
Lemma quiet_remove_data m f id data r : quiet (remove_data m f id data r).
Proof. unfold remove_data. calm. Qed.
Global Hint Resolve quiet_announce quiet_remove_source quiet_remove_data : quiet.

Lemma quiet_remove_from m f id data rs : forall reps, quiet (remove_from_repairs m f id data rs reps).
Proof. induction rs as [|r rs IH]; intros reps; cbn [remove_from_repairs]; calm. Qed.
Global Hint Resolve quiet_remove_from : quiet.

Lemma quiet_no_longer_missing m d id data : quiet (no_longer_missing m d id data).
Proof. unfold no_longer_missing. calm. Qed.
Lemma quiet_create_source m f r : quiet (create_source m f r).
Proof. unfold create_source. calm. Qed.
Global Hint Resolve quiet_no_longer_missing quiet_create_source : quiet.

Lemma quiet_scan rec m : (forall d id data, quiet (rec d id data)) -> forall ks d, quiet (scan rec m ks d).
Proof. intros H. induction ks as [|k ks IH]; intros d; cbn [scan]; calm. Qed.

Lemma quiet_store m d id data : quiet (store m d id data).
Proof. unfold store. calm. Qed.
Global Hint Resolve quiet_scan quiet_store : quiet.

Lemma quiet_add_source m fuel : forall d id data, quiet (add_source fuel m d id data).
Proof. induction fuel as [|fuel IH]; intros d id data; cbn [add_source]; calm. Qed.
Global Hint Resolve quiet_add_source : quiet.

Lemma quiet_unlink r ids : forall missing, quiet (unlink r ids missing).
Proof. induction ids as [|id ids IH]; intros missing; cbn [unlink]; calm. Qed.
Global Hint Resolve quiet_unlink : quiet.

Lemma quiet_drop_repairs m id reps : forall d, quiet (drop_repairs m id reps d).
Proof. induction reps as [|[r rep] reps IH]; intros d; cbn [drop_repairs]; calm. Qed.
Lemma quiet_deliver_outdated l : forall d, quiet (deliver_outdated l d).
Proof. induction l as [|id l IH]; intros d; cbn [deliver_outdated]; calm. Qed.
Global Hint Resolve quiet_drop_repairs quiet_deliver_outdated : quiet.

Lemma quiet_drop_outdated m d id : quiet (drop_outdated m d id).
Proof. unfold drop_outdated. calm. Qed.
Global Hint Resolve quiet_drop_outdated : quiet.

Lemma quiet_decode_rest f sz l : forall data, quiet (decode_rest f sz l data).
Proof. induction l as [|[c r] l IH]; intros data; cbn [decode_rest]; calm. Qed.
Global Hint Resolve quiet_decode_rest : quiet.
Lemma quiet_decode_symbol m f sz l : quiet (decode_symbol m f sz l).
Proof. induction l as [|[c r] l IH]; cbn [decode_symbol]; calm. Qed.
Lemma quiet_add_decoded m d id data : quiet (add_decoded m d id data).
Proof. unfold add_decoded. calm. Qed.
Global Hint Resolve quiet_decode_symbol quiet_add_decoded : quiet.

Lemma quiet_decode_all m n inv reps ms : forall col d, quiet (decode_all m n inv reps col ms d).
Proof. induction ms as [|id ms IH]; intros col d; cbn [decode_all]; calm. Qed.
Lemma quiet_failed_decoding d k : quiet (failed_decoding d k).
Proof. unfold failed_decoding. calm. Qed.
Global Hint Resolve quiet_decode_all quiet_failed_decoding : quiet.

Lemma quiet_attempt m d : quiet (attempt_full_decoding m d).
Proof.
  unfold attempt_full_decoding. cbv zeta.
  destruct (Nat.eqb (length (d_repairs d)) 0 || Nat.eqb (length (d_missing d)) 0) eqn:E0; [calm|].
  destruct (Nat.ltb _ _); [calm|].
  apply quiet_bind; [calm|]. intros _ _. apply quiet_bind; [calm|]. intros _ _.
  destruct (Nat.eqb (length (d_missing d)) (length (d_repairs d))) eqn:E2; cbn [negb]; [|calm].
  apply Nat.eqb_eq in E2. apply orb_false_iff in E0. destruct E0 as [E0 _]. apply Nat.eqb_neq in E0.
  set (n := length (d_repairs d)) in *.
  assert (Hk : length (mkeys (d_missing d)) = length (d_repairs d)) by (rewrite mkeys_length; exact E2).
  destruct (invert_spec (d_field d) n (coefficients (d_field d) (d_repairs d) (mkeys (d_missing d))) (repeat 0 (n * n)))
    as [(m' & v' & I & _)|[I _]].
  { exact E0. }
  { apply coefficients_wfm, Hk. }
  { unfold wfm. apply repeat_length. }
  { apply coefficients_eltm, Hk. }
  - rewrite I. cbn [bind]. calm.
  - rewrite I. cbn [bind]. calm.
Qed.
Global Hint Resolve quiet_attempt : quiet.

Lemma quiet_link_repair m ids : forall d r, quiet (link_repair m ids d r).
Proof. induction ids as [|id ids IH]; intros d r; cbn [link_repair]; calm. Qed.
Global Hint Resolve quiet_link_repair : quiet.

Theorem recv_source_quiet m d id data : quiet (recv_source m d id data).
Proof. unfold recv_source. calm. Qed.

Theorem recv_repair_quiet m d r : quiet (recv_repair m d r).
Proof. unfold recv_repair. calm. Qed.
