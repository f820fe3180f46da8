(** * Properties of a sender and a receiver with different fields: C98 *)
From Coq Require Import ZArith NArith Arith List Bool Lia.
From Verif Require Import Outcome GF Packetizer Encoder DetailDecoder Decoder System SystemRun SystemLossless PropsDecoder PropsSystem PropsRecover PropsFifo Mixed.
Import ListNotations.
Open Scope N_scope.

(** While nothing is lost, a receiver with any other field does what the receiver with the field of the sender does: the same
    data, the same acks, the same counters, hence the same sender. *)
Theorem C98_lossless :
  forall m clk f g o l w n, wrun m clk (start clk f o) l = Ok w -> within_limits f w ->
  ~ In (SetCode false) l -> first_arrived w n ->
  exists w', wrun m clk (start_mixed clk f g o) l = Ok w'
  /\ w_got w' = w_got w /\ w_acks w' = w_acks w /\ w_out w' = w_out w /\ w_enc w' = w_enc w /\ w_arrived w' = w_arrived w
  /\ dc_nb_repairs (w_dec w') = dc_nb_repairs (w_dec w) /\ dc_nb_sources (w_dec w') = dc_nb_sources (w_dec w)
  /\ dc_nb_acks (w_dec w') = dc_nb_acks (w_dec w) /\ d_useless (dc_core (w_dec w')) = d_useless (dc_core (w_dec w))
  /\ d_failed (dc_core (w_dec w')) = 0 /\ d_decoded (dc_core (w_dec w')) = 0
  /\ d_missing (dc_core (w_dec w')) = [].
Proof.
  intros m clk f g o l w n E L Hc Ha.
  assert (Lo : lossless w).
  { unfold lossless. assert (En : length (w_arrived w) = n) by (rewrite Ha; apply seq_length). rewrite En. exact Ha. }
  exists (refield_world g w). split; [eapply run_refield; try eassumption; apply extends_refl|].
  destruct (run_lossless m clk f o l w w E (extends_refl w) L Lo Hc) as (gs & _ & _ & _ & _ & Cl).
  destruct Cl as [A1 A2 A3 A4 A5 A6 A7 A8 A9]. repeat (split; [reflexivity|]).
  split; [exact A9|]. split; [exact A8 | exact A1].
Qed.
Print Assumptions C98_lossless.

(** In particular, when all packets have arrived all data have been delivered. *)
Theorem C98_all_delivered :
  forall m clk f g o l w, wrun m clk (start clk f o) l = Ok w -> within_limits f w ->
  ~ In (SetCode false) l -> first_arrived w (length (w_out w)) ->
  exists w', wrun m clk (start_mixed clk f g o) l = Ok w' /\ w_got w' = w_sent w' /\ w_sent w' = w_sent w.
Proof.
  intros m clk f g o l w E L Hc Ha.
  assert (Lo : lossless w).
  { unfold lossless. assert (En : length (w_arrived w) = length (w_out w)) by (rewrite Ha; apply seq_length).
    rewrite En. exact Ha. }
  exists (refield_world g w). split; [eapply run_refield; try eassumption; apply extends_refl|].
  split; [|reflexivity]. exact (C42_all_delivered m clk f o l w E L Hc Ha).
Qed.
Print Assumptions C98_all_delivered.

(** ** One loss *)

Definition steady : clock := fun _ => 0%Z.

(** The first of two data is lost, and a repair arrives. *)
Definition one_loss : list action :=
  [Data [201; 2; 203; 4]; Data [105; 206; 7; 208]; Repair; Arrive 1; Arrive 2].

(** The run ends in undefined behaviour (or a failed assertion), or something is handed over that was not sent. *)
Definition harmed (r : outcome world) : Prop :=
  match r with
  | Ok w => exists d, In d (w_got w) /\ ~ In d (w_sent w)
  | Throw _ => False
  | Fault _ => True
  end.

Definition harmed_b (r : outcome world) : bool :=
  match r with
  | Ok w => existsb (fun d => negb (existsb (fun e => if list_eq_dec N.eq_dec d e then true else false) (w_sent w))) (w_got w)
  | Throw _ => false
  | Fault _ => true
  end.

Lemma harmed_spec r : harmed_b r = true -> harmed r.
Proof.
  destruct r as [w|x|x]; cbn [harmed_b harmed]; [|discriminate|trivial]. intros H. apply existsb_exists in H.
  destruct H as (d & Hd & H). exists d. split; [exact Hd|]. intros Hin. apply negb_true_iff in H.
  assert (Y : existsb (fun e => if list_eq_dec N.eq_dec d e then true else false) (w_sent w) = true); [|congruence].
  apply existsb_exists. exists d. split; [exact Hin|]. destruct (list_eq_dec N.eq_dec d d); [reflexivity | contradiction].
Qed.

(** With equal fields one loss is made good; for any two different ones, it is not. *)
Theorem C98_one_loss_refuted :
  forall m f g o, exists w, wrun m steady (start steady f false) one_loss = Ok w
  /\ w_arrived w = [1; 2]%nat /\ incl (w_sent w) (w_got w)
  /\ (f <> g -> harmed (wrun m steady (start_mixed steady f g o) one_loss)).
Proof.
  intros m f g o.
  destruct m, f; (eexists; split; [vm_compute; reflexivity|]; split; [reflexivity|];
    split; [intros x; cbn; tauto|]; intros H; apply harmed_spec;
    destruct g; try (destruct H; reflexivity); destruct o; vm_compute; reflexivity).
Qed.
Print Assumptions C98_one_loss_refuted.

(** Without source packets even the first packet does harm, although nothing is lost. *)
Definition coded : list action := [SetCode false; SetRate 1; Data [201; 2; 203; 4]; Arrive 0].

Theorem C98_any_code_refuted :
  forall m f g o, exists w, wrun m steady (start steady f o) coded = Ok w
  /\ first_arrived w 1 /\ w_got w = w_sent w
  /\ (f <> g -> harmed (wrun m steady (start_mixed steady f g o) coded)).
Proof.
  intros m f g o.
  destruct m, f, o; (eexists; split; [vm_compute; reflexivity|]; split; [reflexivity|]; split; [reflexivity|];
    intros H; apply harmed_spec; destruct g; try (destruct H; reflexivity); vm_compute; reflexivity).
Qed.
Print Assumptions C98_any_code_refuted.

(** A loss need not show the mistake: here the words and their products stay within a byte. *)
Theorem C98_always_noticed_refuted :
  exists l w, wrun Debug steady (start_mixed steady W8 W16 true) l = Ok w
  /\ w_arrived w = [1; 2]%nat /\ w_got w = w_sent w /\ d_decoded (dc_core (w_dec w)) = 1.
Proof.
  exists [Data [1; 2; 3; 4]; Data [5; 6; 7; 8]; Repair; Arrive 1; Arrive 2]. eexists.
  split; [vm_compute; reflexivity|]. split; [reflexivity|]. split; reflexivity.
Qed.
Print Assumptions C98_always_noticed_refuted.

(** Eight data with three repairs and acks in between (C42_case) meet the hypotheses, for each field of the receiver. *)
Example C98_case : forall g o, exists w', wrun Debug still (start_mixed still W8 g o) calmly = Ok w'
  /\ w_got w' = map sample [0; 1; 2; 3; 4; 5; 6; 7] /\ (2 <= length (w_acks w'))%nat.
Proof.
  intros g o. destruct (C42_case o) as (E & L & Hc & Ha & _ & Eg & Ek).
  destruct (C98_lossless Debug still W8 g o calmly _ _ E L Hc Ha) as (w' & E' & Eg' & Ek' & _).
  exists w'. split; [exact E'|]. split; [rewrite Eg'; exact Eg | rewrite Ek'; exact Ek].
Qed.
