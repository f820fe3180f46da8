(** * The adaptive rate and the configuration of a sender

    C55: the exact rate that an adaptive sender computes. C56: the settings are
    those that were last made. *)
From Coq Require Import ZArith NArith List Bool Lia Arith.
From Verif Require Import Outcome GF GFRegion Containers Packetizer PacketizerFacts Rate RateFacts RateExact
  Encoder EncoderRun EncoderFacts EncoderHistory EncoderSafe PropsEncoder.
Import ListNotations.
Open Scope N_scope.

(** ** C55 *)

(** [sent] packets of which [received] arrived: a repair for every half of the
    mean distance between two losses, rounded up; 50 if less than one
    percent is lost (also when more than [sent] are said to have arrived). *)
Definition intended_rate (sent received : N) : N :=
  let lost := (Z.of_N sent - Z.of_N received)%Z in
  if (sent =? 0) || (100 * lost <? Z.of_N sent)%Z then 50
  else Z.to_N ((Z.of_N sent + 2 * lost - 1) / (2 * lost)).

(** One loss in exactly 98 packets. *)
Definition one_in_98 (sent received : N) : Prop := 0 < sent /\ sent = 98 * (sent - received).

Theorem C55_rate_formula :
  forall sent received, sent < 65536 -> received < 65536 ->
  (~ one_in_98 sent received -> adapted_rate sent received = Ok (intended_rate sent received))
  /\ (one_in_98 sent received -> adapted_rate sent received = Ok 50 /\ intended_rate sent received = 49).
Proof.
  intros s r Hs Hr. pose proof (adapted_rate_exact s r Hs Hr) as E. cbv zeta in E. unfold intended_rate, one_in_98. cbv zeta.
  set (lost := (Z.of_N s - Z.of_N r)%Z) in *. split; intros H.
  - rewrite E. f_equal. destruct (_ || _) eqn:C; [reflexivity|]. apply orb_false_iff in C. destruct C as (C1 & C2).
    apply N.eqb_neq in C1. apply Z.ltb_ge in C2. destruct (Z.eqb_spec (Z.of_N s) (98 * lost)) as [X|X]; [|reflexivity].
    exfalso. apply H. lia.
  - destruct H as (H1 & H2). assert (El : Z.of_N s = (98 * lost)%Z) by lia. assert (Hl : (0 < lost)%Z) by lia.
    rewrite E. destruct (N.eqb_spec s 0) as [|_]; [lia|]. cbn [orb]. destruct (Z.ltb_spec (100 * lost) (Z.of_N s)) as [|_]; [lia|].
    rewrite <- El, Z.eqb_refl. split; [reflexivity|]. rewrite El.
    replace (98 * lost + 2 * lost - 1)%Z with (49 * (2 * lost) + (2 * lost - 1))%Z by ring.
    rewrite Z.div_add_l by lia. rewrite Z.div_small by lia. reflexivity.
Qed.
Print Assumptions C55_rate_formula.

(** So the rate is not always the intended one: rounding adds one. *)
Theorem C55_always_intended_refuted :
  exists sent received, sent < 65536 /\ received < 65536 /\ adapted_rate sent received <> Ok (intended_rate sent received).
Proof. exists 98, 97. split; [reflexivity|]. split; [reflexivity|]. vm_compute. discriminate. Qed.
Print Assumptions C55_always_intended_refuted.

(** A packet that is not an ack or cannot be read. *)
Definition no_ack (m : mode) (op : eop) : Prop :=
  match op with EPacket p => type_of p <> 0 \/ forall x, read_ack m p <> Ok x | _ => True end.

(** At the beginning or just after an ack. *)
Definition just_acked (m : mode) (f : field) (e : enc) : Prop :=
  e = new_encoder f \/ exists e0 p n, notify m e0 p = (e, Ok n).

Lemma just_acked_zero m f e : just_acked m f e -> e_nb_sent_packets e = 0.
Proof.
  intros [->|(e0 & p & n & E)]; [reflexivity|].
  apply notify_spec in E; [|intros [x K]; discriminate]. destruct (ap_ok _ _ _ _ _ E n eq_refl) as (a & _ & _ & _ & H & _). exact H.
Qed.

Lemma sent_since m ops : Forall (no_ack m) ops -> forall e e' out, erun m e ops = Ok (e', out) ->
  e_nb_sent_packets e < 65536 -> e_nb_sent_packets e' = u16 (e_nb_sent_packets e + N.of_nat (length out)).
Proof.
  induction 1 as [|op ops Hop _ IH]; intros e e' out R Hb.
  - cbn in R. injection R as <- <-. unfold u16. rewrite N.add_0_r, N.mod_small by exact Hb. reflexivity.
  - apply erun_step in R as (e1 & r & o & E1 & Hf & E2 & ->).
    assert (S1 : e_nb_sent_packets e1 = u16 (e_nb_sent_packets e + N.of_nat (length (emitted r)))).
    { assert (Nil : e_nb_sent_packets e1 = e_nb_sent_packets e -> emitted r = [] ->
        e_nb_sent_packets e1 = u16 (e_nb_sent_packets e + N.of_nat (length (emitted r)))).
      { intros -> ->. cbn [length]. unfold u16. rewrite N.add_0_r, N.mod_small by exact Hb. reflexivity. }
      destruct op as [d|p| |b|k|w|b].
      - apply estep_data in E1 as (out1 & -> & A); [|assumption]. exact (ad_nb_packets _ _ _ _ _ A).
      - apply estep_packet in E1 as (q & En & Hq & A & Em); [|assumption]. apply Nil; [|exact Em].
        destruct q as [n|x|x].
        + exfalso. destruct (ap_ok _ _ _ _ _ A n eq_refl) as (a & Ht & Er & _). cbn [no_ack] in Hop. destruct Hop as [Hop|Hop]; [contradiction|].
          exact (Hop _ Er).
        + destruct (ap_throw _ _ _ _ _ A x eq_refl) as (_ & _ & E & _). exact E.
        + destruct Hq. eexists; reflexivity.
      - apply estep_repair in E1 as (out1 & -> & G); [|assumption].
        apply generate_repair_ok in G as (r & w & Er & Ew & -> & F1 & F2 & F3 & F4 & F5 & F6 & F7
          & F8 & F9 & F10 & F11 & F12). exact F12.
      - cbn [estep] in E1. injection E1 as <- <-. apply Nil; reflexivity.
      - cbn [estep] in E1. unfold set_rate in E1.
        destruct (assert_ m (0 <? k)); cbn [bind] in E1; injection E1 as <- <-; apply Nil; reflexivity.
      - cbn [estep] in E1. unfold set_window_size in E1.
        destruct (assert_ m (0 <? w)); cbn [bind] in E1; injection E1 as <- <-; apply Nil; reflexivity.
      - cbn [estep] in E1. injection E1 as <- <-. apply Nil; reflexivity. }
    apply (IH e1) in E2; [|rewrite S1; apply u16_lt]. rewrite E2, S1, app_length, Nat2N.inj_add.
    unfold u16. rewrite N.add_mod_idemp_l by discriminate. f_equal. lia.
Qed.

(** An ack arrives after [out] was sent since the last ack. *)
Theorem C55_adaptive_sender :
  forall m f e0 ops e out p e' n, just_acked m f e0 -> Forall (no_ack m) ops -> erun m e0 ops = Ok (e, out) ->
  bytes p -> notify m e p = (e', Ok n) ->
  exists a, read_ack m p = Ok (a, n)
  /\ (e_adaptive e = false -> e_rate e' = e_rate e)
  /\ (e_adaptive e = true ->
      let sent := N.of_nat (length out) mod 65536 in
      (~ one_in_98 sent (a_nb a) -> e_rate e' = intended_rate sent (a_nb a))
      /\ (one_in_98 sent (a_nb a) -> e_rate e' = 50)).
Proof.
  intros m f e0 ops e out p e' n J Ho R Hb E. apply just_acked_zero in J.
  assert (S : e_nb_sent_packets e = N.of_nat (length out) mod 65536).
  { rewrite (sent_since m ops Ho e0 e out R); rewrite J; [reflexivity | reflexivity]. }
  apply notify_spec in E; [|intros [x K]; discriminate].
  destruct (ap_ok _ _ _ _ _ E n eq_refl) as (a & _ & Ea & _ & _ & Hn & Hy). exists a.
  split; [exact Ea|]. split; [exact Hn|]. intros Ad. cbv zeta. specialize (Hy Ad). rewrite S in Hy.
  pose proof (C55_rate_formula (N.of_nat (length out) mod 65536) (a_nb a)) as F.
  destruct F as (F1 & F2); [apply N.mod_lt; discriminate | eapply read_ack_nb; eassumption |].
  split; intros H.
  - rewrite (F1 H) in Hy. congruence.
  - destruct (F2 H) as (F3 & _). rewrite F3 in Hy. congruence.
Qed.
Print Assumptions C55_adaptive_sender.

(** Six packets were sent, four arrived. *)
Example C55_case : exists e out e',
  erun Debug (new_encoder W8) [ESetAdaptive true; EData [1]; EData [2]; EPacket [0; 9]; EData [3]; EData [4]; ERepair; ERepair] = Ok (e, out)
  /\ notify Debug e [0; 0;4; 0;0] = (e', Ok 5%nat) /\ length out = 6%nat /\ intended_rate 6 4 = 2 /\ e_rate e' = 2
  /\ intended_rate 100 100 = 50 /\ intended_rate 100 99 = 50 /\ intended_rate 100 90 = 5 /\ intended_rate 3 0 = 1.
Proof.
  do 3 eexists. split; [vm_compute; reflexivity|]. split; [vm_compute; reflexivity|]. vm_compute. repeat split.
Qed.

(** ** C56 *)

(** The last value given to a setter, or the documented default. *)
Definition last_set {A} (get : eop -> option A) (ops : list eop) (default : A) : A :=
  fold_left (fun x op => match get op with Some y => y | None => x end) ops default.

Definition code_set (op : eop) := match op with ESetCode b => Some b | _ => None end.
Definition rate_set (op : eop) := match op with ESetRate k => Some k | _ => None end.
Definition window_set (op : eop) := match op with ESetWindow n => Some n | _ => None end.
Definition adaptive_set (op : eop) := match op with ESetAdaptive b => Some b | _ => None end.

Definition never_adaptive (op : eop) : Prop := op <> ESetAdaptive true.

Lemma settings_run m ops : forall e e' out, erun m e ops = Ok (e', out) ->
  e_field e' = e_field e
  /\ e_systematic e' = last_set code_set ops (e_systematic e)
  /\ e_window_size e' = last_set window_set ops (e_window_size e)
  /\ e_adaptive e' = last_set adaptive_set ops (e_adaptive e)
  /\ (Forall never_adaptive ops -> e_adaptive e = false -> e_rate e' = last_set rate_set ops (e_rate e)).
Proof.
  unfold last_set. induction ops as [|op ops IH]; intros e e' out R.
  - cbn in R. injection R as <- <-. auto.
  - apply erun_step in R as (e1 & r & o & E1 & Hf & E2 & ->).
    specialize (IH _ _ _ E2). destruct IH as (I0 & I1 & I2 & I3 & I4). cbn [fold_left].
    assert (S : e_field e1 = e_field e /\ e_systematic e1 = match code_set op with Some y => y | None => e_systematic e end
      /\ e_window_size e1 = match window_set op with Some y => y | None => e_window_size e end
      /\ e_adaptive e1 = match adaptive_set op with Some y => y | None => e_adaptive e end
      /\ (e_adaptive e = false -> e_rate e1 = match rate_set op with Some y => y | None => e_rate e end)).
    { destruct op as [d|p| |b|k|w|b]; cbn [code_set window_set adaptive_set rate_set].
      - apply estep_data in E1 as (out1 & -> & A); [|assumption]. destruct A. auto.
      - apply estep_packet in E1 as (q & En & Hq & A & Em); [|assumption].
        destruct A as [A0 A1 A2 A3 _ _ _ _ _ A4 A5]. split; [exact A0|]. split; [exact A1|]. split; [exact A2|]. split; [exact A3|].
        intros Ha. destruct q as [n|x|x].
        + destruct (A4 n eq_refl) as (a & _ & _ & _ & _ & Hr & _). auto.
        + destruct (A5 x eq_refl) as (_ & H & _). exact H.
        + destruct Hq. eexists; reflexivity.
      - apply estep_repair in E1 as (out1 & -> & G); [|assumption].
        apply generate_repair_ok in G as (r & w & Er & Ew & -> & F1 & F2 & F3 & F4 & F5 & F6 & F7
          & F8 & F9 & F10 & F11 & F12). auto.
      - cbn [estep] in E1. injection E1 as <- <-. auto.
      - assert (X := E1). apply estep_setters in X; [|assumption | exact I]. destruct X as (_ & _ & _ & X1 & X2 & X3 & X4).
        cbn [estep] in E1. unfold set_rate in E1. destruct (assert_ m (0 <? k)); cbn [bind] in E1; injection E1 as <- <-; auto.
      - assert (X := E1). apply estep_setters in X; [|assumption | exact I]. destruct X as (_ & _ & _ & X1 & X2 & X3 & X4).
        cbn [estep] in E1. unfold set_window_size in E1. destruct (assert_ m (0 <? w)); cbn [bind] in E1; injection E1 as <- <-; auto.
      - cbn [estep] in E1. injection E1 as <- <-. auto. }
    destruct S as (S0 & S1 & S2 & S3 & S4). rewrite I0, I1, I2, I3, S0, S1, S2, S3.
    split; [reflexivity|]. split; [reflexivity|]. split; [reflexivity|]. split; [reflexivity|].
    intros Hn Ha. inversion Hn as [|? ? Hop Hn']; subst. rewrite I4, S4; auto.
    rewrite S3. destruct op as [| | | | | |[]]; cbn; auto. destruct Hop. reflexivity.
Qed.

(** Nothing but its own setter changes a setting; only the rate is also changed
    by the adaptive mode. *)
Theorem C56_settings :
  forall m f ops e out, reached m f ops e out ->
  e_field e = f
  /\ e_systematic e = last_set code_set ops true
  /\ e_window_size e = last_set window_set ops (2 ^ 64 - 1)
  /\ e_adaptive e = last_set adaptive_set ops false
  /\ (Forall never_adaptive ops -> e_rate e = last_set rate_set ops 5).
Proof.
  intros m f ops e out R. apply settings_run in R. destruct R as (R0 & R1 & R2 & R3 & R4).
  split; [exact R0|]. split; [exact R1|]. split; [exact R2|]. split; [exact R3|]. intros H. apply R4; [exact H | reflexivity].
Qed.
Print Assumptions C56_settings.

Example C56_case : exists e out,
  let ops := [EData [1]; ESetRate 3; ESetWindow 7; EPacket [0; 0;4; 0;0]; ESetCode false; EData [2]; ESetAdaptive false] in
  reached Debug W8 ops e out /\ Forall never_adaptive ops
  /\ e_systematic e = false /\ e_rate e = 3 /\ e_window_size e = 7 /\ map type_of out = [2; 1].
Proof.
  do 2 eexists. cbv zeta. split; [vm_compute; reflexivity|]. split; [repeat constructor; discriminate|]. vm_compute. repeat split.
Qed.
