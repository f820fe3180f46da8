(** * Invariants of histories of an encoder *)
From Coq Require Import NArith List Bool Lia Arith.
From Verif Require Import Outcome GF GFProofs GFField GFRegion Linear RegionFacts
  Containers ContainersFacts Packetizer PacketizerFacts Rate RateFacts Encoder EncoderRun EncoderFacts.
Import ListNotations.
Open Scope N_scope.

(** ** What can be read from a packet *)

(** The first byte. *)
Definition type_of (p : packet) : N := nth 0 p 255.

(** The next four bytes. *)
Definition id_of (p : packet) : N :=
  ((nth 1 p 0 * 256 + nth 2 p 0) * 256 + nth 3 p 0) * 256 + nth 4 p 0.

Definition of_type (t : N) (out : list packet) : list packet :=
  filter (fun p => type_of p =? t) out.

Definition count (t : N) (out : list packet) : N := N.of_nat (length (of_type t out)).

Lemma count_app t a b : count t (a ++ b) = count t a + count t b.
Proof. unfold count, of_type. rewrite filter_app, app_length. lia. Qed.

Lemma count_nil t : count t [] = 0.
Proof. reflexivity. Qed.

Lemma id_of_be b x tail : id_of (b :: be 4 x ++ tail) = x mod 2 ^ 32.
Proof.
  unfold id_of. cbn [be app nth].
  change (2 ^ 32) with (256 * (256 * (256 * 256))).
  rewrite !N.mod_mul_r by discriminate. rewrite !N.div_div by discriminate.
  change (256 * 256) with 65536. change (65536 * 256) with 16777216.
  change (256 * 65536) with 16777216. lia.
Qed.

(** A packet that carries the repair made from the sources [l]. *)
Definition repair_of (m : mode) (f : field) (id : N) (l : list esource) (p : packet) : Prop :=
  exists r w, encode f m id l = Ok r /\ write_repair m r = Ok w /\ p = concat w.

Lemma encode_loop_id f l r r' : encode_loop f l r = Ok r' -> er_id r' = er_id r.
Proof.
  revert r. induction l as [|s l IH]; intros r H; [cbn in H; congruence|].
  cbn [encode_loop] in H. apply bind_ok in H as (sym & _ & H). apply IH in H. exact H.
Qed.

Lemma encode_id f m id l r : encode f m id l = Ok r -> er_id r = id.
Proof.
  unfold encode. intros H. apply bind_ok in H as (u & _ & H).
  destruct l; [discriminate|]. apply bind_ok in H as (sym & _ & H).
  apply encode_loop_id in H. exact H.
Qed.

Lemma repair_of_type m f id l p : repair_of m f id l p -> type_of p = 1.
Proof.
  intros (r & w & _ & Hw & ->). apply write_repair_head in Hw as [t ->]. reflexivity.
Qed.

Lemma repair_of_id m f id l p : repair_of m f id l p -> id_of p = id mod 2 ^ 32.
Proof.
  intros (r & w & He & Hw & ->). apply write_repair_head in Hw as [t ->].
  rewrite id_of_be. now rewrite (encode_id _ _ _ _ _ He).
Qed.

Lemma source_type s : type_of (concat (write_source s)) = 2.
Proof. destruct (write_source_head s) as [t ->]. reflexivity. Qed.

Lemma source_id s : id_of (concat (write_source s)) = es_id s mod 2 ^ 32.
Proof. destruct (write_source_head s) as [t ->]. apply id_of_be. Qed.

(** ** Calls never throw, except for packets *)

Lemma encode_loop_no_throw f l r x : encode_loop f l r <> Throw x.
Proof.
  revert r. induction l as [|s l IH]; intros r; [discriminate|]. cbn [encode_loop].
  unfold region_multiply_add. destruct (_ || _); [discriminate|].
  destruct (negb _); [discriminate|]. cbn [bind]. apply IH.
Qed.

Lemma generate_repair_no_throw m e x : generate_repair m e <> Throw x.
Proof.
  unfold generate_repair, assert_. destruct m.
  - destruct (Nat.ltb _ _); [|discriminate]. cbn [bind].
    unfold encode, assert_. destruct (Nat.ltb _ _); [|discriminate]. cbn [bind].
    destruct (e_sources e) as [|s l]; [discriminate|].
    unfold region_multiply. destruct (Nat.ltb _ _); [discriminate|].
    destruct (negb _); [discriminate|]. cbn [bind].
    destruct (encode_loop _ _ _) eqn:E; [|now apply encode_loop_no_throw in E|discriminate].
    cbn [bind]. unfold write_repair, assert_. destruct (Nat.ltb _ _); discriminate.
  - cbn [bind]. unfold encode, assert_. cbn [bind].
    destruct (e_sources e) as [|s l]; [discriminate|].
    unfold region_multiply. destruct (Nat.ltb _ _); [discriminate|].
    destruct (negb _); [discriminate|]. cbn [bind].
    destruct (encode_loop _ _ _) eqn:E; [|now apply encode_loop_no_throw in E|discriminate].
    discriminate.
Qed.

Lemma enc_data_no_throw m e d x : enc_data m e d <> Throw x.
Proof.
  assert (C : commit m e d <> Throw x).
  { unfold commit. unfold push_source.
    assert (K : forall l, bind (send_source m (with_sources e l)
                 {| es_id := e_source_id e; es_data := d |})
        (fun '(e, out1) => if e_rate e =? 0 then Fault DivisionByZero
         else '(e, out2) <- (if u32 (e_source_id e + 1) mod e_rate e =? 0
                   then generate_repair m e else Ok (e, [])) ;;
           Ok (with_source_id e (u32 (e_source_id e + 1)), out1 ++ out2)) <> Throw x).
    { intros l. unfold send_source. destruct (e_systematic _).
      - cbn [bind]. destruct (_ =? 0); [discriminate|]. destruct (_ =? 0); [|discriminate].
        destruct (generate_repair _ _) as [[e' o]| |] eqn:E; try discriminate.
        now apply generate_repair_no_throw in E.
      - destruct (generate_repair _ _) as [[e' o]| |] eqn:E; try discriminate.
        + cbn [bind]. destruct (_ =? 0); [discriminate|]. destruct (_ =? 0); [|discriminate].
          destruct (generate_repair _ e') as [[e'' o']| |] eqn:E'; try discriminate.
          now apply generate_repair_no_throw in E'.
        + now apply generate_repair_no_throw in E. }
    destruct (_ =? _).
    - destruct (e_sources e); [discriminate|]. apply K.
    - apply K. }
  unfold enc_data, assert_. destruct m.
  - destruct (Nat.ltb _ _); [|discriminate]. cbn [bind].
    destruct (match e_field e with W16 | W32 => _ | _ => _ end); [|discriminate]. exact C.
  - exact C.
Qed.

(** ** A data *)

Record after_data (m : mode) (e : enc) (d : list N) (e' : enc) (out : list packet) : Prop := {
  ad_field : e_field e' = e_field e;
  ad_systematic : e_systematic e' = e_systematic e;
  ad_rate : e_rate e' = e_rate e;
  ad_rate_0 : e_rate e <> 0;
  ad_window : e_window_size e' = e_window_size e;
  ad_adaptive : e_adaptive e' = e_adaptive e;
  ad_source_id : e_source_id e' = u32 (e_source_id e + 1);
  ad_acks : e_nb_acks e' = e_nb_acks e;
  ad_push : push_source e {| es_id := e_source_id e; es_data := d |} = Ok (e_sources e');
  ad_repair_id : e_repair_id e' = u32 (e_repair_id e + count 1 out) \/ count 1 out = 0 /\ e_repair_id e' = e_repair_id e;
  ad_nb_repairs : e_nb_sent_repairs e' = u64 (e_nb_sent_repairs e + count 1 out)
     \/ count 1 out = 0 /\ e_nb_sent_repairs e' = e_nb_sent_repairs e;
  ad_nb_sources : e_nb_sent_sources e' = if e_systematic e then u64 (e_nb_sent_sources e + 1) else e_nb_sent_sources e;
  ad_nb_packets : e_nb_sent_packets e' = u16 (e_nb_sent_packets e + N.of_nat (length out));
  ad_out : exists first rest, out = first :: rest
     /\ (e_systematic e = true -> first = concat (write_source {| es_id := e_source_id e; es_data := d |}))
     /\ (e_systematic e = false -> repair_of m (e_field e) (e_repair_id e) (e_sources e') first)
     /\ (u32 (e_source_id e + 1) mod e_rate e = 0 ->
         exists p, rest = [p] /\ repair_of m (e_field e)
            (if e_systematic e then e_repair_id e else u32 (e_repair_id e + 1)) (e_sources e') p)
     /\ (u32 (e_source_id e + 1) mod e_rate e <> 0 -> rest = [])
}.

Lemma u32_u32 x : u32 (u32 (x + 1) + 1) = u32 (x + 2).
Proof.
  unfold u32. rewrite N.add_mod_idemp_l by discriminate. f_equal. lia.
Qed.
Lemma u64_u64 x : u64 (u64 (x + 1) + 1) = u64 (x + 2).
Proof.
  unfold u64. rewrite N.add_mod_idemp_l by discriminate. f_equal. lia.
Qed.
Lemma u16_u16 x : u16 (u16 (x + 1) + 1) = u16 (x + 2).
Proof.
  unfold u16. rewrite N.add_mod_idemp_l by discriminate. f_equal. lia.
Qed.

Lemma count_one t p : count t [p] = if type_of p =? t then 1 else 0.
Proof. unfold count, of_type. cbn [filter]. now destruct (type_of p =? t). Qed.

Lemma count_cons t p l : count t (p :: l) = (if type_of p =? t then 1 else 0) + count t l.
Proof. change (p :: l) with ([p] ++ l). now rewrite count_app, count_one. Qed.

Lemma commit_spec m e d e' out : commit m e d = Ok (e', out) -> after_data m e d e' out.
Proof.
  unfold commit. intros H. apply bind_ok in H as (l & El & H).
  apply bind_ok in H as ([e1 out1] & E1 & H).
  destruct (N.eqb_spec (e_rate e1) 0) as [|Hr]; [discriminate|].
  apply bind_ok in H as ([e2 out2] & E2 & H). injection H as <- <-.
  unfold send_source in E1. cbn [with_sources e_systematic] in E1.
  destruct (e_systematic e) eqn:Hsys.
  - remember (concat (write_source {| es_id := e_source_id e; es_data := d |})) as sp eqn:Hsp in E1.
    assert (Ts : type_of sp = 2) by (rewrite Hsp; apply source_type).
    injection E1 as <- <-. cbn [e_rate e_source_id with_sources] in *.
    destruct (N.eqb_spec (u32 (e_source_id e + 1) mod e_rate e) 0) as [Hz|Hz].
    + apply generate_repair_ok in E2 as (r & w & Er & Ew & -> & F1 & F2 & F3 & F4 & F5 & F6 & F7
        & F8 & F9 & F10 & F11 & F12).
      cbn [e_field e_systematic e_rate e_window_size e_adaptive e_source_id e_repair_id e_sources
           e_nb_sent_repairs e_nb_acks e_nb_sent_sources e_nb_sent_packets with_sources] in *.
      assert (R : repair_of m (e_field e) (e_repair_id e) l (concat w)) by (exists r, w; auto).
      pose proof (repair_of_type _ _ _ _ _ R) as Tr.
      constructor; cbn [with_source_id e_field e_systematic e_rate e_window_size e_adaptive e_source_id e_repair_id e_sources
           e_nb_sent_repairs e_nb_acks e_nb_sent_sources e_nb_sent_packets]; try congruence.
      * left. cbn [app]. rewrite count_cons, count_one, Ts, Tr. exact F7.
      * left. cbn [app]. rewrite count_cons, count_one, Ts, Tr. exact F9.
      * now rewrite Hsys.
      * rewrite F12. cbn [app length]. apply u16_u16.
      * exists sp, [concat w].
        rewrite F8. split; [reflexivity|]. split; [intros _; exact Hsp|]. rewrite Hsys.
        split; [discriminate|]. split; [|contradiction]. intros _. eauto.
    + injection E2 as <- <-.
      constructor; cbn [with_source_id e_field e_systematic e_rate e_window_size e_adaptive e_source_id e_repair_id e_sources
           e_nb_sent_repairs e_nb_acks e_nb_sent_sources e_nb_sent_packets with_sources]; try congruence.
      * right. cbn [app]. rewrite count_one, Ts. auto.
      * right. cbn [app]. rewrite count_one, Ts. auto.
      * now rewrite Hsys.
      * reflexivity.
      * exists sp, [].
        split; [reflexivity|]. split; [intros _; exact Hsp|]. rewrite Hsys.
        split; [discriminate|]. split; [contradiction|reflexivity].
  - apply generate_repair_ok in E1 as (r & w & Er & Ew & -> & F1 & F2 & F3 & F4 & F5 & F6 & F7
        & F8 & F9 & F10 & F11 & F12).
    cbn [e_field e_systematic e_rate e_window_size e_adaptive e_source_id e_repair_id e_sources
           e_nb_sent_repairs e_nb_acks e_nb_sent_sources e_nb_sent_packets with_sources] in *.
    assert (R : repair_of m (e_field e) (e_repair_id e) l (concat w)) by (exists r, w; auto).
    pose proof (repair_of_type _ _ _ _ _ R) as Tr. rewrite F3, F6 in *.
    destruct (N.eqb_spec (u32 (e_source_id e + 1) mod e_rate e) 0) as [Hz|Hz].
    + apply generate_repair_ok in E2 as (r' & w' & Er' & Ew' & -> & G1 & G2 & G3 & G4 & G5 & G6 & G7
        & G8 & G9 & G10 & G11 & G12).
      rewrite F1, F7, F8 in Er'.
      assert (R' : repair_of m (e_field e) (u32 (e_repair_id e + 1)) l (concat w')) by (exists r', w'; auto).
      pose proof (repair_of_type _ _ _ _ _ R') as Tr'.
      constructor; cbn [with_source_id e_field e_systematic e_rate e_window_size e_adaptive e_source_id e_repair_id e_sources
           e_nb_sent_repairs e_nb_acks e_nb_sent_sources e_nb_sent_packets]; try congruence.
      * left. cbn [app]. rewrite count_cons, count_one, Tr, Tr', G7, F7. apply u32_u32.
      * left. cbn [app]. rewrite count_cons, count_one, Tr, Tr', G9, F9. apply u64_u64.
      * rewrite Hsys. congruence.
      * rewrite G12, F12. cbn [app length]. apply u16_u16.
      * exists (concat w), [concat w'].
        rewrite G8, F8. split; [reflexivity|]. rewrite Hsys. split; [discriminate|].
        split; [intros _; exact R|]. split; [|contradiction]. intros _. eauto.
    + injection E2 as <- <-.
      constructor; cbn [with_source_id e_field e_systematic e_rate e_window_size e_adaptive e_source_id e_repair_id e_sources
           e_nb_sent_repairs e_nb_acks e_nb_sent_sources e_nb_sent_packets]; try congruence.
      * left. cbn [app]. rewrite count_one, Tr. exact F7.
      * left. cbn [app]. rewrite count_one, Tr. exact F9.
      * rewrite Hsys. congruence.
      * exact F12.
      * exists (concat w), [].
        rewrite F8. split; [reflexivity|]. rewrite Hsys. split; [discriminate|].
        split; [intros _; exact R|]. split; [contradiction|reflexivity].
Qed.

Lemma enc_data_spec m e d e' out : enc_data m e d = Ok (e', out) -> after_data m e d e' out.
Proof.
  unfold enc_data. intros H. apply bind_ok in H as (u & _ & H). apply bind_ok in H as (v & _ & H).
  now apply commit_spec.
Qed.

Lemma enc_data_total m e d : legal (e_field e) d -> legal_window e -> e_rate e <> 0 ->
  e_window_size e <> 0 -> exists e' out, enc_data m e d = Ok (e', out).
Proof.
  intros Hd Hw Hr Hs. unfold enc_data.
  destruct Hd as (D1 & D2 & D3).
  replace (assert_ m (Nat.ltb 0 (length d))) with (Ok tt).
  2: { destruct m; [|reflexivity]. unfold assert_. destruct (Nat.ltb_spec 0 (length d)); [reflexivity|lia]. }
  cbn [bind].
  replace (assert_ m (match e_field e with W16 | W32 => aligned (e_field e) (length d) | _ => true end))
    with (Ok tt).
  2: { destruct m; [|reflexivity]. unfold assert_. destruct (e_field e); try rewrite D3; reflexivity. }
  cbn [bind]. unfold commit.
  set (s := {| es_id := e_source_id e; es_data := d |}).
  destruct (push_source_total e s Hs) as [l El]. rewrite El. cbn [bind].
  destruct (push_source_in _ _ _ El) as (_ & Hin & Hne).
  assert (Hl : Forall (fun s => legal (e_field e) (es_data s)) l).
  { apply Forall_forall. intros x Hx. apply Hin in Hx as [->|Hx].
    - repeat split; assumption.
    - unfold legal_window in Hw. rewrite Forall_forall in Hw. now apply Hw. }
  unfold send_source. cbn [with_sources e_systematic].
  destruct (e_systematic e) eqn:Hsys.
  - cbn [bind e_rate with_sources]. destruct (N.eqb_spec (e_rate e) 0); [contradiction|].
    cbn [e_source_id]. destruct (_ =? 0); [|cbn [bind]; eauto].
    match goal with |- context [generate_repair m ?x] =>
      destruct (generate_repair_total m x) as (e2 & p & E2) end; try assumption.
    rewrite E2. cbn [bind]. eauto.
  - destruct (generate_repair_total m (with_sources e l)) as (e1 & p & E1); try assumption.
    rewrite E1. cbn [bind].
    apply generate_repair_ok in E1 as (r & w & Er & Ew & _ & F1 & F2 & F3 & F4 & F5 & F6 & F7
        & F8 & F9 & F10 & F11 & F12).
    cbn [e_field e_rate e_source_id with_sources e_sources] in *. rewrite F3, F6.
    destruct (N.eqb_spec (e_rate e) 0); [contradiction|].
    destruct (_ =? 0); [|cbn [bind]; eauto].
    destruct (generate_repair_total m e1) as (e2 & p2 & E2).
    + unfold legal_window. now rewrite F1, F8.
    + now rewrite F8.
    + rewrite E2. cbn [bind]. eauto.
Qed.

(** ** A packet *)

Lemma read_ack_ids m p a n : read_ack m p = Ok (a, n) ->
  ssorted (a_ids a) /\ ids32 (a_ids a).
Proof.
  intros H.
  assert (Ha : assert_type m p TAck = Ok tt).
  { unfold read_ack in H. destruct (assert_type m p TAck) as [[]| |]; try discriminate. reflexivity. }
  rewrite read_ack_parse in H by assumption.
  destruct (pack p) as [[a' rest]|] eqn:E; [|discriminate]. cbn [result] in H. injection H as <- _.
  unfold pack, pbind in E.
  destruct (pbe 1 0 p) as [[x1 s1]|]; [|discriminate].
  destruct (pbe 2 0 s1) as [[x2 s2]|]; [|discriminate].
  destruct (pids s2) as [[x3 s3]|] eqn:E3; [|discriminate]. injection E as <- _.
  exact (pids_wf _ _ _ E3).
Qed.

Lemma read_ack_nb m p a n : bytes p -> read_ack m p = Ok (a, n) -> a_nb a < 65536.
Proof.
  intros Hb H.
  assert (Ha : assert_type m p TAck = Ok tt).
  { unfold read_ack in H. destruct (assert_type m p TAck) as [[]| |]; try discriminate. reflexivity. }
  rewrite read_ack_parse in H by assumption.
  destruct (pack p) as [[a' rest]|] eqn:E; [|discriminate]. cbn [result] in H. injection H as <- _.
  unfold pack, pbind in E. destruct p as [|b0 [|b1 [|b2 p]]]; try discriminate.
  assert (P1 : pbe 1 0 (b0 :: b1 :: b2 :: p) = Some (b0, b1 :: b2 :: p)) by reflexivity.
  assert (P2 : pbe 2 0 (b1 :: b2 :: p) = Some (b1 * 256 + b2, p)) by reflexivity.
  rewrite P1, P2 in E. destruct (pids p) as [[ids rest']|]; [|discriminate]. injection E as <- _.
  cbn [a_nb]. unfold bytes in Hb. rewrite !Forall_cons_iff in Hb. lia.
Qed.

Lemma read_ack_no_fault m p : get_packet_type p = Ok TAck -> ~ is_fault (read_ack m p).
Proof.
  intros H [x E].
  rewrite read_ack_parse in E; [destruct (pack p) as [[? ?]|]; discriminate|].
  destruct m; [|reflexivity]. unfold assert_type. rewrite H. reflexivity.
Qed.

(** What a packet does to the encoder. *)
Record after_packet (m : mode) (e : enc) (p : packet) (e' : enc) (r : outcome nat) : Prop := {
  ap_field : e_field e' = e_field e;
  ap_systematic : e_systematic e' = e_systematic e;
  ap_window : e_window_size e' = e_window_size e;
  ap_adaptive : e_adaptive e' = e_adaptive e;
  ap_source_id : e_source_id e' = e_source_id e;
  ap_repair_id : e_repair_id e' = e_repair_id e;
  ap_nb_repairs : e_nb_sent_repairs e' = e_nb_sent_repairs e;
  ap_nb_sources : e_nb_sent_sources e' = e_nb_sent_sources e;
  ap_acks : e_nb_acks e' = if type_of p =? 0 then u64 (e_nb_acks e + 1) else e_nb_acks e;
  ap_ok : forall n, r = Ok n -> exists a, type_of p = 0 /\ read_ack m p = Ok (a, n)
      /\ e_sources e' = erase_sources (e_sources e) (a_ids a)
      /\ e_nb_sent_packets e' = 0
      /\ (e_adaptive e = false -> e_rate e' = e_rate e)
      /\ (e_adaptive e = true -> adapted_rate (e_nb_sent_packets e) (a_nb a) = Ok (e_rate e'));
  ap_throw : forall x, r = Throw x -> e_sources e' = e_sources e /\ e_rate e' = e_rate e
      /\ e_nb_sent_packets e' = e_nb_sent_packets e
      /\ ((exists b q, p = b :: q /\ b <> 0) \/ type_of p = 0 /\ read_ack m p = Throw x)
}.

Lemma adapted_rate_no_throw s r x : adapted_rate s r <> Throw x.
Proof.
  assert (K : forall l, rate_for_loss l <> Throw x).
  { intros l. unfold rate_for_loss, ceil_size. destruct (SpecFloat.SFltb _ _); [discriminate|].
    destruct (fdiv _ _); try discriminate. destruct (_ && _); discriminate. }
  unfold adapted_rate. destruct (0 <? s); apply K.
Qed.

Lemma notify_spec m e p e' r : notify m e p = (e', r) -> ~ is_fault r -> after_packet m e p e' r.
Proof.
  unfold notify. intros H Hf.
  assert (Hp : match p with [] => True | _ => (_ <- assert_ m (Nat.ltb 0 (length p)) ;; get_packet_type p)
                 = get_packet_type p end).
  { destruct p; [exact I|]. now destruct m. }
  destruct p as [|b q].
  { destruct Hf. destruct m; cbn in H; injection H as _ <-; eexists; reflexivity. }
  rewrite Hp in H. cbn [get_packet_type] in H.
  assert (K : b <> 0 -> forall x, (e, Throw x) = (e', r) -> after_packet m e (b :: q) e' r).
  { intros Hb x E. injection E as <- <-. assert (Hb' : (type_of (b :: q) =? 0) = false) by now apply N.eqb_neq.
    constructor; try reflexivity.
    - now rewrite Hb'.
    - discriminate.
    - intros y Hy. repeat split; try reflexivity. left. eauto. }
  destruct (N.eqb_spec b 0) as [->|Hb].
  - destruct (read_ack m (0 :: q)) as [[a n]|x|x] eqn:E.
    + unfold apply_ack in H. cbn [with_ack e_adaptive e_nb_sent_packets e_rate] in H.
      destruct (e_adaptive e) eqn:Ead.
      * destruct (adapted_rate _ _) as [rate|x|x] eqn:Er; [|now apply adapted_rate_no_throw in Er|].
        -- cbn [bind] in H. injection H as <- <-. constructor; try reflexivity; try discriminate.
           ++ cbn. congruence.
           ++ intros n' H'. injection H' as <-. exists a. cbn. split; [reflexivity|].
              split; [assumption|]. rewrite Ead. split; [reflexivity|]. split; [reflexivity|].
              split; [discriminate|]. auto.
        -- cbn [bind] in H. injection H as <- <-. destruct Hf. eexists; reflexivity.
      * cbn [bind] in H. injection H as <- <-. constructor; try reflexivity; try discriminate.
        -- cbn. congruence.
        -- intros n' H'. injection H' as <-. exists a. cbn. split; [reflexivity|].
           split; [assumption|]. rewrite Ead. split; [reflexivity|]. split; [reflexivity|].
           split; [reflexivity|]. discriminate.
    + injection H as <- <-. constructor; try reflexivity; try discriminate.
      intros y Hy. injection Hy as <-. repeat split; try reflexivity. right. now split.
    + injection H as <- <-. destruct Hf. eexists; reflexivity.
  - destruct (b =? 1); [exact (K Hb _ H)|]. destruct (b =? 2); exact (K Hb _ H).
Qed.

(** ** Histories *)

Definition datas (ops : list eop) : list (list N) :=
  flat_map (fun op => match op with EData d => [d] | _ => [] end) ops.

Definition acks (ops : list eop) : list packet :=
  flat_map (fun op => match op with EPacket p => if type_of p =? 0 then [p] else [] | _ => [] end) ops.

Lemma datas_app a b : datas (a ++ b) = datas a ++ datas b.
Proof. apply flat_map_app. Qed.
Lemma acks_app a b : acks (a ++ b) = acks a ++ acks b.
Proof. apply flat_map_app. Qed.

Definition nb_data (ops : list eop) : N := N.of_nat (length (datas ops)).

Lemma nb_data_app a b : nb_data (a ++ b) = nb_data a + nb_data b.
Proof. unfold nb_data. rewrite datas_app, app_length. lia. Qed.

Record history (f : field) (ops : list eop) (out : list packet) (e : enc) : Prop := {
  h_field : e_field e = f;
  h_source_id : e_source_id e = u32 (nb_data ops);
  h_repair_id : e_repair_id e = u32 (count 1 out);
  h_nb_repairs : e_nb_sent_repairs e = u64 (count 1 out);
  h_nb_sources : e_nb_sent_sources e = u64 (count 2 out);
  h_nb_acks : e_nb_acks e = u64 (N.of_nat (length (acks ops)));
  h_types : Forall (fun p => type_of p = 1 \/ type_of p = 2) out;
  h_repair_ids : forall k p, nth_error (of_type 1 out) k = Some p -> id_of p = N.of_nat k mod 2 ^ 32;
  h_window : forall s, In s (e_sources e) -> exists k, nth_error (datas ops) k = Some (es_data s)
      /\ es_id s = N.of_nat k mod 2 ^ 32;
  h_sorted : nb_data ops <= 2 ^ 32 ->
      ssorted (ids_of (e_sources e)) /\ Forall (fun i => i < nb_data ops) (ids_of (e_sources e))
}.

Lemma u32_add a b : u32 (u32 a + b) = u32 (a + b).
Proof. unfold u32. apply N.add_mod_idemp_l. discriminate. Qed.
Lemma u64_add a b : u64 (u64 a + b) = u64 (a + b).
Proof. unfold u64. apply N.add_mod_idemp_l. discriminate. Qed.

Lemma new_history f : history f [] [] (new_encoder f).
Proof.
  constructor; try reflexivity.
  - constructor.
  - intros [|k] p H; discriminate.
  - intros s H. destruct H.
  - intros _. split; constructor.
Qed.

Lemma erase_sorted_any l ids : ssorted (ids_of l) -> ssorted (ids_of (erase_sources l ids)).
Proof.
  revert ids. induction l as [|s l IH]; intros ids H; [exact H|].
  unfold ids_of in H. cbn [map] in H. apply ssorted_cons_inv in H as [Hl Hs].
  induction ids as [|i ids IHi].
  - cbn. constructor; [exact Hl|]. now apply Forall_forall.
  - rewrite erase_cons. destruct (es_id s =? i); [now apply IH|].
    destruct (i <? es_id s); [exact IHi|].
    unfold ids_of. cbn [map]. constructor; [now apply IH|].
    rewrite Forall_forall. intros x Hx. apply in_map_iff in Hx as (t & <- & Ht).
    apply Hs, in_map. now apply erase_incl in Ht.
Qed.

(** A call that emits nothing, gives no data, and leaves the window alone. *)
Lemma history_quiet f ops op out e e' : history f ops out e ->
  datas [op] = [] -> acks [op] = [] ->
  e_field e' = e_field e -> e_source_id e' = e_source_id e -> e_repair_id e' = e_repair_id e ->
  e_nb_sent_repairs e' = e_nb_sent_repairs e -> e_nb_sent_sources e' = e_nb_sent_sources e ->
  e_nb_acks e' = e_nb_acks e -> e_sources e' = e_sources e ->
  history f (ops ++ [op]) (out ++ []) e'.
Proof.
  intros H Hd Ha E1 E2 E3 E4 E5 E6 E7. rewrite app_nil_r. destruct H.
  assert (Nd : nb_data (ops ++ [op]) = nb_data ops).
  { rewrite nb_data_app. unfold nb_data at 2. rewrite Hd. cbn. lia. }
  constructor; rewrite ?E1, ?E2, ?E3, ?E4, ?E5, ?E6, ?E7, ?Nd; try assumption.
  - now rewrite acks_app, Ha, app_nil_r.
  - now rewrite datas_app, Hd, app_nil_r.
Qed.

Lemma of_type_app t a b : of_type t (a ++ b) = of_type t a ++ of_type t b.
Proof. apply filter_app. Qed.

(** Appending a repair to the output. *)
Lemma repair_ids_snoc out p m f l id : id = u32 (count 1 out) -> repair_of m f id l p ->
  (forall k q, nth_error (of_type 1 out) k = Some q -> id_of q = N.of_nat k mod 2 ^ 32) ->
  forall k q, nth_error (of_type 1 (out ++ [p])) k = Some q -> id_of q = N.of_nat k mod 2 ^ 32.
Proof.
  intros -> R H k q. rewrite of_type_app. unfold of_type at 2. cbn [filter].
  rewrite (repair_of_type _ _ _ _ _ R). cbn [N.eqb Pos.eqb].
  destruct (Nat.lt_ge_cases k (length (of_type 1 out))) as [Hk|Hk].
  - rewrite nth_error_app1 by assumption. apply H.
  - rewrite nth_error_app2 by assumption. intros E.
    destruct (k - length (of_type 1 out))%nat as [|j] eqn:Ej; [|destruct j; discriminate].
    injection E as <-. rewrite (repair_of_id _ _ _ _ _ R). unfold count, u32.
    change (2 ^ 32) with 4294967296. rewrite N.mod_mod by discriminate. f_equal. lia.
Qed.

Lemma repair_ids_source out p : type_of p = 2 ->
  (forall k q, nth_error (of_type 1 out) k = Some q -> id_of q = N.of_nat k mod 2 ^ 32) ->
  forall k q, nth_error (of_type 1 (out ++ [p])) k = Some q -> id_of q = N.of_nat k mod 2 ^ 32.
Proof.
  intros T H. rewrite of_type_app. unfold of_type at 2. cbn [filter]. rewrite T. cbn [N.eqb Pos.eqb].
  rewrite app_nil_r. exact H.
Qed.

Lemma history_data m f ops out e d e' out' : history f ops out e ->
  after_data m e d e' out' -> history f (ops ++ [EData d]) (out ++ out') e'.
Proof.
  intros H A. destruct H, A.
  assert (Nd : nb_data (ops ++ [EData d]) = nb_data ops + 1).
  { rewrite nb_data_app. reflexivity. }
  destruct ad_out0 as (first & rest & Eo & O1 & O2 & O3 & O4).
  (* the types of the two packets *)
  assert (T : (if e_systematic e then type_of first = 2 else type_of first = 1)
              /\ (rest = [] \/ exists p, rest = [p] /\ repair_of m (e_field e)
            (if e_systematic e then e_repair_id e else u32 (e_repair_id e + 1)) (e_sources e') p)).
  { split.
    - destruct (e_systematic e).
      + rewrite (O1 eq_refl). apply source_type.
      + eapply repair_of_type. now apply O2.
    - destruct (N.eq_dec (u32 (e_source_id e + 1) mod e_rate e) 0); auto. }
  destruct T as [T1 T2].
  assert (C2 : count 2 out' = if e_systematic e then 1 else 0).
  { rewrite Eo, count_cons. replace (count 2 rest) with 0.
    - destruct (e_systematic e); rewrite T1; reflexivity.
    - destruct T2 as [->|(p & -> & R)]; [reflexivity|].
      rewrite count_one, (repair_of_type _ _ _ _ _ R). reflexivity. }
  constructor.
  - congruence.
  - rewrite ad_source_id0, h_source_id0, Nd. apply u32_add.
  - rewrite count_app. destruct ad_repair_id0 as [->|[-> ->]]; rewrite h_repair_id0.
    + apply u32_add.
    + now rewrite N.add_0_r.
  - rewrite count_app. destruct ad_nb_repairs0 as [->|[-> ->]]; rewrite h_nb_repairs0.
    + apply u64_add.
    + now rewrite N.add_0_r.
  - rewrite count_app, C2, ad_nb_sources0, h_nb_sources0. destruct (e_systematic e).
    + apply u64_add.
    + now rewrite N.add_0_r.
  - rewrite acks_app. cbn [acks flat_map app]. rewrite app_nil_r. congruence.
  - apply Forall_app. split; [assumption|]. rewrite Eo. constructor.
    + destruct (e_systematic e); auto.
    + destruct T2 as [->|(p & -> & R)]; [constructor|]. constructor; [|constructor].
      left. eapply repair_of_type, R.
  - rewrite Eo. replace (out ++ first :: rest) with ((out ++ [first]) ++ rest)
      by (rewrite <- app_assoc; reflexivity).
    assert (F : forall k q, nth_error (of_type 1 (out ++ [first])) k = Some q ->
                id_of q = N.of_nat k mod 2 ^ 32).
    { destruct (e_systematic e) eqn:Es.
      - apply repair_ids_source; [exact T1|assumption].
      - eapply repair_ids_snoc; [|apply O2; reflexivity|assumption]. exact h_repair_id0. }
    destruct T2 as [->|(p & -> & R)]; [now rewrite app_nil_r|].
    eapply repair_ids_snoc; [|exact R|exact F].
    rewrite count_app, count_one, h_repair_id0. destruct (e_systematic e); rewrite T1; cbn [N.eqb Pos.eqb].
    + now rewrite N.add_0_r.
    + apply u32_add.
  - intros s Hs. rewrite datas_app.
    apply push_source_in in ad_push0 as (_ & Hin & _). apply Hin in Hs as [->|Hs].
    + exists (length (datas ops)). split.
      * rewrite nth_error_app2, Nat.sub_diag by apply le_n. reflexivity.
      * cbn [es_id]. rewrite h_source_id0. reflexivity.
    + destruct (h_window0 s Hs) as (k & E1 & E2). exists k. split; [|assumption].
      rewrite nth_error_app1; [assumption|]. apply nth_error_Some. congruence.
  - rewrite Nd. intros Hn. destruct h_sorted0 as [S1 S2]; [lia|].
    assert (Eid : e_source_id e = nb_data ops).
    { rewrite h_source_id0. unfold u32. apply N.mod_small. change (2 ^ 32) with 4294967296 in Hn. lia. }
    assert (G : forall l, ssorted (ids_of l) -> Forall (fun i => i < nb_data ops) (ids_of l) ->
        ssorted (ids_of (l ++ [{| es_id := e_source_id e; es_data := d |}]))
        /\ Forall (fun i => i < nb_data ops + 1) (ids_of (l ++ [{| es_id := e_source_id e; es_data := d |}]))).
    { intros l L1 L2. unfold ids_of in *. rewrite map_app. cbn [map es_id]. rewrite Eid. split.
      - apply ssorted_app; [exact L1|constructor; constructor|].
        intros x y Hx [<-|[]]. rewrite Forall_forall in L2. now apply L2.
      - apply Forall_app. split; [|constructor; [lia|constructor]].
        eapply Forall_impl; [|exact L2]. cbn. intros. lia. }
    apply push_source_ok in ad_push0 as [(_ & x & t & E & ->)|(_ & ->)].
    + rewrite E in S1, S2. unfold ids_of in S1, S2. cbn [map] in S1, S2.
      apply ssorted_cons_inv in S1 as [S1 _]. apply Forall_cons_iff in S2 as [_ S2]. now apply G.
    + now apply G.
Qed.

Lemma history_packet m f ops out e p e' r : history f ops out e ->
  after_packet m e p e' r -> ~ is_fault r -> history f (ops ++ [EPacket p]) (out ++ []) e'.
Proof.
  intros H A Hf. rewrite app_nil_r. destruct H, A.
  assert (Nd : nb_data (ops ++ [EPacket p]) = nb_data ops).
  { rewrite nb_data_app. unfold nb_data. cbn. lia. }
  assert (S : exists ids, e_sources e' = erase_sources (e_sources e) ids).
  { destruct r as [n|x|x].
    - destruct (ap_ok0 n eq_refl) as (a & _ & _ & E & _). eauto.
    - destruct (ap_throw0 x eq_refl) as (E & _). exists []. rewrite E.
      destruct (e_sources e); reflexivity.
    - destruct Hf. eexists; reflexivity. }
  destruct S as [ids Es].
  constructor; rewrite ?Nd; try congruence.
  - rewrite ap_acks0, h_nb_acks0, acks_app. cbn [acks flat_map app].
    destruct (type_of p =? 0); cbn [app]; rewrite ?app_nil_r; [|reflexivity].
    rewrite app_length, u64_add. cbn [length]. f_equal. lia.
  - assumption.
  - intros s Hs. rewrite datas_app. cbn [datas flat_map app]. rewrite app_nil_r.
    apply h_window0. rewrite Es in Hs. now apply erase_incl in Hs.
  - intros Hn. destruct (h_sorted0 Hn) as [S1 S2]. rewrite Es. split.
    + now apply erase_sorted_any.
    + rewrite Forall_forall in *. intros x Hx. apply in_map_iff in Hx as (s & <- & Hs).
      apply S2, in_map. now apply erase_incl in Hs.
Qed.

Lemma history_repair m f ops out e e' out' : history f ops out e ->
  generate_repair m e = Ok (e', out') -> history f (ops ++ [ERepair]) (out ++ out') e'.
Proof.
  intros H G. apply generate_repair_ok in G as (r & w & Er & Ew & -> & F1 & F2 & F3 & F4 & F5 & F6 & F7
        & F8 & F9 & F10 & F11 & F12).
  assert (R : repair_of m (e_field e) (e_repair_id e) (e_sources e) (concat w)) by (exists r, w; auto).
  pose proof (repair_of_type _ _ _ _ _ R) as Tr. destruct H.
  assert (Nd : nb_data (ops ++ [ERepair]) = nb_data ops).
  { rewrite nb_data_app. unfold nb_data. cbn. lia. }
  constructor; rewrite ?Nd, ?F1, ?F8; try congruence.
  - rewrite count_app, count_one, Tr, F7, h_repair_id0. apply u32_add.
  - rewrite count_app, count_one, Tr, F9, h_nb_repairs0. apply u64_add.
  - rewrite count_app, count_one, Tr, F11, h_nb_sources0. cbn [N.eqb Pos.eqb]. now rewrite N.add_0_r.
  - rewrite acks_app. cbn [acks flat_map]. rewrite app_nil_r. congruence.
  - apply Forall_app. split; [assumption|]. constructor; auto.
  - eapply repair_ids_snoc; [exact h_repair_id0|exact R|assumption].
  - rewrite datas_app. cbn [datas flat_map]. now rewrite app_nil_r.
  - assumption.
Qed.

(** The packets of a step that did not fault. *)
Definition emitted (r : outcome (list packet)) : list packet :=
  match r with Ok out => out | _ => [] end.

Lemma history_step m f ops out e op e' r : history f ops out e ->
  estep m e op = (e', r) -> ~ is_fault r -> history f (ops ++ [op]) (out ++ emitted r) e'.
Proof.
  intros H E Hf. destruct op as [d|p| |b|k|n|b]; cbn [estep] in E.
  - destruct (enc_data m e d) as [[e1 o]|x|x] eqn:Ed.
    + injection E as <- <-. apply enc_data_spec in Ed. eapply history_data; eassumption.
    + now apply enc_data_no_throw in Ed.
    + injection E as <- <-. destruct Hf. eexists; reflexivity.
  - destruct (notify m e p) as [e1 q] eqn:En. injection E as <- <-.
    assert (Hq : ~ is_fault q).
    { intros [x ->]. apply Hf. eexists; reflexivity. }
    pose proof (notify_spec _ _ _ _ _ En Hq) as A.
    replace (emitted _) with (@nil packet) by now destruct q.
    eapply history_packet; eassumption.
  - destruct (generate_repair m e) as [[e1 o]|x|x] eqn:Ed.
    + injection E as <- <-. eapply history_repair; eassumption.
    + now apply generate_repair_no_throw in Ed.
    + injection E as <- <-. destruct Hf. eexists; reflexivity.
  - injection E as <- <-. eapply history_quiet; eauto.
  - unfold set_rate in E. destruct (assert_ m (0 <? k)) as [u|x|x] eqn:Ea; cbn [bind] in E;
      injection E as <- <-.
    + eapply history_quiet; eauto.
    + destruct m; unfold assert_ in Ea; [destruct (0 <? k)|]; discriminate.
    + destruct Hf. eexists; reflexivity.
  - unfold set_window_size in E. destruct (assert_ m (0 <? n)) as [u|x|x] eqn:Ea; cbn [bind] in E;
      injection E as <- <-.
    + eapply history_quiet; eauto.
    + destruct m; unfold assert_ in Ea; [destruct (0 <? n)|]; discriminate.
    + destruct Hf. eexists; reflexivity.
  - injection E as <- <-. eapply history_quiet; eauto.
Qed.

Lemma erun_step m e op ops e' out : erun m e (op :: ops) = Ok (e', out) ->
  exists e1 r out', estep m e op = (e1, r) /\ ~ is_fault r /\ erun m e1 ops = Ok (e', out')
  /\ out = emitted r ++ out'.
Proof.
  cbn [erun]. destruct (estep m e op) as [e1 [o|x|x]] eqn:E; intros H.
  - apply bind_ok in H as ([e2 o'] & H & K). injection K as <- <-.
    exists e1, (Ok o), o'. split; [reflexivity|]. split; [intros [x K]; discriminate|]. auto.
  - exists e1, (Throw x), out. split; [reflexivity|]. split; [intros [y K]; discriminate|]. auto.
  - discriminate.
Qed.

Lemma history_run m f ops e : forall done out, history f done out e ->
  forall e' out', erun m e ops = Ok (e', out') -> history f (done ++ ops) (out ++ out') e'.
Proof.
  revert e. induction ops as [|op ops IH]; intros e done out H e' out' E.
  - cbn in E. injection E as <- <-. now rewrite !app_nil_r.
  - apply erun_step in E as (e1 & r & o & E1 & Hf & E2 & ->).
    pose proof (history_step _ _ _ _ _ _ _ _ H E1 Hf) as H1.
    specialize (IH _ _ _ H1 _ _ E2). rewrite <- app_assoc in IH. cbn [app] in IH.
    now rewrite app_assoc.
Qed.

Lemma history_of_run m f ops e out : erun m (new_encoder f) ops = Ok (e, out) -> history f ops out e.
Proof. intros H. exact (history_run _ _ _ _ [] [] (new_history f) _ _ H). Qed.

Lemma erun_app m e a b e' out : erun m e (a ++ b) = Ok (e', out) ->
  exists e1 o1 o2, erun m e a = Ok (e1, o1) /\ erun m e1 b = Ok (e', o2) /\ out = o1 ++ o2.
Proof.
  revert e out. induction a as [|op a IH]; intros e out H.
  - exists e, [], out. auto.
  - cbn [app] in H. cbn [erun] in *. destruct (estep m e op) as [e1 [o|x|x]] eqn:E.
    + apply bind_ok in H as ([e2 o'] & H & K). injection K as <- <-.
      apply IH in H as (e3 & o1 & o2 & H1 & H2 & ->). rewrite H1. cbn [bind].
      exists e3, (o ++ o1), o2. rewrite app_assoc. auto.
    + apply IH in H as (e3 & o1 & o2 & H1 & H2 & ->). eauto 7.
    + discriminate.
Qed.

Lemma erun_app_ok m e a b e1 o1 e' o2 : erun m e a = Ok (e1, o1) -> erun m e1 b = Ok (e', o2) ->
  erun m e (a ++ b) = Ok (e', o1 ++ o2).
Proof.
  revert e o1. induction a as [|op a IH]; intros e o1 H1 H2.
  - cbn in H1. injection H1 as <- <-. exact H2.
  - cbn [erun app] in *. destruct (estep m e op) as [e2 [o|x|x]] eqn:E; [| |discriminate].
    + apply bind_ok in H1 as ([e3 o'] & H1 & K). injection K as <- <-.
      rewrite (IH _ _ H1 H2). cbn [bind]. now rewrite app_assoc.
    + exact (IH _ _ H1 H2).
Qed.
