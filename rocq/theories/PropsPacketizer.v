(** * Properties of the wire format: C01 - C09 *)
From Coq Require Import NArith List Bool Lia Arith Sorted.
From Verif Require Import Outcome GF GFRegion Containers ContainersFacts Packetizer PacketizerFacts.
Import ListNotations.
Open Scope N_scope.

(** ** Specification vocabulary *)

(** A packet as received: the concatenation of the data handed to the packet
    handler before the end-of-packet call. *)
Definition on_wire (calls : list (list N)) : list N := concat calls.

(** A set of 32-bit identifiers, in increasing order. *)
Definition id_set (l : list N) : Prop :=
  StronglySorted N.lt l /\ Forall (fun x => x < 2 ^ 32) l.

(** Neighbouring identifiers are closer than 65536. *)
Definition close_ids (l : list N) : Prop :=
  forall before a b after, l = before ++ a :: b :: after -> b - a < 65536.

(** The part of a packet that holds [l] has a run counter that fits 16 bits,
    see C09. *)
Definition run_count_fits (l : list N) : Prop :=
  N.of_nat (length (on_wire (write_ids l))) <= 6 + 3 * 65534.

(** Type bytes, in a build with assertions. *)
Definition announced (m : mode) (p : list N) (t : ptype) : Prop :=
  m = Debug -> get_packet_type p = Ok t.

(** ** Links to the lemmas *)

Lemma close_gaps x l : close_ids (x :: l) <-> gaps_ok x l.
Proof.
  revert x. induction l as [|y l IH]; intros x; simpl.
  - split; [auto|]. intros _ before a b after H.
    destruct before as [|? [|? ?]]; discriminate.
  - rewrite <- IH. split.
    + intros H. split; [now apply (H [] x y l)|].
      intros before a b after E. apply (H (x :: before) a b after). now rewrite E.
    + intros [H1 H2] before a b after E. destruct before as [|z before]; simpl in E.
      * injection E as <- <- _. assumption.
      * injection E as <- E. now apply (H2 before a b after).
Qed.

Lemma fits_npairs l : run_count_fits l -> N.of_nat (npairs l) < 65535.
Proof.
  unfold run_count_fits, on_wire. destruct l as [|x l]; [intros _; reflexivity|].
  rewrite write_ids_length. lia.
Qed.

Lemma short_fits l : N.of_nat (length l) <= 65535 -> run_count_fits l.
Proof.
  unfold run_count_fits, on_wire. destruct l as [|x l]; [intros _; vm_compute; discriminate|].
  rewrite write_ids_length. pose proof (npairs_le x l). cbn [length]. lia.
Qed.

Lemma survives ids : id_set ids -> close_ids ids -> wire_ids ids = ids.
Proof.
  intros [Hs H32] Hc. apply wire_ids_ok; try assumption.
  intros x l ->. now apply close_gaps.
Qed.

Lemma be1_small x t : x < 256 -> be 1 x ++ t = x :: t.
Proof. intros H. cbn. now rewrite N.mod_small. Qed.

Lemma assert_announced m p t : announced m p t -> assert_type m p t = Ok tt.
Proof.
  intros H. destruct m; [|reflexivity]. unfold assert_type. rewrite H by reflexivity.
  now destruct t.
Qed.

Lemma announced_type m p t b q : p = b :: q -> get_packet_type (b :: q) = Ok t -> announced m p t.
Proof. intros -> H _. exact H. Qed.

(** ** C01 *)

Lemma source_packet id data :
  on_wire (write_source {| es_id := id; es_data := data |})
  = be 1 2 ++ be 4 id ++ be 2 (N.of_nat (length data)) ++ data.
Proof. unfold on_wire, write_source. cbn [concat es_id es_data]. now rewrite app_nil_r. Qed.

Lemma skipn7 (a b c t : list N) : length a = 1%nat -> length b = 4%nat -> length c = 2%nat ->
  skipn 7 (a ++ b ++ c ++ t) = t.
Proof.
  intros Ha Hb Hc. rewrite !app_assoc. rewrite skipn_app.
  rewrite skipn_all2; [|rewrite !app_length; lia].
  rewrite !app_length, Ha, Hb, Hc. reflexivity.
Qed.

Theorem C01_any_source :
  forall m id data, id < 2 ^ 32 ->
  let p := on_wire (write_source {| es_id := id; es_data := data |}) in
  let kept := N.to_nat (N.of_nat (length data) mod 65536) in
  exists s, read_source m p = Ok (s, (7 + kept)%nat)
  /\ ds_id s = id /\ ds_data s = firstn kept data.
Proof.
  intros m id data Hid p kept.
  assert (Hp : p = be 1 2 ++ be 4 id ++ be 2 (N.of_nat (length data)) ++ data)
    by apply source_packet.
  assert (Hk : (kept <= length data)%nat).
  { unfold kept. pose proof (N.mod_le (N.of_nat (length data)) 65536). lia. }
  assert (Ha : assert_type m p TSource = Ok tt).
  { apply assert_announced. rewrite Hp. now intros _. }
  rewrite read_source_parse by assumption.
  assert (E : psource p = Some ((id, N.of_nat (length data) mod 65536), skipn kept data)).
  { rewrite Hp. unfold psource, pbind. rewrite !pbe_be.
    change (256 ^ N.of_nat 2) with 65536. change (256 ^ N.of_nat 4) with (2 ^ 32).
    fold kept. unfold pskip. destruct (Nat.ltb_spec (length data) kept); [lia|].
    unfold pret. now rewrite (N.mod_small id). }
  rewrite E. cbn [result]. eexists. split.
  - do 2 f_equal. rewrite Hp, !app_length, !be_length, skipn_length. lia.
  - split; [reflexivity|]. unfold ds_data, mk_source_of. cbn [ds_size ds_buf fst snd].
    fold kept. rewrite Hp, skipn7; auto using be_length.
Qed.
Print Assumptions C01_any_source.

Theorem C01_source_roundtrip :
  forall m id data, id < 2 ^ 32 -> N.of_nat (length data) < 65536 ->
  let p := on_wire (write_source {| es_id := id; es_data := data |}) in
  exists s, read_source m p = Ok (s, length p) /\ ds_id s = id /\ ds_data s = data.
Proof.
  intros m id data Hid Hl p. destruct (C01_any_source m id data Hid) as (s & E & Ei & Ed).
  rewrite N.mod_small, Nat2N.id in E by assumption.
  rewrite N.mod_small, Nat2N.id, firstn_all in Ed by assumption.
  exists s. split; [|now split]. unfold p. rewrite E. do 2 f_equal.
  rewrite source_packet, !app_length, !be_length. reflexivity.
Qed.
Print Assumptions C01_source_roundtrip.

(** 65536 bytes of data are received as no data. *)
Theorem C01_large_source_refuted :
  exists data, N.of_nat (length data) = 65536
  /\ forall m id, id < 2 ^ 32 ->
     exists s n, read_source m (on_wire (write_source {| es_id := id; es_data := data |})) = Ok (s, n)
     /\ ds_data s = [].
Proof.
  exists (repeat 7 (N.to_nat 65536)). rewrite repeat_length, N2Nat.id. split; [reflexivity|].
  intros m id Hid. destruct (C01_any_source m id (repeat 7 (N.to_nat 65536)) Hid) as (s & E & _ & Ed).
  exists s, 7%nat. split.
  - rewrite E. rewrite repeat_length, N2Nat.id. reflexivity.
  - rewrite Ed. rewrite repeat_length, N2Nat.id. reflexivity.
Qed.
Print Assumptions C01_large_source_refuted.

Example C01_hyps :
  read_source Debug (on_wire (write_source {| es_id := 0xfffffffe; es_data := [1; 2; 3; 255] |}))
  = Ok ({| ds_id := 0xfffffffe; ds_buf := [1; 2; 3; 255]; ds_size := 4 |}, 11%nat).
Proof. vm_compute. reflexivity. Qed.

(** ** C02 *)

Theorem C02_repair_roundtrip :
  forall m r, er_id r < 2 ^ 32 -> id_set (er_ids r) -> close_ids (er_ids r) ->
  run_count_fits (er_ids r) -> er_enc r < 65536 ->
  er_sym r <> [] -> N.of_nat (length (er_sym r)) < 65536 ->
  exists calls d n, write_repair m r = Ok calls
  /\ read_repair m (on_wire calls) = Ok (d, n)
  /\ dr_id d = er_id r /\ dr_ids d = er_ids r /\ dr_enc d = er_enc r /\ dr_sym d = er_sym r
  /\ (n + 2 + length (er_sym r) = length (on_wire calls))%nat.
Proof.
  intros m [id ids enc sym] Hid Hids Hc Hf Henc Hne Hl. cbn [er_id er_ids er_enc er_sym] in *.
  assert (Ha0 : assert_ m (Nat.ltb 0 (length sym)) = Ok tt).
  { destruct sym; [congruence|]. destruct m; reflexivity. }
  unfold write_repair. cbn [er_sym er_id er_ids er_enc]. rewrite Ha0. cbn [bind].
  set (calls := [be 1 1; be 4 id; be 2 (N.of_nat (length sym)); sym] ++ write_ids ids
      ++ [be 2 enc; be 2 (N.of_nat (length sym)); sym]).
  assert (Hp : on_wire calls = be 1 1 ++ be 4 id ++ be 2 (N.of_nat (length sym)) ++ sym
                ++ concat (write_ids ids) ++ be 2 enc ++ be 2 (N.of_nat (length sym)) ++ sym).
  { unfold on_wire, calls. rewrite !concat_app. cbn [concat].
    rewrite !app_nil_r, <- !app_assoc. reflexivity. }
  set (p := on_wire calls) in *.
  assert (Ha : assert_type m p TRepair = Ok tt).
  { apply assert_announced. rewrite Hp. now intros _. }
  assert (E : prepair p = Some ((id, N.of_nat (length sym), ids, enc),
                                be 2 (N.of_nat (length sym)) ++ sym)).
  { rewrite Hp. unfold prepair, pbind. rewrite !pbe_be.
    change (256 ^ N.of_nat 2) with 65536. change (256 ^ N.of_nat 4) with (2 ^ 32).
    rewrite (N.mod_small (N.of_nat (length sym))), (N.mod_small id), Nat2N.id by assumption.
    unfold pskip. rewrite app_length.
    destruct (Nat.ltb_spec (length sym + length (concat (write_ids ids) ++ be 2 enc
       ++ be 2 (N.of_nat (length sym)) ++ sym)) (length sym)); [lia|].
    rewrite skipn_app, skipn_all, Nat.sub_diag. cbn [app skipn].
    rewrite pids_write by now apply fits_npairs. rewrite survives by assumption.
    rewrite pbe_be. change (256 ^ N.of_nat 2) with 65536.
    rewrite (N.mod_small enc) by assumption. reflexivity. }
  exists calls, (mk_repair_of p (id, N.of_nat (length sym), ids, enc)).
  exists (length p - length (be 2 (N.of_nat (length sym)) ++ sym))%nat.
  split; [reflexivity|]. split.
  { change (on_wire calls) with p. rewrite read_repair_parse by assumption.
    rewrite E. reflexivity. }
  repeat split; try reflexivity.
  - unfold dr_sym, mk_repair_of. cbn [dr_size dr_buf]. rewrite Hp, skipn7; auto using be_length.
    rewrite Nat2N.id, firstn_app, firstn_all, Nat.sub_diag. cbn [firstn]. apply app_nil_r.
  - change (on_wire calls) with p. rewrite Hp, !app_length, !be_length. lia.
Qed.
Print Assumptions C02_repair_roundtrip.

(** Consequence: the number of bytes read is strictly smaller than the packet. *)
Theorem C02_repair_not_fully_read :
  forall m r calls d n, er_id r < 2 ^ 32 -> id_set (er_ids r) -> close_ids (er_ids r) ->
  run_count_fits (er_ids r) -> er_enc r < 65536 ->
  er_sym r <> [] -> N.of_nat (length (er_sym r)) < 65536 ->
  write_repair m r = Ok calls -> read_repair m (on_wire calls) = Ok (d, n) ->
  (n + 2 < length (on_wire calls))%nat.
Proof.
  intros m r calls d n H1 H2 H3 H4 H5 H6 H7 Hw Hr.
  destruct (C02_repair_roundtrip m r) as (calls' & d' & n' & Hw' & Hr' & _ & _ & _ & _ & Hn);
    try assumption.
  rewrite Hw in Hw'. injection Hw' as <-. rewrite Hr in Hr'. injection Hr' as <- <-.
  destruct (er_sym r); [congruence|]. cbn [length] in Hn. lia.
Qed.
Print Assumptions C02_repair_not_fully_read.

Definition C02_example : erepair :=
  {| er_id := 9; er_ids := [4; 5; 6; 300; 65000]; er_enc := 513; er_sym := [9; 8; 7] |}.

Example C02_hyps : er_id C02_example < 2 ^ 32 /\ id_set (er_ids C02_example)
  /\ close_ids (er_ids C02_example) /\ run_count_fits (er_ids C02_example)
  /\ er_sym C02_example <> []
  /\ (exists calls, write_repair Debug C02_example = Ok calls
      /\ length (on_wire calls) = 32%nat
      /\ exists d, read_repair Debug (on_wire calls) = Ok (d, 27%nat)).
Proof.
  split; [reflexivity|]. split; [split; repeat constructor|]. split.
  { cbn [er_ids C02_example]. apply close_gaps. repeat split. }
  split; [apply short_fits; vm_compute; discriminate|]. split; [discriminate|].
  eexists. split; [vm_compute; reflexivity|]. split; [reflexivity|].
  eexists. vm_compute. reflexivity.
Qed.

(** ** C03 *)

Theorem C03_ack_roundtrip :
  forall m a, a_nb a < 65536 -> id_set (a_ids a) -> close_ids (a_ids a) ->
  run_count_fits (a_ids a) ->
  read_ack m (on_wire (write_ack a)) = Ok (a, length (on_wire (write_ack a))).
Proof.
  intros m [ids nb] Hn Hids Hc Hf. cbn [a_ids a_nb] in *.
  assert (Hp : on_wire (write_ack {| a_ids := ids; a_nb := nb |})
               = be 1 0 ++ be 2 nb ++ concat (write_ids ids) ++ []).
  { unfold on_wire, write_ack. rewrite concat_app. cbn [concat a_nb a_ids].
    now rewrite !app_nil_r, <- app_assoc. }
  set (p := on_wire (write_ack {| a_ids := ids; a_nb := nb |})) in *.
  assert (Ha : assert_type m p TAck = Ok tt).
  { apply assert_announced. rewrite Hp. now intros _. }
  rewrite read_ack_parse by assumption.
  assert (E : pack p = Some ({| a_ids := ids; a_nb := nb |}, [])).
  { rewrite Hp. unfold pack, pbind. rewrite !pbe_be. change (256 ^ N.of_nat 2) with 65536.
    rewrite pids_write by now apply fits_npairs. rewrite survives by assumption.
    now rewrite N.mod_small. }
  rewrite E. cbn [result length]. now rewrite Nat.sub_0_r.
Qed.
Print Assumptions C03_ack_roundtrip.

Example C03_hyps :
  let a := {| a_ids := [0; 1; 2; 3; 10; 70; 130]; a_nb := 50 |} in
  a_nb a < 65536 /\ id_set (a_ids a) /\ close_ids (a_ids a) /\ run_count_fits (a_ids a)
  /\ read_ack Debug (on_wire (write_ack a)) = Ok (a, 18%nat)
  /\ read_ack Debug (on_wire (write_ack {| a_ids := []; a_nb := 3 |}))
     = Ok ({| a_ids := []; a_nb := 3 |}, 5%nat).
Proof.
  cbv zeta. cbn [a_ids a_nb]. split; [reflexivity|]. split; [split; repeat constructor|]. split.
  { apply close_gaps. repeat split. }
  split; [apply short_fits; vm_compute; discriminate|]. split; vm_compute; reflexivity.
Qed.

(** ** C04 *)

(** The ids seen by the receiver of an ack. *)
Theorem C04_exact_limit :
  forall m ids nb, id_set ids -> run_count_fits ids -> nb < 65536 ->
  exists ids', read_ack m (on_wire (write_ack {| a_ids := ids; a_nb := nb |}))
    = Ok ({| a_ids := ids'; a_nb := nb |},
          length (on_wire (write_ack {| a_ids := ids; a_nb := nb |})))
  /\ (ids' = ids <-> close_ids ids)
  /\ (~ close_ids ids -> ~ In (last ids 0) ids').
Proof.
  intros m ids nb Hids Hf Hn.
  assert (Hp : on_wire (write_ack {| a_ids := ids; a_nb := nb |})
               = be 1 0 ++ be 2 nb ++ concat (write_ids ids) ++ []).
  { unfold on_wire, write_ack. rewrite concat_app. cbn [concat a_nb a_ids].
    now rewrite !app_nil_r, <- app_assoc. }
  set (p := on_wire (write_ack {| a_ids := ids; a_nb := nb |})) in *.
  assert (Ha : assert_type m p TAck = Ok tt).
  { apply assert_announced. rewrite Hp. now intros _. }
  exists (wire_ids ids). split.
  - rewrite read_ack_parse by assumption.
    assert (E : pack p = Some ({| a_ids := wire_ids ids; a_nb := nb |}, [])).
    { rewrite Hp. unfold pack, pbind. rewrite !pbe_be. change (256 ^ N.of_nat 2) with 65536.
      rewrite pids_write by now apply fits_npairs. now rewrite N.mod_small. }
    rewrite E. cbn [result length]. now rewrite Nat.sub_0_r.
  - assert (Hbad : ~ close_ids ids -> ~ In (last ids 0) (wire_ids ids)).
    { intros Hc. destruct ids as [|x l].
      - exfalso. apply Hc. intros before a b after H. destruct before; discriminate.
      - rewrite last_cons_default. destruct Hids as [Hs H32].
        apply wire_ids_bad; try assumption. now rewrite <- close_gaps. }
    split; [|exact Hbad]. split; [|now apply survives].
    intros E. destruct ids as [|x l].
    + intros before a b after H. destruct before; discriminate.
    + apply close_gaps.
      assert (D : gaps_ok x l \/ ~ gaps_ok x l).
      { clear. revert x. induction l as [|y l IH]; intros x; simpl; [tauto|].
        destruct (N.lt_ge_cases (y - x) 65536); [|right; lia].
        destruct (IH y); tauto. }
      destruct D as [D|D]; [assumption|]. exfalso. rewrite <- close_gaps in D.
      apply (Hbad D). rewrite E. destruct l as [|y l]; [now left|].
      right. rewrite last_cons_default. clear. revert x y.
      induction l as [|z l IH]; intros x y; [now left|right].
      rewrite last_cons_default. apply (IH y z).
Qed.
Print Assumptions C04_exact_limit.

(** The same for the ids of a repair. *)
Theorem C04_repair_ids :
  forall m r, er_id r < 2 ^ 32 -> id_set (er_ids r) -> run_count_fits (er_ids r) ->
  er_sym r <> [] -> N.of_nat (length (er_sym r)) < 65536 ->
  exists calls d n, write_repair m r = Ok calls /\ read_repair m (on_wire calls) = Ok (d, n)
  /\ exists k, read_ack m (on_wire (write_ack {| a_ids := er_ids r; a_nb := 0 |}))
               = Ok ({| a_ids := dr_ids d; a_nb := 0 |}, k).
Proof.
  intros m [id ids enc sym] Hid Hids Hf Hne Hl. cbn [er_id er_ids er_enc er_sym] in *.
  assert (Ha0 : assert_ m (Nat.ltb 0 (length sym)) = Ok tt).
  { destruct sym; [congruence|]. destruct m; reflexivity. }
  unfold write_repair. cbn [er_sym er_id er_ids er_enc]. rewrite Ha0. cbn [bind].
  set (calls := [be 1 1; be 4 id; be 2 (N.of_nat (length sym)); sym] ++ write_ids ids
      ++ [be 2 enc; be 2 (N.of_nat (length sym)); sym]).
  assert (Hp : on_wire calls = be 1 1 ++ be 4 id ++ be 2 (N.of_nat (length sym)) ++ sym
                ++ concat (write_ids ids) ++ be 2 enc ++ be 2 (N.of_nat (length sym)) ++ sym).
  { unfold on_wire, calls. rewrite !concat_app. cbn [concat].
    rewrite !app_nil_r, <- !app_assoc. reflexivity. }
  set (p := on_wire calls) in *.
  assert (Ha : assert_type m p TRepair = Ok tt).
  { apply assert_announced. rewrite Hp. now intros _. }
  assert (E : prepair p = Some ((id, N.of_nat (length sym), wire_ids ids, enc mod 65536),
                                be 2 (N.of_nat (length sym)) ++ sym)).
  { rewrite Hp. unfold prepair, pbind. rewrite !pbe_be.
    change (256 ^ N.of_nat 2) with 65536. change (256 ^ N.of_nat 4) with (2 ^ 32).
    rewrite (N.mod_small (N.of_nat (length sym))), (N.mod_small id), Nat2N.id by assumption.
    unfold pskip. rewrite app_length.
    destruct (Nat.ltb_spec (length sym + length (concat (write_ids ids) ++ be 2 enc
       ++ be 2 (N.of_nat (length sym)) ++ sym)) (length sym)); [lia|].
    rewrite skipn_app, skipn_all, Nat.sub_diag. cbn [app skipn].
    rewrite pids_write by now apply fits_npairs. rewrite pbe_be. reflexivity. }
  exists calls, (mk_repair_of p (id, N.of_nat (length sym), wire_ids ids, enc mod 65536)).
  eexists. split; [reflexivity|]. split.
  { change (on_wire calls) with p. rewrite read_repair_parse by assumption.
    rewrite E. reflexivity. }
  cbn [dr_ids mk_repair_of er_ids].
  assert (Hq : on_wire (write_ack {| a_ids := ids; a_nb := 0 |})
               = be 1 0 ++ be 2 0 ++ concat (write_ids ids) ++ []).
  { unfold on_wire, write_ack. rewrite concat_app. cbn [concat a_nb a_ids].
    now rewrite !app_nil_r, <- app_assoc. }
  set (q := on_wire (write_ack {| a_ids := ids; a_nb := 0 |})) in *.
  assert (Ha' : assert_type m q TAck = Ok tt).
  { apply assert_announced. rewrite Hq. now intros _. }
  assert (E' : pack q = Some ({| a_ids := wire_ids ids; a_nb := 0 |}, [])).
  { rewrite Hq. unfold pack, pbind. rewrite !pbe_be.
    rewrite pids_write by now apply fits_npairs. reflexivity. }
  eexists. change (on_wire (write_ack {| a_ids := ids; a_nb := 0 |})) with q.
  rewrite read_ack_parse by assumption. rewrite E'. reflexivity.
Qed.
Print Assumptions C04_repair_ids.

(** An ack of two sources that were received is read as the ack of another
    source. *)
Theorem C04_any_set_survives_refuted :
  exists ids other, id_set ids /\ ~ In other ids
  /\ exists a n, read_ack Debug (on_wire (write_ack {| a_ids := ids; a_nb := 2 |})) = Ok (a, n)
     /\ In other (a_ids a).
Proof.
  exists [10; 70000], 4464. split; [split; repeat constructor|]. split.
  { intros [H|[H|[]]]; discriminate. }
  eexists. eexists. split; [vm_compute; reflexivity|]. simpl. auto.
Qed.
Print Assumptions C04_any_set_survives_refuted.

(** The limit on the number of runs is real: with 65535 runs the counter wraps
    to 0 and the receiver sees an empty set. *)
Fixpoint checked_chain (prev : N) (l : list N) : bool :=
  match l with
  | [] => true
  | x :: l' => (prev <? x) && (x - prev <? 65536) && (x <? 2 ^ 32) && checked_chain x l'
  end.

Lemma checked_chain_ok prev l : checked_chain prev l = true -> prev < 2 ^ 32 ->
  id_set (prev :: l) /\ close_ids (prev :: l).
Proof.
  intros H Hp. rewrite close_gaps.
  assert (G : ssorted (prev :: l) /\ Forall (fun x => x < 2 ^ 32) l /\ gaps_ok prev l).
  { clear Hp. revert prev H. induction l as [|x l IH]; intros prev H.
    - repeat split; repeat constructor.
    - cbn [checked_chain] in H. rewrite !andb_true_iff, !N.ltb_lt in H.
      destruct H as [[[H1 H2] H3] H4]. destruct (IH x H4) as (S & F & G).
      split; [|split].
      + apply ssorted_cons; [assumption|]. intros y [<-|Hy]; [assumption|].
        apply ssorted_cons_inv in S as [_ S]. specialize (S y Hy). lia.
      + constructor; assumption.
      + split; assumption. }
  destruct G as (S & F & G). repeat split; try assumption. now constructor.
Qed.

(** 0, 1, 3, 4, 6, 7, ... *)
Fixpoint uneven (n : nat) (x : N) (odd : bool) : list N :=
  match n with
  | O => []
  | S n' => x :: uneven n' (if odd then x + 2 else x + 1) (negb odd)
  end.

Theorem C04_too_many_runs_refuted :
  exists ids, id_set ids /\ close_ids ids
  /\ exists a n, read_ack Debug (on_wire (write_ack {| a_ids := ids; a_nb := 2 |})) = Ok (a, n)
     /\ a_ids a = [] /\ ids <> [].
Proof.
  set (l := uneven (N.to_nat 65535) 1 true).
  exists (0 :: l).
  assert (C : checked_chain 0 l = true) by (vm_compute; reflexivity).
  destruct (checked_chain_ok 0 l C eq_refl) as [H1 H2].
  split; [assumption|]. split; [assumption|].
  exists {| a_ids := []; a_nb := 2 |}, 5%nat. split; [vm_compute; reflexivity|].
  split; [reflexivity|discriminate].
Qed.
Print Assumptions C04_too_many_runs_refuted.

Example C04_hyps : id_set [3; 65538; 131074] /\ run_count_fits [3; 65538; 131074]
  /\ ~ close_ids [3; 65538; 131074] /\ close_ids [3; 65538].
Proof.
  split; [split; repeat constructor|]. split; [apply short_fits; vm_compute; discriminate|].
  rewrite !close_gaps. split; [|repeat split]. intros [_ [H _]]. vm_compute in H. discriminate.
Qed.

(** ** C05 *)

Definition parsed_inside {A} (p : list N) (r : outcome (A * nat)) (size : A -> N) : Prop :=
  r = Throw OverflowError
  \/ exists x n, r = Ok (x, n) /\ (n <= length p)%nat /\ (N.to_nat (size x) <= n)%nat.

Theorem C05_memory_safe :
  forall m p,
  (announced m p TAck -> parsed_inside p (read_ack m p) (fun _ => 5))
  /\ (announced m p TRepair -> parsed_inside p (read_repair m p) (fun r => 11 + dr_size r))
  /\ (announced m p TSource -> parsed_inside p (read_source m p) (fun s => 7 + ds_size s)).
Proof.
  assert (Lbe : forall n acc s v rest, pbe n acc s = Some (v, rest) ->
                length s = (n + length rest)%nat).
  { induction n as [|n IH]; intros acc s v rest H; simpl in H.
    - injection H as _ <-. reflexivity.
    - destruct s as [|b s]; [discriminate|]. apply IH in H. simpl. lia. }
  assert (Lskip : forall n s u rest, pskip n s = Some (u, rest) ->
                length s = (n + length rest)%nat).
  { intros n s u rest H. unfold pskip in H. destruct (Nat.ltb_spec (length s) n); [discriminate|].
    injection H as _ <-. rewrite skipn_length. lia. }
  assert (Lids : forall s ids rest, pids s = Some (ids, rest) -> (2 + length rest <= length s)%nat).
  { intros s ids rest H. unfold pids, pbind in H.
    destruct (pbe 2 0 s) as [[nb s1]|] eqn:E1; [|discriminate]. apply Lbe in E1.
    destruct (nb =? 0).
    - injection H as _ <-. lia.
    - destruct (pbe 4 0 s1) as [[f s2]|] eqn:E2; [|discriminate]. apply Lbe in E2.
      destruct (ppairs (N.to_nat (nb - 1)) s2) as [[d s3]|] eqn:E3; [|discriminate].
      apply wfp_pairs in E3 as (u & -> & _). rewrite app_length in E2. injection H as _ <-. lia. }
  intros m p. split; [|split]; intros Ha; apply assert_announced in Ha.
  - rewrite read_ack_parse by assumption. destruct (pack p) as [[a rest]|] eqn:E; [right|now left].
    eexists. eexists. split; [reflexivity|].
    unfold pack, pbind in E.
    destruct (pbe 1 0 p) as [[x1 s1]|] eqn:E1; [|discriminate]. apply Lbe in E1.
    destruct (pbe 2 0 s1) as [[x2 s2]|] eqn:E2; [|discriminate]. apply Lbe in E2.
    destruct (pids s2) as [[x3 s3]|] eqn:E3; [|discriminate]. apply Lids in E3.
    injection E as _ <-. change (N.to_nat 5) with 5%nat. lia.
  - rewrite read_repair_parse by assumption. destruct (prepair p) as [[a rest]|] eqn:E; [right|now left].
    eexists. eexists. split; [reflexivity|].
    unfold prepair, pbind in E.
    destruct (pbe 1 0 p) as [[x1 s1]|] eqn:E1; [|discriminate]. apply Lbe in E1.
    destruct (pbe 4 0 s1) as [[x2 s2]|] eqn:E2; [|discriminate]. apply Lbe in E2.
    destruct (pbe 2 0 s2) as [[x3 s3]|] eqn:E3; [|discriminate]. apply Lbe in E3.
    destruct (pskip (N.to_nat x3) s3) as [[x4 s4]|] eqn:E4; [|discriminate]. apply Lskip in E4.
    destruct (pids s4) as [[x5 s5]|] eqn:E5; [|discriminate]. apply Lids in E5.
    destruct (pbe 2 0 s5) as [[x6 s6]|] eqn:E6; [|discriminate]. apply Lbe in E6.
    injection E as <- <-. cbn [mk_repair_of dr_size]. lia.
  - rewrite read_source_parse by assumption. destruct (psource p) as [[a rest]|] eqn:E; [right|now left].
    eexists. eexists. split; [reflexivity|].
    unfold psource, pbind in E.
    destruct (pbe 1 0 p) as [[x1 s1]|] eqn:E1; [|discriminate]. apply Lbe in E1.
    destruct (pbe 4 0 s1) as [[x2 s2]|] eqn:E2; [|discriminate]. apply Lbe in E2.
    destruct (pbe 2 0 s2) as [[x3 s3]|] eqn:E3; [|discriminate]. apply Lbe in E3.
    destruct (pskip (N.to_nat x3) s3) as [[x4 s4]|] eqn:E4; [|discriminate]. apply Lskip in E4.
    injection E as <- <-. cbn [mk_source_of ds_size snd]. lia.
Qed.
Print Assumptions C05_memory_safe.

Example C05_hyps :
  announced Debug [1; 0; 0; 0; 9; 0; 200] TRepair
  /\ read_repair Debug [1; 0; 0; 0; 9; 0; 200] = Throw OverflowError
  /\ read_source Debug [2; 0; 0; 0; 9; 0; 1; 77; 5; 5]
     = Ok ({| ds_id := 9; ds_buf := [77; 5; 5]; ds_size := 1 |}, 8%nat).
Proof. vm_compute. repeat split. Qed.

(** ** C06 *)

Lemma firstn_announced m p t k : announced m p t -> (m = Release \/ (0 < k)%nat) ->
  announced m (firstn k p) t.
Proof.
  intros H Hk E. destruct Hk as [->|Hk]; [discriminate|].
  specialize (H E). destruct p as [|b p]; [discriminate|]. destruct k; [lia|]. exact H.
Qed.

Lemma prefix_rejected {A B} (P : parser A) (f g : A -> B) p b n k : wfp P ->
  result p f (P p) = Ok (b, n) -> (k < n)%nat ->
  result (firstn k p) g (P (firstn k p)) = Throw OverflowError.
Proof.
  intros HP H Hk. destruct (result_ok _ _ _ _ _ HP H) as (a & used & rest & _ & _ & -> & -> & _ & F).
  rewrite firstn_app. replace (k - length used)%nat with 0%nat by lia.
  cbn [firstn]. rewrite app_nil_r.
  rewrite (F (firstn k used) (skipn k used)).
  - reflexivity.
  - now rewrite firstn_skipn.
  - intros E. apply (f_equal (@length N)) in E. rewrite skipn_length in E. simpl in E. lia.
Qed.

Theorem C06_truncated_rejected :
  forall m p k, (m = Release \/ (0 < k)%nat) ->
  (forall a n, announced m p TAck -> read_ack m p = Ok (a, n) -> (k < n)%nat ->
     read_ack m (firstn k p) = Throw OverflowError)
  /\ (forall r n, announced m p TRepair -> read_repair m p = Ok (r, n) -> (k < n)%nat ->
     read_repair m (firstn k p) = Throw OverflowError)
  /\ (forall s n, announced m p TSource -> read_source m p = Ok (s, n) -> (k < n)%nat ->
     read_source m (firstn k p) = Throw OverflowError).
Proof.
  intros m p k Hk. split; [|split]; intros x n Ha H Hn.
  - rewrite read_ack_parse in * by (apply assert_announced; auto using firstn_announced).
    eapply prefix_rejected; eauto using wfp_ack.
  - rewrite read_repair_parse in * by (apply assert_announced; auto using firstn_announced).
    eapply prefix_rejected; eauto using wfp_repair.
  - rewrite read_source_parse in * by (apply assert_announced; auto using firstn_announced).
    eapply prefix_rejected; eauto using wfp_source.
Qed.
Print Assumptions C06_truncated_rejected.

Example C06_hyps : exists a, read_ack Debug [0; 0; 7; 0; 2; 0; 0; 0; 9; 3; 0; 1] = Ok (a, 12%nat)
  /\ announced Debug [0; 0; 7; 0; 2; 0; 0; 0; 9; 3; 0; 1] TAck.
Proof. eexists. split; [vm_compute; reflexivity|]. now intros _. Qed.

(** ** C07 *)

Lemma suffix_announced m p t q : p <> [] -> announced m p t -> announced m (p ++ q) t.
Proof. intros Hp H E. specialize (H E). destruct p; [congruence|]. exact H. Qed.

Lemma result_suffix {A B} (P : parser A) (f : A -> B) p b n t : wfp P ->
  result p f (P p) = Ok (b, n) ->
  exists a, b = f a /\ (forall g, result (p ++ t) g (P (p ++ t)) = Ok (g a : B, n)).
Proof.
  intros HP H. destruct (result_ok _ _ _ _ _ HP H) as (a & used & rest & _ & -> & -> & -> & E & _).
  exists a. split; [reflexivity|]. intros g. rewrite <- app_assoc, E. cbn [result].
  do 2 f_equal. rewrite !app_length. lia.
Qed.

Lemma not_empty_ok {A B} (P : parser A) (f : A -> B) p b n :
  result p f (P p) = Ok (b, n) -> P [] = None -> p <> [].
Proof. intros H E ->. rewrite E in H. discriminate. Qed.

Theorem C07_suffix_independent :
  forall m p t,
  (forall a n, announced m p TAck -> read_ack m p = Ok (a, n) -> read_ack m (p ++ t) = Ok (a, n))
  /\ (forall r n, announced m p TRepair -> read_repair m p = Ok (r, n) ->
      exists r', read_repair m (p ++ t) = Ok (r', n)
      /\ dr_id r' = dr_id r /\ dr_ids r' = dr_ids r /\ dr_enc r' = dr_enc r
      /\ dr_size r' = dr_size r /\ dr_sym r' = dr_sym r)
  /\ (forall s n, announced m p TSource -> read_source m p = Ok (s, n) ->
      exists s', read_source m (p ++ t) = Ok (s', n)
      /\ ds_id s' = ds_id s /\ ds_size s' = ds_size s /\ ds_data s' = ds_data s).
Proof.
  assert (Fn : forall (p t : list N) k, (7 + k <= length p)%nat ->
               firstn k (skipn 7 (p ++ t)) = firstn k (skipn 7 p)).
  { intros p t k Hk. rewrite skipn_app, firstn_app, skipn_length.
    replace (k - (length p - 7))%nat with 0%nat by lia. cbn [firstn]. apply app_nil_r. }
  intros m p t. split; [|split]; intros x n Ha H.
  - pose proof (assert_announced _ _ _ Ha) as Ha'.
    rewrite read_ack_parse in H by assumption.
    pose proof (not_empty_ok _ _ _ _ _ H eq_refl) as Hne.
    pose proof (assert_announced _ _ _ (suffix_announced m p TAck t Hne Ha)) as Ha2.
    rewrite read_ack_parse by assumption.
    destruct (result_suffix _ _ _ _ _ t wfp_ack H) as (a & -> & G). apply (G (fun a => a)).
  - pose proof (assert_announced _ _ _ Ha) as Ha'.
    destruct (proj1 (proj2 (C05_memory_safe m p)) Ha) as [Hov|(x' & n' & Hx & Hn1 & Hn2)];
      [congruence|]. rewrite H in Hx. injection Hx as <- <-.
    rewrite read_repair_parse in H by assumption.
    pose proof (not_empty_ok _ _ _ _ _ H eq_refl) as Hne.
    pose proof (assert_announced _ _ _ (suffix_announced m p TRepair t Hne Ha)) as Ha2.
    rewrite read_repair_parse by assumption.
    destruct (result_suffix _ _ _ _ _ t wfp_repair H) as ([[[id size] ids] enc] & -> & G).
    exists (mk_repair_of (p ++ t) (id, size, ids, enc)).
    split; [exact (G (mk_repair_of (p ++ t)))|].
    repeat split. unfold dr_sym, mk_repair_of in *. cbn [dr_size dr_buf] in *.
    apply Fn. lia.
  - pose proof (assert_announced _ _ _ Ha) as Ha'.
    destruct (proj2 (proj2 (C05_memory_safe m p)) Ha) as [Hov|(x' & n' & Hx & Hn1 & Hn2)];
      [congruence|]. rewrite H in Hx. injection Hx as <- <-.
    rewrite read_source_parse in H by assumption.
    pose proof (not_empty_ok _ _ _ _ _ H eq_refl) as Hne.
    pose proof (assert_announced _ _ _ (suffix_announced m p TSource t Hne Ha)) as Ha2.
    rewrite read_source_parse by assumption.
    destruct (result_suffix _ _ _ _ _ t wfp_source H) as ([id size] & -> & G).
    exists (mk_source_of (p ++ t) (id, size)).
    split; [exact (G (mk_source_of (p ++ t)))|].
    repeat split. unfold ds_data, mk_source_of in *. cbn [ds_size ds_buf fst snd] in *.
    apply Fn. lia.
Qed.
Print Assumptions C07_suffix_independent.

Example C07_hyps : exists r, read_repair Debug [1; 0;0;0;9; 0;1; 77; 0;1; 0;0;0;5; 0;3] = Ok (r, 16%nat)
  /\ dr_ids r = [5] /\ dr_sym r = [77].
Proof. eexists. split; [vm_compute; reflexivity|]. split; reflexivity. Qed.

(** ** C08 *)

Theorem C08_parsed_ids :
  forall m p,
  (forall a n, read_ack m p = Ok (a, n) -> id_set (a_ids a))
  /\ (forall r n, read_repair m p = Ok (r, n) -> id_set (dr_ids r)).
Proof.
  intros m p. split; intros x n H.
  - assert (Ha : assert_type m p TAck = Ok tt).
    { unfold read_ack in H. destruct (assert_type m p TAck) as [[]| |]; try discriminate. reflexivity. }
    rewrite read_ack_parse in H by assumption.
    destruct (pack p) as [[a rest]|] eqn:E; [|discriminate]. cbn [result] in H. injection H as <- _.
    unfold pack, pbind in E.
    destruct (pbe 1 0 p) as [[x1 s1]|]; [|discriminate].
    destruct (pbe 2 0 s1) as [[x2 s2]|]; [|discriminate].
    destruct (pids s2) as [[x3 s3]|] eqn:E3; [|discriminate]. injection E as <- _.
    exact (pids_wf _ _ _ E3).
  - assert (Ha : assert_type m p TRepair = Ok tt).
    { unfold read_repair in H. destruct (assert_type m p TRepair) as [[]| |]; try discriminate. reflexivity. }
    rewrite read_repair_parse in H by assumption.
    destruct (prepair p) as [[a rest]|] eqn:E; [|discriminate]. cbn [result] in H. injection H as <- _.
    unfold prepair, pbind in E.
    destruct (pbe 1 0 p) as [[x1 s1]|]; [|discriminate].
    destruct (pbe 4 0 s1) as [[x2 s2]|]; [|discriminate].
    destruct (pbe 2 0 s2) as [[x3 s3]|]; [|discriminate].
    destruct (pskip (N.to_nat x3) s3) as [[x4 s4]|]; [|discriminate].
    destruct (pids s4) as [[x5 s5]|] eqn:E5; [|discriminate].
    destruct (pbe 2 0 s5) as [[x6 s6]|]; [|discriminate]. injection E as <- _.
    exact (pids_wf _ _ _ E5).
Qed.
Print Assumptions C08_parsed_ids.

(** Hostile differences: a zero difference and a sum beyond 2^32. *)
Example C08_hyps :
  exists n, read_ack Debug [0; 0;1; 0;4; 255;255;255;250; 1;0;0; 1;0;10; 2;0;3]
  = Ok ({| a_ids := [4; 7; 10; 4294967290]; a_nb := 1 |}, n).
Proof. eexists. vm_compute. reflexivity. Qed.

(** ** C09 *)

(** [n] consecutive identifiers starting at [x]. *)
Definition consecutive (x : N) (n : nat) : list N := map (fun i => x + N.of_nat i) (seq 0 n).

Definition ceil_div (a b : N) : N := (a + b - 1) / b.

Theorem C09_consecutive_cost :
  forall x n, (1 <= n)%nat -> x + N.of_nat n <= 2 ^ 32 ->
  N.of_nat (length (on_wire (write_ids (consecutive x n))))
  = 6 + 3 * ceil_div (N.of_nat n - 1) 255.
Proof.
  intros x n Hn Hx. destruct n as [|n]; [lia|]. change (2 ^ 32) with 4294967296 in Hx.
  assert (E : consecutive x (S n) = x :: map (fun i => x + N.of_nat i) (seq 1 n)).
  { unfold consecutive. cbn [seq map]. f_equal. lia. }
  unfold on_wire. rewrite E, write_ids_length. unfold npairs.
  rewrite differences_consecutive by lia. unfold ceil_div.
  replace (N.of_nat (S n) - 1) with (N.of_nat n) by lia.
  destruct n as [|n]; [reflexivity|].
  cbn [repeat rle]. rewrite Nat2N.inj_add, Nat2N.inj_mul, rle_from_const by lia.
  change (N.of_nat 6) with 6. change (N.of_nat 3) with 3. do 3 f_equal. lia.
Qed.
Print Assumptions C09_consecutive_cost.

Theorem C09_any_cost :
  forall ids, ids <> [] ->
  (6 <= length (on_wire (write_ids ids)) <= 6 + 3 * (length ids - 1))%nat.
Proof.
  intros [|x l] H; [congruence|]. unfold on_wire. rewrite write_ids_length.
  pose proof (npairs_le x l). cbn [length]. lia.
Qed.
Print Assumptions C09_any_cost.

Example C09_hyps : length (on_wire (write_ids (consecutive 10 256))) = 9%nat
  /\ length (on_wire (write_ids (consecutive 10 257))) = 12%nat
  /\ length (on_wire (write_ids [1; 2; 4; 5; 7])) = 18%nat.
Proof. vm_compute. repeat split. Qed.
