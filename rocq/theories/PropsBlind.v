(** * C57: two data that repairs cannot tell apart *)
From Coq Require Import ZArith NArith List Bool Lia Sorted.
From Verif Require Import Outcome GF Containers ContainersFacts Packetizer PropsPacketizer
  DetailDecoder Decoder DecoderInv DecoderFacts DecoderHeld DecoderAlgebra
  Encoder EncoderRun EncoderHistory System SystemInv SystemRun PropsSystem BlindSpot Stall.
Import ListNotations.
Open Scope N_scope.

(** The number of different coefficients. *)
Definition period (f : field) : N :=
  match f with W4 => 15 | W8 => 255 | W16 => 65535 | W32 => 4294967295 end.

(** The products of identifiers, from which the coefficient is computed, fit into 32 bits. *)
Definition small (r x : N) : Prop := (r + x + 2) * (r + 1) < 2 ^ 32.

(** The packet does not bring [i] or [j], and does not combine one of them without the other. *)
Definition both_or_none (m : mode) (i j : N) (p : packet) : Prop :=
  (forall s k, get_packet_type p = Ok TSource -> read_source m p = Ok (s, k) -> ds_id s <> i /\ ds_id s <> j)
  /\ (forall r k, get_packet_type p = Ok TRepair -> read_repair m p = Ok (r, k) ->
       (In i (dr_ids r) <-> In j (dr_ids r)) /\ (In i (dr_ids r) -> small (dr_id r) i /\ small (dr_id r) j)).

Lemma coefficient_small f r x : f <> W32 -> small r x ->
  coefficient f r x = ((r + x + 2) * (r + 1)) mod period f + 1.
Proof.
  intros Hf H. unfold small in H.
  assert (A : r + x + 2 < 2 ^ 32) by nia.
  unfold coefficient, u32. rewrite (N.mod_small (r + 1)), (N.mod_small (x + 1)) by nia.
  replace (r + 1 + (x + 1)) with (r + x + 2) by lia. rewrite (N.mod_small (r + x + 2)) by exact A.
  rewrite (N.mod_small ((r + x + 2) * (r + 1))) by exact H. destruct f; try reflexivity. congruence.
Qed.

Lemma coefficient_blind f r i j : f <> W32 -> small r i -> small r j -> i mod period f = j mod period f ->
  coefficient f r i = coefficient f r j.
Proof.
  intros Hf Hi Hj E. rewrite !coefficient_small by assumption. f_equal.
  assert (P : period f <> 0) by (destruct f; discriminate).
  rewrite <- (N.mul_mod_idemp_l (r + i + 2)), <- (N.mul_mod_idemp_l (r + j + 2)) by exact P.
  replace (r + i + 2) with ((r + 2) + i) by lia. replace (r + j + 2) with ((r + 2) + j) by lia.
  rewrite <- (N.add_mod_idemp_r _ i), <- (N.add_mod_idemp_r _ j) by exact P. rewrite E. reflexivity.
Qed.

(** Other data that fit the same packets. *)
Lemma other_data m clk f o w i j : normal m clk f o w ->
  (i < j)%nat -> (j < length (w_sent w))%nat -> N.of_nat i mod period f = N.of_nat j mod period f ->
  exists T, (forall x, good_data f (T x))
  /\ (forall x, x = i \/ x = j -> T (N.of_nat x) <> SystemInv.S (w_sent w) (N.of_nat x))
  /\ (forall p, both_or_none m (N.of_nat i) (N.of_nat j) p -> fits (w_sent w) m f T p).
Proof.
  intros (R & Ho & L) Hij Hj E.
  set (S := SystemInv.S (w_sent w)). set (ni := N.of_nat i) in *. set (nj := N.of_nat j) in *.
  assert (Hn : ni <> nj) by (unfold ni, nj; lia).
  assert (Hf : f <> W32).
  { intros ->. pose proof (wl_count _ _ L) as Hc. change (2 ^ 32) with 4294967296 in Hc.
    change (period W32) with 4294967295 in E. unfold ni, nj in *. rewrite !N.mod_small in E by lia. lia. }
  pose proof (data_ok f _ L) as Da. rewrite Forall_forall in Da.
  assert (Pos : forall k, (k < length (w_sent w))%nat -> (0 < length (S (N.of_nat k)))%nat).
  { intros k Hk. unfold S, SystemInv.S. rewrite Nat2N.id. apply (Da (nth k (w_sent w) [])), nth_In, Hk. }
  assert (Pi : (0 < length (S ni))%nat) by (apply Pos; lia).
  assert (Pj : (0 < length (S nj))%nat) by (apply Pos; exact Hj).
  assert (HS : forall x, good_data f (S x)) by (intros x; apply HS; apply data_ok, L).
  exists (S' S ni nj). split; [|split].
  - apply S'_good; assumption.
  - intros x Hx. unfold S'. replace (chosen ni nj (N.of_nat x)) with true.
    + apply flip_differs. destruct Hx as [->| ->]; assumption.
    + unfold chosen. destruct Hx as [->| ->]; fold ni nj; rewrite N.eqb_refl; [reflexivity | symmetry; apply orb_true_r].
  - intros p [H1 H2]. split.
    + intros s n Et Er. destruct (H1 s n Et Er) as [A1 A2]. unfold S', chosen.
      apply N.eqb_neq in A1. apply N.eqb_neq in A2. rewrite A1, A2. reflexivity.
    + intros r n Et Er Gr. destruct (H2 r n Et Er) as [A1 A2]. apply other_genuine; try assumption.
      intros Hin. destruct (A2 Hin) as [A3 A4]. apply coefficient_blind; assumption.
Qed.

Theorem C57_blind_spot :
  forall m clk f o w i j, normal m clk f o w ->
  (i < j)%nat -> (j < length (w_sent w))%nat -> N.of_nat i mod period f = N.of_nat j mod period f ->
  (forall k p, In k (w_arrived w) -> nth_error (w_out w) k = Some p ->
     both_or_none m (N.of_nat i) (N.of_nat j) p) ->
  exists which, NoDup which /\ (forall x, In x which -> (x < length (w_sent w))%nat)
  /\ w_got w = map (datum w) which /\ ~ In i which /\ ~ In j which.
Proof.
  intros m clk f o w i j N Hij Hj E Hp. pose proof N as (R & Ho & L).
  destruct (delivered _ _ _ _ _ N) as (gs & _ & G & B & D & _).
  destruct (other_data m clk f o w i j N Hij Hj E) as (T & T1 & T2 & T3).
  pose proof (never_delivered m clk f o T T1 w R L Ho (fun k p A A' => T3 p (Hp k p A A'))) as V.
  exists (map N.to_nat (handed (core_of w))). split; [exact D|]. split; [exact B|]. split; [exact G|].
  assert (Not : forall x, x = i \/ x = j -> ~ In x (map N.to_nat (handed (core_of w)))).
  { intros x Hx Hin. apply in_map_iff in Hin. destruct Hin as (y & Ey & Hy).
    unfold handed in Hy. apply in_map_iff in Hy. destruct Hy as (v & Ev & Hv). specialize (V v Hv).
    apply (T2 x Hx). rewrite <- Ey, N2Nat.id, <- Ev. exact V. }
  split; apply Not; auto.
Qed.
Print Assumptions C57_blind_spot.

(** As many data as there are coefficients and one more, all lost, and any number of repairs. *)
Theorem C57_burst :
  forall m clk f o w first, normal m clk f o w ->
  (first + N.to_nat (period f) < length (w_sent w))%nat ->
  (forall k p, In k (w_arrived w) -> nth_error (w_out w) k = Some p ->
     (forall s n, get_packet_type p = Ok TSource -> read_source m p = Ok (s, n) ->
        ~ (N.of_nat first <= ds_id s <= N.of_nat first + period f))
     /\ (forall r n, get_packet_type p = Ok TRepair -> read_repair m p = Ok (r, n) ->
        (forall x, N.of_nat first <= x <= N.of_nat first + period f -> In x (dr_ids r) /\ small (dr_id r) x))) ->
  exists which, NoDup which /\ (forall x, In x which -> (x < length (w_sent w))%nat)
  /\ w_got w = map (datum w) which /\ ~ In first which /\ ~ In (first + N.to_nat (period f))%nat which.
Proof.
  intros m clk f o w first N Hl H.
  assert (P : 0 < period f) by (destruct f; reflexivity).
  apply (C57_blind_spot m clk f o w first (first + N.to_nat (period f))); [exact N | lia | exact Hl | |].
  - rewrite Nat2N.inj_add, N2Nat.id. rewrite <- N.add_mod_idemp_r, N.mod_same, N.add_0_r by lia. reflexivity.
  - intros k p Hk Hp. destruct (H k p Hk Hp) as [H1 H2]. rewrite Nat2N.inj_add, N2Nat.id. split.
    + intros s n Et Er. specialize (H1 s n Et Er). lia.
    + intros r n Et Er. specialize (H2 r n Et Er).
      destruct (H2 (N.of_nat first)) as [A1 A2]; [lia|].
      destruct (H2 (N.of_nat first + period f)) as [A3 A4]; [lia|]. tauto.
Qed.
Print Assumptions C57_burst.

(** While two such data are lost, and all repairs that arrive combine both, nothing at
    all is recovered: each datum delivered had arrived as a source packet. *)
Theorem C58_nothing_recovered :
  forall m clk f o w i j, normal m clk f o w ->
  (i < j)%nat -> (j < length (w_sent w))%nat -> N.of_nat i mod period f = N.of_nat j mod period f ->
  (forall k p, In k (w_arrived w) -> nth_error (w_out w) k = Some p ->
     (forall s n, get_packet_type p = Ok TSource -> read_source m p = Ok (s, n) ->
        ds_id s <> N.of_nat i /\ ds_id s <> N.of_nat j)
     /\ (forall r n, get_packet_type p = Ok TRepair -> read_repair m p = Ok (r, n) ->
        In (N.of_nat i) (dr_ids r) /\ In (N.of_nat j) (dr_ids r)
        /\ small (dr_id r) (N.of_nat i) /\ small (dr_id r) (N.of_nat j))) ->
  d_decoded (dc_core (w_dec w)) = 0
  /\ exists which, NoDup which /\ w_got w = map (datum w) which
     /\ forall x, In x which -> exists k p s n, In k (w_arrived w) /\ nth_error (w_out w) k = Some p
          /\ get_packet_type p = Ok TSource /\ read_source m p = Ok (s, n) /\ ds_id s = N.of_nat x.
Proof.
  intros m clk f o w i j N Hij Hj E Hp. pose proof N as (R & Ho & L).
  destruct (delivered _ _ _ _ _ N) as (gs & _ & G & B & D & _).
  destruct (other_data m clk f o w i j N Hij Hj E) as (T & T1 & T2 & T3).
  assert (Hn : N.of_nat i <> N.of_nat j) by lia.
  destruct (run_quiet (N.of_nat i) (N.of_nat j) m clk f o T Hn T1 w w R (extends_refl w) L Ho) as [_ _ Q3 _ Q5].
  - apply T2. left. reflexivity.
  - intros k p Hk Hk'. destruct (Hp k p Hk Hk') as [H1 H2]. split.
    + apply T3. split; [exact H1|]. intros r n Et Er. destruct (H2 r n Et Er) as (A1 & A2 & A3 & A4). tauto.
    + split; [exact H1|]. intros r n Et Er. destruct (H2 r n Et Er) as (A1 & A2 & _). auto.
  - split; [exact Q3|]. exists (map N.to_nat (handed (core_of w))). split; [exact D|]. split; [exact G|].
    intros x Hx. apply in_map_iff in Hx. destruct Hx as (y & <- & Hy). rewrite N2Nat.id. apply Q5, Hy.
Qed.
Print Assumptions C58_nothing_recovered.

(** *** Examples *)

(** [n] data are lost, [r] repairs arrive. *)
Definition burst (n r : nat) : list action :=
  SetRate 1000 :: map (fun i => Data [N.of_nat i]) (seq 0 n) ++ repeat Repair r
  ++ map (fun k => Arrive (n + k)%nat) (seq 0 r).

(** Decides what a packet does to the data 0 and 15. *)
Definition spares (p : packet) : bool :=
  match get_packet_type p with
  | Ok TRepair => match read_repair Debug p with
                  | Ok (r, _) => Bool.eqb (smem 0 (dr_ids r)) (smem 15 (dr_ids r))
                                 && ((dr_id r + 17) * (dr_id r + 1) <? 2 ^ 32)
                  | _ => false
                  end
  | _ => false
  end.

Lemma spares_spec p : spares p = true -> both_or_none Debug 0 15 p.
Proof.
  unfold spares. intros H. destruct (get_packet_type p) as [t| |] eqn:Et; try discriminate.
  destruct t; try discriminate. split; [intros; congruence|]. intros r k _ Er. rewrite Er in H.
  apply andb_true_iff in H. destruct H as [A B]. apply eqb_prop in A. apply N.ltb_lt in B. split.
  - rewrite <- !smem_spec, A. tauto.
  - intros _. unfold small. nia.
Qed.

(** All checks of one run, so that the run is computed once. *)
Definition checks_of (m : mode) (f : field) (o : bool) (l : list action) (check : world -> bool) : bool :=
  match wrun m still (start still f o) l with
  | Ok w => orderedb w && smallb f w && check w
  | _ => false
  end.

Lemma checks_of_spec m f o l check : f <> W32 -> checks_of m f o l check = true ->
  exists w, wrun m still (start still f o) l = Ok w /\ normal m still f o w /\ check w = true.
Proof.
  intros Hf. unfold checks_of. destruct (wrun m still (start still f o) l) as [w| |] eqn:E; try discriminate.
  intros H. apply andb_true_iff in H. destruct H as [H1 H2]. exists w. split; [reflexivity|]. split; [|exact H2].
  apply run_normal with l; assumption.
Qed.

Definition equal {A} (dec : forall a b : A, {a = b} + {a <> b}) (l l' : list A) : bool :=
  if list_eq_dec dec l l' then true else false.

Lemma equal_spec {A} (dec : forall a b : A, {a = b} + {a <> b}) l l' : equal dec l l' = true -> l = l'.
Proof. unfold equal. destruct (list_eq_dec dec l l'); [auto|discriminate]. Qed.

Definition all_lost (w : world) : bool :=
  Nat.eqb (length (w_sent w)) 16 && equal Nat.eq_dec (w_arrived w) (seq 16 18)
  && equal (list_eq_dec N.eq_dec) (w_lists w) (repeat (map N.of_nat (seq 0 16)) 18)
  && forallb (fun k => match nth_error (w_out w) k with Some p => spares p | None => true end) (w_arrived w)
  && Nat.eqb (length (filter (repair_at w) (w_arrived w))) 18
  && match w_got w with [] => true | _ => false end.

Example C57_case : exists w, wrun Debug still (start still W4 true) (burst 16 18) = Ok w
  /\ normal Debug still W4 true w /\ length (w_sent w) = 16%nat
  /\ w_arrived w = seq 16 18
  /\ w_lists w = repeat (map N.of_nat (seq 0 16)) 18
  /\ (forall k p, In k (w_arrived w) -> nth_error (w_out w) k = Some p -> both_or_none Debug 0 15 p)
  /\ length (filter (repair_at w) (w_arrived w)) = 18%nat /\ w_got w = [].
Proof.
  assert (C : checks_of Debug W4 true (burst 16 18) all_lost = true) by (vm_compute; reflexivity).
  destruct (checks_of_spec Debug W4 true _ _ ltac:(discriminate) C) as (w & E & Hn & K). clear C. exists w. unfold all_lost in K.
  rewrite !andb_true_iff in K. destruct K as [[[[[K1 K2] K3] K4] K5] K6].
  split; [exact E|]. split; [exact Hn|]. apply Nat.eqb_eq in K1, K5. apply equal_spec in K2, K3.
  repeat (split; [assumption|]). split.
  - rewrite forallb_forall in K4. intros k p Hk Hp. specialize (K4 k Hk). rewrite Hp in K4. apply spares_spec, K4.
  - split; [assumption|]. destruct (w_got w); [reflexivity|discriminate].
Qed.

(** A burst of fifteen data is recovered from as many repairs. *)
Example C57_fifteen : exists w, wrun Debug still (start still W4 true) (burst 15 15) = Ok w
  /\ normal Debug still W4 true w /\ w_got w = w_sent w /\ length (w_sent w) = 15%nat.
Proof.
  assert (C : checks_of Debug W4 true (burst 15 15)
    (fun w => equal (list_eq_dec N.eq_dec) (w_got w) (w_sent w) && Nat.eqb (length (w_sent w)) 15) = true) by (vm_compute; reflexivity).
  destruct (checks_of_spec Debug W4 true _ _ ltac:(discriminate) C) as (w & E & Hn & K). clear C. exists w.
  apply andb_true_iff in K. destruct K as [K1 K2]. apply equal_spec in K1. apply Nat.eqb_eq in K2. auto.
Qed.

(** So that as many repairs as lost data, or more, are enough is false. *)
Theorem C57_enough_repairs_refuted :
  exists w, normal Debug still W4 true w /\ length (w_sent w) = 16%nat
  /\ NoDup (w_arrived w) /\ length (filter (repair_at w) (w_arrived w)) = 18%nat
  /\ w_lists w = repeat (map N.of_nat (seq 0 16)) 18 /\ w_got w = [].
Proof.
  destruct C57_case as (w & _ & Hn & L & A & Li & _ & F & G). exists w. repeat (split; [assumption|]).
  split; [rewrite A; apply seq_NoDup|]. auto.
Qed.
Print Assumptions C57_enough_repairs_refuted.

(** Only the data 0 and 15, and 7, of twenty are lost. *)
Definition three_lost : list action :=
  SetRate 1000 :: map (fun i => Data [N.of_nat i]) (seq 0 20) ++ repeat Repair 12
  ++ map Arrive ([1; 2; 3; 4; 5; 6; 8; 9; 10; 11; 12; 13; 14; 16; 17; 18; 19]%nat ++ seq 20 12).

(** Decides the hypothesis of C58. *)
Definition harmless (p : packet) : bool :=
  match get_packet_type p with
  | Ok TSource => match read_source Debug p with
                  | Ok (s, _) => negb (ds_id s =? 0) && negb (ds_id s =? 15)
                  | _ => false
                  end
  | Ok TRepair => match read_repair Debug p with
                  | Ok (r, _) => smem 0 (dr_ids r) && smem 15 (dr_ids r)
                                 && ((dr_id r + 17) * (dr_id r + 1) <? 2 ^ 32)
                  | _ => false
                  end
  | _ => false
  end.

Example C58_case : exists w, wrun Debug still (start still W4 false) three_lost = Ok w
  /\ normal Debug still W4 false w
  /\ (forall k p, In k (w_arrived w) -> nth_error (w_out w) k = Some p ->
     (forall s n, get_packet_type p = Ok TSource -> read_source Debug p = Ok (s, n) -> ds_id s <> 0 /\ ds_id s <> 15)
     /\ (forall r n, get_packet_type p = Ok TRepair -> read_repair Debug p = Ok (r, n) ->
        In 0 (dr_ids r) /\ In 15 (dr_ids r) /\ small (dr_id r) 0 /\ small (dr_id r) 15))
  /\ length (filter (repair_at w) (w_arrived w)) = 12%nat /\ length (w_got w) = 17%nat.
Proof.
  assert (C : checks_of Debug W4 false three_lost (fun w =>
      forallb (fun k => match nth_error (w_out w) k with Some p => harmless p | None => true end) (w_arrived w)
      && Nat.eqb (length (filter (repair_at w) (w_arrived w))) 12 && Nat.eqb (length (w_got w)) 17) = true) by (vm_compute; reflexivity).
  destruct (checks_of_spec Debug W4 false _ _ ltac:(discriminate) C) as (w & E & Hn & K). clear C. exists w.
  rewrite !andb_true_iff in K. destruct K as [[A K2] K3]. apply Nat.eqb_eq in K2, K3.
  split; [exact E|]. split; [exact Hn|]. split; [|split; assumption].
  rewrite forallb_forall in A. intros k p Hk Hp. specialize (A k Hk). rewrite Hp in A. clear Hk Hp. unfold harmless in A.
  split; intros x n Et Er; rewrite Et, Er in A.
  - apply andb_true_iff in A. destruct A as [B C]. apply negb_true_iff in B, C. apply N.eqb_neq in B, C. auto.
  - rewrite !andb_true_iff in A. destruct A as [[B C] D]. apply smem_spec in B, C. apply N.ltb_lt in D.
    split; [exact B|]. split; [exact C|]. unfold small. split; nia.
Qed.

(** With the datum 0 the others are recovered. *)
Example C58_two_lost : exists w,
  wrun Debug still (start still W4 false) (three_lost ++ [Arrive 0%nat; Arrive 31%nat]) = Ok w /\ length (w_got w) = 20%nat.
Proof.
  assert (C : checks_of Debug W4 false (three_lost ++ [Arrive 0%nat; Arrive 31%nat]) (fun w => Nat.eqb (length (w_got w)) 20) = true) by (vm_compute; reflexivity).
  destruct (checks_of_spec Debug W4 false _ _ ltac:(discriminate) C) as (w & E & _ & K). exists w. split; [exact E|]. apply Nat.eqb_eq, K.
Qed.
