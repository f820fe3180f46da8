(** * Properties of the closed system: stored repairs that would do (C92) *)
From Coq Require Import Arith ZArith NArith List Bool Lia Permutation.
From Verif Require Import Outcome GF GFField Linear Containers ContainersFacts Packetizer
  Encoder EncoderRun DetailDecoder Decoder DecoderAlgebra DecoderInv DecoderStep DecoderFacts DecoderHeld DecoderRecover
  DecoderProgress DecoderPrompt System SystemInv SystemRun SystemArrive SystemFifo PropsSystem PropsRecover PropsFifo PropsBlind
  BlindSpot Determined Twins PropsTwins.
Import ListNotations.
Open Scope N_scope.

(** A selection of the stored repairs: as many as its members, never as many as the sources these cover. *)
Lemma select_fewer f (S : N -> list N) d (E : list (N * list N)) (U : list N) :
  core f S [] d -> calm d -> U <> [] -> (forall x, In x U -> miss d x) ->
  (forall e, In e E -> In e (equations (d_repairs d))) ->
  (forall i ids x, In (i, ids) E -> In x ids -> In x U) ->
  ~ determines f E U.
Proof.
  intros C (l & P & H) HU Hm HE Hin D.
  set (eqb := fun p : N * drepair =>
    if in_dec (fun a b => eqs_eq a b) (fst p, dr_ids (snd p)) E then true else false).
  set (L := filter eqb l).
  set (ms := filter (fun x => if in_dec N.eq_dec x U then true else false) (mkeys (d_missing d))).
  assert (Lin : forall r rep, In (r, rep) L -> mfind r (d_repairs d) = Some rep /\ In (r, dr_ids rep) E).
  { intros r rep A. apply filter_In in A. destruct A as [A B]. unfold eqb in B. cbn [fst snd] in B.
    destruct (in_dec _ _ E) as [I|]; [|discriminate]. split; [|exact I].
    apply in_mfind; [apply C | apply (Permutation_in _ P), A]. }
  assert (Min : forall x, In x ms <-> In x U).
  { intros x. unfold ms. rewrite filter_In. destruct (in_dec N.eq_dec x U) as [I|I].
    - split; [intros _; exact I | intros _; split; [apply Hm, I | reflexivity]].
    - split; [intros [_ B]; discriminate | intros B; destruct (I B)]. }
  apply (underdetermined f L ms).
  - destruct L as [|p L'] eqn:EL.
    + destruct U as [|x U]; [destruct (HU eq_refl)|]. assert (A : In x ms) by (apply Min; left; reflexivity).
      destruct ms; [destruct A | cbn [length]; lia].
    + pose proof (stair_filter eqb l H) as St. fold L in St. rewrite EL in St. destruct St as (A & _).
      unfold unknowns in A. destruct p as [r rep]. cbn [snd] in A. cbn [length].
      destruct (Lin r rep (or_introl eq_refl)) as [F I].
      assert ((length (dr_ids rep) <= length ms)%nat); [|lia].
      apply NoDup_incl_length; [apply ssorted_NoDup; destruct (c_repairs _ _ _ _ C r rep F) as [_ G]; apply G|].
      intros x Hx. apply Min, (Hin _ _ _ I Hx).
  - unfold ms. apply ssorted_filter, C.
  - intros r rep A. destruct (Lin r rep A) as [F _]. destruct (c_repairs _ _ _ _ C r rep F) as [_ G]. apply G.
  - intros r rep y A Hy. destruct (Lin r rep A) as [_ I]. apply Min, (Hin _ _ _ I Hy).
  - intros v V1 V2 V3. apply D; [exact V1 | intros x Hx; apply V2; rewrite Min; exact Hx|].
    intros i ids Hi. apply V3. pose proof (HE _ Hi) as A. unfold equations in A. apply in_map_iff in A.
    destruct A as ([r rep] & A & B). injection A as <- <-. unfold equations. apply in_map_iff. exists (r, rep).
    split; [reflexivity|]. apply filter_In. split; [apply (Permutation_in _ (Permutation_sym P)), B|].
    unfold eqb. cbn [fst snd]. destruct (in_dec _ _ E) as [|N']; [reflexivity | destruct (N' Hi)].
Qed.

(** ** C92: nothing that could be solved stays unsolved *)

(** No selection of the stored repairs determines the sources it covers, or any larger set of missing
    sources: such a set is recovered the moment it becomes determined, in the call for that packet. *)
Theorem C92_no_solvable_group :
  forall m clk f o w, lossy_fifo m clk f o w ->
  forall group lost, (forall e, In e group -> In e (pending w)) ->
  lost <> [] -> (forall x, In x lost -> missing w x) ->
  (forall number covered x, In (number, covered) group -> In x covered -> In x lost) ->
  ~ determines f group lost.
Proof.
  intros m clk f o w (R & Fi & L) group lost HE HU Hm Hin.
  destruct (run_fifo m clk f o w w R (extends_refl w) L Fi) as (gs & B & _ & Q & _).
  pose proof (do_inv _ _ _ _ (ok_dec _ _ _ _ _ _ B)) as I.
  apply (select_fewer f _ (core_of w) group lost (i_core _ _ _ _ I) Q HU Hm HE Hin).
Qed.
Print Assumptions C92_no_solvable_group.

(** In particular the stored repairs together never determine all that is missing. *)
Theorem C92_missing_is_not_determined :
  forall m clk f o w lost, lossy_fifo m clk f o w -> (forall x, In x lost <-> missing w x) -> lost <> [] ->
  ~ determines f (pending w) lost.
Proof.
  intros m clk f o w lost Lf HU Hl. pose proof Lf as (R & Fi & L).
  apply (C92_no_solvable_group m clk f o w Lf); [auto | exact Hl | intros x Hx; apply HU, Hx|].
  intros number covered x Hi Hx. apply HU.
  destruct (fifo_state _ _ _ _ _ Lf) as (gs & B & _). pose proof (do_inv _ _ _ _ (ok_dec _ _ _ _ _ _ B)) as I.
  unfold pending, equations in Hi. apply in_map_iff in Hi. destruct Hi as ([r rep] & A & Hi). injection A as <- <-.
  apply (c_live _ _ _ _ (i_core _ _ _ _ I) r rep x); [|exact Hx]. apply in_mfind; [apply (i_core _ _ _ _ I) | exact Hi].
Qed.
Print Assumptions C92_missing_is_not_determined.

(** ** Nothing is delivered that the packets do not determine *)

(** All packets that arrived so far, sources and repairs, leave no choice for datum [x]: if two series
    of data agree on the sources that arrived and on all combinations, they agree on [x]. Said of the
    difference [v] in one word. *)
Definition determined_by_arrived (m : mode) (f : field) (w : world) (x : N) : Prop :=
  forall v : N -> N, (forall y, v y < 2 ^ wbits f) ->
  (forall k y, In k (w_arrived w) -> source_packet_at m w k y -> v y = 0) ->
  (forall k number covered, In k (w_arrived w) -> repair_packet_at m w k number covered ->
     fold_right N.lxor 0 (map (fun y => gf_multiply f (coefficient f number y) (v y)) covered) = 0) ->
  v x = 0.

Theorem C92_delivered_is_determined :
  forall m clk f o w, normal m clk f o w ->
  exists which, NoDup which /\ (forall x, In x which -> (x < length (w_sent w))%nat)
  /\ w_got w = map (datum w) which
  /\ forall x, In x which -> determined_by_arrived m f w (N.of_nat x).
Proof.
  intros m clk f o w Nm. pose proof Nm as (R & Ho & L).
  destruct (delivered _ _ _ _ _ Nm) as (gs & B & G & Bd & D & _).
  exists (map N.to_nat (handed (core_of w))). split; [exact D|]. split; [exact Bd|]. split; [exact G|].
  intros x Hx v V1 V2 V3. pose proof (Bd x Hx) as Hlt.
  set (v' := fun y => if y <? lim (w_sent w) then v y else 0).
  set (S := SystemInv.S (w_sent w)).
  assert (V1' : forall y, v' y < 2 ^ wbits f).
  { intros y. unfold v'. destruct (y <? lim (w_sent w)); [apply V1 | destruct f; reflexivity]. }
  assert (HS : forall y, good_data f (S y)) by (intros y; apply HS; apply data_ok, L).
  pose proof (data_ok f _ L) as Da. rewrite Forall_forall in Da.
  assert (Hl : forall y, v' y <> 0 -> (wbytes f <= length (S y))%nat).
  { intros y Hy. unfold v' in Hy. destruct (N.ltb_spec y (lim (w_sent w))) as [Hl|]; [|destruct (Hy eq_refl)].
    unfold lim in Hl. apply aligned_long; [|apply HS].
    unfold S, SystemInv.S. apply (Da (nth (N.to_nat y) (w_sent w) [])), nth_In. lia. }
  assert (F : forall k p, In k (w_arrived w) -> nth_error (w_out w) k = Some p -> fits (w_sent w) m f (other f S v') p).
  { intros k p Hk Hp. destruct (forall2_nth _ _ _ (ch_is _ _ _ _ _ _ _ _ (ok_chan _ _ _ _ _ _ B)) k p Hp) as (g & Hg & Hi).
    split.
    - intros s n Et Er. unfold other. replace (v' (ds_id s)) with 0; [reflexivity|]. unfold v'.
      rewrite (V2 k (ds_id s) Hk); [destruct (_ <? _); reflexivity|]. exists p, s, n. auto.
    - intros r n Et Er Gr. apply Determined.other_genuine; try assumption.
      assert (E : fold_right N.lxor 0 (map (fun y => gf_multiply f (coefficient f (dr_id r) y) (v y)) (dr_ids r)) = 0).
      { apply (V3 k); [exact Hk|]. exists p, r, n. auto 10. }
      rewrite fold_xsum in E. rewrite <- E. apply xsum_ext. intros y Hy. f_equal. unfold v'.
      destruct g as [z|W nn]; [destruct Hi as (_ & Y & _); congruence|].
      destruct Hi as (_ & _ & _ & W1 & W2 & r' & q' & R' & _ & Eq). assert (r' = r) by congruence. subst r' W.
      specialize (W1 y Hy). destruct (N.ltb_spec y (lim (w_sent w))); [reflexivity | lia]. }
  pose proof (never_delivered m clk f o (other f S v') (other_good f S v' HS Hl) w R L Ho F) as V.
  apply in_map_iff in Hx. destruct Hx as (z & <- & Hz). rewrite N2Nat.id. unfold handed in Hz. apply in_map_iff in Hz.
  destruct Hz as (e & Ez & He). specialize (V e He). rewrite Ez in V. apply other_same in V; [|exact V1'].
  unfold v' in V. destruct (N.ltb_spec z (lim (w_sent w))) as [|Hge]; [exact V|]. unfold lim in Hge. lia.
Qed.
Print Assumptions C92_delivered_is_determined.

(** ** A single datum that stays unsolved *)

(** The repairs leave no choice for the source [x], whatever they say of the others. *)
Definition determines_one (f : field) (repairs : list (N * list N)) (unknown : list N) (x : N) : Prop :=
  forall v : N -> N, (forall y, v y < 2 ^ wbits f) -> (forall y, ~ In y unknown -> v y = 0) ->
  (forall i ids, In (i, ids) repairs ->
     fold_right N.lxor 0 (map (fun y => gf_multiply f (coefficient f i y) (v y)) ids) = 0) ->
  v x = 0.

(** Two data are lost, and fourteen of fifteen repairs about them; the third datum is lost too. *)
Definition lonely : list action :=
  SetRate 1000 :: Data [7] :: Data [8] :: repeat Repair 15 ++ [Data [9]; Repair] ++ map Arrive [2; 18]%nat.

Lemma product_zero f a b : a < 2 ^ wbits f -> b < 2 ^ wbits f -> a <> 0 -> gf_multiply f a b = 0 -> b = 0.
Proof.
  intros Ha Hb Na H. rewrite gf_multiply_gmul in H. apply gmul_zero_divisor in H; [|exact Ha|exact Hb].
  destruct H as [H|H]; [destruct (Na H) | exact H].
Qed.

(** What the packet number [k] says. *)
Definition combination_at (w : world) (k : nat) : list (N * list N) :=
  match nth_error (w_out w) k with
  | Some p => match read_repair Debug p with Ok (r, _) => [(dr_id r, dr_ids r)] | _ => [] end
  | None => []
  end.

(** That the receiver recovers each datum its packets determine is false: the difference of the two
    stored repairs is a multiple of datum 2, but the receiver waits for as many repairs as there are
    missing data. *)
Theorem C92_single_datum_refuted :
  exists w, lossy_fifo Debug still W4 false w
  /\ pending w = [(0, [0; 1]); (15, [0; 1; 2])] /\ (forall x, missing w x <-> In x [0; 1; 2])
  /\ determines_one W4 (pending w) [0; 1; 2] 2 /\ determined_by_arrived Debug W4 w 2
  /\ w_got w = [] /\ ~ held w 2 /\ ~ obsolete w 2.
Proof.
  assert (C : fifo_checks lonely (fun w => equal eqs_eq (pending w) [(0, [0; 1]); (15, [0; 1; 2])]
    && equal N.eq_dec (mkeys (d_missing (core_of w))) [0; 1; 2]
    && equal (list_eq_dec N.eq_dec) (w_got w) [] && equal N.eq_dec (mkeys (d_sources (core_of w))) []
    && negb (outdated (core_of w) 2)
    && equal Nat.eq_dec (w_arrived w) [2; 18]%nat && equal eqs_eq (flat_map (combination_at w) (w_arrived w)) (pending w)
    && match map (nth_error (w_out w)) [2; 18]%nat with
       | [Some p; Some q] => match get_packet_type p, get_packet_type q with Ok TRepair, Ok TRepair => true | _, _ => false end
       | _ => false end) = true) by (vm_compute; reflexivity).
  apply fifo_checks_spec in C. destruct C as (w & _ & Lf & C).
  do 7 (apply andb_true_iff in C; let K := fresh "K" in destruct C as [C K]).
  apply equal_spec in C, K1, K0, K3, K4, K5.
  assert (One : determines_one W4 (pending w) [0; 1; 2] 2).
  { rewrite C. intros v V1 _ V3.
    pose proof (V3 0 [0; 1] (or_introl eq_refl)) as A. pose proof (V3 15 [0; 1; 2] (or_intror (or_introl eq_refl))) as B.
    cbn [map fold_right] in A, B.
    change (coefficient W4 15 0) with (coefficient W4 0 0) in B. change (coefficient W4 15 1) with (coefficient W4 0 1) in B.
    rewrite N.lxor_0_r in A, B. rewrite <- N.lxor_assoc, A, N.lxor_0_l in B.
    apply (product_zero W4 (coefficient W4 15 2)); [reflexivity | apply V1 | discriminate | exact B]. }
  exists w. split; [exact Lf|]. split; [exact C|].
  split; [intros x; unfold missing, core_of in *; rewrite K5; reflexivity|].
  split; [exact One|]. split; [|split; [exact K4|]; split; [unfold held, core_of in *; rewrite K3; intros []|]].
  2:{ unfold obsolete, core_of in *. intros A. apply negb_true_iff in K2. congruence. }
  intros v V1 _ V3. set (v' := fun y => if in_dec N.eq_dec y [0; 1; 2] then v y else 0).
  change (v 2) with (v' 2). apply One.
  - intros y. unfold v'. destruct (in_dec _ _ _); [apply V1 | reflexivity].
  - intros y Hy. unfold v'. destruct (in_dec _ _ _) as [I|I]; [destruct (Hy I) | reflexivity].
  - intros i ids Hi. pose proof Hi as Hi'. rewrite <- K0 in Hi. apply in_flat_map in Hi. destruct Hi as (k & Hk & Hi).
    refine (eq_trans _ (V3 k i ids Hk _)).
    + f_equal. apply map_ext_in. intros y Hy. f_equal. unfold v'. destruct (in_dec _ _ _) as [I|I]; [reflexivity|]. destruct I.
      rewrite C in Hi'. destruct Hi' as [Z|[Z|[]]]; injection Z as <- <-; cbn [In] in *; tauto.
    + unfold combination_at in Hi. destruct (nth_error (w_out w) k) as [p|] eqn:Ek; [|destruct Hi].
      destruct (read_repair Debug p) as [[r q]| |] eqn:Er; try (destruct Hi; fail). destruct Hi as [Z|[]]. injection Z as <- <-.
      exists p, r, q. split; [exact Ek|]. split; [|auto].
      cbn [map] in K. rewrite K1 in Hk. destruct Hk as [<-|[<-|[]]]; rewrite Ek in K.
      * destruct (nth_error (w_out w) 18) as [q'|]; [|discriminate]. destruct (get_packet_type p) as [[]| |]; try discriminate; reflexivity.
      * destruct (nth_error (w_out w) 2) as [q'|]; [|discriminate]. destruct (get_packet_type q') as [[]| |]; try discriminate;
        destruct (get_packet_type p) as [[]| |]; try discriminate; reflexivity.
Qed.
Print Assumptions C92_single_datum_refuted.

(** *** Examples *)

(** The stored repairs of this receiver: one alone, and both. *)
Example C92_group_case : exists w, lossy_fifo Debug still W4 false w
  /\ ~ determines W4 [(0, [0; 1])] [0; 1] /\ ~ determines W4 (pending w) [0; 1; 2] /\ length (pending w) = 2%nat.
Proof.
  destruct C92_single_datum_refuted as (w & Lf & P & M & _). exists w. split; [exact Lf|]. split; [|split].
  - apply (C92_no_solvable_group _ _ _ _ w Lf).
    + intros e [<-|[]]. rewrite P. left. reflexivity.
    + discriminate.
    + intros x Hx. apply M. cbn [In] in *. tauto.
    + intros number covered x [A|[]] Hx. injection A as <- <-. exact Hx.
  - apply (C92_missing_is_not_determined _ _ _ _ w _ Lf); [intros x; symmetry; apply M | discriminate].
  - rewrite P. reflexivity.
Qed.

(** A receiver that has delivered data, one of them (number 1) recovered from a repair. *)
Example C92_delivered_case : exists w, normal Debug still W8 true w /\ w_got w = map sample [0; 1; 2; 4].
Proof.
  exists (ending Debug W8 true tale). split; [apply lossy_normal, C30_lossy_case | vm_compute; reflexivity].
Qed.
