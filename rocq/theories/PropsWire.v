(** * The layout of the packets on the wire: C80 *)
From Coq Require Import ZArith NArith List Bool Lia Arith Sorted.
From Verif Require Import Outcome GF GFRegion Containers ContainersFacts Packetizer PacketizerFacts PropsPacketizer
  Encoder EncoderFacts EncoderSafe EncoderRun EncoderHistory DetailDecoder Decoder DecoderOuter
  PropsEncoder PropsDecoder.
From Verif Require Linear GFProofs.
Import ListNotations.
Open Scope N_scope.

(** ** Specification *)

(** The number written with the bytes [l], the most significant one first. *)
Definition value (l : list N) : N := fold_left (fun acc b => 256 * acc + b) l 0.

(** [l] is the number [x] in a field of [n] bytes. *)
Definition number (n : nat) (x : N) (l : list N) : Prop :=
  length l = n /\ Forall (fun b => b < 256) l /\ value l = x.

(** The differences of neighbours. *)
Fixpoint gaps (ids : list N) : list N :=
  match ids with
  | a :: (b :: _) as l => (b - a) :: gaps l
  | _ => []
  end.

(** [pairs] are the runs of equal elements of a list: length and element. A run of more than 255 is cut after each 255. *)
Inductive runs : list N -> list (N * N) -> Prop :=
| runs_nil : runs [] []
| runs_cons k g l pairs : 1 <= k <= 255 -> runs l pairs -> (k < 255 -> forall l', l <> g :: l') ->
    runs (repeat g (N.to_nat k) ++ l) ((k, g) :: pairs).

(** A byte for the length of the run, two for the difference. *)
Inductive run_bytes : list (N * N) -> list N -> Prop :=
| run_bytes_nil : run_bytes [] []
| run_bytes_cons k g pairs a b l : number 1 k a -> number 2 g b -> run_bytes pairs l ->
    run_bytes ((k, g) :: pairs) (a ++ b ++ l).

(** The bytes [l] of the set [ids]: two bytes of 0 if empty; otherwise two bytes with one plus the number of the runs of gaps, four with the first
    identifier, and three per run. *)
Definition ids_layout (ids : list N) (l : list N) : Prop :=
  match ids with
  | [] => l = [0; 0]
  | first :: _ => exists pairs a b c, l = a ++ b ++ c /\ runs (gaps ids) pairs
      /\ number 2 (1 + N.of_nat (length pairs)) a /\ number 4 first b /\ run_bytes pairs c
  end.

(** A source packet: type 2, four bytes for the identifier, two for the size, the datum. *)
Definition source_layout (id : N) (data p : list N) : Prop :=
  exists a b, p = [2] ++ a ++ b ++ data /\ number 4 id a /\ number 2 (N.of_nat (length data)) b.

(** A repair: type 1, four bytes for the identifier, two for the size of the symbol, the symbol, the identifiers of the sources, two bytes for the
    combined sizes; then size and symbol again. *)
Definition repair_layout (id : N) (sym ids : list N) (enc : N) (p : list N) : Prop :=
  exists a b i c, p = [1] ++ a ++ b ++ sym ++ i ++ c ++ b ++ sym
  /\ number 4 id a /\ number 2 (N.of_nat (length sym)) b /\ ids_layout ids i /\ number 2 enc c.

(** An ack: type 0, two bytes for the number of packets, the identifiers. *)
Definition ack_layout (nb : N) (ids p : list N) : Prop :=
  exists a i, p = [0] ++ a ++ i /\ number 2 nb a /\ ids_layout ids i.

(** What is accepted as a set of identifiers: any runs, also empty ones and in any order; the gaps are added up modulo 2^32. *)
Definition ids_accepted (ids : list N) (l : list N) : Prop :=
  (ids = [] /\ l = [0; 0])
  \/ exists first pairs a b c, l = a ++ b ++ c
     /\ number 2 (1 + N.of_nat (length pairs)) a /\ number 4 first b /\ run_bytes pairs c
     /\ StronglySorted N.lt ids
     /\ let steps := flat_map (fun kg => repeat (snd kg) (N.to_nat (fst kg))) pairs in
        forall x, In x ids <-> exists j, (j <= length steps)%nat /\ x = (first + fold_right N.add 0 (firstn j steps)) mod 2 ^ 32.

Definition repair_accepted (id : N) (sym ids : list N) (enc : N) (p : list N) : Prop :=
  exists a b i c, p = [1] ++ a ++ b ++ sym ++ i ++ c
  /\ number 4 id a /\ number 2 (N.of_nat (length sym)) b /\ ids_accepted ids i /\ number 2 enc c.

Definition ack_accepted (nb : N) (ids p : list N) : Prop :=
  exists a i, p = [0] ++ a ++ i /\ number 2 nb a /\ ids_accepted ids i.

(** ** Writing *)

Lemma value_fold l acc : fold_left (fun acc b => 256 * acc + b) l acc = fold_left (fun a b => a * 256 + b) l acc.
Proof. revert acc. induction l as [|b l IH]; intros acc; [reflexivity|]. cbn [fold_left]. rewrite (N.mul_comm 256). apply IH. Qed.

Lemma be_number n x : x < 256 ^ N.of_nat n -> number n x (be n x).
Proof.
  intros H. split; [apply be_length|]. split; [apply be_bytes|]. unfold value. rewrite value_fold, be_value.
  rewrite N.mul_0_l, N.add_0_l. now apply N.mod_small.
Qed.

Lemma rle_from_runs d run l : 1 <= run <= 255 -> d < 65536 -> Forall (fun x => x < 65536) l ->
  runs (repeat d (N.to_nat run) ++ l) (rle_from d run l).
Proof.
  revert d run. induction l as [|d' l IH]; intros d run H Hd Hl; cbn [rle_from].
  - unfold u16. rewrite N.mod_small by assumption. apply runs_cons; [assumption|constructor|]. intros _ l' K. discriminate.
  - inversion Hl; subst. destruct (N.eqb_spec d d') as [<-|Hne]; cbn [andb].
    + destruct (N.ltb_spec run 255).
      * replace (repeat d (N.to_nat run) ++ d :: l) with (repeat d (N.to_nat (run + 1)) ++ l).
        -- apply IH; auto; lia.
        -- replace (N.to_nat (run + 1)) with (S (N.to_nat run)) by lia. cbn [repeat]. rewrite repeat_cons, <- app_assoc. reflexivity.
      * unfold u16. rewrite N.mod_small by assumption. apply runs_cons; [assumption| |lia].
        apply (IH d 1); auto; lia.
    + unfold u16. rewrite N.mod_small by assumption. apply runs_cons; [assumption|apply (IH d' 1); auto; lia|].
      intros _ l' K. congruence.
Qed.

Lemma gaps_differences x l : ssorted (x :: l) -> ids32 l -> differences x l = gaps (x :: l).
Proof.
  revert x. induction l as [|y l IH]; intros x S H; [reflexivity|].
  change (gaps (x :: y :: l)) with (y - x :: gaps (y :: l)). cbn [differences]. inversion H; subst.
  apply ssorted_cons_inv in S as [S L]. rewrite diff_sorted; [|specialize (L y (or_introl eq_refl)); lia|assumption].
  f_equal. now apply IH.
Qed.

Lemma gaps_small x l : gaps_ok x l -> Forall (fun g => g < 65536) (gaps (x :: l)).
Proof.
  revert x. induction l as [|y l IH]; intros x G; [constructor|]. destruct G as [G1 G2].
  change (gaps (x :: y :: l)) with (y - x :: gaps (y :: l)). constructor; [assumption|]. now apply IH.
Qed.

Lemma rle_run_bytes pairs : Forall run_ok pairs ->
  run_bytes pairs (concat (flat_map (fun rv => [be 1 (fst rv); be 2 (snd rv)]) pairs)).
Proof.
  induction 1 as [|[k g] pairs [Hk Hg] _ IH]; [constructor|]. cbn [flat_map app concat fst snd] in *.
  apply run_bytes_cons; [| |exact IH]; apply be_number; cbn; lia.
Qed.

Lemma write_ids_layout ids : id_set ids -> close_ids ids -> run_count_fits ids -> ids_layout ids (concat (write_ids ids)).
Proof.
  intros [S H] C F. destruct ids as [|x l]; [reflexivity|]. unfold ids_layout.
  rewrite concat_write_ids. exists (rle (differences x l)). do 3 eexists. split; [reflexivity|].
  apply close_gaps in C. apply fits_npairs in F. inversion H; subst.
  split; [|split; [|split]].
  - rewrite gaps_differences by assumption. pose proof (gaps_small _ _ C) as G. destruct (gaps (x :: l)) as [|g t]; [constructor|].
    inversion G; subst. cbn [rle]. change (g :: t) with (repeat g (N.to_nat 1) ++ t). apply rle_from_runs; auto. lia.
  - rewrite N.add_comm. apply be_number. cbn. unfold npairs in F. lia.
  - apply be_number. exact H2.
  - apply rle_run_bytes, rle_ok.
Qed.

Lemma layout_of_source id data : id < 2 ^ 32 -> N.of_nat (length data) < 65536 ->
  source_layout id data (concat (write_source {| es_id := id; es_data := data |})).
Proof.
  intros H L. unfold write_source. cbn [concat es_id es_data]. rewrite app_nil_r.
  exists (be 4 id), (be 2 (N.of_nat (length data))). split; [reflexivity|]. split; now apply be_number.
Qed.

Lemma layout_of_repair m r calls : write_repair m r = Ok calls ->
  er_id r < 2 ^ 32 -> N.of_nat (length (er_sym r)) < 65536 -> er_enc r < 65536 ->
  id_set (er_ids r) -> close_ids (er_ids r) -> run_count_fits (er_ids r) ->
  repair_layout (er_id r) (er_sym r) (er_ids r) (er_enc r) (concat calls).
Proof.
  intros E H L He I1 I2 I3. unfold write_repair in E. destruct (assert_ m _); try discriminate. cbn [bind] in E.
  injection E as <-. exists (be 4 (er_id r)), (be 2 (N.of_nat (length (er_sym r)))), (concat (write_ids (er_ids r))), (be 2 (er_enc r)).
  split.
  - cbn [app concat]. rewrite !concat_app. cbn [concat]. rewrite !app_nil_r. reflexivity.
  - repeat split; try (apply be_number; assumption); try apply be_length; try apply be_bytes.
    all: try (now apply be_number). now apply write_ids_layout.
Qed.

Lemma layout_of_ack nb ids : nb < 65536 -> id_set ids -> close_ids ids -> run_count_fits ids ->
  ack_layout nb ids (concat (write_ack {| a_ids := ids; a_nb := nb |})).
Proof.
  intros H I1 I2 I3. exists (be 2 nb), (concat (write_ids ids)). split.
  - unfold write_ack. cbn [app concat a_nb a_ids]. reflexivity.
  - split; [now apply be_number|]. now apply write_ids_layout.
Qed.

(** A set of identifiers in a span of 65535 fits. *)
Definition narrow (ids : list N) : Prop := forall a b, In a ids -> In b ids -> b - a < 65535.

Lemma narrow_close ids : narrow ids -> close_ids ids.
Proof.
  intros H before a b after E. specialize (H a b). subst ids. rewrite !in_app_iff in H. cbn [In] in H.
  apply N.lt_trans with 65535; [|reflexivity]. tauto.
Qed.

Lemma sorted_span x l : ssorted (x :: l) -> forall k, (forall y, In y l -> y <= x + k) -> N.of_nat (length l) <= k.
Proof.
  revert x. induction l as [|y l IH]; intros x S k H; cbn [length]; [lia|].
  apply ssorted_cons_inv in S as [S L]. pose proof (L y (or_introl eq_refl)).
  assert (y <= x + k) by (apply H; now left).
  assert (N.of_nat (length l) <= k - (y - x)).
  { apply (IH y S). intros z Hz. specialize (H z (or_intror Hz)). lia. }
  lia.
Qed.

Lemma narrow_fits ids : ssorted ids -> narrow ids -> run_count_fits ids.
Proof.
  intros S H. apply short_fits. destruct ids as [|x l]; [cbn; lia|].
  assert (N.of_nat (length l) <= 65534); [|cbn [length]; lia].
  apply (sorted_span x l S). intros y Hy. specialize (H x y (or_introl eq_refl) (or_intror Hy)). lia.
Qed.

(** ** Reading *)

Lemma pbe_reads n s v rest : bytes s -> pbe n 0 s = Some (v, rest) <-> exists l, s = l ++ rest /\ number n v l.
Proof.
  intros B. split.
  - intros E. destruct (wfp_be n 0 s v rest E) as (l & -> & F & _).
    assert (L : length l = n).
    { clear B. revert E F. generalize 0 as acc. revert l. induction n as [|n IH]; intros l acc E F; cbn [pbe] in *.
      - injection E as _ E. destruct l; [reflexivity|]. exfalso. apply (f_equal (@length N)) in E. rewrite app_length in E. cbn [length] in E. lia.
      - destruct l as [|b l].
        + specialize (F []). discriminate.
        + cbn [app length] in *. f_equal. apply (IH l (acc * 256 + b)); assumption. }
    exists l. split; [reflexivity|]. split; [exact L|]. apply Forall_app in B. split; [apply B|].
    rewrite pbe_app in E by exact L. injection E as E. unfold value. rewrite value_fold. exact E.
  - intros (l & -> & L & _ & V). rewrite pbe_app by exact L. unfold value in V. rewrite value_fold in V. now rewrite V.
Qed.

Lemma value_bound l : Forall (fun b => b < 256) l -> value l < 256 ^ N.of_nat (length l).
Proof.
  unfold value. assert (G : forall acc n, acc < 256 ^ n -> Forall (fun b => b < 256) l ->
    fold_left (fun acc b => 256 * acc + b) l acc < 256 ^ (n + N.of_nat (length l))).
  { induction l as [|b l IH]; intros acc n Ha H; cbn [fold_left length].
    - now rewrite N.add_0_r.
    - inversion H; subst. replace (n + N.of_nat (S (length l))) with ((n + 1) + N.of_nat (length l)) by lia.
      apply IH; [|assumption]. rewrite N.pow_add_r. change (256 ^ 1) with 256. nia. }
  intros H. apply (G 0 0); [reflexivity|exact H].
Qed.

Lemma number_bound n x l : number n x l -> x < 256 ^ N.of_nat n.
Proof. intros (<- & B & <-). now apply value_bound. Qed.

Lemma ppairs_reads nb : forall s d rest, bytes s -> ppairs nb s = Some (d, rest) <->
  exists pairs l, s = l ++ rest /\ length pairs = nb /\ run_bytes pairs l
  /\ d = flat_map (fun kg => repeat (snd kg) (N.to_nat (fst kg))) pairs.
Proof.
  induction nb as [|nb IH]; intros s d rest B; cbn [ppairs].
  - split.
    + intros E. injection E as <- <-. exists [], []. repeat split. constructor.
    + intros (pairs & l & -> & L & R & ->). destruct pairs; [|discriminate]. inversion R. reflexivity.
  - unfold pbind. split.
    + destruct (pbe 1 0 s) as [[k s1]|] eqn:E1; [|discriminate]. apply pbe_reads in E1 as (a & -> & Na); [|exact B].
      apply Forall_app in B as [_ B].
      destruct (pbe 2 0 s1) as [[g s2]|] eqn:E2; [|discriminate]. apply pbe_reads in E2 as (b & -> & Nb); [|exact B].
      apply Forall_app in B as [_ B].
      destruct (ppairs nb s2) as [[d' s3]|] eqn:E3; [|discriminate]. apply IH in E3 as (pairs & l & -> & L & R & ->); [|exact B].
      intros E. injection E as <- <-. exists ((k, g) :: pairs), (a ++ b ++ l). rewrite <- !app_assoc.
      split; [reflexivity|]. split; [cbn; congruence|]. split; [now constructor|]. reflexivity.
    + intros (pairs & l & -> & L & R & ->). destruct R as [|k g pairs a b l Na Nb R]; [discriminate|].
      rewrite <- !app_assoc in *. pose proof B as B1. apply Forall_app in B1 as [_ B1]. pose proof B1 as B2. apply Forall_app in B2 as [_ B2].
      rewrite (proj2 (pbe_reads 1 _ k (b ++ l ++ rest) B)) by (exists a; auto).
      rewrite (proj2 (pbe_reads 2 _ g (l ++ rest) B1)) by (exists b; auto).
      injection L as L. rewrite (proj2 (IH (l ++ rest) _ rest B2)) by (exists pairs, l; auto). reflexivity.
Qed.

Lemma partial_sum_in acc l : acc < 2 ^ 32 -> forall x, In x (acc :: partial_sum acc l) <->
  exists j, (j <= length l)%nat /\ x = (acc + fold_right N.add 0 (firstn j l)) mod 2 ^ 32.
Proof.
  revert acc. induction l as [|d l IH]; intros acc Ha x.
  - cbn [partial_sum length firstn fold_right In]. split.
    + intros [<-|[]]. exists 0%nat. split; [lia|]. rewrite N.add_0_r. now rewrite N.mod_small.
    + intros (j & _ & ->). left. rewrite firstn_nil. cbn [fold_right]. rewrite N.add_0_r. now rewrite N.mod_small.
  - change (partial_sum acc (d :: l)) with (u32 (acc + d) :: partial_sum (u32 (acc + d)) l).
    assert (Hu : u32 (acc + d) < 2 ^ 32) by (apply N.mod_lt; discriminate).
    assert (U : forall z, (u32 (acc + d) + z) mod 2 ^ 32 = (acc + (d + z)) mod 2 ^ 32).
    { intros z. unfold u32. change 4294967296 with (2 ^ 32). rewrite N.add_mod_idemp_l by discriminate. f_equal. lia. }
    split.
    + intros [<-|Hx].
      * exists 0%nat. split; [lia|]. cbn [firstn fold_right]. rewrite N.add_0_r. now rewrite N.mod_small.
      * apply (IH _ Hu) in Hx as (j & Hj & ->). exists (S j). split; [cbn; lia|]. cbn [firstn fold_right]. apply U.
    + intros (j & Hj & ->). destruct j as [|j].
      * left. cbn [firstn fold_right]. rewrite N.add_0_r. now rewrite N.mod_small.
      * right. apply (IH _ Hu). exists j. cbn [length] in Hj. split; [lia|]. cbn [firstn fold_right]. symmetry. apply U.
Qed.

Lemma partial_sum_first f l : f < 2 ^ 32 -> partial_sum 0 (f :: l) = f :: partial_sum f l.
Proof. intros H. cbn [partial_sum]. rewrite N.add_0_l. unfold u32. now rewrite N.mod_small. Qed.

Lemma pids_reads s ids rest : bytes s -> pids s = Some (ids, rest) <-> exists l, s = l ++ rest /\ ids_accepted ids l.
Proof.
  intros B. unfold pids, pbind. split.
  - destruct (pbe 2 0 s) as [[nb s1]|] eqn:E1; [|discriminate]. apply pbe_reads in E1 as (a & -> & Na); [|exact B].
    apply Forall_app in B as [_ B]. destruct (N.eqb_spec nb 0) as [->|Hn].
    + intros E. injection E as <- <-. exists a. split; [reflexivity|]. left. split; [reflexivity|].
      destruct Na as (La & Ba & Va). destruct a as [|x [|y [|]]]; try discriminate. unfold value in Va. cbn [fold_left] in Va.
      f_equal; [lia|]. f_equal. lia.
    + destruct (pbe 4 0 s1) as [[f s2]|] eqn:E2; [|discriminate]. apply pbe_reads in E2 as (b & -> & Nb); [|exact B].
      apply Forall_app in B as [_ B].
      destruct (ppairs (N.to_nat (nb - 1)) s2) as [[d s3]|] eqn:E3; [|discriminate]. apply ppairs_reads in E3 as (pairs & l & -> & L & R & ->); [|exact B].
      intros E. unfold pret in E.
      assert (Ei : ids = set_of (partial_sum 0 (f :: flat_map (fun kg => repeat (snd kg) (N.to_nat (fst kg))) pairs))) by congruence.
      assert (Er : rest = s3) by congruence. clear E. subst ids rest.
      exists (a ++ b ++ l). rewrite <- !app_assoc. split; [reflexivity|]. right. exists f, pairs, a, b, l. split; [reflexivity|].
      split; [replace (1 + N.of_nat (length pairs)) with nb by lia; exact Na|]. split; [exact Nb|]. split; [exact R|].
      split; [apply set_of_is_sorted|]. cbv zeta. intros x. rewrite set_of_in. pose proof (number_bound _ _ _ Nb) as Hf. change (256 ^ N.of_nat 4) with (2 ^ 32) in Hf.
      rewrite partial_sum_first by exact Hf.
      apply partial_sum_in, Hf.
  - intros (l & -> & [(-> & ->)|(f & pairs & a & b & c & -> & Na & Nb & R & Hs & Hin)]).
    + rewrite (proj2 (pbe_reads 2 _ 0 rest B)); [reflexivity|]. exists [0; 0]. repeat split. repeat constructor.
    + cbv zeta in Hin. rewrite <- !app_assoc in *.
      pose proof B as B1. apply Forall_app in B1 as [_ B1]. pose proof B1 as B2. apply Forall_app in B2 as [_ B2].
      rewrite (proj2 (pbe_reads 2 _ (1 + N.of_nat (length pairs)) (b ++ c ++ rest) B)) by (exists a; auto).
      destruct (N.eqb_spec (1 + N.of_nat (length pairs)) 0); [lia|].
      rewrite (proj2 (pbe_reads 4 _ f (c ++ rest) B1)) by (exists b; auto).
      replace (N.to_nat (1 + N.of_nat (length pairs) - 1)) with (length pairs) by lia.
      rewrite (proj2 (ppairs_reads (length pairs) (c ++ rest) _ rest B2)) by (exists pairs, c; auto).
      unfold pret. f_equal. f_equal. apply ssorted_ext; [apply set_of_is_sorted|exact Hs|].
      intros x. rewrite set_of_in, Hin. pose proof (number_bound _ _ _ Nb) as Hf. change (256 ^ N.of_nat 4) with (2 ^ 32) in Hf.
      rewrite partial_sum_first by exact Hf.
      apply partial_sum_in, Hf.
Qed.

Lemma first_byte p b t : (b = 0 /\ t = TAck) \/ (b = 1 /\ t = TRepair) \/ (b = 2 /\ t = TSource) ->
  get_packet_type p = Ok t <-> exists q, p = [b] ++ q.
Proof.
  intros H. split.
  - intros E. destruct p as [|x q]; [discriminate|]. exists q. cbn in E.
    destruct (N.eqb_spec x 0), (N.eqb_spec x 1), (N.eqb_spec x 2); cbn in E; try discriminate; injection E as <-;
      decompose [or and] H; subst; try discriminate; reflexivity.
  - intros (q & ->). decompose [or and] H; subst; reflexivity.
Qed.

Lemma pskip_reads n s rest : pskip n s = Some (tt, rest) <-> exists l, s = l ++ rest /\ length l = n.
Proof.
  split.
  - intros E. destruct (wfp_skip n s tt rest E) as (l & -> & _). exists l. split; [reflexivity|].
    unfold pskip in E. destruct (Nat.ltb_spec (length (l ++ rest)) n) as [|H]; [discriminate|]. injection E as E.
    apply (f_equal (@length N)) in E. rewrite skipn_length, app_length in E. rewrite app_length in H. lia.
  - intros (l & -> & L). unfold pskip. destruct (Nat.ltb_spec (length (l ++ rest)) n) as [H|_]; [rewrite app_length in H; lia|].
    rewrite skipn_app, skipn_all2 by lia. rewrite L, Nat.sub_diag. reflexivity.
Qed.

Lemma pbe1 b s : pbe 1 0 (b :: s) = Some (b, s).
Proof. reflexivity. Qed.

Lemma of_length_number n (l : list N) : N.of_nat (length l) = n -> N.to_nat n = length l.
Proof. lia. Qed.

Lemma number_length_four id a : number 4 id a -> length a = 4%nat.
Proof. intros H. apply H. Qed.

Lemma skip_header (x : N) a b (l rest : list N) : length a = 4%nat -> length b = 2%nat -> skipn 7 ([x] ++ a ++ b ++ l ++ rest) = l ++ rest.
Proof. intros A B. apply (skipn7 [x] a b (l ++ rest)); auto. Qed.

Lemma skip_header_cons (x : N) a b (l rest : list N) : length a = 4%nat -> length b = 2%nat -> skipn 7 (x :: a ++ b ++ l ++ rest) = l ++ rest.
Proof. apply skip_header. Qed.

(** ** What is accepted *)

(** A source packet is accepted, with an identifier, data and a number of bytes read, exactly if its first bytes have the layout. *)
Theorem C80_reads_source :
  forall m p id data k, Forall (fun b => b < 256) p ->
  (exists s, get_packet_type p = Ok TSource /\ read_source m p = Ok (s, k) /\ ds_id s = id /\ ds_data s = data)
  <-> exists q rest, p = q ++ rest /\ length q = k /\ source_layout id data q.
Proof.
  intros m p id data k B. split.
  - intros (s & T & E & <- & <-). pose proof (assert_announced m p TSource (fun _ => T)) as Ha.
    rewrite read_source_parse in E by exact Ha. apply (first_byte p 2 TSource) in T as (s0 & ->); [|auto].
    destruct (psource ([2] ++ s0)) as [[[x n] rest]|] eqn:P; [|discriminate]. cbn [result] in E. injection E as <- <-.
    unfold psource, pbind in P. cbn [app] in P. rewrite pbe1 in P. apply Forall_app in B as [_ B].
    destruct (pbe 4 0 s0) as [[x' s1]|] eqn:E1; [|discriminate]. apply pbe_reads in E1 as (a & -> & Na); [|exact B].
    apply Forall_app in B as [_ B].
    destruct (pbe 2 0 s1) as [[n' s2]|] eqn:E2; [|discriminate]. apply pbe_reads in E2 as (b & -> & Nb); [|exact B].
    destruct (pskip (N.to_nat n') s2) as [[[] s3]|] eqn:E3; [|discriminate]. apply pskip_reads in E3 as (d & -> & Ld).
    unfold pret in P. injection P as -> -> ->.
    exists ([2] ++ a ++ b ++ d), rest. rewrite <- !app_assoc. split; [reflexivity|].
    split; [cbn [app length]; rewrite !app_length; destruct (length rest); lia|].
    cbn [ds_id mk_source_of ds_data ds_size ds_buf fst snd]. unfold ds_data. cbn [ds_id mk_source_of ds_data ds_size ds_buf fst snd].
    rewrite (skip_header_cons _ a b d) by (apply Na || apply Nb). rewrite <- Ld, firstn_app, firstn_all, Nat.sub_diag. cbn [firstn]. rewrite app_nil_r.
    exists a, b. split; [reflexivity|]. split; [exact Na|]. replace (N.of_nat (length d)) with n by lia. exact Nb.
  - intros (q & rest & -> & <- & a & b & -> & Na & Nb).
    assert (T : get_packet_type (([2] ++ a ++ b ++ data) ++ rest) = Ok TSource) by reflexivity.
    pose proof (assert_announced m _ TSource (fun _ => T)) as Ha. rewrite read_source_parse by exact Ha.
    rewrite <- !app_assoc in *. exists (mk_source_of ([2] ++ a ++ b ++ data ++ rest) (id, N.of_nat (length data))).
    split; [exact T|]. apply Forall_app in B as [_ B]. pose proof B as B1. apply Forall_app in B1 as [_ B1].
    split.
    + unfold psource, pbind. cbn [app]. rewrite pbe1.
      rewrite (proj2 (pbe_reads 4 _ id (b ++ data ++ rest) B)) by (exists a; auto).
      rewrite (proj2 (pbe_reads 2 _ (N.of_nat (length data)) (data ++ rest) B1)) by (exists b; auto).
      rewrite (proj2 (pskip_reads (N.to_nat (N.of_nat (length data))) (data ++ rest) rest)) by (exists data; split; [reflexivity|lia]).
      unfold pret. cbn [result]. do 2 f_equal. cbn [length]. rewrite !app_length. lia.
    + split; [reflexivity|]. unfold ds_data. cbn [mk_source_of ds_size ds_buf snd].
      rewrite skip_header by (apply Na || apply Nb). rewrite Nat2N.id, firstn_app, firstn_all, Nat.sub_diag. cbn [firstn]. apply app_nil_r.
Qed.
Print Assumptions C80_reads_source.

(** The same for repairs; the second copy of size and symbol is not read. *)
Theorem C80_reads_repair :
  forall m p id sym ids enc k, Forall (fun b => b < 256) p ->
  (exists r, get_packet_type p = Ok TRepair /\ read_repair m p = Ok (r, k)
     /\ dr_id r = id /\ dr_sym r = sym /\ dr_ids r = ids /\ dr_enc r = enc)
  <-> exists q rest, p = q ++ rest /\ length q = k /\ repair_accepted id sym ids enc q.
Proof.
  intros m p id sym ids enc k B. split.
  - intros (r & T & E & <- & <- & <- & <-). pose proof (assert_announced m p TRepair (fun _ => T)) as Ha.
    rewrite read_repair_parse in E by exact Ha. apply (first_byte p 1 TRepair) in T as (s0 & ->); [|auto].
    destruct (prepair ([1] ++ s0)) as [[[[[x n] is] en] rest]|] eqn:P; [|discriminate]. cbn [result] in E.
    assert (Er : r = mk_repair_of ([1] ++ s0) (x, n, is, en)) by congruence.
    assert (Ek : k = (length ([1%N] ++ s0) - length rest)%nat) by congruence. clear E. subst r k.
    unfold prepair, pbind in P. cbn [app] in P. rewrite pbe1 in P. apply Forall_app in B as [_ B].
    destruct (pbe 4 0 s0) as [[x' s1]|] eqn:E1; [|discriminate]. apply pbe_reads in E1 as (a & -> & Na); [|exact B].
    apply Forall_app in B as [_ B].
    destruct (pbe 2 0 s1) as [[n' s2]|] eqn:E2; [|discriminate]. apply pbe_reads in E2 as (b & -> & Nb); [|exact B].
    apply Forall_app in B as [_ B].
    destruct (pskip (N.to_nat n') s2) as [[[] s3]|] eqn:E3; [|discriminate]. apply pskip_reads in E3 as (d & -> & Ld).
    apply Forall_app in B as [_ B].
    destruct (pids s3) as [[is' s4]|] eqn:E4; [|discriminate]. apply pids_reads in E4 as (i & -> & Ni); [|exact B].
    apply Forall_app in B as [_ B].
    destruct (pbe 2 0 s4) as [[en' s5]|] eqn:E5; [|discriminate]. apply pbe_reads in E5 as (c & -> & Nc); [|exact B].
    unfold pret in P. injection P as -> -> -> -> ->.
    exists ([1] ++ a ++ b ++ d ++ i ++ c), rest. rewrite <- !app_assoc. split; [reflexivity|].
    split; [cbn [app length]; rewrite !app_length; destruct (length rest); lia|].
    cbn [dr_id mk_repair_of dr_ids dr_enc]. unfold dr_sym. cbn [mk_repair_of dr_size dr_buf].
    rewrite (skip_header _ a b d) by (apply Na || apply Nb). rewrite <- Ld, firstn_app, firstn_all, Nat.sub_diag. cbn [firstn]. rewrite app_nil_r.
    exists a, b, i, c. split; [reflexivity|]. split; [exact Na|]. replace (N.of_nat (length d)) with n by lia. auto.
  - intros (q & rest & -> & <- & a & b & i & c & -> & Na & Nb & Ni & Nc).
    assert (T : get_packet_type (([1] ++ a ++ b ++ sym ++ i ++ c) ++ rest) = Ok TRepair) by reflexivity.
    pose proof (assert_announced m _ TRepair (fun _ => T)) as Ha. rewrite read_repair_parse by exact Ha.
    rewrite <- !app_assoc in *. exists (mk_repair_of ([1] ++ a ++ b ++ sym ++ i ++ c ++ rest) (id, N.of_nat (length sym), ids, enc)).
    split; [exact T|]. apply Forall_app in B as [_ B]. pose proof B as B1. apply Forall_app in B1 as [_ B1].
    pose proof B1 as B2. apply Forall_app in B2 as [_ B2]. apply Forall_app in B2 as [_ B2]. pose proof B2 as B3. apply Forall_app in B3 as [_ B3].
    split.
    + unfold prepair, pbind. cbn [app]. rewrite pbe1.
      rewrite (proj2 (pbe_reads 4 _ id (b ++ sym ++ i ++ c ++ rest) B)) by (exists a; auto).
      rewrite (proj2 (pbe_reads 2 _ (N.of_nat (length sym)) (sym ++ i ++ c ++ rest) B1)) by (exists b; auto).
      rewrite (proj2 (pskip_reads (N.to_nat (N.of_nat (length sym))) (sym ++ i ++ c ++ rest) (i ++ c ++ rest))) by (exists sym; split; [reflexivity|lia]).
      rewrite (proj2 (pids_reads _ ids (c ++ rest) B2)) by (exists i; auto).
      rewrite (proj2 (pbe_reads 2 _ enc rest B3)) by (exists c; auto).
      unfold pret. cbn [result]. do 2 f_equal. cbn [length]. rewrite !app_length. lia.
    + split; [reflexivity|]. unfold dr_sym. cbn [mk_repair_of dr_size dr_buf dr_ids dr_enc].
      rewrite skip_header by (apply Na || apply Nb). rewrite Nat2N.id, firstn_app, firstn_all, Nat.sub_diag. cbn [firstn]. rewrite app_nil_r. auto.
Qed.
Print Assumptions C80_reads_repair.

(** The same for acks. *)
Theorem C80_reads_ack :
  forall m p nb ids k, Forall (fun b => b < 256) p ->
  (get_packet_type p = Ok TAck /\ read_ack m p = Ok ({| a_ids := ids; a_nb := nb |}, k))
  <-> exists q rest, p = q ++ rest /\ length q = k /\ ack_accepted nb ids q.
Proof.
  intros m p nb ids k B. split.
  - intros (T & E). pose proof (assert_announced m p TAck (fun _ => T)) as Ha.
    rewrite read_ack_parse in E by exact Ha. apply (first_byte p 0 TAck) in T as (s0 & ->); [|auto].
    destruct (pack ([0] ++ s0)) as [[x rest]|] eqn:P; [|discriminate]. cbn [result] in E. injection E as -> <-.
    unfold pack, pbind in P. cbn [app] in P. rewrite pbe1 in P. apply Forall_app in B as [_ B].
    destruct (pbe 2 0 s0) as [[n' s1]|] eqn:E1; [|discriminate]. apply pbe_reads in E1 as (a & -> & Na); [|exact B].
    apply Forall_app in B as [_ B].
    destruct (pids s1) as [[is' s2]|] eqn:E2; [|discriminate]. apply pids_reads in E2 as (i & -> & Ni); [|exact B].
    unfold pret in P. injection P as -> -> ->.
    exists ([0] ++ a ++ i), rest. rewrite <- !app_assoc. split; [reflexivity|]. split; [cbn [app length]; rewrite !app_length; destruct (length rest); lia|].
    exists a, i. auto.
  - intros (q & rest & -> & <- & a & i & -> & Na & Ni).
    assert (T : get_packet_type (([0] ++ a ++ i) ++ rest) = Ok TAck) by reflexivity. split; [exact T|].
    pose proof (assert_announced m _ TAck (fun _ => T)) as Ha. rewrite read_ack_parse by exact Ha.
    rewrite <- !app_assoc in *. apply Forall_app in B as [_ B]. pose proof B as B1. apply Forall_app in B1 as [_ B1].
    unfold pack, pbind. cbn [app]. rewrite pbe1.
    rewrite (proj2 (pbe_reads 2 _ nb (i ++ rest) B)) by (exists a; auto).
    rewrite (proj2 (pids_reads _ ids rest B1)) by (exists i; auto).
    unfold pret. cbn [result]. do 2 f_equal. cbn [length]. rewrite !app_length. lia.
Qed.
Print Assumptions C80_reads_ack.

(** ** What is sent *)

Lemma mixed_size_small f id l : mixed_size f id l < 65536.
Proof.
  unfold mixed_size. induction l as [|s l IH]; cbn [fold_right]; [reflexivity|].
  change 65536 with (2 ^ 16). apply GFProofs.lxor_below; [apply Linear.multiply_size_below|exact IH].
Qed.

Lemma nth_error_of_type t (l l' : list packet) p : type_of p = t ->
  nth_error (of_type t (l ++ p :: l')) (length (of_type t l)) = Some p.
Proof.
  intros T. rewrite of_type_app. rewrite nth_error_app2, Nat.sub_diag by lia.
  unfold of_type at 1. cbn [filter]. rewrite T, N.eqb_refl. reflexivity.
Qed.

(** What a call of the sender emits: source packets with the number of the datum and its bytes, and repairs with their number, the combination of the
    window (C17) and the identifiers in the window. [narrow]: the identifiers in the window span fewer than 65535 numbers. *)
Theorem C80_sends :
  forall m f ops e out op e' new before p after,
  reached m f ops e out -> estep m e op = (e', Ok new) ->
  short_data (ops ++ [op]) -> nb_data (ops ++ [op]) <= 2 ^ 32 ->
  new = before ++ p :: after -> narrow (map es_id (e_sources e')) ->
  (exists d, op = EData d /\ source_layout (nb_data ops) d p)
  \/ let id := count 1 (out ++ before) mod 2 ^ 32 in
     repair_layout id (mixed f id (e_sources e')) (map es_id (e_sources e')) (mixed_size f id (e_sources e')) p.
Proof.
  intros m f ops e out op e' new before p after Hr Hs Hshort Hnb En Hw.
  pose proof (history_step m f ops out e op e' (Ok new) (history_of_run _ _ _ _ _ Hr) Hs) as Hh.
  specialize (Hh (fun H => match H with ex_intro _ _ H => ltac:(discriminate H) end)). cbn [emitted] in Hh.
  assert (Hp : In p new) by (rewrite En; apply in_or_app; right; left; reflexivity).
  assert (Ht : type_of p = 1 \/ type_of p = 2).
  { pose proof (h_types _ _ _ _ Hh) as T. rewrite Forall_forall in T. apply T. apply in_or_app. right. exact Hp. }
  destruct Ht as [Ht|Ht]; [right|left].
  - cbv zeta.
    assert (Hid : id_of p = count 1 (out ++ before) mod 2 ^ 32).
    { assert (Hr1 : reached m f (ops ++ [op]) e' (out ++ new)).
      { unfold reached. apply (erun_app_ok m _ ops [op] e out); [exact Hr|]. cbn [erun]. rewrite Hs. cbn [bind]. rewrite app_nil_r. reflexivity. }
      destruct (C20_identifiers m f (ops ++ [op]) e' (out ++ new) Hr1) as [H1 _].
      rewrite (H1 (length (of_type 1 (out ++ before))) p); [reflexivity|].
      rewrite En, app_assoc. now apply nth_error_of_type. }
    rewrite <- Hid.
    destruct (C17_repair_is_combination m f ops e out op e' new p Hr Hs Hshort Hnb Hp Ht) as (calls & r & -> & Ew & Ei & Es & El & Em & Ee).
    assert (Hi : id_of (on_wire calls) < 2 ^ 32) by (rewrite Hid; apply N.mod_lt; discriminate).
    revert Hi Ei Es El Em Ee. generalize (id_of (on_wire calls)) as n. intros n Hi Ei Es El Em Ee.
    destruct (h_sorted _ _ _ _ Hh Hnb) as [Sorted _].
    assert (I : id_set (er_ids r)).
    { rewrite Es. split; [exact Sorted|]. apply Forall_forall. intros x Hx. apply in_map_iff in Hx as (s & <- & Hin).
      destruct (h_window _ _ _ _ Hh s Hin) as (k & _ & ->). apply N.mod_lt. discriminate. }
    rewrite <- Es in Hw.
    pose proof (layout_of_repair m r calls Ew) as L. rewrite Ei, Ee in L. rewrite <- Em, <- Es. apply L.
    + exact Hi.
    + rewrite El. pose proof (history_small _ _ _ _ Hh Hshort) as Sm. clear - Sm. induction Sm as [|s l H _ IH]; cbn; [lia|]. fold (longest l). unfold small in H. lia.
    + apply mixed_size_small.
    + exact I.
    + now apply narrow_close.
    + apply narrow_fits; [apply I|exact Hw].
  - clear Hw. destruct op; cbn [estep] in Hs.
    + destruct (enc_data m e d) as [[e1 o1]|x|x] eqn:E1; try discriminate. injection Hs as -> ->. exists d. split; [reflexivity|].
      pose proof (enc_data_spec _ _ _ _ _ E1) as A. destruct (ad_out _ _ _ _ _ A) as (first & rest & Eo & Hsys & Hnon & H0 & H1).
      assert (Rest : ~ In p rest).
      { intros Hin. destruct (N.eq_dec (u32 (e_source_id e + 1) mod e_rate e) 0) as [Z|Z].
        - destruct (H0 Z) as (q & -> & Hq). destruct Hin as [->|[]]. rewrite (repair_of_type _ _ _ _ _ Hq) in Ht. discriminate.
        - rewrite (H1 Z) in Hin. exact Hin. }
      rewrite Eo in Hp. destruct Hp as [->|Hp]; [|contradiction].
      destruct (e_systematic e) eqn:Sy.
      * rewrite (Hsys eq_refl). rewrite nb_data_app in Hnb. change (nb_data [EData d]) with 1 in Hnb.
        assert (Ei : e_source_id e = nb_data ops).
        { rewrite (h_source_id _ _ _ _ (history_of_run _ _ _ _ _ Hr)). apply N.mod_small. fold (nb_data ops). lia. }
        rewrite Ei. apply layout_of_source; [lia|].
        unfold short_data in Hshort. rewrite datas_app, Forall_app in Hshort. destruct Hshort as [_ Hd]. inversion Hd; subst. assumption.
      * pose proof (repair_of_type _ _ _ _ _ (Hnon eq_refl)) as T. rewrite T in Ht. discriminate.
    + destruct (notify m e p0) as [e1 [n|x|x]]; try discriminate. cbn in Hs. injection Hs as _ <-. destruct Hp.
    + destruct (generate_repair m e) as [[e1 o1]|x|x] eqn:E1; try discriminate. injection Hs as -> ->.
      unfold generate_repair in E1. destruct (assert_ m _); try discriminate. cbn [bind] in E1.
      destruct (encode _ _ _ _) as [r| |]; try discriminate. cbn [bind] in E1. destruct (write_repair m r) as [w| |] eqn:Ew; try discriminate. cbn [bind] in E1.
      injection E1 as _ E1. rewrite <- E1 in Hp. destruct Hp as [<-|[]].
      unfold write_repair in Ew. destruct (assert_ m _); try discriminate. cbn [bind] in Ew. injection Ew as <-.
      cbn in Ht. discriminate.
    + injection Hs as _ <-. destruct Hp.
    + destruct (set_rate m e rate); try discriminate. injection Hs as _ <-. destruct Hp.
    + destruct (set_window_size m e size); try discriminate. injection Hs as _ <-. destruct Hp.
    + injection Hs as _ <-. destruct Hp.
Qed.
Print Assumptions C80_sends.

(** What a receiver emits: acks with a number of packets and the identifiers of sources it holds (C39), if these span
    fewer than 65535 numbers. *)
Theorem C80_acks :
  forall m clk f o tr d op out d' p,
  receiver m clk f o tr d -> dstep m clk d op = (d', Ok out) -> In p (to_network out) ->
  Forall (fun x => x < 2 ^ 32) (held d ++ held d') -> narrow (held d ++ held d') ->
  exists nb ids, ack_layout nb ids p
  /\ (forall x, In x (held d) -> In x (held d') -> In x ids) /\ (forall x, In x ids -> In x (held d) \/ In x (held d')).
Proof.
  intros m clk f o tr d op out d' p R E Hp H32 Hn. apply In_nth_error in Hp as (i & Hi).
  destruct (C39_acks_truthful m clk f o tr d op out d' i p R E Hi) as (ids & nb & -> & S & Lo & Up & En).
  assert (Sub : forall x, In x ids -> In x (held d ++ held d')) by (intros x Hx; apply in_or_app; auto).
  assert (Ni : narrow ids) by (intros a b Ha Hb; apply Hn; apply Sub; assumption).
  exists nb, ids. split; [|now split]. apply layout_of_ack.
  - rewrite En. destruct (Nat.eqb i 0); [apply N.mod_lt; discriminate|reflexivity].
  - split; [exact S|]. apply Forall_forall. intros x Hx. rewrite Forall_forall in H32. apply H32, Sub, Hx.
  - now apply narrow_close.
  - now apply narrow_fits.
Qed.
Print Assumptions C80_acks.

(** ** The layout leaves no choice *)

Lemma number_unique n x l l' : number n x l -> number n x l' -> l = l'.
Proof.
  intros (L & B & V) (L' & B' & V'). rewrite <- V in V'. clear V x. subst n. revert l L' B B' V'.
  induction l' as [|b' l' IH] using rev_ind; intros l L B B' V.
  - destruct l; [reflexivity|discriminate].
  - destruct l as [|b l _] using rev_ind; [rewrite app_length in L; cbn in L; lia|].
    rewrite !app_length in L. cbn [length] in L. apply Forall_app in B as [B1 B2]. apply Forall_app in B' as [B1' B2'].
    inversion B2; subst. inversion B2'; subst.
    unfold value in V. rewrite !fold_left_app in V. cbn [fold_left] in V.
    fold (value l) in V. fold (value l') in V. assert (E : value l = value l') by lia. assert (b = b') by lia. subst b'.
    f_equal. apply IH; auto. lia.
Qed.

Lemma repeat_split (g : N) n n' l l' : (n < n')%nat -> repeat g n ++ l = repeat g n' ++ l' -> exists t, l = g :: t.
Proof.
  revert n'. induction n as [|n IH]; intros n' H E; destruct n' as [|n']; try lia; cbn [repeat app] in E.
  - eauto.
  - injection E as E. apply (IH n'); [lia|exact E].
Qed.

Lemma runs_unique l pairs : runs l pairs -> forall pairs', runs l pairs' -> pairs = pairs'.
Proof.
  induction 1 as [|k g l pairs Hk R IH M]; intros pairs' R'.
  - inversion R' as [|k g l pairs Hk _ _ E]; [reflexivity|]. exfalso.
    destruct (N.to_nat k) as [|n] eqn:En; [lia|discriminate].
  - remember (repeat g (N.to_nat k) ++ l) as whole eqn:Ew. destruct R' as [|k' g' l' pairs' Hk' R' M'].
    + exfalso. destruct (N.to_nat k) as [|n] eqn:En; [lia|discriminate].
    + assert (g' = g).
      { destruct (N.to_nat k) as [|n] eqn:En; [lia|]. destruct (N.to_nat k') as [|n'] eqn:En'; [lia|]. cbn [repeat app] in Ew. congruence. }
      subst g'. assert (k' = k).
      { destruct (N.lt_trichotomy k' k) as [H|[H|H]]; [|exact H|]; exfalso.
        - destruct (repeat_split g (N.to_nat k') (N.to_nat k) l' l ltac:(lia) Ew) as (t & ->). apply (M' ltac:(lia) t). reflexivity.
        - symmetry in Ew. destruct (repeat_split g (N.to_nat k) (N.to_nat k') l l' ltac:(lia) Ew) as (t & ->). apply (M ltac:(lia) t). reflexivity. }
      subst k'. apply app_inv_head in Ew. subst l'. f_equal. now apply IH.
Qed.

Lemma run_bytes_unique pairs l : run_bytes pairs l -> forall l', run_bytes pairs l' -> l = l'.
Proof.
  induction 1 as [|k g pairs a b l Na Nb R IH]; intros l' R'; inversion R'; subst; [reflexivity|].
  f_equal; [eapply number_unique; eassumption|]. f_equal; [eapply number_unique; eassumption|]. now apply IH.
Qed.

Lemma ids_layout_unique ids l l' : ids_layout ids l -> ids_layout ids l' -> l = l'.
Proof.
  destruct ids as [|x ids]; cbn [ids_layout]; [congruence|].
  intros (pairs & a & b & c & -> & R & Na & Nb & Nc) (pairs' & a' & b' & c' & -> & R' & Na' & Nb' & Nc').
  rewrite <- (runs_unique _ _ R _ R') in *. f_equal; [eapply number_unique; eassumption|]. f_equal; [eapply number_unique; eassumption|].
  eapply run_bytes_unique; eassumption.
Qed.

(** Each layout determines all bytes of the packet. *)
Theorem C80_exact :
  (forall id d p p', source_layout id d p -> source_layout id d p' -> p = p')
  /\ (forall id sym ids enc p p', repair_layout id sym ids enc p -> repair_layout id sym ids enc p' -> p = p')
  /\ (forall nb ids p p', ack_layout nb ids p -> ack_layout nb ids p' -> p = p').
Proof.
  split; [|split].
  - intros id d p p' (a & b & -> & Na & Nb) (a' & b' & -> & Na' & Nb').
    now rewrite (number_unique _ _ _ _ Na Na'), (number_unique _ _ _ _ Nb Nb').
  - intros id sym ids enc p p' (a & b & i & c & -> & Na & Nb & Ni & Nc) (a' & b' & i' & c' & -> & Na' & Nb' & Ni' & Nc').
    now rewrite (number_unique _ _ _ _ Na Na'), (number_unique _ _ _ _ Nb Nb'), (number_unique _ _ _ _ Nc Nc'), (ids_layout_unique _ _ _ Ni Ni').
  - intros nb ids p p' (a & i & -> & Na & Ni) (a' & i' & -> & Na' & Ni').
    now rewrite (number_unique _ _ _ _ Na Na'), (ids_layout_unique _ _ _ Ni Ni').
Qed.
Print Assumptions C80_exact.

(** The identifiers 7, 8, 9, 12 and 268: the gaps 1 1, 3 and 256. *)
Example C80_ids : ids_layout [7; 8; 9; 12; 268] [0; 4;  0; 0; 0; 7;  2; 0; 1;  1; 0; 3;  1; 1; 0].
Proof.
  exists [(2, 1); (1, 3); (1, 256)], [0; 4], [0; 0; 0; 7], [2; 0; 1;  1; 0; 3;  1; 1; 0]. split; [reflexivity|]. split.
  - change (gaps [7; 8; 9; 12; 268]) with (repeat 1 (N.to_nat 2) ++ repeat 3 (N.to_nat 1) ++ repeat 256 (N.to_nat 1) ++ []).
    apply runs_cons; [lia| |intros _ l' K; discriminate].
    apply runs_cons; [lia| |intros _ l' K; discriminate].
    apply runs_cons; [lia|constructor|intros _ l' K; discriminate].
  - split; [repeat split; repeat constructor|]. split; [repeat split; repeat constructor|].
    apply (run_bytes_cons 2 1 _ [2] [0; 1]); [repeat split; repeat constructor|repeat split; repeat constructor|].
    apply (run_bytes_cons 1 3 _ [1] [0; 3]); [repeat split; repeat constructor|repeat split; repeat constructor|].
    apply (run_bytes_cons 1 256 _ [1] [1; 0] []); [repeat split; repeat constructor|repeat split; repeat constructor|constructor].
Qed.

(** A repair that is emitted, and the meaning of its bytes. *)
Example C80_case : exists e e', reached Debug W8 [EData [1; 2; 3]; EData [9; 8]] e [[2; 0; 0; 0; 0; 0; 3; 1; 2; 3]; [2; 0; 0; 0; 1; 0; 2; 9; 8]]
  /\ estep Debug e ERepair = (e', Ok ([] ++ [1; 0; 0; 0; 0; 0; 3; 39; 38; 5; 0; 2; 0; 0; 0; 0; 1; 0; 1; 0; 13; 0; 3; 39; 38; 5] :: []))
  /\ narrow (map es_id (e_sources e'))
  /\ mixed W8 0 (e_sources e') = [39; 38; 5] /\ mixed_size W8 0 (e_sources e') = 13
  /\ source_layout 1 [9; 8] [2; 0; 0; 0; 1; 0; 2; 9; 8].
Proof.
  do 2 eexists. split; [vm_compute; reflexivity|]. split; [vm_compute; reflexivity|].
  split; [intros a b [<-|[<-|[]]] [<-|[<-|[]]]; reflexivity|].
  split; [vm_compute; reflexivity|]. split; [vm_compute; reflexivity|].
  exists [0; 0; 0; 1], [0; 2]. repeat split; repeat constructor.
Qed.
