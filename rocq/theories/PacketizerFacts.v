(** * Facts about the wire format

    The readers of [Packetizer] are shown equal to parsers that work on the
    remaining bytes; for those, round trips, prefixes and suffixes are easy. *)
From Coq Require Import NArith List Bool Lia Arith Sorted.
From Verif Require Import Outcome GF GFRegion Containers ContainersFacts Packetizer.
Import ListNotations.
Open Scope N_scope.

(** ** Parsers on suffixes *)

Definition parser (A : Type) : Type := list N -> option (A * list N).

Definition pret {A} (a : A) : parser A := fun s => Some (a, s).

Definition pbind {A B} (P : parser A) (Q : A -> parser B) : parser B :=
  fun s => match P s with
           | Some (a, rest) => Q a rest
           | None => None
           end.

Fixpoint pbe (n : nat) (acc : N) : parser N :=
  match n with
  | O => pret acc
  | S n' => fun s => match s with
                     | [] => None
                     | b :: s' => pbe n' (acc * 256 + b) s'
                     end
  end.

Definition pskip (n : nat) : parser unit :=
  fun s => if Nat.ltb (length s) n then None else Some (tt, skipn n s).

Fixpoint ppairs (nb : nat) : parser (list N) :=
  match nb with
  | O => pret []
  | S nb' =>
      pbind (pbe 1 0) (fun run =>
      pbind (pbe 2 0) (fun value =>
      pbind (ppairs nb') (fun l =>
      pret (repeat value (N.to_nat run) ++ l))))
  end.

Definition set_of (l : list N) : list N := fold_left (fun s x => sinsert x s) l [].

Definition pids : parser (list N) :=
  pbind (pbe 2 0) (fun nb =>
  if nb =? 0 then pret []
  else
    pbind (pbe 4 0) (fun first =>
    pbind (ppairs (N.to_nat (nb - 1))) (fun diffs =>
    pret (set_of (partial_sum 0 (first :: diffs)))))).

Definition pack : parser ack :=
  pbind (pbe 1 0) (fun _ =>
  pbind (pbe 2 0) (fun nb =>
  pbind pids (fun ids =>
  pret {| a_ids := ids; a_nb := nb |}))).

(** Repairs: id, symbol size, ids, encoded size. *)
Definition prepair : parser (N * N * list N * N) :=
  pbind (pbe 1 0) (fun _ =>
  pbind (pbe 4 0) (fun id =>
  pbind (pbe 2 0) (fun size =>
  pbind (pskip (N.to_nat size)) (fun _ =>
  pbind pids (fun ids =>
  pbind (pbe 2 0) (fun enc =>
  pret (id, size, ids, enc))))))).

Definition psource : parser (N * N) :=
  pbind (pbe 1 0) (fun _ =>
  pbind (pbe 4 0) (fun id =>
  pbind (pbe 2 0) (fun size =>
  pbind (pskip (N.to_nat size)) (fun _ =>
  pret (id, size))))).

(** ** Well-behaved parsers *)

Definition wfp {A} (P : parser A) : Prop :=
  forall s a rest, P s = Some (a, rest) ->
  exists used, s = used ++ rest
  /\ (forall t, P (used ++ t) = Some (a, t))
  /\ (forall q r, used = q ++ r -> r <> [] -> P q = None).

Lemma wfp_ret {A} (a : A) : wfp (pret a).
Proof.
  intros s b rest H. injection H as <- <-. exists []. repeat split.
  intros q r H1 H2. symmetry in H1. apply app_eq_nil in H1 as [_ ->]. congruence.
Qed.

Lemma app_split {A} (u1 u2 q r : list A) : u1 ++ u2 = q ++ r ->
  (exists l, u1 = q ++ l /\ l <> [] /\ r = l ++ u2) \/ (exists l, q = u1 ++ l /\ u2 = l ++ r).
Proof.
  revert q. induction u1 as [|x u1 IH]; intros q H; simpl in *.
  - right. exists q. now split.
  - destruct q as [|y q]; simpl in H.
    + left. exists (x :: u1). subst r. repeat split. discriminate.
    + injection H as -> H. destruct (IH q H) as [(l & -> & Hl & ->)|(l & -> & ->)].
      * left. exists l. repeat split. assumption.
      * right. exists l. now split.
Qed.

Lemma wfp_bind {A B} (P : parser A) (Q : A -> parser B) :
  wfp P -> (forall a, wfp (Q a)) -> wfp (pbind P Q).
Proof.
  intros HP HQ s b rest H. unfold pbind in H. destruct (P s) as [[a s1]|] eqn:E; [|discriminate].
  apply HP in E as (u1 & -> & E1 & F1). apply HQ in H as (u2 & -> & E2 & F2).
  exists (u1 ++ u2). split; [now rewrite app_assoc|]. split.
  - intros t. unfold pbind. rewrite <- app_assoc, E1. apply E2.
  - intros q r H Hr. unfold pbind. apply app_split in H as [(l & -> & Hl & ->)|(l & -> & ->)].
    + rewrite (F1 q l) by auto. reflexivity.
    + rewrite E1. now apply (F2 l r).
Qed.

Lemma wfp_be n acc : wfp (pbe n acc).
Proof.
  revert acc. induction n as [|n IH]; intros acc; [apply wfp_ret|].
  intros [|b s] a rest H; [discriminate|]. simpl in H.
  apply IH in H as (u & -> & E & F). exists (b :: u). split; [reflexivity|]. split.
  - intros t. simpl. apply E.
  - intros q r H Hr. destruct q as [|b' q]; [reflexivity|]. injection H as <- H.
    simpl. now apply (F q r).
Qed.

Lemma wfp_skip n : wfp (pskip n).
Proof.
  intros s [] rest H. unfold pskip in H. destruct (Nat.ltb_spec (length s) n) as [|Hn]; [discriminate|].
  injection H as <-. exists (firstn n s). split; [now rewrite firstn_skipn|].
  assert (Hf : length (firstn n s) = n) by now apply firstn_length_le.
  unfold pskip. split.
  - intros t. rewrite app_length, Hf. destruct (Nat.ltb_spec (n + length t) n); [lia|].
    do 2 f_equal. rewrite skipn_app, Hf, Nat.sub_diag, skipn_all2 by lia. reflexivity.
  - intros q r H Hr. rewrite H, app_length in Hf.
    destruct r; [congruence|]. simpl in Hf. destruct (Nat.ltb_spec (length q) n); [reflexivity|lia].
Qed.

Lemma wfp_pairs nb : wfp (ppairs nb).
Proof.
  induction nb as [|nb IH]; cbn [ppairs]; [apply wfp_ret|].
  repeat (apply wfp_bind; [apply wfp_be || apply IH|intros ?]). apply wfp_ret.
Qed.

Lemma wfp_ids : wfp pids.
Proof.
  apply wfp_bind; [apply wfp_be|]. intros nb. destruct (nb =? 0); [apply wfp_ret|].
  apply wfp_bind; [apply wfp_be|intros ?]. apply wfp_bind; [apply wfp_pairs|intros ?].
  apply wfp_ret.
Qed.

Lemma wfp_ack : wfp pack.
Proof.
  repeat (apply wfp_bind; [apply wfp_be || apply wfp_ids|intros ?]). apply wfp_ret.
Qed.

Lemma wfp_repair : wfp prepair.
Proof.
  repeat (apply wfp_bind; [apply wfp_be || apply wfp_ids || apply wfp_skip|intros ?]).
  apply wfp_ret.
Qed.

Lemma wfp_source : wfp psource.
Proof.
  repeat (apply wfp_bind; [apply wfp_be || apply wfp_ids || apply wfp_skip|intros ?]).
  apply wfp_ret.
Qed.

(** ** The readers compute these parsers *)

Definition cur (p rest : list N) : cursor := ((length p - length rest)%nat, length rest).

Definition suffix (rest p : list N) : Prop := exists pre, p = pre ++ rest.

Definition lift {A} (p : list N) (r : option (A * list N)) : outcome (A * cursor) :=
  match r with
  | Some (a, rest) => Ok (a, cur p rest)
  | None => Throw OverflowError
  end.

(** [R] computes [P] on every suffix of [p]. *)
Definition sim {A} (p : list N) (R : cursor -> outcome (A * cursor)) (P : parser A) : Prop :=
  forall rest, suffix rest p -> R (cur p rest) = lift p (P rest).

Lemma suffix_trans a b c : suffix a b -> suffix b c -> suffix a c.
Proof. intros [x ->] [y ->]. exists (y ++ x). now rewrite app_assoc. Qed.

Lemma suffix_refl a : suffix a a.
Proof. now exists []. Qed.

Lemma sim_ret {A} p (a : A) : sim p (fun c => Ok (a, c)) (pret a).
Proof. intros rest _. reflexivity. Qed.

Lemma sim_bind {A B} p (R : cursor -> outcome (A * cursor)) P
      (S : A -> cursor -> outcome (B * cursor)) Q :
  wfp P -> sim p R P -> (forall a, sim p (S a) (Q a)) ->
  sim p (fun c => '(a, c) <- R c ;; S a c) (pbind P Q).
Proof.
  intros HP HR HS rest Hs. rewrite (HR rest Hs). unfold pbind.
  destruct (P rest) as [[a rest']|] eqn:E; [|reflexivity]. simpl. apply HS.
  apply HP in E as (u & -> & _). eapply suffix_trans; [|exact Hs]. now exists u.
Qed.

Lemma nth_error_suffix (pre rest : list N) :
  nth_error (pre ++ rest) (length pre) = hd_error rest.
Proof. rewrite nth_error_app2, Nat.sub_diag by lia. destruct rest; reflexivity. Qed.

Lemma copy_be_sim pre rest n acc : (n <= length rest)%nat ->
  exists v, copy_be (pre ++ rest) (length pre) n acc = Ok v
  /\ pbe n acc rest = Some (v, skipn n rest).
Proof.
  revert pre rest acc. induction n as [|n IH]; intros pre rest acc H.
  - exists acc. split; reflexivity.
  - destruct rest as [|b rest]; [simpl in H; lia|]. simpl in H.
    destruct (IH (pre ++ [b]) rest (acc * 256 + b)) as (v & E1 & E2); [lia|].
    exists v. split; [|exact E2]. simpl. rewrite nth_error_suffix. simpl.
    rewrite <- app_assoc, app_length in E1. simpl in E1. rewrite Nat.add_1_r in E1. exact E1.
Qed.

Lemma pbe_short n acc s : (length s < n)%nat -> pbe n acc s = None.
Proof.
  revert acc s. induction n as [|n IH]; intros acc s H; [lia|].
  destruct s as [|b s]; [reflexivity|]. simpl in *. apply IH. lia.
Qed.

Lemma cur_app pre rest : cur (pre ++ rest) rest = (length pre, length rest).
Proof. unfold cur. rewrite app_length. f_equal. lia. Qed.

Lemma read_sim p n : sim p (read p n) (pbe n 0).
Proof.
  intros rest [pre ->]. rewrite cur_app. unfold read.
  destruct (Nat.ltb_spec (length rest) n) as [H|H].
  - now rewrite pbe_short.
  - destruct (copy_be_sim pre rest n 0 H) as (v & -> & ->). simpl. unfold cur.
    rewrite app_length, skipn_length.
    replace (length pre + length rest - (length rest - n))%nat with (length pre + n)%nat by lia.
    reflexivity.
Qed.

Lemma read_pairs_sim p nb : sim p (read_pairs p nb) (ppairs nb).
Proof.
  induction nb as [|nb IH]; [apply sim_ret|]. cbn [read_pairs ppairs].
  apply (sim_bind p (read p 1) _
           (fun run c => '(value, c) <- read p 2 c ;; '(l, c) <- read_pairs p nb c ;;
                         Ok (repeat value (N.to_nat run) ++ l, c)));
    [apply wfp_be|apply read_sim|intros run].
  apply (sim_bind p (read p 2) _
           (fun value c => '(l, c) <- read_pairs p nb c ;;
                           Ok (repeat value (N.to_nat run) ++ l, c)));
    [apply wfp_be|apply read_sim|intros value].
  apply (sim_bind p (read_pairs p nb) _
           (fun l c => Ok (repeat value (N.to_nat run) ++ l, c)));
    [apply wfp_pairs|apply IH|intros l]. apply sim_ret.
Qed.

Lemma read_ids_sim p : sim p (read_ids p) pids.
Proof.
  unfold read_ids, pids.
  apply (sim_bind p (read p 2) _
    (fun nb c => if nb =? 0 then Ok ([], c) else
       '(first, c) <- read p 4 c ;; '(diffs, c) <- read_pairs p (N.to_nat (nb - 1)) c ;;
       Ok (fold_left (fun s x => sinsert x s) (partial_sum 0 (first :: diffs)) [], c)));
    [apply wfp_be|apply read_sim|intros nb].
  destruct (nb =? 0); [apply sim_ret|].
  apply (sim_bind p (read p 4) _
    (fun first c => '(diffs, c) <- read_pairs p (N.to_nat (nb - 1)) c ;;
       Ok (fold_left (fun s x => sinsert x s) (partial_sum 0 (first :: diffs)) [], c)));
    [apply wfp_be|apply read_sim|intros first].
  apply (sim_bind p (read_pairs p (N.to_nat (nb - 1))) _
    (fun diffs c =>
       Ok (fold_left (fun s x => sinsert x s) (partial_sum 0 (first :: diffs)) [], c)));
    [apply wfp_pairs|apply read_pairs_sim|intros diffs]. apply sim_ret.
Qed.

Lemma skip_sim p n {B} (R : cursor -> outcome (B * cursor)) Q : sim p R Q ->
  sim p (fun c => c <- skip n c ;; R c) (pbind (pskip (N.to_nat n)) (fun _ => Q)).
Proof.
  intros HR rest [pre ->]. rewrite cur_app. unfold skip, pbind, pskip.
  destruct (Nat.ltb_spec (length rest) (N.to_nat n)) as [H|H]; [reflexivity|].
  simpl. rewrite <- HR.
  - f_equal. unfold cur. rewrite app_length, skipn_length.
    replace (length pre + length rest - (length rest - N.to_nat n))%nat
      with (length pre + N.to_nat n)%nat by lia.
    reflexivity.
  - exists (pre ++ firstn (N.to_nat n) rest). now rewrite <- app_assoc, firstn_skipn.
Qed.

(** Result of a reader on a whole packet. *)
Definition result {A B} (p : list N) (f : A -> B) (r : option (A * list N)) : outcome (B * nat) :=
  match r with
  | Some (a, rest) => Ok (f a, (length p - length rest)%nat)
  | None => Throw OverflowError
  end.

Lemma cur_start p : (0%nat, length p) = cur p p.
Proof. unfold cur. now rewrite Nat.sub_diag. Qed.

Lemma lift_result {A B} p (f : A -> B) r :
  ('(a, c) <- lift p r ;; Ok (f a, fst c)) = result p f r.
Proof. destruct r as [[a rest]|]; reflexivity. Qed.

Lemma read_ack_parse m p : assert_type m p TAck = Ok tt ->
  read_ack m p = result p (fun a => a) (pack p).
Proof.
  intros Ha. unfold read_ack. rewrite Ha. change (bind (Ok tt) ?k) with (k tt). cbv beta zeta. rewrite cur_start.
  rewrite <- (lift_result p (fun a => a)).
  assert (S : sim p (fun c => '(_, c) <- read p 1 c ;; '(nb, c) <- read p 2 c ;;
                 '(ids, c) <- read_ids p c ;; Ok ({| a_ids := ids; a_nb := nb |}, c)) pack).
  { unfold pack.
    apply (sim_bind p (read p 1) _ (fun _ c => '(nb, c) <- read p 2 c ;;
                 '(ids, c) <- read_ids p c ;; Ok ({| a_ids := ids; a_nb := nb |}, c)));
      [apply wfp_be|apply read_sim|intros ?].
    apply (sim_bind p (read p 2) _ (fun nb c =>
                 '(ids, c) <- read_ids p c ;; Ok ({| a_ids := ids; a_nb := nb |}, c)));
      [apply wfp_be|apply read_sim|intros nb].
    apply (sim_bind p (read_ids p) _ (fun ids c => Ok ({| a_ids := ids; a_nb := nb |}, c)));
      [apply wfp_ids|apply read_ids_sim|intros ids]. apply sim_ret. }
  rewrite <- (S p (suffix_refl p)).
  destruct (read p 1 (cur p p)) as [[? ?]| |]; try reflexivity. simpl.
  destruct (read p 2 c) as [[? ?]| |]; try reflexivity. simpl.
  destruct (read_ids p c0) as [[? ?]| |]; reflexivity.
Qed.

Definition mk_repair_of (p : list N) (x : N * N * list N * N) : drepair :=
  let '(id, size, ids, enc) := x in
  {| dr_id := id; dr_ids := ids; dr_enc := enc; dr_buf := skipn 7 p; dr_size := size |}.

Definition mk_source_of (p : list N) (x : N * N) : dsource :=
  {| ds_id := fst x; ds_buf := skipn 7 p; ds_size := snd x |}.

Lemma read_repair_parse m p : assert_type m p TRepair = Ok tt ->
  read_repair m p = result p (mk_repair_of p) (prepair p).
Proof.
  intros Ha. unfold read_repair. rewrite Ha. change (bind (Ok tt) ?k) with (k tt). cbv beta zeta. rewrite cur_start.
  rewrite <- (lift_result p (mk_repair_of p)).
  assert (S : sim p (fun c => '(_, c) <- read p 1 c ;; '(id, c) <- read p 4 c ;;
                 '(size, c) <- read p 2 c ;; c <- skip size c ;; '(ids, c) <- read_ids p c ;;
                 '(enc, c) <- read p 2 c ;; Ok ((id, size, ids, enc), c)) prepair).
  { unfold prepair.
    apply (sim_bind p (read p 1) _ (fun _ c => '(id, c) <- read p 4 c ;;
                 '(size, c) <- read p 2 c ;; c <- skip size c ;; '(ids, c) <- read_ids p c ;;
                 '(enc, c) <- read p 2 c ;; Ok ((id, size, ids, enc), c)));
      [apply wfp_be|apply read_sim|intros ?].
    apply (sim_bind p (read p 4) _ (fun id c =>
                 '(size, c) <- read p 2 c ;; c <- skip size c ;; '(ids, c) <- read_ids p c ;;
                 '(enc, c) <- read p 2 c ;; Ok ((id, size, ids, enc), c)));
      [apply wfp_be|apply read_sim|intros id].
    apply (sim_bind p (read p 2) _ (fun size c => c <- skip size c ;; '(ids, c) <- read_ids p c ;;
                 '(enc, c) <- read p 2 c ;; Ok ((id, size, ids, enc), c)));
      [apply wfp_be|apply read_sim|intros size].
    apply (skip_sim p size (fun c => '(ids, c) <- read_ids p c ;;
                 '(enc, c) <- read p 2 c ;; Ok ((id, size, ids, enc), c))).
    apply (sim_bind p (read_ids p) _ (fun ids c =>
                 '(enc, c) <- read p 2 c ;; Ok ((id, size, ids, enc), c)));
      [apply wfp_ids|apply read_ids_sim|intros ids].
    apply (sim_bind p (read p 2) _ (fun enc c => Ok ((id, size, ids, enc), c)));
      [apply wfp_be|apply read_sim|intros enc].
    apply sim_ret. }
  rewrite <- (S p (suffix_refl p)).
  destruct (read p 1 (cur p p)) as [[? c1]| |]; try reflexivity. simpl.
  destruct (read p 4 c1) as [[id c2]| |]; try reflexivity. simpl.
  destruct (read p 2 c2) as [[size c3]| |]; try reflexivity. simpl.
  destruct (skip size c3) as [c4| |]; try reflexivity. simpl.
  destruct (read_ids p c4) as [[ids c5]| |]; try reflexivity. simpl.
  destruct (read p 2 c5) as [[enc c6]| |]; reflexivity.
Qed.

Lemma read_source_parse m p : assert_type m p TSource = Ok tt ->
  read_source m p = result p (mk_source_of p) (psource p).
Proof.
  intros Ha. unfold read_source. rewrite Ha. change (bind (Ok tt) ?k) with (k tt). cbv beta zeta. rewrite cur_start.
  rewrite <- (lift_result p (mk_source_of p)).
  assert (S : sim p (fun c => '(_, c) <- read p 1 c ;; '(id, c) <- read p 4 c ;;
                 '(size, c) <- read p 2 c ;; c <- skip size c ;; Ok ((id, size), c)) psource).
  { unfold psource.
    apply (sim_bind p (read p 1) _ (fun _ c => '(id, c) <- read p 4 c ;;
                 '(size, c) <- read p 2 c ;; c <- skip size c ;; Ok ((id, size), c)));
      [apply wfp_be|apply read_sim|intros ?].
    apply (sim_bind p (read p 4) _ (fun id c =>
                 '(size, c) <- read p 2 c ;; c <- skip size c ;; Ok ((id, size), c)));
      [apply wfp_be|apply read_sim|intros id].
    apply (sim_bind p (read p 2) _ (fun size c => c <- skip size c ;; Ok ((id, size), c)));
      [apply wfp_be|apply read_sim|intros size].
    apply (skip_sim p size (fun c => Ok ((id, size), c))).
    apply sim_ret. }
  rewrite <- (S p (suffix_refl p)).
  destruct (read p 1 (cur p p)) as [[? c1]| |]; try reflexivity. simpl.
  destruct (read p 4 c1) as [[id c2]| |]; try reflexivity. simpl.
  destruct (read p 2 c2) as [[size c3]| |]; try reflexivity. simpl.
  destruct (skip size c3) as [c4| |]; reflexivity.
Qed.

(** The reported number of bytes is what the parser consumed. *)
Lemma result_ok {A B} p (f : A -> B) (P : parser A) b n : wfp P ->
  result p f (P p) = Ok (b, n) ->
  exists a used rest, P p = Some (a, rest) /\ b = f a /\ p = used ++ rest /\ n = length used
  /\ (forall t, P (used ++ t) = Some (a, t))
  /\ (forall q r, used = q ++ r -> r <> [] -> P q = None).
Proof.
  intros HP H. destruct (P p) as [[a rest]|] eqn:E; [|discriminate]. simpl in H.
  injection H as <- <-. destruct (HP _ _ _ E) as (used & -> & E1 & E2).
  exists a, used, rest. repeat split; try assumption. rewrite app_length. lia.
Qed.

(** ** Round trips *)

Lemma pbe_app n acc l t : length l = n ->
  pbe n acc (l ++ t) = Some (fold_left (fun a b => a * 256 + b) l acc, t).
Proof.
  revert acc l. induction n as [|n IH]; intros acc l H.
  - destruct l; [reflexivity|discriminate].
  - destruct l as [|b l]; [discriminate|]. simpl. apply IH. simpl in H. congruence.
Qed.

Lemma be_length n x : length (be n x) = n.
Proof. revert x. induction n as [|n IH]; intros x; [reflexivity|]. simpl. rewrite app_length, IH. simpl. lia. Qed.

Lemma be_bytes n x : bytes (be n x).
Proof.
  revert x. induction n as [|n IH]; intros x; [constructor|]. simpl. apply bytes_app; [apply IH|].
  constructor; [|constructor]. apply N.mod_lt. discriminate.
Qed.

Lemma be_value n x acc :
  fold_left (fun a b => a * 256 + b) (be n x) acc
  = acc * 256 ^ N.of_nat n + x mod 256 ^ N.of_nat n.
Proof.
  revert x. induction n as [|n IH]; intros x.
  - simpl. rewrite N.mod_1_r. lia.
  - simpl be. rewrite fold_left_app, IH. cbn [fold_left].
    rewrite Nat2N.inj_succ, N.pow_succ_r'.
    rewrite (N.mod_mul_r x 256 (256 ^ N.of_nat n)) by (try apply N.pow_nonzero; discriminate).
    lia.
Qed.

Lemma pbe_be n x t : pbe n 0 (be n x ++ t) = Some (x mod 256 ^ N.of_nat n, t).
Proof. rewrite pbe_app by apply be_length. now rewrite be_value. Qed.

Definition run_ok (rv : N * N) : Prop := 0 < fst rv < 256 /\ snd rv < 65536.

Definition expand (rv : N * N) : list N := repeat (snd rv) (N.to_nat (fst rv)).

Lemma ppairs_write pairs t : Forall run_ok pairs ->
  ppairs (length pairs)
    (concat (flat_map (fun rv => [be 1 (fst rv); be 2 (snd rv)]) pairs) ++ t)
  = Some (flat_map expand pairs, t).
Proof.
  intros H. induction H as [|[r v] pairs [Hr Hv] H IH]; [reflexivity|].
  cbn [length ppairs flat_map concat fst snd app]. unfold pbind.
  change (concat (be 1 r :: be 2 v :: flat_map (fun rv => [be 1 (fst rv); be 2 (snd rv)]) pairs))
    with (be 1 r ++ be 2 v ++ concat (flat_map (fun rv => [be 1 (fst rv); be 2 (snd rv)]) pairs)).
  rewrite <- !app_assoc, pbe_be, pbe_be, IH.
  change (256 ^ N.of_nat 1) with 256. change (256 ^ N.of_nat 2) with 65536.
  simpl in Hr, Hv. rewrite !N.mod_small by lia. reflexivity.
Qed.

Lemma rle_from_ok d run l : 0 < run < 256 -> Forall run_ok (rle_from d run l).
Proof.
  revert d run. induction l as [|d' l IH]; intros d run H; simpl.
  - constructor; [|constructor]. split; [assumption|]. apply N.mod_lt. discriminate.
  - destruct (N.eqb_spec d d'), (N.ltb_spec run 255); simpl;
      try (constructor; [split; [assumption|apply N.mod_lt; discriminate]|]); apply IH; lia.
Qed.

Lemma rle_ok l : Forall run_ok (rle l).
Proof. destruct l; [constructor|]. apply rle_from_ok. lia. Qed.

Lemma expand_rle_from d run l :
  flat_map expand (rle_from d run l) = repeat (u16 d) (N.to_nat run) ++ map u16 l.
Proof.
  revert d run. induction l as [|d' l IH]; intros d run; simpl.
  - reflexivity.
  - destruct (N.eqb_spec d d') as [<-|]; simpl andb; [|simpl; now rewrite IH].
    destruct (run <? 255); simpl; rewrite IH; [|reflexivity].
    replace (N.to_nat (run + 1)) with (S (N.to_nat run)) by lia.
    cbn [repeat]. rewrite repeat_cons, <- app_assoc. reflexivity.
Qed.

Lemma expand_rle l : flat_map expand (rle l) = map u16 l.
Proof. destruct l; [reflexivity|]. simpl. now rewrite expand_rle_from. Qed.

(** What comes out of a list of ids sent on the wire. *)
Definition wire_ids (ids : list N) : list N :=
  match ids with
  | [] => []
  | x :: l => set_of (partial_sum 0 (u32 x :: map u16 (differences x l)))
  end.

Definition npairs (ids : list N) : nat :=
  match ids with
  | [] => O
  | x :: l => length (rle (differences x l))
  end.

Lemma concat_write_ids x l :
  concat (write_ids (x :: l)) =
  be 2 (N.of_nat (npairs (x :: l)) + 1) ++ be 4 x
    ++ concat (flat_map (fun rv => [be 1 (fst rv); be 2 (snd rv)]) (rle (differences x l))).
Proof. reflexivity. Qed.

Lemma pids_write ids t : N.of_nat (npairs ids) < 65535 ->
  pids (concat (write_ids ids) ++ t) = Some (wire_ids ids, t).
Proof.
  intros H. destruct ids as [|x l]; [reflexivity|].
  rewrite concat_write_ids. unfold pids, pbind. rewrite <- !app_assoc, pbe_be.
  change (256 ^ N.of_nat 2) with 65536.
  rewrite N.mod_small by lia.
  destruct (N.eqb_spec (N.of_nat (npairs (x :: l)) + 1) 0); [lia|].
  rewrite pbe_be. change (256 ^ N.of_nat 4) with 4294967296.
  replace (N.to_nat (N.of_nat (npairs (x :: l)) + 1 - 1)) with (length (rle (differences x l)))
    by (unfold npairs; lia).
  rewrite ppairs_write by apply rle_ok. unfold pret. now rewrite expand_rle.
Qed.

(** Lists that survive. *)
Definition ids32 (l : list N) : Prop := Forall (fun x => x < 4294967296) l.

Fixpoint gaps_ok (prev : N) (l : list N) : Prop :=
  match l with
  | [] => True
  | x :: l' => x - prev < 65536 /\ gaps_ok x l'
  end.

Lemma diff_sorted prev x : prev <= x -> x < 4294967296 ->
  u32 (x + (4294967296 - prev)) = x - prev.
Proof.
  intros H1 H2. unfold u32.
  replace (x + (4294967296 - prev)) with ((x - prev) + 1 * 4294967296) by lia.
  rewrite N.mod_add by discriminate. apply N.mod_small. lia.
Qed.

Lemma partial_sum_wire prev l : ssorted (prev :: l) -> ids32 l -> gaps_ok prev l ->
  partial_sum prev (map u16 (differences prev l)) = l.
Proof.
  revert prev. induction l as [|x l IH]; intros prev Hs H32 Hg; [reflexivity|].
  cbn [differences map partial_sum]. destruct Hg as [Hg1 Hg2].
  apply ssorted_cons_inv in Hs as [Hs1 Hs2]. inversion H32; subst.
  assert (prev < x) by (apply Hs2; now left).
  rewrite diff_sorted by lia. unfold u16 at 1 2. rewrite (N.mod_small (x - prev)) by assumption.
  assert (E : u32 (prev + (x - prev)) = x).
  { unfold u32. rewrite N.mod_small; lia. }
  rewrite E. f_equal. now apply IH.
Qed.

Lemma set_of_sorted_aux l acc : ssorted (acc ++ l) ->
  fold_left (fun s x => sinsert x s) l acc = acc ++ l.
Proof.
  revert acc. induction l as [|x l IH]; intros acc H; simpl; [now rewrite app_nil_r|].
  rewrite sinsert_last.
  - rewrite IH; rewrite <- app_assoc; [reflexivity|assumption].
  - intros y Hy. apply ssorted_app_inv in H as (_ & _ & H). apply H; [assumption|now left].
Qed.

Lemma set_of_sorted l : ssorted l -> set_of l = l.
Proof. intros H. unfold set_of. now rewrite set_of_sorted_aux. Qed.

Lemma set_of_in l x : In x (set_of l) <-> In x l.
Proof.
  unfold set_of. assert (G : forall acc, In x (fold_left (fun s y => sinsert y s) l acc)
                                         <-> In x acc \/ In x l).
  { induction l as [|y l IH]; intros acc; simpl; [tauto|].
    rewrite IH, sinsert_in. intuition congruence. }
  rewrite G. simpl. tauto.
Qed.

Lemma set_of_is_sorted l : ssorted (set_of l).
Proof.
  unfold set_of. assert (G : forall acc, ssorted acc -> ssorted (fold_left (fun s y => sinsert y s) l acc)).
  { induction l as [|y l IH]; intros acc H; simpl; auto using sinsert_sorted. }
  apply G, ssorted_nil.
Qed.

Lemma wire_ids_ok ids : ssorted ids -> ids32 ids ->
  (forall x l, ids = x :: l -> gaps_ok x l) -> wire_ids ids = ids.
Proof.
  intros Hs H32 Hg. destruct ids as [|x l]; [reflexivity|]. unfold wire_ids.
  inversion H32; subst.
  assert (E : partial_sum 0 (u32 x :: map u16 (differences x l)) = x :: l).
  { cbn [partial_sum]. rewrite N.add_0_l.
    assert (E : u32 (u32 x) = x) by (unfold u32; rewrite !N.mod_small; rewrite ?N.mod_small; lia).
    rewrite E. f_equal. apply partial_sum_wire; try assumption. now apply Hg. }
  rewrite E. now apply set_of_sorted.
Qed.

(** The sum of truncated differences stays below a list with a large gap. *)
Lemma partial_sum_le prev prev' l : ssorted (prev :: l) -> ids32 l -> prev' <= prev ->
  forall y, In y (partial_sum prev' (map u16 (differences prev l))) -> y <= last l prev.
Proof.
  revert prev prev'. induction l as [|x l IH]; intros prev prev' Hs H32 Hp y Hy; [destruct Hy|].
  cbn [differences map partial_sum] in Hy. apply ssorted_cons_inv in Hs as [Hs1 Hs2].
  inversion H32; subst. assert (prev < x) by (apply Hs2; now left).
  rewrite diff_sorted in Hy by lia.
  assert (Hu : u16 (x - prev) <= x - prev) by (unfold u16; apply N.mod_le; discriminate).
  assert (E : u32 (prev' + u16 (x - prev)) = prev' + u16 (x - prev))
    by (unfold u32; apply N.mod_small; lia).
  rewrite E in Hy.
  assert (Hl : x <= last l x).
  { destruct l as [|z l]; [reflexivity|]. apply N.lt_le_incl.
    apply ssorted_cons_inv in Hs1 as [_ Hs1]. apply Hs1.
    clear. revert z. induction l as [|w l IHl]; intros z; [now left|right; apply (IHl w)]. }
  replace (last (x :: l) prev) with (last l x).
  - destruct Hy as [<-|Hy]; [lia|]. apply (IH x (prev' + u16 (x - prev))); auto. lia.
  - destruct l as [|z l]; [reflexivity|]. clear. revert z. 
    induction l as [|w l IHl]; intros z; [reflexivity|]. apply (IHl w).
Qed.

Lemma last_cons_default (x p : N) l : last (x :: l) p = last l x.
Proof.
  revert x p. induction l as [|z l IH]; intros x p; [reflexivity|].
  transitivity (last (z :: l) p); [reflexivity|]. now rewrite !IH.
Qed.

Lemma partial_sum_lt prev prev' l : ssorted (prev :: l) -> ids32 l -> prev' <= prev ->
  (prev' < prev \/ ~ gaps_ok prev l) ->
  forall y, In y (partial_sum prev' (map u16 (differences prev l))) -> l <> [] ->
  y < last l prev.
Proof.
  revert prev prev'. induction l as [|x l IH]; intros prev prev' Hs H32 Hp Hg y Hy Hne; [congruence|].
  cbn [differences map partial_sum] in Hy. pose proof Hs as Hs0.
  apply ssorted_cons_inv in Hs as [Hs1 Hs2].
  inversion H32; subst. assert (prev < x) by (apply Hs2; now left).
  rewrite diff_sorted in Hy by lia.
  assert (Hu : u16 (x - prev) <= x - prev) by (unfold u16; apply N.mod_le; discriminate).
  assert (E : u32 (prev' + u16 (x - prev)) = prev' + u16 (x - prev))
    by (unfold u32; apply N.mod_small; lia).
  rewrite E in Hy. rewrite last_cons_default.
  assert (Hx : prev' + u16 (x - prev) < x \/ (prev' + u16 (x - prev) <= x /\ ~ gaps_ok x l)).
  { destruct Hg as [Hg|Hg]; [left; lia|].
    destruct (N.lt_ge_cases (x - prev) 65536) as [Hd|Hd].
    - right. split; [lia|]. intros Hg'. apply Hg. now split.
    - left. assert (u16 (x - prev) < 65536) by (apply N.mod_lt; discriminate). lia. }
  destruct l as [|z l].
  - cbn [map partial_sum differences] in Hy. destruct Hy as [<-|[]].
    destruct Hx as [Hx|[_ Hx]]; [exact Hx|]. exfalso. apply Hx. exact I.
  - assert (Hlast : x < last (z :: l) x).
    { apply ssorted_cons_inv in Hs1 as [_ Hs1]. apply Hs1.
      clear. revert z. induction l as [|w l IHl]; intros z; [now left|right; apply (IHl w)]. }
    destruct Hy as [<-|Hy]; [destruct Hx as [Hx|[Hx _]]; lia|].
    apply (IH x (prev' + u16 (x - prev))); try assumption; try discriminate.
    + destruct Hx as [Hx|[Hx _]]; lia.
    + destruct Hx as [Hx|[_ Hx]]; auto.
Qed.

(** A list with a large gap does not survive: its last id is lost. *)
Lemma wire_ids_bad x l : ssorted (x :: l) -> ids32 (x :: l) -> ~ gaps_ok x l ->
  ~ In (last l x) (wire_ids (x :: l)).
Proof.
  intros Hs H32 Hg Hin. unfold wire_ids in Hin. apply (proj1 (set_of_in _ _)) in Hin.
  inversion H32; subst. cbn [partial_sum] in Hin. rewrite N.add_0_l in Hin.
  assert (E : u32 (u32 x) = x) by (unfold u32; rewrite !N.mod_small; rewrite ?N.mod_small; lia).
  rewrite E in Hin.
  assert (Hne : l <> []) by (intros ->; apply Hg; exact I).
  assert (Hlast : x < last l x).
  { apply ssorted_cons_inv in Hs as [_ Hs]. apply Hs. destruct l as [|z l]; [congruence|].
    clear. revert z. induction l as [|w l IHl]; intros z; [now left|right; apply (IHl w)]. }
  destruct Hin as [Hin|Hin]; [lia|].
  apply (partial_sum_lt x x l) in Hin; auto; lia.
Qed.

(** ** Parsed ids *)

Lemma partial_sum_32 acc l : Forall (fun y => y < 4294967296) (partial_sum acc l).
Proof.
  revert acc. induction l as [|d l IH]; intros acc; cbn [partial_sum]; constructor; auto.
  apply N.mod_lt. discriminate.
Qed.

Lemma pids_wf s ids rest : pids s = Some (ids, rest) -> ssorted ids /\ ids32 ids.
Proof.
  unfold pids, pbind. destruct (pbe 2 0 s) as [[nb s1]|]; [|discriminate].
  destruct (nb =? 0).
  - intros H. injection H as <- _. split; constructor.
  - destruct (pbe 4 0 s1) as [[first s2]|]; [|discriminate].
    destruct (ppairs _ s2) as [[diffs s3]|]; [|discriminate].
    intros H. injection H as <- _. split; [apply set_of_is_sorted|].
    apply Forall_forall. intros y Hy. apply (proj1 (set_of_in _ _)) in Hy.
    pose proof (partial_sum_32 0 (first :: diffs)) as H. rewrite Forall_forall in H. now apply H.
Qed.

(** ** Cost *)

Lemma concat_pairs_length (pairs : list (N * N)) :
  length (concat (flat_map (fun rv => [be 1 (fst rv); be 2 (snd rv)]) pairs))
  = (3 * length pairs)%nat.
Proof.
  induction pairs as [|rv pairs IH]; [reflexivity|].
  cbn [flat_map concat app length]. rewrite !app_length, !be_length, IH. lia.
Qed.

Lemma write_ids_length x l : length (concat (write_ids (x :: l))) = (6 + 3 * npairs (x :: l))%nat.
Proof.
  rewrite concat_write_ids, !app_length, !be_length, concat_pairs_length. reflexivity.
Qed.

Lemma rle_from_le d run l : (1 <= length (rle_from d run l) <= S (length l))%nat.
Proof.
  revert d run. induction l as [|d' l IH]; intros d run; simpl; [lia|].
  destruct (_ && _); simpl; [specialize (IH d' (run + 1))|specialize (IH d' 1)]; lia.
Qed.

Lemma differences_length x l : length (differences x l) = length l.
Proof. revert x. induction l as [|y l IH]; intros x; simpl; [reflexivity|]. now rewrite IH. Qed.

Lemma npairs_le x l : (npairs (x :: l) <= length l)%nat.
Proof.
  unfold npairs. rewrite <- (differences_length x l). destruct (differences x l) as [|d m]; [reflexivity|].
  apply (rle_from_le d 1 m).
Qed.

Lemma rle_from_const run k : 1 <= run <= 255 ->
  N.of_nat (length (rle_from 1 run (repeat 1 k))) = (run + N.of_nat k + 254) / 255.
Proof.
  revert run. induction k as [|k IH]; intros run H.
  - cbn [repeat rle_from length].
    change (N.of_nat 1) with 1. change (N.of_nat 0) with 0.
    apply N.div_unique with (run + 0 + 254 - 255); lia.
  - cbn [repeat rle_from]. rewrite N.eqb_refl. simpl andb.
    destruct (N.ltb_spec run 255).
    + rewrite IH by lia. f_equal. lia.
    + cbn [length]. rewrite Nat2N.inj_succ, IH by lia.
      replace run with 255 by lia.
      replace (255 + N.of_nat (S k) + 254) with ((1 + N.of_nat k + 254) + 1 * 255) by lia.
      rewrite N.div_add by discriminate. lia.
Qed.

Lemma differences_consecutive x n : x + N.of_nat n < 4294967296 ->
  differences x (map (fun i => x + N.of_nat i) (seq 1 n)) = repeat 1 n.
Proof.
  revert x. induction n as [|n IH]; intros x H; [reflexivity|].
  cbn [seq map differences repeat]. f_equal.
  - change (N.of_nat 1) with 1. rewrite diff_sorted by lia. lia.
  - rewrite <- (IH (x + N.of_nat 1)) by lia. f_equal.
    rewrite <- seq_shift, map_map. apply map_ext. intros i. lia.
Qed.
