(** * Programs with several objects of the C interface

    C88: which calls may follow which, and independence of objects that no call brings together. *)
From Coq Require Import ZArith NArith List Bool Lia Arith.
From Verif Require Import Outcome GF Packetizer Packet Encoder EncoderRun DetailDecoder Decoder DecoderOuter CApi CSession CObjects PropsCSession.
Import ListNotations.
Open Scope N_scope.

(** ** Specification *)

Definition all_kinds : list kind := [KEncoder; KDecoder; KData; KPacket; KError].

Definition takes_part (o : cop) (k : kind) : bool := match role_of o k with Unused => false | _ => true end.

(** The variables named by a call. *)
Definition names (c : ccall) : list nat :=
  match c with
  | MakeEncoder x _ | MakeDecoder x _ _ _ | MakeError x _ _ | Delete _ x => [x]
  | Call o v => map (arg v) (filter (takes_part o) all_kinds)
  end.

(** The kinds of the living objects, and whether a call respects them. *)
Definition kinds := nat -> option kind.

Definition allowed (kd : kinds) (c : ccall) : Prop :=
  match c with
  | Delete k x => kd x = Some k
  | Call o v => forall k, role_of o k = Used -> kd (arg v k) = Some k
  | _ => True
  end.

Definition set_kind (kd : kinds) (x : nat) (k : option kind) : kinds := fun y => if Nat.eqb y x then k else kd y.

Definition after (kd : kinds) (c : ccall) : kinds :=
  match c with
  | MakeEncoder x _ => set_kind kd x (Some KEncoder)
  | MakeDecoder x _ _ _ => set_kind kd x (Some KDecoder)
  | MakeError x _ _ => set_kind kd x (Some KError)
  | Delete _ x => set_kind kd x None
  | Call (NewData _) v | Call (NewDataFrom _) v => set_kind kd (a_data v) (Some KData)
  | Call (NewPacket _) v | Call (NewPacketFrom _) v => set_kind kd (a_packet v) (Some KPacket)
  | Call _ _ => kd
  end.

(** Each call has living objects of the right kind. *)
Fixpoint scoped (kd : kinds) (l : list ccall) : Prop :=
  match l with
  | [] => True
  | c :: l' => allowed kd c /\ scoped (after kd c) l'
  end.

Definition no_kinds : kinds := fun _ => None.

(** ** Locality *)

Lemma fetch_local r k v1 v2 b : (r <> Unused -> v1 = v2) -> fetch r k v1 b = fetch r k v2 b.
Proof. intros H. destruct r; cbn [fetch]; try reflexivity. rewrite H by discriminate. reflexivity. Qed.

Lemma named o v k : role_of o k <> Unused -> In (arg v k) (names (Call o v)).
Proof.
  intros H. cbn [names]. apply in_map. apply filter_In. split; [destruct k; cbn; auto 6|].
  unfold takes_part. destruct (role_of o k); [now destruct H|reflexivity|reflexivity].
Qed.

Lemma load_local o v st1 st2 : (forall x, In x (names (Call o v)) -> st1 x = st2 x) -> load o v st1 = load o v st2.
Proof.
  intros H. unfold load. cbv zeta.
  assert (F : forall k, fetch (role_of o k) k (st1 (arg v k)) (default k) = fetch (role_of o k) k (st2 (arg v k)) (default k)).
  { intros k. apply fetch_local. intros R. apply H, named, R. }
  rewrite !F. reflexivity.
Qed.

Lemma put_same r y b st1 st2 x : st1 x = st2 x -> put r y b st1 x = put r y b st2 x.
Proof. intros H. destruct r; cbn [put]; unfold update; try destruct (Nat.eqb x y); auto. Qed.

Lemma save_same o v clk s st1 st2 x : st1 x = st2 x -> save o v clk s st1 x = save o v clk s st2 x.
Proof. intros H. unfold save. repeat apply put_same. exact H. Qed.

Lemma put_other r y b st x : (r <> Unused -> x <> y) -> put r y b st x = st x.
Proof.
  intros H. destruct r; cbn [put]; unfold update; try reflexivity;
    (destruct (Nat.eqb_spec x y) as [E|E]; [destruct H; [discriminate|exact E]|reflexivity]).
Qed.

Lemma save_other o v clk s st x : ~ In x (names (Call o v)) -> save o v clk s st x = st x.
Proof.
  intros H. assert (K : forall k, role_of o k <> Unused -> x <> arg v k).
  { intros k R ->. apply H, named, R. }
  unfold save. rewrite !put_other; try reflexivity.
  - exact (K KError).
  - exact (K KPacket).
  - exact (K KData).
  - exact (K KDecoder).
  - exact (K KEncoder).
Qed.

(** A call depends on, and changes, the variables it names. *)
Lemma ostep_local m junk st1 st2 c : (forall x, In x (names c) -> st1 x = st2 x) ->
  match ostep m junk st1 c, ostep m junk st2 c with
  | Back (s1, n1), Back (s2, n2) => n1 = n2 /\ (forall x, st1 x = st2 x -> s1 x = s2 x)
  | Dangling, Dangling => True
  | Escaped a, Escaped b => a = b
  | Inside a, Inside b => a = b
  | _, _ => False
  end.
Proof.
  intros H. destruct c as [x f|x clk f o|x e h|k x|o v]; cbn [ostep].
  1-3: split; [reflexivity|]; intros y Hy; unfold update; destruct (Nat.eqb y x); auto.
  - rewrite (H x (or_introl eq_refl)). destruct (st2 x) as [| |b]; try exact I.
    destruct (kind_eqb (kind_of b) k); [|exact I]. split; [reflexivity|].
    intros y Hy; unfold update; destruct (Nat.eqb y x); auto.
  - rewrite (load_local o v st1 st2 H). destruct (load o v st2) as [[clk s]| |e|e]; cbn [chain]; auto.
    destruct (cstep m clk junk s o) as [s'|e|e]; cbn [lift chain]; auto.
    split; [reflexivity|]. intros y. apply save_same.
Qed.

Lemma ostep_other m junk st c st' n x : ostep m junk st c = Back (st', n) -> ~ In x (names c) -> st' x = st x.
Proof.
  intros E H. destruct c as [y f|y clk f o|y e h|k y|o v]; cbn [ostep] in E.
  1-3: injection E as <- _; unfold update; destruct (Nat.eqb_spec x y) as [->|_]; [destruct H; now left|reflexivity].
  - destruct (st y) as [| |b]; try discriminate. destruct (kind_eqb (kind_of b) k); [|discriminate]. injection E as <- _.
    unfold update. destruct (Nat.eqb_spec x y) as [->|_]; [destruct H; now left|reflexivity].
  - destruct (load o v st) as [[clk s]| |e|e]; try discriminate. cbn [chain] in E.
    destruct (cstep m clk junk s o) as [s'|e|e]; try discriminate. cbn [lift chain] in E. injection E as <- _.
    now apply save_other.
Qed.

(** ** C88: independence *)

(** Each variable belongs to a group (say, a connection), and no call names variables of two groups. *)
Definition in_group (g : nat -> nat) (i : nat) (c : ccall) : bool := existsb (fun x => Nat.eqb (g x) i) (names c).
Definition one_group (g : nat -> nat) (c : ccall) : Prop := exists i, forall x, In x (names c) -> g x = i.

Definition part (g : nat -> nat) (i : nat) (l : list (memory * ccall)) : list (memory * ccall) :=
  filter (fun jc => in_group g i (snd jc)) l.

Lemma names_some c : names c <> [].
Proof. destruct c as [x f|x clk f o|x e h|k x|o v]; try discriminate. destruct o; discriminate. Qed.

Lemma in_group_spec g c i : (forall x, In x (names c) -> g x = i) -> forall j, in_group g j c = Nat.eqb i j.
Proof.
  intros H j. unfold in_group. pose proof (names_some c) as Ne. destruct (Nat.eqb_spec i j) as [->|E].
  - apply existsb_exists. destruct (names c) as [|x l]; [now destruct Ne|]. exists x. split; [now left|].
    apply Nat.eqb_eq. apply H. now left.
  - destruct (existsb (fun x => Nat.eqb (g x) j) (names c)) eqn:X; [|reflexivity]. exfalso.
    apply existsb_exists in X as (x & Hx & X). apply Nat.eqb_eq in X. apply E. rewrite <- (H x Hx). exact X.
Qed.

Lemma orun_part m g l : Forall (one_group g) (map snd l) -> forall st,
  match orun m st l with
  | Back (st', rs) => forall i st2, (forall x, g x = i -> st2 x = st x) ->
      exists st2', orun m st2 (part g i l) = Back (st2', filter (fun r => in_group g i (fst r)) rs)
      /\ forall x, g x = i -> st2' x = st' x
  | Dangling => exists i, forall st2, (forall x, g x = i -> st2 x = st x) -> orun m st2 (part g i l) = Dangling
  | Escaped e => exists i, forall st2, (forall x, g x = i -> st2 x = st x) -> orun m st2 (part g i l) = Escaped e
  | Inside e => exists i, forall st2, (forall x, g x = i -> st2 x = st x) -> orun m st2 (part g i l) = Inside e
  end.
Proof.
  induction l as [|[junk c] l IH]; intros F st.
  - cbn [orun]. intros i st2 H. exists st2. split; [reflexivity|]. exact H.
  - cbn [map snd] in F. apply Forall_cons_iff in F as ((i0 & Hi) & F). specialize (IH F).
    pose proof (in_group_spec g c i0 Hi) as G. cbn [orun].
    (* what the parts see of the first call *)
    assert (Other : forall st1 n, ostep m junk st c = Back (st1, n) -> forall i st2, i <> i0 ->
      (forall x, g x = i -> st2 x = st x) -> forall x, g x = i -> st2 x = st1 x).
    { intros st1 n E i st2 Ni H x Hx. rewrite (H x Hx). symmetry. eapply ostep_other; [exact E|].
      intros K. apply Ni. rewrite <- Hx. apply Hi, K. }
    assert (Own : forall st2, (forall x, g x = i0 -> st2 x = st x) -> forall x, In x (names c) -> st x = st2 x).
    { intros st2 H x Hx. symmetry. apply H, Hi, Hx. }
    assert (Pc : forall i, part g i ((junk, c) :: l) = if Nat.eqb i0 i then (junk, c) :: part g i l else part g i l).
    { intros i. unfold part. cbn [filter snd]. rewrite G. reflexivity. }
    destruct (ostep m junk st c) as [[st1 n]| |e|e] eqn:E; cbn [chain].
    + assert (Lift : forall (R : ending (store * list (ccall * N))) i,
        (forall st2, (forall x, g x = i -> st2 x = st1 x) -> orun m st2 (part g i l) = R) ->
        forall st2, (forall x, g x = i -> st2 x = st x) ->
        orun m st2 (part g i ((junk, c) :: l)) = if Nat.eqb i0 i then chain R (fun '(s, rs) => Back (s, (c, n) :: rs)) else R).
      { intros R i HR st2 H2. rewrite Pc. destruct (Nat.eqb_spec i0 i) as [<-|Ni].
        - cbn [orun]. pose proof (ostep_local m junk st st2 c (Own st2 H2)) as L. rewrite E in L.
          destruct (ostep m junk st2 c) as [[st3 n']| |e|e]; try contradiction. destruct L as (<- & L). cbn [chain].
          rewrite HR; [reflexivity|]. intros x Hx. symmetry. apply L. symmetry. apply H2, Hx.
        - apply HR. eapply Other; [exact eq_refl| |exact H2]. auto. }
      specialize (IH st1). destruct (orun m st1 l) as [[st' rs]| |e|e]; cbn [chain].
      * intros i st2 H2. rewrite Pc. cbn [filter fst]. rewrite G. destruct (Nat.eqb_spec i0 i) as [<-|Ni].
        -- cbn [orun]. pose proof (ostep_local m junk st st2 c (Own st2 H2)) as L. rewrite E in L.
           destruct (ostep m junk st2 c) as [[st3 n']| |e|e]; try contradiction. destruct L as (<- & L). cbn [chain].
           destruct (IH i0 st3) as (st4 & R & A).
           { intros x Hx. symmetry. apply L. symmetry. apply H2, Hx. }
           rewrite R. cbn [chain]. exists st4. split; [reflexivity|exact A].
        -- apply IH. eapply Other; [exact eq_refl| |exact H2]. auto.
      * destruct IH as (i & IH). exists i. intros st2 H2. rewrite (Lift _ i IH st2 H2). now destruct (Nat.eqb i0 i).
      * destruct IH as (i & IH). exists i. intros st2 H2. rewrite (Lift _ i IH st2 H2). now destruct (Nat.eqb i0 i).
      * destruct IH as (i & IH). exists i. intros st2 H2. rewrite (Lift _ i IH st2 H2). now destruct (Nat.eqb i0 i).
    + exists i0. intros st2 H2. rewrite Pc, Nat.eqb_refl. cbn [orun].
      pose proof (ostep_local m junk st st2 c (Own st2 H2)) as L. rewrite E in L.
      destruct (ostep m junk st2 c) as [[st3 n']| |e|e]; try contradiction. reflexivity.
    + exists i0. intros st2 H2. rewrite Pc, Nat.eqb_refl. cbn [orun].
      pose proof (ostep_local m junk st st2 c (Own st2 H2)) as L. rewrite E in L.
      destruct (ostep m junk st2 c) as [[st3 n']| |e'|e']; try contradiction. subst. reflexivity.
    + exists i0. intros st2 H2. rewrite Pc, Nat.eqb_refl. cbn [orun].
      pose proof (ostep_local m junk st st2 c (Own st2 H2)) as L. rewrite E in L.
      destruct (ostep m junk st2 c) as [[st3 n']| |e'|e']; try contradiction. subst. reflexivity.
Qed.

(** Each group behaves as if the others did not exist: the same results, the same objects in the end, and the whole program
    fails if and only if the calls of one group fail, in the same way. *)
Theorem C88_independent :
  forall m g l, Forall (one_group g) (map snd l) ->
  match orun m no_objects l with
  | Back (st, rs) => forall i, exists st', orun m no_objects (part g i l) = Back (st', filter (fun r => in_group g i (fst r)) rs)
      /\ forall x, g x = i -> st' x = st x
  | Dangling => exists i, orun m no_objects (part g i l) = Dangling
  | Escaped e => exists i, orun m no_objects (part g i l) = Escaped e
  | Inside e => exists i, orun m no_objects (part g i l) = Inside e
  end.
Proof.
  intros m g l F. pose proof (orun_part m g l F no_objects) as H.
  destruct (orun m no_objects l) as [[st rs]| |e|e].
  1: intros i; apply H; reflexivity.
  all: destruct H as (i & H); exists i; apply H; reflexivity.
Qed.
Print Assumptions C88_independent.

(** ** C88: lifetimes *)

Definition kind_in (v : var) : option kind := match v with Held b => Some (kind_of b) | _ => None end.

Definition matches (kd : kinds) (st : store) : Prop := forall x, kind_in (st x) = kd x.

Lemma kind_eqb_spec a b : kind_eqb a b = true <-> a = b.
Proof. destruct a, b; cbn; split; congruence. Qed.

Lemma kind_eqb_refl a : kind_eqb a a = true.
Proof. now apply kind_eqb_spec. Qed.

(** An argument is fetched if it is alive. *)
Lemma fetch_ok r k v b : r <> Used \/ kind_in v = Some k -> kind_of b = k -> exists b', fetch r k v b = Back b' /\ kind_of b' = k.
Proof.
  intros H Hb. destruct r; cbn [fetch]; try (exists b; auto; fail).
  destruct H as [H|H]; [now destruct H|]. destruct v as [| |b']; try discriminate. cbn [kind_in] in H.
  injection H as <-. rewrite kind_eqb_refl. eauto.
Qed.

Lemma fetch_dead k v b : kind_in v <> Some k -> fetch Used k v b = Dangling.
Proof.
  intros H. cbn [fetch]. destruct v as [| |b']; try reflexivity. cbn [kind_in] in H.
  destruct (kind_eqb (kind_of b') k) eqn:E; [|reflexivity]. apply kind_eqb_spec in E. congruence.
Qed.

Lemma fetch_cases r k v b : kind_of b = k ->
  (exists b', fetch r k v b = Back b') \/ fetch r k v b = Dangling.
Proof.
  intros _. destruct r; cbn [fetch]; eauto. destruct v as [| |b']; auto. destruct (kind_eqb (kind_of b') k); eauto.
Qed.

Lemma kind_default k : kind_of (default k) = k.
Proof. destruct k; reflexivity. Qed.

Lemma load_ok o v st : (forall k, role_of o k = Used -> kind_in (st (arg v k)) = Some k) -> exists cs, load o v st = Back cs.
Proof.
  intros H. unfold load. cbv zeta.
  assert (F : forall k, exists b', fetch (role_of o k) k (st (arg v k)) (default k) = Back b').
  { intros k. destruct (fetch_ok (role_of o k) k (st (arg v k)) (default k)) as (b & E & _); [|apply kind_default|eauto].
    destruct (role_of o k) eqn:R; [left; discriminate|right; auto|left; discriminate]. }
  destruct (F KEncoder) as (b1 & ->), (F KDecoder) as (b2 & ->), (F KData) as (b3 & ->), (F KPacket) as (b4 & ->), (F KError) as (b5 & ->).
  cbn [chain]. eauto.
Qed.

Lemma load_dead o v st k : role_of o k = Used -> kind_in (st (arg v k)) <> Some k -> load o v st = Dangling.
Proof.
  intros R H. unfold load. cbv zeta.
  assert (C : forall k, (exists b', fetch (role_of o k) k (st (arg v k)) (default k) = Back b')
    \/ fetch (role_of o k) k (st (arg v k)) (default k) = Dangling) by (intros k'; apply fetch_cases, kind_default).
  assert (D : fetch (role_of o k) k (st (arg v k)) (default k) = Dangling) by (rewrite R; now apply fetch_dead).
  destruct (C KEncoder) as [(b1 & E1)|E1]; rewrite E1; [|reflexivity].
  destruct (C KDecoder) as [(b2 & E2)|E2]; rewrite E2; [|reflexivity].
  destruct (C KData) as [(b3 & E3)|E3]; rewrite E3; [|reflexivity].
  destruct (C KPacket) as [(b4 & E4)|E4]; rewrite E4; [|reflexivity].
  destruct (C KError) as [(b5 & E5)|E5]; rewrite E5; [|reflexivity].
  destruct k; congruence.
Qed.

Lemma load_not_else o v st : (exists cs, load o v st = Back cs) \/ load o v st = Dangling.
Proof.
  unfold load. cbv zeta.
  assert (C : forall k, (exists b', fetch (role_of o k) k (st (arg v k)) (default k) = Back b')
    \/ fetch (role_of o k) k (st (arg v k)) (default k) = Dangling) by (intros k'; apply fetch_cases, kind_default).
  destruct (C KEncoder) as [(b1 & ->)| ->]; [|auto]. destruct (C KDecoder) as [(b2 & ->)| ->]; [|auto].
  destruct (C KData) as [(b3 & ->)| ->]; [|auto]. destruct (C KPacket) as [(b4 & ->)| ->]; [|auto].
  destruct (C KError) as [(b5 & ->)| ->]; [|auto]. cbn [chain]. eauto.
Qed.

Lemma put_kind r x b st y : kind_in (put r x b st y) =
  match r with Unused => kind_in (st y) | _ => if Nat.eqb y x then Some (kind_of b) else kind_in (st y) end.
Proof. destruct r; cbn [put]; unfold update; try reflexivity; destruct (Nat.eqb y x); reflexivity. Qed.

Lemma save_matches kd o v clk s st : matches kd st -> allowed kd (Call o v) -> matches (after kd (Call o v)) (save o v clk s st).
Proof.
  intros M A x. cbn [allowed] in A. unfold save. rewrite !put_kind. rewrite (M x). cbn [kind_of].
  assert (U : forall k, role_of o k = Used -> Nat.eqb x (arg v k) = true -> Some k = kd x).
  { intros k R E. apply Nat.eqb_eq in E. subst x. symmetry. apply A, R. }
  pose proof (U KEncoder) as U1. pose proof (U KDecoder) as U2. pose proof (U KData) as U3. pose proof (U KPacket) as U4.
  pose proof (U KError) as U5. cbn [arg] in *. clear U.
  destruct o; cbn [role_of after] in *; unfold set_kind; try reflexivity;
    repeat match goal with |- context [Nat.eqb x ?y] => destruct (Nat.eqb x y) eqn:? end; auto.
Qed.

Lemma ostep_scope m junk kd st c : matches kd st ->
  (allowed kd c -> match ostep m junk st c with Back (st', _) => matches (after kd c) st' | Dangling => False | _ => True end)
  /\ (~ allowed kd c -> ostep m junk st c = Dangling).
Proof.
  intros M. destruct c as [x f|x clk f o|x e h|k x|o v].
  1-3: split; [|intros H; destruct H; exact I]; intros _; cbn [ostep after]; intros y; unfold update, set_kind;
    destruct (Nat.eqb y x); [reflexivity|apply M].
  - cbn [ostep allowed after]. pose proof (M x) as Mx. split; intros A.
    + rewrite A in Mx. destruct (st x) as [| |b]; try discriminate. cbn [kind_in] in Mx. injection Mx as ->.
      rewrite kind_eqb_refl. intros y. unfold update, set_kind. destruct (Nat.eqb y x); [reflexivity|apply M].
    + destruct (st x) as [| |b]; try reflexivity. cbn [kind_in] in Mx. destruct (kind_eqb (kind_of b) k) eqn:E; [|reflexivity].
      apply kind_eqb_spec in E. congruence.
  - split; intros A.
    + assert (L : exists cs, load o v st = Back cs).
      { apply load_ok. intros k R. rewrite M. apply A, R. }
      destruct L as ([clk s] & L). cbn [ostep]. rewrite L. cbn [chain].
      destruct (cstep m clk junk s o) as [s'|e|e]; cbn [lift chain]; auto. now apply save_matches.
    + destruct (load_not_else o v st) as [([clk s] & L)|L]; [|cbn [ostep]; rewrite L; reflexivity]. exfalso. apply A. intros k R.
      destruct (kd (arg v k)) as [k'|] eqn:K.
      * destruct (kind_eqb k' k) eqn:Ek; [apply kind_eqb_spec in Ek; congruence|].
        rewrite (load_dead o v st k R) in L; [discriminate|]. rewrite M, K. intros X. injection X as ->. rewrite kind_eqb_refl in Ek. discriminate.
      * rewrite (load_dead o v st k R) in L; [discriminate|]. rewrite M, K. discriminate.
Qed.

(** A program in which each call gets living objects of the right kind never follows a dead pointer, and the objects
    left in the end are those that were made and not deleted. *)
Theorem C88_lifetimes :
  forall m l, scoped no_kinds (map snd l) ->
  match orun m no_objects l with
  | Back (st, rs) => map fst rs = map snd l /\ matches (fold_left after (map snd l) no_kinds) st
  | Dangling => False
  | _ => True
  end.
Proof.
  intros m l. assert (M : matches no_kinds no_objects) by (intros x; reflexivity). revert M.
  generalize no_kinds no_objects. induction l as [|[junk c] l IH]; intros kd st M S.
  - cbn [orun map fold_left]. split; [reflexivity|exact M].
  - cbn [map snd scoped] in S. destruct S as (A & S). destruct (ostep_scope m junk kd st c M) as (Y & _). specialize (Y A).
    cbn [orun map snd fold_left]. destruct (ostep m junk st c) as [[st1 n]| |e|e]; cbn [chain]; auto.
    specialize (IH _ _ Y S). destruct (orun m st1 l) as [[st2 rs]| |e|e]; cbn [chain]; auto.
    destruct IH as (E & IH). cbn [map fst]. rewrite E. split; [reflexivity|exact IH].
Qed.
Print Assumptions C88_lifetimes.

(** Conversely the first call that does not is undefined behaviour: a call with an object that was deleted, or never made, or is of another kind. *)
Theorem C88_dead_pointer :
  forall m l st rs junk c rest, orun m no_objects l = Back (st, rs) ->
  scoped no_kinds (map snd l)
  /\ (~ allowed (fold_left after (map snd l) no_kinds) c -> orun m no_objects (l ++ (junk, c) :: rest) = Dangling).
Proof.
  intros m l. assert (M : matches no_kinds no_objects) by (intros x; reflexivity). revert M.
  generalize no_kinds no_objects. induction l as [|[j c0] l IH]; intros kd st0 M st rs junk c rest E.
  - cbn [map fold_left app orun scoped]. split; [exact I|]. intros H. destruct (ostep_scope m junk kd st0 c M) as (_ & N). rewrite (N H). reflexivity.
  - cbn [orun] in E. cbn [map snd scoped fold_left app orun]. destruct (ostep_scope m j kd st0 c0 M) as (Y & No).
    destruct (ostep m j st0 c0) as [[st1 n]| |e|e] eqn:E1; try discriminate. cbn [chain] in *.
    assert (A : allowed kd c0).
    { destruct c0 as [x f|x clk f o|x e h|k x|o v]; try exact I.
      - cbn [allowed]. destruct (kd x) as [k'|] eqn:K; [destruct (kind_eqb k' k) eqn:X; [apply kind_eqb_spec in X; congruence|]|];
          (exfalso; assert (Z : @Back (store * N) (st1, n) = Dangling) by (apply No; cbn [allowed]; rewrite K; intros Q; try injection Q as ->; try rewrite kind_eqb_refl in X; discriminate); discriminate).
      - cbn [allowed]. intros k R. destruct (kd (arg v k)) as [k'|] eqn:K; [destruct (kind_eqb k' k) eqn:X; [apply kind_eqb_spec in X; congruence|]|];
          (exfalso; assert (Z : @Back (store * N) (st1, n) = Dangling) by (apply No; cbn [allowed]; intros Q; specialize (Q k R); rewrite K in Q; try injection Q as ->; try rewrite kind_eqb_refl in X; discriminate); discriminate). }
    specialize (Y A). destruct (orun m st1 l) as [[st2 rs2]| |e|e] eqn:E2; try discriminate.
    destruct (IH _ _ Y _ _ junk c rest E2) as (S & D). split; [split; assumption|]. intros H. rewrite (D H). reflexivity.
Qed.
Print Assumptions C88_dead_pointer.

(** ** C88: one connection *)

Definition distinct (v : args) : Prop := NoDup [a_enc v; a_dec v; a_data v; a_packet v; a_err v].

(** The five variables of a connection hold the objects of [CSession.v]. *)
Definition holds (v : args) (clk : clock) (s : session) (st : store) : Prop :=
  st (a_enc v) = Held (OEncoder (c_enc s) (c_sent s))
  /\ st (a_dec v) = Held (ODecoder clk (c_dec s) (c_acks s) (c_read s))
  /\ st (a_data v) = Held (OData (c_data s))
  /\ st (a_packet v) = Held (OPacket (c_packet s))
  /\ st (a_err v) = Held (OError (c_err s) (c_heap s)).

(** A program that deletes its data and its packet before it makes new ones. *)
Definition tidy (v : args) (o : cop) : list ccall :=
  match o with
  | NewData _ | NewDataFrom _ => [Delete KData (a_data v); Call o v]
  | NewPacket _ | NewPacketFrom _ => [Delete KPacket (a_packet v); Call o v]
  | _ => [Call o v]
  end.
Definition tidied (v : args) (l : list (memory * cop)) : list (memory * ccall) :=
  flat_map (fun '(junk, o) => map (pair junk) (tidy v o)) l.

Lemma distinct_eqb v : distinct v ->
  let E a b := Nat.eqb a b = false /\ Nat.eqb b a = false in
  E (a_enc v) (a_dec v) /\ E (a_enc v) (a_data v) /\ E (a_enc v) (a_packet v) /\ E (a_enc v) (a_err v)
  /\ E (a_dec v) (a_data v) /\ E (a_dec v) (a_packet v) /\ E (a_dec v) (a_err v)
  /\ E (a_data v) (a_packet v) /\ E (a_data v) (a_err v) /\ E (a_packet v) (a_err v).
Proof.
  intros H. unfold distinct in H. rewrite !NoDup_cons_iff in H. cbn [In] in H. cbv zeta.
  destruct H as (H1 & H2 & H3 & H4 & _).
  repeat split; apply Nat.eqb_neq; intros E; [apply H1|apply H1|apply H1|apply H1|apply H1|apply H1|apply H1|apply H1
   |apply H2|apply H2|apply H2|apply H2|apply H2|apply H2|apply H3|apply H3|apply H3|apply H3|apply H4|apply H4]; auto 6.
Qed.

Lemma checked_ok s n : checked s (Ok n) = Ok (with_error s {| ce_type := NoError; ce_message := ce_message (c_err s) |} (c_heap s) n).
Proof. reflexivity. Qed.
Lemma checked_throw s x : checked s (Throw x) =
  Ok (with_error s {| ce_type := match x with PacketTypeError => PacketTypeErr | OverflowError => OverflowErr end;
                      ce_message := ce_message (c_err s) |} (c_heap s) 0).
Proof. destruct x; reflexivity. Qed.
Lemma checked_fault s x : checked s (Fault x) = Fault x.
Proof. reflexivity. Qed.

(** The functions with a result. *)
Definition has_result (o : cop) : bool :=
  match o with DataSize | PacketSize | Window | EncAddPacket | DecAddPacket => true | _ => false end.

(** One call: the objects behind the five variables of a connection change as in [CSession.v], and the result is the same. *)
Theorem C88_call :
  forall m junk clk v s st o, distinct v -> holds v clk s st ->
  match cstep m clk junk s o with
  | Ok s' => exists st' n, ostep m junk st (Call o v) = Back (st', n) /\ holds v clk s' st'
      /\ n = (if has_result o then c_result s' else 0)
  | Throw e => ostep m junk st (Call o v) = Escaped e
  | Fault e => ostep m junk st (Call o v) = Inside e
  end.
Proof.
  intros m junk clk v s st o D (H1 & H2 & H3 & H4 & H5). apply distinct_eqb in D. cbv zeta in D.
  destruct D as ((D1 & D1') & (D2 & D2') & (D3 & D3') & (D4 & D4') & (D5 & D5') & (D6 & D6') & (D7 & D7') & (D8 & D8') & (D9 & D9') & (D10 & D10')).
  destruct s as [e d a p se ac re er he rs]. cbn [c_enc c_dec c_data c_packet c_sent c_acks c_read c_err c_heap] in *.
  destruct o; cbn [ostep]; unfold load; cbn [role_of arg]; rewrite ?H1, ?H2, ?H3, ?H4, ?H5;
    cbn [fetch kind_of kind_eqb chain default session_of cstep];
    unfold checked_void, holds, save; rewrite ?checked_ok; cbn [role_of put bind c_enc c_dec c_data c_packet c_sent c_acks c_read c_err c_heap c_result
      with_data with_packet with_result with_sender with_receiver with_error].
  all: repeat match goal with
    | |- context [checked ?s (Ok ?n)] => rewrite (checked_ok s n); cbn [bind]
    | |- context [checked ?s (Throw ?n)] => rewrite (checked_throw s n); cbn [bind]
    | |- context [checked ?s (Fault ?n)] => rewrite (checked_fault s n); cbn [bind]
    | |- context [bind ?x _] => match x with
        | Ok _ => fail 1 | Throw _ => fail 1 | Fault _ => fail 1
        | bind _ _ => fail 1
        | checked _ _ => fail 1
        | _ => destruct x as [?|?|?]; repeat match goal with q : (_ * _)%type |- _ => destruct q end
        end; cbn [bind]
    | |- context [notify ?a ?b ?c] => destruct (notify a b c) as [? [?|?|?]]
    | |- context [dec_packet ?a ?b ?c ?d] => destruct (dec_packet a b c d) as [? [[? ?]|?|?]]
    | |- context [generate_ack ?a] => destruct (generate_ack a) as [? ?]
    | |- context [packet_bytes ?a] => destruct (packet_bytes a) as [?|?|?]
    end; rewrite ?checked_ok, ?checked_throw, ?checked_fault;
      cbn [bind lift chain c_enc c_dec c_data c_packet c_sent c_acks c_read c_err c_heap c_result
      with_data with_packet with_result with_sender with_receiver with_error].
  all: try reflexivity.
  all: rewrite ?checked_ok, ?checked_throw, ?checked_fault; cbn [bind lift chain c_enc c_dec c_data c_packet c_sent c_acks c_read c_err c_heap c_result
      with_data with_packet with_result with_sender with_receiver with_error]; try reflexivity.
  all: try (do 2 eexists; split; [reflexivity|]; unfold update; rewrite ?Nat.eqb_refl, ?D1, ?D1', ?D2, ?D2', ?D3, ?D3', ?D4, ?D4', ?D5, ?D5', ?D6, ?D6', ?D7, ?D7', ?D8, ?D8', ?D9, ?D9', ?D10, ?D10'; cbn; auto 10; fail).
Qed.

Print Assumptions C88_call.

Lemma orun_app m l l' : forall st, orun m st (l ++ l') =
  chain (orun m st l) (fun '(st, rs) => chain (orun m st l') (fun '(st, rs') => Back (st, rs ++ rs'))).
Proof.
  induction l as [|[j c] l IH]; intros st; cbn [app orun chain].
  - destruct (orun m st l') as [[st1 rs]| |e|e]; reflexivity.
  - destruct (ostep m j st c) as [[st1 n]| |e|e]; cbn [chain]; try reflexivity. rewrite IH.
    destruct (orun m st1 l) as [[st2 rs]| |e|e]; cbn [chain]; try reflexivity.
    destruct (orun m st2 l') as [[st3 rs']| |e|e]; reflexivity.
Qed.

Lemma after_delete m junk k x st b : st x = Held b -> kind_of b = k ->
  ostep m junk st (Delete k x) = Back (update st x Gone, 0).
Proof. intros H E. cbn [ostep]. rewrite H, E, kind_eqb_refl. reflexivity. Qed.

(** [NewData] and the like do not look at the old object. *)
Lemma tidy_session m junk clk v s st o : distinct v -> holds v clk s st ->
  match cstep m clk junk s o with
  | Ok s' => exists st' rs, orun m st (map (pair junk) (tidy v o)) = Back (st', rs) /\ holds v clk s' st'
  | Throw e => orun m st (map (pair junk) (tidy v o)) = Escaped e
  | Fault e => orun m st (map (pair junk) (tidy v o)) = Inside e
  end.
Proof.
  intros D H. pose proof (C88_call m junk clk v s st o D H) as C.
  assert (One : match cstep m clk junk s o with
    | Ok s' => exists st' rs, orun m st [(junk, Call o v)] = Back (st', rs) /\ holds v clk s' st'
    | Throw e => orun m st [(junk, Call o v)] = Escaped e
    | Fault e => orun m st [(junk, Call o v)] = Inside e
    end).
  { cbn [orun]. destruct (cstep m clk junk s o) as [s'|e|e]; [|rewrite C; reflexivity|rewrite C; reflexivity].
    destruct C as (st' & n & E & H' & _). rewrite E. cbn [chain]. eauto. }
  assert (Two : forall x b k, st x = Held b -> kind_of b = k -> role_of o k = Made -> x = arg v k ->
    match cstep m clk junk s o with
    | Ok s' => exists st' rs, orun m st [(junk, Delete k x); (junk, Call o v)] = Back (st', rs) /\ holds v clk s' st'
    | Throw e => orun m st [(junk, Delete k x); (junk, Call o v)] = Escaped e
    | Fault e => orun m st [(junk, Delete k x); (junk, Call o v)] = Inside e
    end).
  { intros x b k Hx Hb Hr ->. cbn [orun]. rewrite (after_delete m junk k (arg v k) st b Hx Hb). cbn [chain].
    assert (L : load o v (update st (arg v k) Gone) = load o v st).
    { unfold load. cbv zeta.
      assert (F : forall k', fetch (role_of o k') k' (update st (arg v k) Gone (arg v k')) (default k') = fetch (role_of o k') k' (st (arg v k')) (default k')).
      { intros k'. destruct (kind_eqb k' k) eqn:E; [apply kind_eqb_spec in E as ->; rewrite Hr; reflexivity|].
        unfold update. apply distinct_eqb in D. cbv zeta in D. assert (Y : Nat.eqb (arg v k') (arg v k) = false).
        { destruct k, k'; try discriminate; cbn [arg]; tauto. }
        rewrite Y. reflexivity. }
      rewrite !F. reflexivity. }
    assert (S2 : forall s1 x, save o v clk s1 (update st (arg v k) Gone) x = save o v clk s1 st x).
    { intros s1 x. destruct o; try (destruct k; discriminate); destruct k; try discriminate; unfold save; cbn [role_of put arg]; unfold update;
        destruct (Nat.eqb x _); reflexivity. }
    cbn [ostep] in *. rewrite L. destruct (load o v st) as [[c1 s1]| |e|e] eqn:El; cbn [chain] in *.
    2-4: destruct (cstep m clk junk s o) as [s'|e'|e']; [destruct C as (? & ? & C & _); discriminate|cbn [chain]; congruence|cbn [chain]; congruence].
    destruct (cstep m c1 junk s1 o) as [s2|e|e]; cbn [lift chain] in *.
    - destruct (cstep m clk junk s o) as [s'|e'|e']; try discriminate. destruct C as (st' & n & E & H' & _). injection E as <- <-.
      do 2 eexists. split; [reflexivity|]. assert (Ec : True) by exact I.
      destruct H' as (A1 & A2 & A3 & A4 & A5).
      assert (S3 : forall x, save o v c1 s2 (update st (arg v k) Gone) x = save o v c1 s2 st x).
      { intros x. destruct o; try (destruct k; discriminate); destruct k; try discriminate; unfold save; cbn [role_of put arg]; unfold update;
          destruct (Nat.eqb x _); reflexivity. }
      unfold holds. rewrite !S3. auto 6.
    - destruct (cstep m clk junk s o) as [s'|e'|e']; [destruct C as (? & ? & C & _); discriminate|congruence|discriminate].
    - destruct (cstep m clk junk s o) as [s'|e'|e']; [destruct C as (? & ? & C & _); discriminate|discriminate|congruence]. }
  destruct H as (H1 & H2 & H3 & H4 & H5).
  destruct o; cbn [tidy map]; try exact One; eapply Two; try eassumption; reflexivity.
Qed.

(** The model with one object of each kind is this model with the five variables of a connection: programs that delete what they replace. *)
Theorem C88_session :
  forall m clk v l s st, distinct v -> holds v clk s st ->
  match crun m clk s l with
  | Ok s' => exists st' rs, orun m st (tidied v l) = Back (st', rs) /\ holds v clk s' st'
  | Throw e => orun m st (tidied v l) = Escaped e
  | Fault e => orun m st (tidied v l) = Inside e
  end.
Proof.
  intros m clk v l. induction l as [|[junk o] l IH]; intros s st D H.
  - cbn [crun tidied flat_map orun]. eauto.
  - cbn [crun tidied flat_map]. pose proof (tidy_session m junk clk v s st o D H) as T. rewrite orun_app.
    destruct (cstep m clk junk s o) as [s1|e|e]; cbn [bind]; [|rewrite T; reflexivity|rewrite T; reflexivity].
    destruct T as (st1 & rs1 & T & H1). rewrite T. cbn [chain]. specialize (IH s1 st1 D H1). fold (tidied v l).
    destruct (crun m clk s1 l) as [s2|e|e]; [|rewrite IH; reflexivity|rewrite IH; reflexivity].
    destruct IH as (st2 & rs2 & IH & H2). rewrite IH. cbn [chain]. eauto.
Qed.
Print Assumptions C88_session.

(** ** C88: many connections *)

(** An encoder, a decoder, a data and a packet object, made in empty variables, and what is then done with them, with the actions and the
    calls of C65. *)
Record connection := {
  n_vars : args;
  n_clock : clock;
  n_field : field;
  n_ordered : bool;
  n_error : c_error;
  n_heap : heap;
  n_junk : memory;
  n_actions : list (memory * action)
}.

Definition opening (n : connection) : list ccall :=
  [MakeEncoder (a_enc (n_vars n)) (n_field n); MakeDecoder (a_dec (n_vars n)) (n_clock n) (n_field n) (n_ordered n);
   MakeError (a_err (n_vars n)) (n_error n) (n_heap n); Call (NewData 0) (n_vars n); Call (NewPacket 0) (n_vars n)].

Definition closing (n : connection) : list ccall :=
  [Delete KEncoder (a_enc (n_vars n)); Delete KDecoder (a_dec (n_vars n)); Delete KData (a_data (n_vars n));
   Delete KPacket (a_packet (n_vars n)); Delete KError (a_err (n_vars n))].

Definition text (n : connection) : list (memory * ccall) :=
  map (pair (n_junk n)) (opening n) ++ tidied (n_vars n) (program (n_actions n)).

Definition proper (n : connection) : Prop := distinct (n_vars n) /\ Forall (fun a => fits (snd a)) (n_actions n).

(** The objects of the connection are in the state, and their callbacks got what, the C++ objects with the same actions have and give. *)
Definition as_in_cpp (m : mode) (n : connection) (st : store) : Prop :=
  (exists e out, erun m (new_encoder (n_field n)) (for_encoder (map snd (n_actions n))) = Ok (e, out)
     /\ st (a_enc (n_vars n)) = Held (OEncoder e out))
  /\ (exists d out, drun m (n_clock n) (new_dec (n_clock n) (n_field n) (n_ordered n)) (for_decoder (map snd (n_actions n))) = Ok (d, out)
     /\ st (a_dec (n_vars n)) = Held (ODecoder (n_clock n) d (to_network out) (to_user out))).

Definition cpp_fault (m : mode) (n : connection) (x : fault) : Prop :=
  erun m (new_encoder (n_field n)) (for_encoder (map snd (n_actions n))) = Fault x
  \/ drun m (n_clock n) (new_dec (n_clock n) (n_field n) (n_ordered n)) (for_decoder (map snd (n_actions n))) = Fault x.

Lemma text_run m n : proper n ->
  match orun m no_objects (text n) with
  | Back (st, _) => as_in_cpp m n st /\ (exists s, holds (n_vars n) (n_clock n) s st)
  | Dangling => False
  | Escaped _ => False
  | Inside x => cpp_fault m n x
  end.
Proof.
  intros (D & F). unfold text. rewrite orun_app. set (v := n_vars n) in *.
  set (s := {| c_enc := new_encoder (n_field n); c_dec := new_dec (n_clock n) (n_field n) (n_ordered n); c_data := [];
               c_packet := packet_sized (n_junk n) 0; c_sent := []; c_acks := []; c_read := []; c_err := n_error n; c_heap := n_heap n; c_result := 0 |}).
  assert (O : exists st rs, orun m no_objects (map (pair (n_junk n)) (opening n)) = Back (st, rs) /\ holds v (n_clock n) s st).
  { do 2 eexists. split; [reflexivity|]. pose proof (distinct_eqb v D) as Q. cbv zeta in Q. unfold v in Q.
    destruct Q as ((D1 & D1') & (D2 & D2') & (D3 & D3') & (D4 & D4') & (D5 & D5') & (D6 & D6') & (D7 & D7') & (D8 & D8') & (D9 & D9') & (D10 & D10')).
    unfold holds, save, update, v. cbn [role_of put]. unfold update. rewrite ?Nat.eqb_refl, ?D1, ?D1', ?D2, ?D2', ?D3, ?D3', ?D4, ?D4', ?D5, ?D5', ?D6, ?D6', ?D7, ?D7', ?D8, ?D8', ?D9, ?D9', ?D10, ?D10'.
    repeat split; reflexivity. }
  destruct O as (st & rs & -> & H). cbn [chain].
  assert (R : ready s).
  { left. exists []. unfold packet_shows. cbn [s c_packet]. reflexivity. }
  pose proof (C65_program m (n_clock n) (n_actions n) s R F) as P.
  pose proof (C88_session m (n_clock n) v (program (n_actions n)) s st D H) as T.
  destruct (crun m (n_clock n) s (program (n_actions n))) as [s'|e|e].
  - destruct T as (st' & rs' & -> & H'). cbn [chain]. destruct P as (_ & (out & Pe & Ps) & (out2 & Pd & Pr & Pa)).
    pose proof H' as (H1 & H2 & _). split; [|eauto]. split.
    + exists (c_enc s'), out. cbn [s c_enc c_sent app] in *. split; [exact Pe|]. unfold v in H1. rewrite H1, Ps. reflexivity.
    + exists (c_dec s'), out2. cbn [s c_dec c_read c_acks app] in *. split; [exact Pd|]. unfold v in H2. rewrite H2, Pr, Pa. reflexivity.
  - destruct P.
  - rewrite T. cbn [chain]. exact P.
Qed.

(** Any number of connections in one program, their calls interleaved in any way: each has the effects of its C++ objects alone, and
    undefined behaviour only comes from one of these. *)
Theorem C88_connections :
  forall m g l, Forall (one_group g) (map snd l) ->
  (forall i, part g i l = [] \/ exists n, proper n /\ part g i l = text n /\ g (a_enc (n_vars n)) = i /\ g (a_dec (n_vars n)) = i) ->
  match orun m no_objects l with
  | Back (st, _) => forall i n, proper n -> part g i l = text n -> g (a_enc (n_vars n)) = i -> g (a_dec (n_vars n)) = i -> as_in_cpp m n st
  | Inside x => exists i n, part g i l = text n /\ cpp_fault m n x
  | _ => False
  end.
Proof.
  intros m g l F Hp. pose proof (C88_independent m g l F) as I0.
  destruct (orun m no_objects l) as [[st rs]| |e|e].
  - intros i n Pn En G1 G2. destruct (I0 i) as (st' & E & A). rewrite En in E. pose proof (text_run m n Pn) as T. rewrite E in T.
    destruct T as (((e1 & o1 & T1 & T2) & (d1 & o2 & T3 & T4)) & _). split.
    + exists e1, o1. split; [exact T1|]. rewrite <- A by exact G1. exact T2.
    + exists d1, o2. split; [exact T3|]. rewrite <- A by exact G2. exact T4.
  - destruct I0 as (i & E). destruct (Hp i) as [N0|(n & Pn & En & _)]; [rewrite N0 in E; discriminate|].
    rewrite En in E. pose proof (text_run m n Pn) as T. rewrite E in T. exact T.
  - destruct I0 as (i & E). destruct (Hp i) as [N0|(n & Pn & En & _)]; [rewrite N0 in E; discriminate|].
    rewrite En in E. pose proof (text_run m n Pn) as T. rewrite E in T. exact T.
  - destruct I0 as (i & E). destruct (Hp i) as [N0|(n & Pn & En & _)]; [rewrite N0 in E; discriminate|].
    rewrite En in E. pose proof (text_run m n Pn) as T. rewrite E in T. exists i, n. split; [exact En|exact T].
Qed.
Print Assumptions C88_connections.

Lemma orun_other m l x : (forall jc, In jc l -> ~ In x (names (snd jc))) -> forall st st' rs, orun m st l = Back (st', rs) -> st' x = st x.
Proof.
  induction l as [|[j c] l IH]; intros H st st' rs E; cbn [orun] in E.
  - injection E as <- _. reflexivity.
  - destruct (ostep m j st c) as [[st1 n]| |e|e] eqn:E1; try discriminate. cbn [chain] in E.
    destruct (orun m st1 l) as [[st2 rs2]| |e|e] eqn:E2; try discriminate. cbn [chain] in E. injection E as <- _.
    rewrite (IH (fun jc I => H jc (or_intror I)) _ _ _ E2). eapply ostep_other; [exact E1|]. exact (H (j, c) (or_introl eq_refl)).
Qed.

Definition vars (v : args) : list nat := [a_enc v; a_dec v; a_data v; a_packet v; a_err v].

Lemma names_call o v x : In x (names (Call o v)) -> In x (vars v).
Proof.
  cbn [names]. intros H. apply in_map_iff in H as (k & <- & _). unfold vars. destruct k; cbn [arg In]; auto 6.
Qed.

Lemma names_text n jc x : In jc (text n) -> In x (names (snd jc)) -> In x (vars (n_vars n)).
Proof.
  intros H Hx. unfold text in H. apply in_app_iff in H as [H|H].
  - apply in_map_iff in H as (c & <- & H). cbn [snd] in Hx. unfold opening in H. cbn [In] in H.
    destruct H as [<-|[<-|[<-|[<-|[<-|[]]]]]]; try (now apply names_call in Hx); cbn [names In] in Hx; destruct Hx as [<-|[]]; unfold vars; cbn [In]; auto 6.
  - unfold tidied in H. apply in_flat_map in H as ([j o] & _ & H). apply in_map_iff in H as (c & <- & H). cbn [snd] in Hx.
    assert (C : c = Call o (n_vars n) \/ c = Delete KData (a_data (n_vars n)) \/ c = Delete KPacket (a_packet (n_vars n))).
    { destruct o; cbn [tidy In] in H; intuition congruence. }
    destruct C as [->|[->| ->]]; [now apply names_call in Hx| |]; cbn [names In] in Hx; destruct Hx as [<-|[]]; unfold vars; cbn [In]; auto 6.
Qed.

(** A connection whose objects are deleted in the end leaves no object. *)
Theorem C88_closed :
  forall m n junk st rs, proper n -> orun m no_objects (text n) = Back (st, rs) ->
  exists st' rs', orun m no_objects (text n ++ map (pair junk) (closing n)) = Back (st', rs ++ rs')
  /\ forall x, kind_in (st' x) = None.
Proof.
  intros m n junk st rs Pn E. pose proof (text_run m n Pn) as T. rewrite E in T. destruct T as (_ & (s & H)).
  rewrite orun_app, E. cbn [chain]. set (v := n_vars n) in *.
  assert (Out : forall x, ~ In x (vars v) -> kind_in (st x) = None).
  { intros x Hx. rewrite (orun_other m (text n) x) with (st := no_objects) (rs := rs); [reflexivity| |exact E].
    intros jc I J. apply Hx. eapply names_text; eassumption. }
  destruct Pn as (D & _). pose proof (distinct_eqb v D) as Q. cbv zeta in Q.
  destruct Q as ((D1 & D1') & (D2 & D2') & (D3 & D3') & (D4 & D4') & (D5 & D5') & (D6 & D6') & (D7 & D7') & (D8 & D8') & (D9 & D9') & (D10 & D10')).
  destruct H as (H1 & H2 & H3 & H4 & H5).
  unfold closing. fold v. cbn [map orun ostep chain]. rewrite H1. cbn [kind_of kind_eqb chain].
  unfold update at 1. rewrite D1', H2. cbn [kind_of kind_eqb chain].
  unfold update at 1. rewrite D5'. unfold update at 1. rewrite D2', H3. cbn [kind_of kind_eqb chain].
  unfold update at 1. rewrite D8'. unfold update at 1. rewrite D6'. unfold update at 1. rewrite D3', H4. cbn [kind_of kind_eqb chain].
  unfold update at 1. rewrite D10'. unfold update at 1. rewrite D9'. unfold update at 1. rewrite D7'. unfold update at 1. rewrite D4', H5. cbn [kind_of kind_eqb chain].
  do 2 eexists. split; [reflexivity|]. intros x. unfold update.
  destruct (Nat.eqb_spec x (a_err v)); [reflexivity|]. destruct (Nat.eqb_spec x (a_packet v)); [reflexivity|].
  destruct (Nat.eqb_spec x (a_data v)); [reflexivity|]. destruct (Nat.eqb_spec x (a_dec v)); [reflexivity|].
  destruct (Nat.eqb_spec x (a_enc v)); [reflexivity|]. apply Out. unfold vars. cbn [In]. intuition congruence.
Qed.
Print Assumptions C88_closed.

(** Two connections with interleaved calls, the first one W8 and in order, the second one W16 and not. *)
Definition first_one : connection := {|
  n_vars := {| a_enc := 0; a_dec := 1; a_data := 2; a_packet := 3; a_err := 4 |}; n_clock := no_clock; n_field := W8; n_ordered := true;
  n_error := no_error; n_heap := no_heap; n_junk := fun i => N.of_nat i;
  n_actions := map (pair (fun i => N.of_nat (i + 7))) [UseRate 2; Send [1; 2]; Receive [2; 0; 0; 0; 0; 0; 2; 1; 2]; Receive [9]; SendAck] |}.
Definition second_one : connection := {|
  n_vars := {| a_enc := 5; a_dec := 6; a_data := 7; a_packet := 8; a_err := 9 |}; n_clock := no_clock; n_field := W16; n_ordered := false;
  n_error := no_error; n_heap := no_heap; n_junk := fun i => N.of_nat i;
  n_actions := map (pair (fun i => N.of_nat (i + 3))) [Send [3; 4]; Send [5; 6]; SendRepair; Receive [2; 0; 0; 0; 1; 0; 2; 5; 6]] |}.

Fixpoint shuffle {A} (l1 l2 : list A) : list A :=
  match l1 with
  | [] => l2
  | a :: l1' => match l2 with [] => l1 | b :: l2' => a :: b :: shuffle l1' l2' end
  end.

Definition both : list (memory * ccall) := shuffle (text first_one) (text second_one).
Definition owner (x : nat) : nat := if Nat.ltb x 5 then 1 else 2.

Definition same_group (g : nat -> nat) (c : ccall) : bool := forallb (fun x => Nat.eqb (g x) (g (hd 0%nat (names c)))) (names c).

Lemma one_group_b g (l : list (memory * ccall)) : forallb (fun jc => same_group g (snd jc)) l = true -> Forall (one_group g) (map snd l).
Proof.
  intros H. apply Forall_forall. intros c Hc. apply in_map_iff in Hc as (jc & <- & Hc). rewrite forallb_forall in H. specialize (H _ Hc).
  unfold same_group in H. rewrite forallb_forall in H. eexists. intros x Hx. apply Nat.eqb_eq. apply H, Hx.
Qed.

Definition seen (l : list (memory * ccall)) : option (list (list N) * list (list N) * list nat) :=
  match orun Debug no_objects l with
  | Back (st, _) => match st 0%nat, st 1%nat, st 5%nat, st 6%nat with
      | Held (OEncoder _ out1), Held (ODecoder _ _ acks1 got1), Held (OEncoder _ out2), Held (ODecoder _ _ acks2 got2) =>
          Some (got1, got2, [length out1; length acks1; length out2; length acks2])
      | _, _, _, _ => None
      end
  | _ => None
  end.

Lemma no_others i l : i <> 1%nat -> i <> 2%nat -> part owner i l = [].
Proof.
  intros H1 H2. induction l as [|jc l IH]; [reflexivity|]. unfold part in *. cbn [filter].
  destruct (in_group owner i (snd jc)) eqn:E; [|exact IH]. exfalso. unfold in_group in E. apply existsb_exists in E as (x & _ & E).
  apply Nat.eqb_eq in E. unfold owner in E. destruct (Nat.ltb x 5); congruence.
Qed.

Lemma seen_back l r : seen l = Some r -> exists st rs, orun Debug no_objects l = Back (st, rs).
Proof. unfold seen. destruct (orun Debug no_objects l) as [[st rs]| |e|e]; try discriminate. eauto. Qed.

Example C88_case : Forall (one_group owner) (map snd both)
  /\ proper first_one /\ proper second_one /\ part owner 1 both = text first_one /\ part owner 2 both = text second_one
  /\ seen both = Some ([[1; 2]], [[5; 6]], [1; 1; 3; 0]%nat)
  /\ scoped no_kinds (map snd both)
  /\ (forall i, part owner i both = [] \/ exists n, proper n /\ part owner i both = text n
        /\ owner (a_enc (n_vars n)) = i /\ owner (a_dec (n_vars n)) = i).
Proof.
  assert (S : seen both = Some ([[1; 2]], [[5; 6]], [1; 1; 3; 0]%nat)) by (vm_compute; reflexivity).
  assert (P : forall n, distinct (n_vars n) -> forallb (fun a => match snd a with
      | Send l | Receive l | ReceiveAck l => N.of_nat (length l) <? 65536 | UseRate n | UseWindow n | UsePeriod n => n <? 2 ^ 64
      | UseThreshold n => n <? 65536 | _ => true end) (n_actions n) = true -> proper n).
  { intros n D H. split; [exact D|]. rewrite forallb_forall in H. apply Forall_forall. intros a Ha. specialize (H a Ha).
    destruct (snd a); cbn [fits]; try exact I; apply N.ltb_lt; exact H. }
  assert (P1 : proper first_one) by (apply P; [repeat constructor; cbn; lia|vm_compute; reflexivity]).
  assert (P2 : proper second_one) by (apply P; [repeat constructor; cbn; lia|vm_compute; reflexivity]).
  assert (E1 : part owner 1 both = text first_one) by (vm_compute; reflexivity).
  assert (E2 : part owner 2 both = text second_one) by (vm_compute; reflexivity).
  split; [apply one_group_b; vm_compute; reflexivity|]. split; [exact P1|]. split; [exact P2|]. split; [exact E1|]. split; [exact E2|].
  split; [exact S|]. split.
  2: { intros i. destruct (Nat.eq_dec i 1) as [->|N1]; [right; exists first_one; auto|].
       destruct (Nat.eq_dec i 2) as [->|N2]; [right; exists second_one; auto|]. left. now apply no_others. }
  destruct (seen_back _ _ S) as (st & rs & E).
  exact (proj1 (C88_dead_pointer _ _ _ _ (n_junk first_one) (Delete KData 0%nat) [] E)).
Qed.

(** Data given to an encoder may be deleted, the encoder has its own copy. Using them then is undefined, as is deleting them twice. *)
Definition used_up : list ccall :=
  [MakeEncoder 0 W8; MakeError 4 no_error no_heap; Call (NewDataFrom [1; 2]) (n_vars first_one); Call AddData (n_vars first_one);
   Delete KData 2; Call GenerateRepair (n_vars first_one)].
Definition run_of (l : list ccall) := orun Release no_objects (map (pair (fun _ => 0)) l).
Definition sent_by (l : list ccall) : option (list packet) :=
  match run_of l with Back (st, _) => match st 0%nat with Held (OEncoder _ out) => Some out | _ => None end | _ => None end.

Example C88_deleted_case :
  option_map (map (firstn 7)) (sent_by used_up) = Some [[2; 0;0;0;0; 0;2]; [1; 0;0;0;0; 0;2]]
  /\ run_of (used_up ++ [Call DataSize (n_vars first_one)]) = Dangling
  /\ run_of (used_up ++ [Delete KData 2]) = Dangling
  /\ run_of (used_up ++ [Delete KPacket 0]) = Dangling
  /\ run_of [Call Window (n_vars first_one)] = Dangling.
Proof. vm_compute. repeat split. Qed.
