(** * The receiver with addresses does the same as the receiver with keys *)
From Coq Require Import NArith PeanoNat List Bool Lia Permutation.
From Verif Require Import Outcome GF Containers ContainersFacts Packetizer Matrix DetailDecoder DecoderFacts Iterators.
Import ListNotations.
Open Scope N_scope.

(** ** Related outcomes *)

Definition sim {A D} (R : A -> D -> Prop) (x : outcome A) (y : outcome D) : Prop :=
  match x, y with
  | Ok a, Ok d => R a d
  | Throw e, Throw e' => e = e'
  | Fault e, Fault e' => e = e'
  | _, _ => False
  end.

Lemma sim_bind {A D A2 D2} (R : A -> D -> Prop) (R2 : A2 -> D2 -> Prop) x y k k' :
  sim R x y -> (forall a d, R a d -> sim R2 (k a) (k' d)) -> sim R2 (bind x k) (bind y k').
Proof.
  destruct x, y; cbn [sim bind]; intros H K; try contradiction; [apply K, H | exact H | exact H].
Qed.

Lemma sim_same {A A2 D2} (R2 : A2 -> D2 -> Prop) (x : outcome A) k k' :
  (forall a, x = Ok a -> sim R2 (k a) (k' a)) -> sim R2 (bind x k) (bind x k').
Proof. destruct x; cbn [bind sim]; auto. Qed.

Lemma sim_weaken {A D} (R R2 : A -> D -> Prop) x y : (forall a d, R a d -> R2 a d) -> sim R x y -> sim R2 x y.
Proof. intros H. destruct x, y; cbn [sim]; auto. Qed.

(** ** Maps of objects *)

Section Nodes.
Context {V : Type}.
Implicit Types m : nodes V.

Definition addrs m : list N := map (fun '(_, (p, _)) => p) m.

Lemma plain_keys m : mkeys (plain m) = mkeys m.
Proof. unfold mkeys, plain. rewrite map_map. apply map_ext. intros [k [p v]]. reflexivity. Qed.

Lemma plain_sorted m : msorted (plain m) <-> msorted m.
Proof. unfold msorted. rewrite plain_keys. reflexivity. Qed.

Lemma plain_find k m : mfind k (plain m) = option_map snd (mfind k m).
Proof.
  induction m as [|[k' [p v]] m IH]; [reflexivity|]. cbn [plain map mfind]. destruct (k =? k'); [reflexivity | exact IH].
Qed.

Lemma plain_mem k m : mmem k (plain m) = mmem k m.
Proof. unfold mmem. rewrite plain_find. destruct (mfind k m); reflexivity. Qed.

Lemma plain_length m : length (plain m) = length m.
Proof. apply map_length. Qed.

Lemma in_addrs p m : In p (addrs m) <-> exists k v, In (k, (p, v)) m.
Proof.
  unfold addrs. rewrite in_map_iff. split.
  - intros ([k [q v]] & <- & H). eauto.
  - intros (k & v & H). exists (k, (p, v)). auto.
Qed.

Lemma node_in p m k v : node_at p m = Some (k, v) -> In (k, (p, v)) m.
Proof.
  induction m as [|[k' [q w]] m IH]; cbn [node_at]; [discriminate|].
  destruct (p =? q) eqn:E; [|intros H; right; apply IH, H].
  intros H. apply N.eqb_eq in E. left. congruence.
Qed.

Lemma node_of p m k v : NoDup (addrs m) -> In (k, (p, v)) m -> node_at p m = Some (k, v).
Proof.
  induction m as [|[k' [q w]] m IH]; intros Hu H; [destruct H|]. cbn [node_at].
  apply NoDup_cons_iff in Hu. destruct Hu as [Hq Hu]. destruct H as [H|H].
  - replace q with p by congruence. rewrite N.eqb_refl. congruence.
  - destruct (p =? q) eqn:E; [|apply IH; assumption].
    apply N.eqb_eq in E. subst q. exfalso. apply Hq, in_addrs. eauto.
Qed.

Lemma node_none p m : node_at p m = None <-> ~ In p (addrs m).
Proof.
  induction m as [|[k' [q w]] m IH]; cbn [node_at addrs map In]; [tauto|].
  destruct (p =? q) eqn:E.
  - apply N.eqb_eq in E. split; [discriminate|]. intros H. exfalso. apply H. left. congruence.
  - apply N.eqb_neq in E. rewrite IH. unfold addrs. split; [intros H [X|X]; [congruence | auto] | intros H X; apply H; auto].
Qed.

Lemma find_at k m p v : NoDup (addrs m) -> mfind k m = Some (p, v) -> node_at p m = Some (k, v).
Proof. intros Hu H. apply node_of; [exact Hu|]. apply mfind_in, H. Qed.

Lemma at_find k m p v : msorted m -> node_at p m = Some (k, v) -> mfind k m = Some (p, v).
Proof. intros Hs H. apply in_mfind; [exact Hs|]. apply node_in, H. Qed.

Lemma at_plain k m p v : msorted m -> node_at p m = Some (k, v) -> mfind k (plain m) = Some v.
Proof. intros Hs H. rewrite plain_find, (at_find k m p v Hs H). reflexivity. Qed.

Lemma plain_mset k p v m : plain (mset k (p, v) m) = mset k v (plain m).
Proof.
  induction m as [|[k' [q w]] m IH]; [reflexivity|]. cbn [mset plain map].
  destruct (k <? k'); [reflexivity|]. destruct (k =? k'); [reflexivity|]. cbn [map]. f_equal. exact IH.
Qed.

Lemma plain_assign p m k w v : msorted m -> node_at p m = Some (k, w) -> plain (assign p v m) = mset k v (plain m).
Proof.
  induction m as [|[k' [q u]] m IH]; intros Hs H; [discriminate|].
  apply msorted_cons_inv in Hs. destruct Hs as [Hs Hl]. cbn [node_at] in H. cbn [assign].
  destruct (p =? q) eqn:E; cbn [plain map mset].
  - assert (k = k') by congruence. subst k'. rewrite N.ltb_irrefl, N.eqb_refl. reflexivity.
  - pose proof (node_in _ _ _ _ H) as Hin. specialize (IH Hs H).
    assert (Hk : k' < k) by (apply (Hl k (p, w)), Hin).
    replace (k <? k') with false by (symmetry; apply N.ltb_ge; lia).
    replace (k =? k') with false by (symmetry; apply N.eqb_neq; lia).
    f_equal. exact IH.
Qed.

Lemma plain_erase p m k w : msorted m -> node_at p m = Some (k, w) -> plain (erase_at p m) = merase k (plain m).
Proof.
  induction m as [|[k' [q u]] m IH]; intros Hs H; [discriminate|].
  apply msorted_cons_inv in Hs. destruct Hs as [Hs Hl]. cbn [node_at] in H. cbn [erase_at].
  destruct (p =? q) eqn:E; cbn [plain map merase].
  - assert (k = k') by congruence. subst k'. rewrite N.eqb_refl. reflexivity.
  - pose proof (node_in _ _ _ _ H) as Hin. specialize (IH Hs H).
    assert (Hk : k' < k) by (apply (Hl k (p, w)), Hin).
    replace (k =? k') with false by (symmetry; apply N.eqb_neq; lia).
    cbn [map]. f_equal. exact IH.
Qed.

Lemma addrs_assign p v m : addrs (assign p v m) = addrs m.
Proof.
  induction m as [|[k' [q u]] m IH]; [reflexivity|]. cbn [assign]. destruct (p =? q); [reflexivity|].
  cbn [addrs map]. f_equal. exact IH.
Qed.

Lemma keys_assign p v m : mkeys (assign p v m) = mkeys m.
Proof.
  induction m as [|[k' [q u]] m IH]; [reflexivity|]. cbn [assign]. destruct (p =? q); [reflexivity|].
  cbn [mkeys map]. f_equal. exact IH.
Qed.

Lemma addrs_erase_incl p m q : In q (addrs (erase_at p m)) -> In q (addrs m).
Proof.
  induction m as [|[k' [q' u]] m IH]; [auto|]. cbn [erase_at]. destruct (p =? q'); cbn [addrs map In]; [auto|].
  intros [H|H]; [left; exact H | right; apply IH, H].
Qed.

Lemma addrs_erase_nodup p m : NoDup (addrs m) -> NoDup (addrs (erase_at p m)).
Proof.
  induction m as [|[k' [q' u]] m IH]; [auto|]. intros H. cbn [addrs map] in H. apply NoDup_cons_iff in H. destruct H as [H1 H2].
  cbn [erase_at]. destruct (p =? q'); [exact H2|]. cbn [addrs map]. constructor; [|apply IH, H2].
  intros H. apply H1. eapply addrs_erase_incl, H.
Qed.

Lemma addrs_mset k p v m : ~ In k (mkeys m) -> Permutation (p :: addrs m) (addrs (mset k (p, v) m)).
Proof.
  induction m as [|[k' [q' u]] m IH]; intros H; [reflexivity|]. cbn [mset].
  destruct (k <? k'); [reflexivity|]. destruct (k =? k') eqn:E.
  - exfalso. apply H. left. apply N.eqb_eq in E. symmetry. exact E.
  - cbn [addrs map]. etransitivity; [apply perm_swap|]. apply perm_skip, IH. intros X. apply H. right. exact X.
Qed.

Lemma at_assign q p v m : node_at q (assign p v m) =
  if q =? p then option_map (fun '(k, _) => (k, v)) (node_at p m) else node_at q m.
Proof.
  induction m as [|[k' [q' u]] m IH].
  - cbn. destruct (q =? p); reflexivity.
  - cbn [assign]. destruct (p =? q') eqn:E; cbn [node_at].
    + apply N.eqb_eq in E. subst q'. rewrite N.eqb_refl. destruct (q =? p); reflexivity.
    + rewrite IH, E. destruct (q =? p) eqn:E2; [|reflexivity]. apply N.eqb_eq in E2. subst q. rewrite E. reflexivity.
Qed.

Lemma at_erase q p m : NoDup (addrs m) -> node_at q (erase_at p m) = if q =? p then None else node_at q m.
Proof.
  induction m as [|[k' [q' u]] m IH]; intros Hu.
  - cbn. destruct (q =? p); reflexivity.
  - cbn [addrs map] in Hu. apply NoDup_cons_iff in Hu. destruct Hu as [H1 H2]. specialize (IH H2).
    cbn [erase_at]. destruct (p =? q') eqn:E; cbn [node_at].
    + apply N.eqb_eq in E. subst q'. destruct (q =? p) eqn:E2; [|reflexivity].
      apply N.eqb_eq in E2. subst q. apply node_none, H1.
    + rewrite IH. destruct (q =? p) eqn:E2; [|reflexivity]. apply N.eqb_eq in E2. subst q. rewrite E. reflexivity.
Qed.

Lemma at_mset q k p v m : ~ In k (mkeys m) -> ~ In p (addrs m) ->
  node_at q (mset k (p, v) m) = if q =? p then Some (k, v) else node_at q m.
Proof.
  induction m as [|[k' [q' u]] m IH]; intros H1 H2; [reflexivity|]. cbn [mset].
  destruct (k <? k'); [reflexivity|]. destruct (k =? k') eqn:E.
  - exfalso. apply H1. left. apply N.eqb_eq in E. symmetry. exact E.
  - cbn [node_at]. rewrite IH; [|intros X; apply H1; right; exact X | intros X; apply H2; right; exact X].
    destruct (q =? q') eqn:E2; [|reflexivity]. destruct (q =? p) eqn:E3; [|reflexivity].
    exfalso. apply H2. left. apply N.eqb_eq in E2, E3. congruence.
Qed.

Lemma plain_from x m : plain (mfrom x m) = mfrom x (plain m).
Proof.
  induction m as [|[k' [q' u]] m IH]; [reflexivity|]. cbn [mfrom filter plain map]. destruct (x <=? k'); cbn [map]; [f_equal|]; exact IH.
Qed.

Lemma addrs_filter_incl b m q : In q (addrs (filter b m)) -> In q (addrs m).
Proof. rewrite !in_addrs. intros (k & v & H). apply filter_In in H. exists k, v. apply H. Qed.

Lemma addrs_filter_nodup b m : NoDup (addrs m) -> NoDup (addrs (filter b m)).
Proof.
  induction m as [|[k' [q' u]] m IH]; [auto|]. intros H. cbn [addrs map] in H. apply NoDup_cons_iff in H. destruct H as [H1 H2].
  cbn [filter]. destruct (b _); [|apply IH, H2]. cbn [addrs map]. constructor; [|apply IH, H2].
  intros H. apply H1. eapply addrs_filter_incl, H.
Qed.

Lemma at_filter b m q k v : NoDup (addrs m) -> node_at q m = Some (k, v) -> b (k, (q, v)) = true ->
  node_at q (filter b m) = Some (k, v).
Proof.
  intros Hu H Hb. apply node_of; [apply addrs_filter_nodup, Hu|]. apply filter_In. split; [apply node_in, H | exact Hb].
Qed.

(** Iterators *)
Lemma next_split pre k q v suf : NoDup (addrs (pre ++ (k, (q, v)) :: suf)) ->
  next_node q (pre ++ (k, (q, v)) :: suf) = first_node suf
  /\ erase_at q (pre ++ (k, (q, v)) :: suf) = pre ++ suf
  /\ node_at q (pre ++ (k, (q, v)) :: suf) = Some (k, v).
Proof.
  induction pre as [|[k' [q' u]] pre IH]; intros Hu.
  - cbn. rewrite N.eqb_refl. auto.
  - cbn [app addrs map] in Hu. apply NoDup_cons_iff in Hu. destruct Hu as [H1 H2]. destruct (IH H2) as (A & B & C).
    cbn [app next_node erase_at node_at]. destruct (q =? q') eqn:E.
    + exfalso. apply H1. apply N.eqb_eq in E. subst q'. apply in_addrs. exists k, v. apply in_or_app. right. left. reflexivity.
    + rewrite A, B, C. auto.
Qed.

End Nodes.

Lemma serase_keep x y l : In y l -> y <> x -> In y (serase x l).
Proof.
  induction l as [|z l IH]; cbn [serase In]; [auto|]. intros [->|H] Hn.
  - replace (x =? y) with false by (symmetry; apply N.eqb_neq; congruence). left. reflexivity.
  - destruct (x =? z); [exact H | right; apply IH; assumption].
Qed.

Lemma deref_some {V} p (m : nodes V) x : node_at p m = Some x -> deref p m = Ok x.
Proof. intros H. unfold deref. rewrite H. reflexivity. Qed.

(** ** Repairs and missing sources *)

(** Address [p] is that of the repair with key [r]. *)
Definition points (R : nodes drepair) (p r : N) : Prop := exists rep, node_at p R = Some (r, rep).

Definition node_rel (R : nodes drepair) (x : N * (N * list N)) (y : N * list N) : Prop :=
  fst x = fst y /\ Forall2 (points R) (snd (snd x)) (snd y).

Record graph (R : nodes drepair) (M : nodes (list N)) (R' : list (N * drepair)) (M' : list (N * list N)) (nx : N) : Prop := {
  g_plain : plain R = R';
  g_rs : msorted R';
  g_ms : msorted M';
  g_ru : NoDup (addrs R);
  g_mu : NoDup (addrs M);
  g_rf : forall p, In p (addrs R) -> p < nx;
  g_mf : forall p, In p (addrs M) -> p < nx;
  g_links : Forall2 (node_rel R) M M';
  g_ls : forall x l, mfind x M' = Some l -> ssorted l;
  g_linked : forall x l r, mfind x M' = Some l -> In r l -> exists rep, mfind r R' = Some rep /\ In x (dr_ids rep)
}.

Lemma graph_weaken R M R' M' nx nx' : nx <= nx' -> graph R M R' M' nx -> graph R M R' M' nx'.
Proof.
  intros Hn G. constructor; try apply G.
  - intros p Hp. apply (g_rf _ _ _ _ _ G) in Hp. lia.
  - intros p Hp. apply (g_mf _ _ _ _ _ G) in Hp. lia.
Qed.

Lemma rel_keys R M M' : Forall2 (node_rel R) M M' -> mkeys M = mkeys M'.
Proof. induction 1 as [|x y M M' [H _] _ IH]; [reflexivity|]. cbn [mkeys map]. f_equal; [exact H | exact IH]. Qed.

Lemma rel_find R M M' x : Forall2 (node_rel R) M M' ->
  match mfind x M, mfind x M' with
  | Some (q, l), Some l' => Forall2 (points R) l l'
  | None, None => True
  | _, _ => False
  end.
Proof.
  induction 1 as [|[k [q l]] [k' l'] M M' [H1 H2] _ IH]; [exact I|].
  cbn [fst snd] in H1, H2. subst k'. cbn [mfind]. destruct (x =? k); [exact H2 | exact IH].
Qed.

Lemma graph_sorted R M R' M' nx : graph R M R' M' nx -> msorted R /\ msorted M.
Proof.
  intros G. split.
  - apply plain_sorted. rewrite (g_plain _ _ _ _ _ G). apply G.
  - unfold msorted. rewrite (rel_keys _ _ _ (g_links _ _ _ _ _ G)). apply G.
Qed.

Lemma graph_mem R M R' M' nx x : graph R M R' M' nx -> mmem x M = mmem x M'.
Proof.
  intros G. pose proof (rel_find _ _ _ x (g_links _ _ _ _ _ G)) as H. unfold mmem.
  destruct (mfind x M) as [[q l]|], (mfind x M'); try contradiction; reflexivity.
Qed.

Lemma graph_length R M R' M' nx : graph R M R' M' nx -> length R = length R' /\ length M = length M'.
Proof.
  intros G. split; [rewrite <- (g_plain _ _ _ _ _ G); symmetry; apply plain_length|].
  pose proof (g_links _ _ _ _ _ G) as H. clear G. induction H; [reflexivity | cbn [length]; congruence].
Qed.

(** A repair by its address and by its key. *)
Lemma graph_repair R M R' M' nx p r rep : graph R M R' M' nx -> node_at p R = Some (r, rep) -> mfind r R' = Some rep.
Proof.
  intros G H. rewrite <- (g_plain _ _ _ _ _ G). apply (at_plain r R p rep); [apply (graph_sorted _ _ _ _ _ G) | exact H].
Qed.

(** Changing the repairs so that the ones with links stay where they are. *)
Lemma rel_mono R R2 M M' : (forall x l r p, mfind x M' = Some l -> In r l -> points R p r -> points R2 p r) ->
  msorted M' -> Forall2 (node_rel R) M M' -> Forall2 (node_rel R2) M M'.
Proof.
  intros H Hs F. induction F as [|[k [q l]] [k' l'] M M' [H1 H2] F IH]; [constructor|].
  cbn [fst snd] in H1, H2. subst k'. constructor.
  - split; [reflexivity|]. cbn [snd].
    assert (X : forall r p, In r l' -> points R p r -> points R2 p r).
    { intros r p. apply (H k l' r p). cbn [mfind]. rewrite N.eqb_refl. reflexivity. }
    clear - H2 X. induction H2 as [|p r l l' Hp F IH]; [constructor|]. constructor; [apply X; [left; reflexivity | exact Hp]|].
    apply IH. intros r' p' Hr. apply X. right. exact Hr.
  - apply msorted_cons_inv in Hs. destruct Hs as [Hs Hl]. apply IH; [|exact Hs].
    intros x l2 r p E. apply (H x l2 r p). cbn [mfind].
    replace (x =? k) with false; [exact E|]. symmetry. apply N.eqb_neq. apply mfind_in in E. apply Hl in E. lia.
Qed.

Lemma rel_assign R q l2 l2' : forall M M' x l, NoDup (addrs M) -> msorted M' -> Forall2 (node_rel R) M M' ->
  node_at q M = Some (x, l) -> Forall2 (points R) l2 l2' ->
  Forall2 (node_rel R) (assign q l2 M) (mset x l2' M').
Proof.
  intros M M' x l Hu Hs F. revert Hu Hs. induction F as [|[k [q' u]] [k' u'] M M' [H1 H2] F IH]; intros Hu Hs E P; [discriminate|].
  cbn [fst snd] in H1, H2. subst k'. cbn [node_at] in E. cbn [assign mset].
  apply msorted_cons_inv in Hs. destruct Hs as [Hs Hl].
  cbn [addrs map] in Hu. apply NoDup_cons_iff in Hu. destruct Hu as [_ Hu].
  destruct (q =? q') eqn:Eq.
  - assert (x = k) by congruence. subst x. rewrite N.ltb_irrefl, N.eqb_refl. constructor; [split; [reflexivity | exact P] | exact F].
  - assert (Hk : k < x).
    { apply node_in in E. apply (in_map fst) in E. change (In x (mkeys M)) in E. rewrite (rel_keys _ _ _ F) in E.
      apply in_map_iff in E. destruct E as ([x2 v] & <- & E). apply (Hl x2 v), E. }
    replace (x <? k) with false by (symmetry; apply N.ltb_ge; lia).
    replace (x =? k) with false by (symmetry; apply N.eqb_neq; lia).
    constructor; [split; [reflexivity | exact H2] | apply IH; assumption].
Qed.

Lemma rel_erase R q : forall M M' x l, NoDup (addrs M) -> msorted M' -> Forall2 (node_rel R) M M' ->
  node_at q M = Some (x, l) -> Forall2 (node_rel R) (erase_at q M) (merase x M').
Proof.
  intros M M' x l Hu Hs F. revert Hu Hs. induction F as [|[k [q' u]] [k' u'] M M' [H1 H2] F IH]; intros Hu Hs E; [discriminate|].
  cbn [fst snd] in H1, H2. subst k'. cbn [node_at] in E. cbn [erase_at merase].
  apply msorted_cons_inv in Hs. destruct Hs as [Hs Hl].
  cbn [addrs map] in Hu. apply NoDup_cons_iff in Hu. destruct Hu as [_ Hu].
  destruct (q =? q') eqn:Eq.
  - assert (x = k) by congruence. subst x. rewrite N.eqb_refl. exact F.
  - assert (Hk : k < x).
    { apply node_in in E. apply (in_map fst) in E. change (In x (mkeys M)) in E. rewrite (rel_keys _ _ _ F) in E.
      apply in_map_iff in E. destruct E as ([x2 v] & <- & E). apply (Hl x2 v), E. }
    replace (x =? k) with false by (symmetry; apply N.eqb_neq; lia).
    constructor; [split; [reflexivity | exact H2] | apply IH; assumption].
Qed.

Lemma rel_mset R q l2 l2' x : forall M M', Forall2 (node_rel R) M M' -> Forall2 (points R) l2 l2' ->
  Forall2 (node_rel R) (mset x (q, l2) M) (mset x l2' M').
Proof.
  intros M M' F P. induction F as [|[k [q' u]] [k' u'] M M' [H1 H2] F IH].
  - constructor; [split; [reflexivity | exact P] | constructor].
  - cbn [fst snd] in H1, H2. subst k'. cbn [mset].
    destruct (x <? k); [|destruct (x =? k)].
    + constructor; [split; [reflexivity | exact P]|]. constructor; [split; [reflexivity | exact H2] | exact F].
    + constructor; [split; [reflexivity | exact P] | exact F].
    + constructor; [split; [reflexivity | exact H2] | exact IH].
Qed.

Lemma graph_erase_missing R M R' M' nx x q l : graph R M R' M' nx -> node_at q M = Some (x, l) ->
  graph R (erase_at q M) R' (merase x M') nx.
Proof.
  intros G E. constructor; try apply G.
  - apply merase_sorted, G.
  - apply addrs_erase_nodup, G.
  - intros p Hp. apply addrs_erase_incl in Hp. apply (g_mf _ _ _ _ _ G), Hp.
  - eapply rel_erase; [apply G | apply G | apply G | exact E].
  - intros y l2. rewrite mfind_merase by apply G. destruct (y =? x); [discriminate | apply G].
  - intros y l2 r. rewrite mfind_merase by apply G. destruct (y =? x); [discriminate | apply G].
Qed.

Lemma graph_assign_missing R M R' M' nx x q l l2 l2' : graph R M R' M' nx -> node_at q M = Some (x, l) ->
  Forall2 (points R) l2 l2' -> ssorted l2' ->
  (forall r, In r l2' -> exists rep, mfind r R' = Some rep /\ In x (dr_ids rep)) ->
  graph R (assign q l2 M) R' (mset x l2' M') nx.
Proof.
  intros G E P Hs Hl. constructor; try apply G.
  - apply mset_sorted, G.
  - rewrite addrs_assign. apply G.
  - rewrite addrs_assign. apply G.
  - eapply rel_assign; [apply G | apply G | apply G | exact E | exact P].
  - intros y l3. rewrite mfind_mset. destruct (y =? x); [|apply G]. intros X. assert (l3 = l2') by congruence. subst l3. exact Hs.
  - intros y l3 r. rewrite mfind_mset. destruct (y =? x) eqn:Ey; [|apply G].
    apply N.eqb_eq in Ey. subst y. intros X. assert (l3 = l2') by congruence. subst l3. apply Hl.
Qed.

Lemma graph_new_missing R M R' M' nx x l2 l2' : graph R M R' M' nx -> ~ In x (mkeys M) ->
  Forall2 (points R) l2 l2' -> ssorted l2' ->
  (forall r, In r l2' -> exists rep, mfind r R' = Some rep /\ In x (dr_ids rep)) ->
  graph R (mset x (nx, l2) M) R' (mset x l2' M') (nx + 1).
Proof.
  intros G Hx P Hs Hl. pose proof (addrs_mset x nx l2 M Hx) as Pm. constructor; try apply G.
  - apply mset_sorted, G.
  - eapply Permutation_NoDup; [exact Pm|]. constructor; [|apply G].
    intros Hn. apply (g_mf _ _ _ _ _ G) in Hn. lia.
  - intros p Hp. apply (g_rf _ _ _ _ _ G) in Hp. lia.
  - intros p Hp. apply (Permutation_in _ (Permutation_sym Pm)) in Hp. destruct Hp as [<-|Hp]; [lia|].
    apply (g_mf _ _ _ _ _ G) in Hp. lia.
  - apply rel_mset; [apply G | exact P].
  - intros y l3. rewrite mfind_mset. destruct (y =? x); [|apply G]. intros X. assert (l3 = l2') by congruence. subst l3. exact Hs.
  - intros y l3 r. rewrite mfind_mset. destruct (y =? x) eqn:Ey; [|apply G].
    apply N.eqb_eq in Ey. subst y. intros X. assert (l3 = l2') by congruence. subst l3. apply Hl.
Qed.

Lemma points_assign R p v q r : points R q r -> points (assign p v R) q r.
Proof.
  intros [rep H]. unfold points. rewrite at_assign. destruct (q =? p) eqn:E; [|eauto].
  apply N.eqb_eq in E. subst q. rewrite H. cbn [option_map]. eauto.
Qed.

Lemma graph_assign_repair R M R' M' nx p r rep rep2 : graph R M R' M' nx -> node_at p R = Some (r, rep) ->
  (forall x l, mfind x M' = Some l -> In r l -> In x (dr_ids rep2)) ->
  graph (assign p rep2 R) M (mset r rep2 R') M' nx.
Proof.
  intros G E Hl. destruct (graph_sorted _ _ _ _ _ G) as [Hs _]. constructor; try apply G.
  - rewrite (plain_assign p R r rep rep2 Hs E), (g_plain _ _ _ _ _ G). reflexivity.
  - apply mset_sorted, G.
  - rewrite addrs_assign. apply G.
  - rewrite addrs_assign. apply G.
  - apply rel_mono with R; [|apply G | apply G]. intros x l r0 p0 _ _. apply points_assign.
  - intros x l r0 Ex Hr. rewrite mfind_mset. destruct (r0 =? r) eqn:Er.
    + apply N.eqb_eq in Er. subst r0. exists rep2. split; [reflexivity | eapply Hl; eassumption].
    + apply (g_linked _ _ _ _ _ G x l r0 Ex Hr).
Qed.

Lemma graph_erase_repair R M R' M' nx p r rep : graph R M R' M' nx -> node_at p R = Some (r, rep) ->
  (forall x l, mfind x M' = Some l -> ~ In r l) ->
  graph (erase_at p R) M (merase r R') M' nx.
Proof.
  intros G E Hl. destruct (graph_sorted _ _ _ _ _ G) as [Hs _]. constructor; try apply G.
  - rewrite (plain_erase p R r rep Hs E), (g_plain _ _ _ _ _ G). reflexivity.
  - apply merase_sorted, G.
  - apply addrs_erase_nodup, G.
  - intros q Hq. apply addrs_erase_incl in Hq. apply (g_rf _ _ _ _ _ G), Hq.
  - apply rel_mono with R; [|apply G | apply G]. intros x l r0 p0 Ex Hr [rep0 H]. unfold points.
    rewrite at_erase by apply G. destruct (p0 =? p) eqn:Ep; [|eauto].
    apply N.eqb_eq in Ep. subst p0. rewrite E in H. injection H as -> _. exfalso. apply (Hl x l Ex Hr).
  - intros x l r0 Ex Hr. rewrite mfind_merase by apply G. destruct (r0 =? r) eqn:Er.
    + apply N.eqb_eq in Er. subst r0. exfalso. apply (Hl x l Ex Hr).
    + apply (g_linked _ _ _ _ _ G x l r0 Ex Hr).
Qed.

Lemma graph_new_repair R M R' M' nx r rep : graph R M R' M' nx -> ~ In r (mkeys R) ->
  graph (mset r (nx, rep) R) M (mset r rep R') M' (nx + 1).
Proof.
  intros G Hr. pose proof (addrs_mset r nx rep R Hr) as Pm.
  assert (Hf : ~ In nx (addrs R)) by (intros X; apply (g_rf _ _ _ _ _ G) in X; lia).
  constructor; try apply G.
  - rewrite plain_mset, (g_plain _ _ _ _ _ G). reflexivity.
  - apply mset_sorted, G.
  - eapply Permutation_NoDup; [exact Pm|]. constructor; [exact Hf | apply G].
  - intros p Hp. apply (Permutation_in _ (Permutation_sym Pm)) in Hp. destruct Hp as [<-|Hp]; [lia|].
    apply (g_rf _ _ _ _ _ G) in Hp. lia.
  - intros p Hp. apply (g_mf _ _ _ _ _ G) in Hp. lia.
  - apply rel_mono with R; [|apply G | apply G]. intros x l r0 p0 _ _ [rep0 H]. unfold points.
    rewrite at_mset by assumption. destruct (p0 =? nx) eqn:Ep; [|eauto].
    apply N.eqb_eq in Ep. subst p0. exfalso. apply Hf, in_addrs. apply node_in in H. eauto.
  - intros x l r0 Ex Hr0. rewrite mfind_mset. destruct (r0 =? r) eqn:Er; [|apply (g_linked _ _ _ _ _ G x l r0 Ex Hr0)].
    apply N.eqb_eq in Er. subst r0. destruct (g_linked _ _ _ _ _ G x l r Ex Hr0) as (rep0 & X & _).
    exfalso. apply Hr. rewrite <- (g_plain _ _ _ _ _ G) in X. rewrite <- plain_keys. apply mfind_keys. eauto.
Qed.

Lemma rel_from R x M M' : Forall2 (node_rel R) M M' -> Forall2 (node_rel R) (mfrom x M) (mfrom x M').
Proof.
  induction 1 as [|[k [q u]] [k' u'] M M' [H1 H2] F IH]; [constructor|].
  cbn [fst snd] in H1, H2. subst k'. cbn [mfrom filter]. destruct (x <=? k); [|exact IH].
  constructor; [split; [reflexivity | exact H2] | exact IH].
Qed.

Lemma mfind_from {V} x y (m : list (N * V)) v : mfind y (mfrom x m) = Some v -> msorted m -> mfind y m = Some v.
Proof.
  intros H Hs. apply mfind_in in H. apply filter_In in H. apply in_mfind; [exact Hs | apply H].
Qed.

Lemma graph_from R M R' M' nx x : graph R M R' M' nx -> graph R (mfrom x M) R' (mfrom x M') nx.
Proof.
  intros G. constructor; try apply G.
  - apply msorted_filter, G.
  - apply addrs_filter_nodup, G.
  - intros p Hp. apply addrs_filter_incl in Hp. apply (g_mf _ _ _ _ _ G), Hp.
  - apply rel_from, G.
  - intros y l E. apply mfind_from in E; [|apply G]. eapply G, E.
  - intros y l r E. apply mfind_from in E; [|apply G]. apply (g_linked _ _ _ _ _ G y l r E).
Qed.

(** *** Sets of links *)

Lemma all_alive_ok R l l' : Forall2 (points R) l l' -> all_alive R l = Ok tt.
Proof.
  induction 1 as [|p r l l' [rep H] F IH]; [reflexivity|]. cbn [all_alive]. rewrite (deref_some _ _ _ H). exact IH.
Qed.

Lemma key_at_points R p r : points R p r -> key_at R p = r.
Proof. intros [rep H]. unfold key_at. rewrite H. reflexivity. Qed.

Lemma links_emplace_spec R p r l l' : points R p r -> Forall2 (points R) l l' ->
  exists l2, links_emplace R p l = Ok l2 /\ Forall2 (points R) l2 (sinsert r l').
Proof.
  intros Hp F. unfold links_emplace. destruct Hp as [rep Hp]. rewrite (deref_some _ _ _ Hp). cbn [bind].
  rewrite (all_alive_ok _ _ _ F). cbn [bind]. eexists. split; [reflexivity|].
  induction F as [|q k l l' H F IH]; [constructor; [exists rep; exact Hp | constructor]|].
  cbn [link_insert sinsert]. rewrite (key_at_points _ _ _ H).
  destruct (r <? k); [|destruct (r =? k)].
  - constructor; [exists rep; exact Hp|]. constructor; assumption.
  - constructor; assumption.
  - constructor; [exact H | exact IH].
Qed.

Lemma links_erase_spec R p r l l' : points R p r -> Forall2 (points R) l l' ->
  exists l2, links_erase R p l = Ok l2 /\ Forall2 (points R) l2 (serase r l').
Proof.
  intros Hp F. unfold links_erase. destruct Hp as [rep Hp]. rewrite (deref_some _ _ _ Hp). cbn [bind].
  rewrite (all_alive_ok _ _ _ F). cbn [bind]. eexists. split; [reflexivity|].
  induction F as [|q k l l' H F IH]; [constructor|].
  cbn [link_erase serase]. rewrite (key_at_points _ _ _ H).
  destruct (r =? k); [exact F|]. constructor; [exact H | exact IH].
Qed.

(** ** Known and ordered sources *)

Record shelf (S : nodes (list N)) (O : list (N * N)) (S' : list (N * list N)) (O' : list N) (nx : N) : Prop := {
  h_plain : plain S = S';
  h_ss : msorted S';
  h_su : NoDup (addrs S);
  h_sf : forall p, In p (addrs S) -> p < nx;
  h_keys : mkeys O = O';
  h_os : ssorted O';
  h_ptrs : forall x p, In (x, p) O -> exists data, node_at p S = Some (x, data)
}.

Lemma shelf_weaken S O S' O' nx nx' : nx <= nx' -> shelf S O S' O' nx -> shelf S O S' O' nx'.
Proof. intros Hn H. constructor; try apply H. intros p Hp. apply (h_sf _ _ _ _ _ H) in Hp. lia. Qed.

Lemma shelf_sorted S O S' O' nx : shelf S O S' O' nx -> msorted S.
Proof. intros H. apply plain_sorted. rewrite (h_plain _ _ _ _ _ H). apply H. Qed.

Lemma shelf_mem S O S' O' nx x : shelf S O S' O' nx -> mmem x S = mmem x S'.
Proof. intros H. rewrite <- (h_plain _ _ _ _ _ H). symmetry. apply plain_mem. Qed.

Lemma shelf_find S O S' O' nx x : shelf S O S' O' nx -> mfind x S' = option_map snd (mfind x S).
Proof. intros H. rewrite <- (h_plain _ _ _ _ _ H). apply plain_find. Qed.

Lemma mkeys_merase {V} k (m : list (N * V)) : mkeys (merase k m) = serase k (mkeys m).
Proof.
  induction m as [|[k' v] m IH]; [reflexivity|]. cbn [merase mkeys map serase].
  cbn [fst]. destruct (k =? k'); [reflexivity|]. cbn [map]. f_equal. exact IH.
Qed.

Lemma mkeys_mput {V} k (v : V) m : msorted m -> mkeys (mput k v m) = sinsert k (mkeys m).
Proof.
  intros Hs. unfold mput. destruct (mfind k m) eqn:E.
  - symmetry. apply sinsert_mem_id; [exact Hs|]. apply mfind_keys. eauto.
  - clear Hs. induction m as [|[k' v'] m IH]; [reflexivity|]. cbn [mfind] in E.
    cbn [mset mkeys map sinsert fst]. destruct (k =? k') eqn:Ek; [discriminate|].
    destruct (k <? k'); [reflexivity|]. cbn [map fst]. f_equal. apply IH, E.
Qed.

Lemma mkeys_from {V} x (m : list (N * V)) : mkeys (mfrom x m) = from x (mkeys m).
Proof.
  induction m as [|[k v] m IH]; [reflexivity|]. cbn [mfrom filter mkeys map from fst].
  destruct (x <=? k); cbn [map fst]; [f_equal|]; exact IH.
Qed.

Lemma mkeys_before {V} x (m : list (N * V)) : mkeys (mbefore x m) = before x (mkeys m).
Proof.
  induction m as [|[k v] m IH]; [reflexivity|]. cbn [mbefore filter mkeys map before fst].
  destruct (k <? x); cbn [map fst]; [f_equal|]; exact IH.
Qed.

Lemma merase_in {V} k (m : list (N * V)) x v : In (x, v) (merase k m) -> In (x, v) m.
Proof.
  induction m as [|[k' v'] m IH]; [auto|]. cbn [merase]. destruct (k =? k'); [right; assumption|].
  intros [H|H]; [left; exact H | right; apply IH, H].
Qed.

Lemma mmem_keys {V} k (m : list (N * V)) : mmem k m = smem k (mkeys m).
Proof.
  unfold mmem. induction m as [|[k' v] m IH]; [reflexivity|]. cbn [mfind mkeys map smem fst].
  destruct (k =? k'); [reflexivity | exact IH].
Qed.

Lemma shelf_erase S O S' O' nx x : shelf S O S' O' nx -> shelf S (merase x O) S' (serase x O') nx.
Proof.
  intros H. constructor; try apply H.
  - rewrite mkeys_merase, (h_keys _ _ _ _ _ H). reflexivity.
  - apply serase_sorted, H.
  - intros y p Hy. apply (h_ptrs _ _ _ _ _ H). eapply merase_in, Hy.
Qed.

(** ** The states *)

Record same (n : ndec) (d : ddec) : Prop := {
  s_field : n_field n = d_field d;
  s_in_order : n_in_order n = d_in_order d;
  s_first : n_first n = d_first d;
  s_last : n_last n = d_last d;
  s_useless : n_useless n = d_useless d;
  s_failed : n_failed n = d_failed d;
  s_decoded : n_decoded n = d_decoded d;
  s_log : n_log n = d_log d;
  s_graph : graph (n_repairs n) (n_missing n) (d_repairs d) (d_missing d) (n_next n);
  s_shelf : shelf (n_sources n) (n_ordered n) (d_sources d) (d_ordered d) (n_next n);
  s_unordered : d_in_order d = false -> d_ordered d = []
}.

Lemma same_new f o : same (new_ndec f o) (new_ddec f o).
Proof.
  constructor; try reflexivity.
  - constructor; cbn; try constructor; try (intros; contradiction); try discriminate.
  - constructor; cbn; try constructor; try (intros; contradiction).
Qed.

Ltac fields := cbn [n_field n_in_order n_first n_ordered n_repairs n_sources n_last n_missing n_useless n_failed n_decoded n_log n_next
  d_field d_in_order d_first d_ordered d_repairs d_sources d_last d_missing d_useless d_failed d_decoded d_log
  set_first set_ordered set_repairs set_sources set_last set_missing set_useless set_failed set_decoded set_next ncallback
  with_first with_ordered with_repairs with_sources with_last with_missing with_useless with_failed with_decoded count_decoded callback].

Ltac fields_in H := cbn [n_field n_in_order n_first n_ordered n_repairs n_sources n_last n_missing n_useless n_failed n_decoded n_log n_next
  d_field d_in_order d_first d_ordered d_repairs d_sources d_last d_missing d_useless d_failed d_decoded d_log
  set_first set_ordered set_repairs set_sources set_last set_missing set_useless set_failed set_decoded set_next ncallback
  with_first with_ordered with_repairs with_sources with_last with_missing with_useless with_failed with_decoded count_decoded callback] in H.

Ltac use S := first [apply (s_field _ _ S) | apply (s_in_order _ _ S) | apply (s_first _ _ S) | apply (s_last _ _ S)
  | apply (s_useless _ _ S) | apply (s_failed _ _ S) | apply (s_decoded _ _ S) | apply (s_log _ _ S) | apply (s_graph _ _ S)
  | apply (s_shelf _ _ S) | apply (s_unordered _ _ S)].
Ltac keeps S := constructor; fields; try use S.

(** The missing sources and the repairs are untouched. *)
Definition quiet (n n' : ndec) : Prop := n_missing n' = n_missing n /\ n_repairs n' = n_repairs n.

Lemma quiet_refl n : quiet n n.
Proof. split; reflexivity. Qed.

Lemma quiet_trans a b c : quiet a b -> quiet b c -> quiet a c.
Proof. intros [A1 A2] [B1 B2]. split; congruence. Qed.

Lemma same_callback n d x data : same n d -> same (ncallback n x data) (callback d x data).
Proof.
  intros S. keeps S. rewrite (s_log _ _ S). do 3 f_equal.
  rewrite <- plain_keys, (h_plain _ _ _ _ _ (s_shelf _ _ S)). reflexivity.
Qed.

Lemma same_first n d x : same n d -> same (set_first n x) (with_first d x).
Proof. intros S. keeps S. reflexivity. Qed.

Lemma callback_at_sim n d x p : same n d -> In (x, p) (n_ordered n) ->
  exists data, ncallback_at n p = Ok (ncallback n x data) /\ callback_ordered d x = Ok (callback d x data).
Proof.
  intros S Hx. pose proof (s_shelf _ _ S) as H. destruct (h_ptrs _ _ _ _ _ H x p Hx) as [data E]. exists data.
  unfold ncallback_at, callback_ordered. rewrite (deref_some _ _ _ E).
  rewrite <- (h_plain _ _ _ _ _ H), (at_plain x _ p data (shelf_sorted _ _ _ _ _ H) E). auto.
Qed.

Lemma same_deliver n d x p data : same n d -> In (x, p) (n_ordered n) ->
  same (set_ordered (ncallback n x data) (merase x (n_ordered (ncallback n x data))))
       (with_ordered (callback d x data) (serase x (d_ordered (callback d x data)))).
Proof.
  intros S _. pose proof (same_callback n d x data S) as S1. keeps S1; [apply shelf_erase, (s_shelf _ _ S)|].
  intros Ho. rewrite (s_unordered _ _ S Ho). reflexivity.
Qed.

Lemma flush_loop_sim m l : forall n d, same n d -> (forall x p, In (x, p) l -> In (x, p) (n_ordered n)) -> msorted l ->
  sim (fun n' d' => same n' d' /\ quiet n n') (nflush_loop m l n) (flush_loop m (mkeys l) d).
Proof.
  induction l as [|[x p] l IH]; intros n d S Hl Hs.
  - split; [exact S | apply quiet_refl].
  - cbn [nflush_loop mkeys map flush_loop fst]. rewrite (s_first _ _ S). apply sim_same. intros _ _.
    assert (Hx : In (x, p) (n_ordered n)) by (apply Hl; left; reflexivity).
    destruct (callback_at_sim n d x p S Hx) as (data & -> & ->). cbn [bind]. cbv zeta.
    pose proof (same_deliver n d x p data S Hx) as S1.
    set (n1 := set_ordered _ _) in *. set (d1 := with_ordered _ _) in *. rewrite (s_first _ _ S1).
    pose proof (same_first n1 d1 (u32 (d_first d1 + 1)) S1) as S2.
    set (n2 := set_first _ _) in *. set (d2 := with_first _ _) in *.
    assert (Q : quiet n n2) by (split; reflexivity).
    destruct l as [|[x' p'] l']; [split; assumption|]. cbn [map fst]. rewrite (s_first _ _ S2).
    destruct (d_first d2 <? x'); [split; assumption|].
    apply msorted_cons_inv in Hs. destruct Hs as [Hs Hlt].
    eapply sim_weaken; [|apply IH; [exact S2 | | exact Hs]].
    + intros n' d' [A B]. split; [exact A | exact (quiet_trans _ _ _ Q B)].
    + intros y q Hy. subst n2 n1. fields.
      assert (Hne : y <> x) by (specialize (Hlt y q Hy); lia).
      specialize (Hl y q (or_intror Hy)). clear - Hl Hne.
      induction (n_ordered n) as [|[z w] O IH]; [destruct Hl|]. cbn [merase]. destruct Hl as [E|Hl].
      * injection E as -> ->. replace (x =? y) with false by (symmetry; apply N.eqb_neq; congruence). left. reflexivity.
      * destruct (x =? z); [exact Hl | right; apply IH, Hl].
Qed.

Lemma flush_sim m n d : same n d -> sim (fun n' d' => same n' d' /\ quiet n n') (nflush m n) (flush m d).
Proof.
  intros S. unfold nflush, flush. pose proof (s_shelf _ _ S) as H. rewrite mmem_keys, (h_keys _ _ _ _ _ H), (s_first _ _ S).
  destruct (smem _ _); [|split; [exact S | apply quiet_refl]].
  rewrite <- (h_keys _ _ _ _ _ H), <- mkeys_from. apply flush_loop_sim; [exact S | |].
  - intros x p Hx. apply filter_In in Hx. apply Hx.
  - apply msorted_filter. unfold msorted. rewrite (h_keys _ _ _ _ _ H). apply H.
Qed.

Lemma announce_sim m n d id data : same n d ->
  sim (fun n' d' => same n' d' /\ quiet n n') (nannounce m n id data) (announce m d id data).
Proof.
  intros S. unfold nannounce, announce. rewrite (s_in_order _ _ S), (s_first _ _ S).
  pose proof (same_callback n d id data S) as S1.
  destruct (negb _); [split; [exact S1 | split; reflexivity]|].
  destruct (id =? d_first d); [|split; [exact S | apply quiet_refl]]. cbv zeta. rewrite (s_first _ _ S1).
  pose proof (same_first _ _ (u32 (d_first (callback d id data) + 1)) S1) as S2.
  eapply sim_weaken; [|apply flush_sim, S2]. intros n' d' [A [B1 B2]]. split; [exact A|]. split; [exact B1 | exact B2].
Qed.

(** ** A received source *)

Lemma remove_data_ids m f id data r r2 : remove_data m f id data r = Ok r2 -> dr_ids r2 = dr_ids r /\ dr_id r2 = dr_id r.
Proof.
  unfold remove_data. intros H.
  apply bind_ok in H. destruct H as (u1 & _ & H).
  apply bind_ok in H. destruct H as (u2 & _ & H).
  apply bind_ok in H. destruct H as (buf & _ & H). same H. auto.
Qed.

Lemma remove_source_ids m f id data r r2 : remove_source m f id data r = Ok r2 -> dr_ids r2 = serase id (dr_ids r).
Proof.
  unfold remove_source. intros H. apply bind_ok in H. destruct H as (r1 & E & H). apply remove_data_ids in E. destruct E as [E _].
  apply bind_ok in H. destruct H as (u & _ & H). destruct (smem id (dr_ids r1)); [|discriminate]. same H.
  cbn [with_ids dr_ids]. rewrite E. reflexivity.
Qed.

Lemma remove_from_repairs_sim m f id data M M' nx links : forall rs R R',
  graph R M R' M' nx -> mfind id M' = None -> Forall2 (points R) links rs ->
  sim (fun R2 R2' => graph R2 M R2' M' nx) (nremove_from_repairs m f id data links R) (remove_from_repairs m f id data rs R').
Proof.
  induction links as [|p links IH]; intros rs R R' G Hn F; inversion F as [|p0 r l0 rs' Hp F']; subst; clear F.
  - exact G.
  - cbn [nremove_from_repairs remove_from_repairs]. destruct Hp as [rep Hp]. rewrite (deref_some _ _ _ Hp). cbn [bind].
    rewrite (graph_repair _ _ _ _ _ _ _ _ G Hp). apply sim_same. intros rep2 E. apply remove_source_ids in E.
    apply IH; [|exact Hn|].
    + eapply graph_assign_repair; [exact G | exact Hp|]. intros x l Ex Hr. rewrite E. apply serase_keep.
      * destruct (g_linked _ _ _ _ _ G x l r Ex Hr) as (rep0 & E0 & H0).
        rewrite (graph_repair _ _ _ _ _ _ _ _ G Hp) in E0. congruence.
      * intros ->. rewrite Hn in Ex. discriminate.
    + clear - F'. induction F' as [|q k l l' H F IH]; constructor; [apply points_assign, H | exact IH].
Qed.

(** Missing sources are only removed. *)
Definition fewer (n n' : ndec) : Prop := exists b, n_missing n' = filter b (n_missing n).

Lemma filter_true {A} (l : list A) : filter (fun _ => true) l = l.
Proof. induction l as [|x l IH]; [reflexivity | cbn [filter]; f_equal; exact IH]. Qed.

Lemma filter_filter {A} (a b : A -> bool) l : filter a (filter b l) = filter (fun x => b x && a x) l.
Proof.
  induction l as [|x l IH]; [reflexivity|]. cbn [filter]. destruct (b x); cbn [filter andb]; [|exact IH].
  destruct (a x); [f_equal|]; exact IH.
Qed.

Lemma fewer_refl n : fewer n n.
Proof. exists (fun _ => true). symmetry. apply filter_true. Qed.

Lemma fewer_trans a b c : fewer a b -> fewer b c -> fewer a c.
Proof. intros [x A] [y B]. eexists. rewrite B, A. apply filter_filter. Qed.

Lemma quiet_fewer a b : quiet a b -> fewer a b.
Proof. intros [E _]. exists (fun _ => true). rewrite E. symmetry. apply filter_true. Qed.

Lemma erase_filter {V} p (m : nodes V) : NoDup (addrs m) -> erase_at p m = filter (fun '(_, (q, _)) => negb (p =? q)) m.
Proof.
  induction m as [|[k [q v]] m IH]; intros Hu; [reflexivity|]. cbn [addrs map] in Hu. apply NoDup_cons_iff in Hu. destruct Hu as [H1 H2].
  cbn [erase_at filter]. destruct (p =? q) eqn:E; cbn [negb]; [|f_equal; apply IH, H2].
  apply N.eqb_eq in E. subst q. symmetry. rewrite <- (filter_true m) at 2. apply filter_ext_in. intros [k' [q' v']] Hin.
  destruct (p =? q') eqn:E; [|reflexivity]. apply N.eqb_eq in E. subst q'. exfalso. apply H1, in_addrs. eauto.
Qed.

Lemma no_longer_missing_sim m n d id data : same n d ->
  sim (fun n' d' => same n' d' /\ fewer n n') (nno_longer_missing m n id data) (no_longer_missing m d id data).
Proof.
  intros S. unfold nno_longer_missing, no_longer_missing, find_node. pose proof (s_graph _ _ S) as G.
  pose proof (rel_find _ _ _ id (g_links _ _ _ _ _ G)) as E.
  destruct (mfind id (n_missing n)) as [[q links]|] eqn:E1, (mfind id (d_missing d)) as [rs|] eqn:E2; try contradiction;
    [|split; [exact S | apply fewer_refl]].
  rewrite (s_field _ _ S). pose proof (find_at _ _ _ _ (g_mu _ _ _ _ _ G) E1) as Eq.
  pose proof (graph_erase_missing _ _ _ _ _ _ _ _ G Eq) as G1.
  assert (Hn : mfind id (merase id (d_missing d)) = None).
  { rewrite mfind_merase by apply G. rewrite N.eqb_refl. reflexivity. }
  eapply sim_bind; [apply (remove_from_repairs_sim m (d_field d) id data _ _ _ links rs _ _ G1 Hn E)|].
  intros R2 R2' G2. split; [keeps S; exact G2|].
  eexists. fields. apply erase_filter, G.
Qed.

Lemma not_outdated_same n d x : same n d -> nnot_outdated n x = not_outdated d x.
Proof. intros S. unfold nnot_outdated, not_outdated. rewrite (s_last _ _ S). reflexivity. Qed.

Lemma erase_both n d q k p r rep : same n d -> node_at q (n_missing n) = Some (k, [p]) -> mfind k (d_missing d) = Some [r] ->
  node_at p (n_repairs n) = Some (r, rep) -> length (dr_ids rep) = 1%nat ->
  same (set_missing (set_repairs (set_decoded n (n_decoded n + 1)) (erase_at p (n_repairs n))) (erase_at q (n_missing n)))
       (with_missing (with_repairs (count_decoded d 1) (merase r (d_repairs d))) (merase k (d_missing d))).
Proof.
  intros S Eq Ek Ep H1. pose proof (s_graph _ _ S) as G.
  pose proof (graph_erase_missing _ _ _ _ _ _ _ _ G Eq) as G1.
  keeps S.
  - rewrite (s_decoded _ _ S). reflexivity.
  - eapply graph_erase_repair; [exact G1 | exact Ep|].
    intros x l Ex Hr. rewrite mfind_merase in Ex by apply G. destruct (x =? k) eqn:Exk; [discriminate|].
    apply N.eqb_neq in Exk.
    destruct (g_linked _ _ _ _ _ G x l r Ex Hr) as (rep0 & X & Hx).
    destruct (g_linked _ _ _ _ _ G k [r] r Ek (or_introl eq_refl)) as (rep1 & Y & Hk).
    rewrite (graph_repair _ _ _ _ _ _ _ _ G Ep) in X, Y. injection X as <-. injection Y as <-.
    destruct (dr_ids rep) as [|a [|b l2]]; try discriminate. destruct Hx as [<-|[]], Hk as [<-|[]]. congruence.
Qed.

Lemma mkeys_app {V} (a b : list (N * V)) : mkeys (a ++ b) = mkeys a ++ mkeys b.
Proof. apply map_app. Qed.

Lemma filter_mem_head (M M2 : list (N * list N)) keys :
  (forall x, In x keys -> mmem x M2 = mmem x M) ->
  find (fun k' => mmem k' M2) keys = hd_error (filter (fun k' => mmem k' M) keys).
Proof.
  intros H. induction keys as [|x keys IH]; [reflexivity|]. cbn [find filter].
  rewrite (H x (or_introl eq_refl)). destruct (mmem x M); [reflexivity|]. apply IH. intros y Hy. apply H. right. exact Hy.
Qed.

Lemma mkeys_filter {V} (b : N * V -> bool) (c : N -> bool) l : (forall e, In e l -> b e = c (fst e)) ->
  mkeys (filter b l) = filter c (mkeys l).
Proof.
  induction l as [|e l IH]; intros H; [reflexivity|]. cbn [filter mkeys map]. rewrite (H e (or_introl eq_refl)).
  destruct (c (fst e)); cbn [mkeys map]; [f_equal|]; (apply IH; intros e' He; apply H; right; exact He).
Qed.

Lemma filter_len {A} (b : A -> bool) l : (length (filter b l) <= length l)%nat.
Proof. induction l as [|x l IH]; [reflexivity|]. cbn [filter]. destruct (b x); cbn [length]; lia. Qed.

(** The loop over the missing sources; [suf] is what the iterator has not reached yet. *)
Lemma scan_sim (rec : ndec -> N -> list N -> outcome ndec) rec' m :
  (forall n d id data, same n d -> sim (fun n' d' => same n' d' /\ fewer n n') (rec n id data) (rec' d id data)) ->
  forall keys fuel n d pre suf, same n d -> n_missing n = pre ++ suf ->
  mkeys suf = filter (fun k => mmem k (d_missing d)) keys -> NoDup keys -> (length suf <= fuel)%nat ->
  sim (fun n' d' => same n' d' /\ fewer n n') (nscan rec m fuel (first_node suf) n) (scan rec' m keys d).
Proof.
  intros Hrec. induction keys as [|k keys IH]; intros fuel n d pre suf S Em Ek Hd Hf.
  { cbn [filter] in Ek. destruct suf; [|discriminate]. cbn [first_node scan]. destruct fuel; (split; [exact S | apply fewer_refl]). }
  apply NoDup_cons_iff in Hd. destruct Hd as [Hk Hd]. cbn [filter] in Ek. cbn [scan].
  pose proof (s_graph _ _ S) as G.
  destruct (mmem k (d_missing d)) eqn:Emk.
  2: { unfold mmem in Emk. destruct (mfind k (d_missing d)) eqn:E; [discriminate|]. apply (IH fuel n d pre suf); assumption. }
  destruct suf as [|[k0 [q links]] suf]; [discriminate|]. cbn [mkeys map fst] in Ek. injection Ek as -> Ek.
  change (map fst suf) with (mkeys suf) in Ek. cbn [length] in Hf.
  destruct fuel as [|fuel]; [lia|].
  assert (Hu : NoDup (addrs (pre ++ (k, (q, links)) :: suf))) by (rewrite <- Em; apply G).
  destruct (next_split pre k q links suf Hu) as (En & Ee & Ea). rewrite <- Em in En, Ee, Ea.
  cbn [first_node nscan]. rewrite (deref_some _ _ _ Ea). cbn [bind]. rewrite En.
  assert (Next : sim (fun n' d' => same n' d' /\ fewer n n') (nscan rec m fuel (first_node suf) n) (scan rec' m keys d)).
  { apply (IH fuel n d (pre ++ [(k, (q, links))]) suf); try assumption; [rewrite Em, <- app_assoc; reflexivity | lia]. }
  pose proof (rel_find _ _ _ k (g_links _ _ _ _ _ G)) as Er.
  rewrite (at_find k _ q links (proj2 (graph_sorted _ _ _ _ _ G)) Ea) in Er.
  destruct (mfind k (d_missing d)) as [rs|] eqn:Ef; [|contradiction].
  inversion Er as [|p r l0 l1 Hp Fl]; subst; [exact Next|].
  inversion Fl as [|p2 r2 l2 l3 Hp2 Fl2]; subst; [|exact Next].
  destruct Hp as [rep Hp]. rewrite (deref_some _ _ _ Hp). cbn [bind]. rewrite (graph_repair _ _ _ _ _ _ _ _ G Hp).
  destruct (Nat.eqb (length (dr_ids rep)) 1) eqn:E1; [|exact Next]. apply Nat.eqb_eq in E1.
  rewrite (not_outdated_same _ _ _ S). apply sim_same. intros _ _.
  rewrite (shelf_mem _ _ _ _ _ _ (s_shelf _ _ S)). apply sim_same. intros _ _.
  rewrite (s_field _ _ S). apply sim_same. intros [id data] _. cbv zeta.
  pose proof (erase_both n d q k p r rep S Ea Ef Hp E1) as S1.
  fields. fields_in S1. rewrite En. set (n1 := set_missing _ _). 
  change (same n1 (with_missing (with_repairs (count_decoded d 1) (merase r (d_repairs d))) (merase k (d_missing d)))) in S1.
  set (d1 := with_missing _ _). fold d1 in S1.
  assert (F1 : fewer n n1) by (eexists; unfold n1; fields; apply erase_filter, G).
  assert (Em1 : n_missing n1 = pre ++ suf) by (unfold n1; fields; exact Ee).
  assert (Same : forall x, In x keys -> mmem x (d_missing d1) = mmem x (d_missing d)).
  { intros x Hx. unfold d1, mmem. fields. rewrite mfind_merase by apply G.
    destruct (x =? k) eqn:Exk; [|reflexivity]. apply N.eqb_eq in Exk. subst x. contradiction. }
  pose proof (filter_mem_head (d_missing d) (d_missing d1) keys Same) as Enx. unfold d1 in Enx at 1. fields_in Enx.
  rewrite Enx, <- Ek.
  eapply sim_bind; [apply Hrec, S1|]. intros n2 d2 [S2 [b Eb]].
  assert (F2 : fewer n n2) by (eapply fewer_trans; [exact F1 | exists b; exact Eb]).
  rewrite Em1, filter_app in Eb. pose proof (s_graph _ _ S2) as G2.
  destruct suf as [|[k' [q' links']] suf'].
  - cbn [mkeys map hd_error first_node nscan]. destruct fuel; (split; assumption).
  - cbn [mkeys map hd_error fst]. cbn [length] in Hf.
    assert (Hs1 : msorted (n_missing n1)) by (apply (graph_sorted _ _ _ _ _ (s_graph _ _ S1))).
    assert (Hb : forall e, In e (n_missing n1) -> b e = mmem (fst e) (d_missing d2)).
    { intros [x v] He. cbn [fst]. rewrite <- (graph_mem _ _ _ _ _ x G2). rewrite <- filter_app, <- Em1 in Eb. symmetry.
      destruct (b (x, v)) eqn:Ebx.
      - apply mmem_spec. rewrite Eb. change x with (fst (x, v)). apply in_map, filter_In. auto.
      - apply mmem_false. rewrite Eb. intros Hx. apply in_map_iff in Hx. destruct Hx as ([x1 v1] & Ex1 & Hx). cbn [fst] in Ex1. subst x1.
        apply filter_In in Hx. destruct Hx as [Hx Ht]. apply in_mfind in Hx; [|exact Hs1]. apply in_mfind in He; [|exact Hs1]. congruence. }
    assert (Hb' : forall e, In e ((k', (q', links')) :: suf') -> b e = mmem (fst e) (d_missing d2)).
    { intros e He. apply Hb. rewrite Em1. apply in_or_app. right. exact He. }
    pose proof (Hb' _ (or_introl eq_refl)) as Hbk. cbn [fst] in Hbk. rewrite <- Hbk.
    destruct (b (k', (q', links'))) eqn:Ebk.
    + replace (first_node ((k', (q', links')) :: suf')) with (first_node (filter b ((k', (q', links')) :: suf')))
        by (cbn [filter]; rewrite Ebk; reflexivity).
      eapply sim_weaken; [|apply (IH fuel n2 d2 (filter b pre) (filter b ((k', (q', links')) :: suf')) S2 Eb)].
      * intros n3 d3 [A B]. split; [exact A | eapply fewer_trans; eassumption].
      * rewrite (mkeys_filter b (fun x => mmem x (d_missing d2)) _ Hb'), Ek, filter_filter. apply filter_ext_in.
        intros x Hx. cbv beta. rewrite <- (Same x Hx). rewrite <- (graph_mem _ _ _ _ _ x G2), <- (graph_mem _ _ _ _ _ x (s_graph _ _ S1)).
        destruct (mmem x (n_missing n2)) eqn:E2; [|apply andb_false_r]. rewrite andb_true_r. apply mmem_spec. apply mmem_spec in E2.
        rewrite Eb in E2. rewrite <- filter_app, <- Em1 in E2. apply in_map_iff in E2. destruct E2 as (e & <- & He).
        apply filter_In in He. apply in_map, He.
      * exact Hd.
      * pose proof (filter_len b suf'). cbn [filter]. rewrite Ebk. cbn [length]. lia.
    + destruct fuel as [|fuel]; [lia|]. cbn [first_node nscan].
      assert (X : node_at q' (n_missing n2) = None).
      { apply node_none. intros Hq. apply in_addrs in Hq. destruct Hq as (x & v & Hx).
        rewrite Eb, <- filter_app, <- Em1 in Hx. apply filter_In in Hx. destruct Hx as [Hx Ht].
        pose proof (g_mu _ _ _ _ _ (s_graph _ _ S1)) as Hu1. apply node_of in Hx; [|exact Hu1].
        rewrite (node_of q' (n_missing n1) k' links' Hu1) in Hx by (rewrite Em1; apply in_or_app; right; left; reflexivity).
        congruence. }
      unfold deref. rewrite X. reflexivity.
Qed.

Lemma emplace_source_sim n d id data : same n d ->
  let '(n1, p) := emplace_source n id data in
  same n1 (with_sources d (mput id data (d_sources d))) /\ quiet n n1
  /\ node_at p (n_sources n1) = Some (id, match mfind id (d_sources d) with None => data | Some old => old end).
Proof.
  intros S. pose proof (s_shelf _ _ S) as H. unfold emplace_source, find_node, mput. rewrite (shelf_find _ _ _ _ _ id H).
  destruct (mfind id (n_sources n)) as [[p old]|] eqn:E; cbn [option_map snd].
  - split; [|split; [apply quiet_refl | apply find_at; [apply H | exact E]]]. keeps S.
  - assert (Hk : ~ In id (mkeys (n_sources n))) by (apply mfind_none, E).
    assert (Hf : ~ In (n_next n) (addrs (n_sources n))) by (intros X; apply (h_sf _ _ _ _ _ H) in X; lia).
    pose proof (addrs_mset id (n_next n) data (n_sources n) Hk) as Pm.
    split; [|split; [split; reflexivity | fields; rewrite at_mset, N.eqb_refl by assumption; reflexivity]].
    keeps S.
    + eapply graph_weaken; [|apply (s_graph _ _ S)]. lia.
    + constructor; try apply H.
      * rewrite plain_mset, (h_plain _ _ _ _ _ H). reflexivity.
      * apply mset_sorted, H.
      * eapply Permutation_NoDup; [exact Pm|]. constructor; [exact Hf | apply H].
      * intros p Hp. apply (Permutation_in _ (Permutation_sym Pm)) in Hp. destruct Hp as [<-|Hp]; [lia|].
        apply (h_sf _ _ _ _ _ H) in Hp. lia.
      * intros x p Hx. destruct (h_ptrs _ _ _ _ _ H x p Hx) as [v Hv]. exists v. rewrite at_mset by assumption.
        destruct (p =? n_next n) eqn:Ep; [|exact Hv]. apply N.eqb_eq in Ep. subst p. exfalso. apply Hf, in_addrs.
        apply node_in in Hv. eauto.
Qed.

Lemma emplace_ordered_same n d id p data : same n d -> d_in_order d = true -> node_at p (n_sources n) = Some (id, data) ->
  same (emplace_ordered n id p) (with_ordered d (sinsert id (d_ordered d))).
Proof.
  intros S Ho E. pose proof (s_shelf _ _ S) as H. unfold emplace_ordered. keeps S; [|intros X; congruence].
  assert (Hs : msorted (n_ordered n)) by (unfold msorted; rewrite (h_keys _ _ _ _ _ H); apply H).
  constructor; try apply H.
  - rewrite mkeys_mput by exact Hs. rewrite (h_keys _ _ _ _ _ H). reflexivity.
  - apply sinsert_sorted, H.
  - intros x q Hx. unfold mput in Hx. destruct (mfind id (n_ordered n)) eqn:Eo; [apply (h_ptrs _ _ _ _ _ H), Hx|].
    apply in_mfind in Hx; [|apply mset_sorted, Hs]. rewrite mfind_mset in Hx. destruct (x =? id) eqn:Ex.
    + apply N.eqb_eq in Ex. subst x. injection Hx as <-. eauto.
    + apply (h_ptrs _ _ _ _ _ H). apply mfind_in, Hx.
Qed.

Lemma store_sim m n d id data : same n d ->
  sim (fun n' d' => same n' d' /\ quiet n n') (nstore m n id data) (store m d id data).
Proof.
  intros S. unfold nstore, store. rewrite (shelf_mem _ _ _ _ _ _ (s_shelf _ _ S)). apply sim_same. intros _ _. cbv zeta.
  pose proof (emplace_source_sim n d id data S) as H. destruct (emplace_source n id data) as [n1 p]. destruct H as (S1 & Q & E).
  rewrite (s_in_order _ _ S1), (s_first _ _ S1). cbn [sim].
  destruct (_ && _) eqn:Eo; [|split; assumption]. split; [|exact Q]. apply andb_prop in Eo. destruct Eo as [Eo _].
  eapply emplace_ordered_same; eassumption.
Qed.

Lemma add_source_sim m fuel : forall n d id data, same n d ->
  sim (fun n' d' => same n' d' /\ fewer n n') (nadd_source fuel m n id data) (add_source fuel m d id data).
Proof.
  induction fuel as [|fuel IH]; intros n d id data S; [reflexivity|]. cbn [nadd_source add_source].
  eapply sim_bind; [apply announce_sim, S|]. intros n1 d1 [S1 Q1]. apply quiet_fewer in Q1.
  eapply sim_bind; [apply no_longer_missing_sim, S1|]. intros n2 d2 [S2 F2].
  pose proof (s_graph _ _ S2) as G.
  eapply sim_bind; [apply (scan_sim (nadd_source fuel m) (add_source fuel m) m IH (mkeys (d_missing d2)) _ n2 d2 [] (n_missing n2) S2)|].
  - reflexivity.
  - rewrite (rel_keys _ _ _ (g_links _ _ _ _ _ G)). symmetry. rewrite <- (filter_true (mkeys (d_missing d2))) at 2.
    apply filter_ext_in. intros x Hx. apply mmem_spec, Hx.
  - apply ssorted_NoDup, G.
  - lia.
  - cbv beta. intros n3 d3 [S3 F3]. eapply sim_weaken; [|apply store_sim, S3].
    intros n4 d4 [S4 Q4]. split; [exact S4|]. apply quiet_fewer in Q4.
    eapply fewer_trans; [exact Q1|]. eapply fewer_trans; [exact F2|]. eapply fewer_trans; [exact F3 | exact Q4].
Qed.

Lemma enough_same n d : same n d -> nenough n = enough d.
Proof. intros S. unfold nenough, enough. rewrite (proj2 (graph_length _ _ _ _ _ (s_graph _ _ S))). reflexivity. Qed.

(** ** Outdated information *)

Lemma unlink_sim R R' nx p r rep ids : forall M M', graph R M R' M' nx -> node_at p R = Some (r, rep) ->
  sim (fun M2 M2' => graph R M2 R' M2' nx
         /\ forall x l, mfind x M2' = Some l -> In r l -> ~ In x ids /\ exists l0, mfind x M' = Some l0 /\ In r l0)
    (nunlink R p ids M) (unlink r ids M').
Proof.
  induction ids as [|id ids IH]; intros M M' G Hp.
  - split; [exact G|]. intros x l E Hr. split; [intros [] | eauto].
  - cbn [nunlink unlink]. unfold find_node. pose proof (rel_find _ _ _ id (g_links _ _ _ _ _ G)) as F.
    destruct (mfind id M) as [[q l]|] eqn:E1, (mfind id M') as [l'|] eqn:E2; try contradiction; [|reflexivity].
    destruct (links_erase_spec R p r l l') as (l2 & -> & F2); [exists rep; exact Hp | exact F|]. cbn [bind].
    pose proof (find_at _ _ _ _ (g_mu _ _ _ _ _ G) E1) as Eq.
    pose proof (g_ls _ _ _ _ _ G id l' E2) as Hs.
    assert (G1 : graph R (assign q l2 M) R' (mset id (serase r l') M') nx).
    { eapply graph_assign_missing; [exact G | exact Eq | exact F2 | apply serase_sorted, Hs|].
      intros r0 Hr0. apply serase_incl in Hr0. apply (g_linked _ _ _ _ _ G id l' r0 E2 Hr0). }
    eapply sim_weaken; [|apply (IH _ _ G1 Hp)]. intros M2 M2' [G2 H2]. split; [exact G2|].
    intros x l3 E3 Hr. destruct (H2 x l3 E3 Hr) as (A & l0 & B & C). rewrite mfind_mset in B.
    destruct (x =? id) eqn:Ex.
    + assert (l0 = serase r l') by congruence. subst l0. apply serase_in in C; [|exact Hs]. destruct C as [_ C]. congruence.
    + split; [|eauto]. apply N.eqb_neq in Ex. intros [X|X]; [congruence | contradiction].
Qed.

Definition same_keys_or_fewer (n n' : ndec) : Prop := forall r, In r (mkeys (n_repairs n')) -> In r (mkeys (n_repairs n)).

Lemma drop_repairs_sim m id suf : forall fuel n d pre, same n d -> n_repairs n = pre ++ suf -> (length suf <= fuel)%nat ->
  sim (fun n' d' => same n' d' /\ same_keys_or_fewer n n')
    (ndrop_repairs m id fuel (first_node suf) n) (drop_repairs m id (plain suf) d).
Proof.
  induction suf as [|[r [p rep]] suf IH]; intros fuel n d pre S Er Hf.
  - cbn [first_node ndrop_repairs plain map drop_repairs]. destruct fuel; (split; [exact S | intros x Hx; exact Hx]).
  - cbn [length] in Hf. destruct fuel as [|fuel]; [lia|]. pose proof (s_graph _ _ S) as G.
    assert (Hu : NoDup (addrs (pre ++ (r, (p, rep)) :: suf))) by (rewrite <- Er; apply G).
    destruct (next_split pre r p rep suf Hu) as (En & Ee & Ea). rewrite <- Er in En, Ee, Ea.
    cbn [first_node ndrop_repairs plain map drop_repairs]. rewrite (deref_some _ _ _ Ea). cbn [bind].
    apply sim_same. intros _ _. destruct (dr_ids rep) as [|first ids] eqn:Ei; [reflexivity|].
    destruct (first <? id).
    + eapply sim_bind; [apply (unlink_sim _ _ _ p r rep (first :: ids) _ _ G Ea)|]. cbv zeta.
      intros M2 M2' [G2 H2]. rewrite En.
      assert (S1 : same (set_missing (set_repairs n (erase_at p (n_repairs n))) M2)
                        (with_missing (with_repairs d (merase r (d_repairs d))) M2')).
      { keeps S. eapply graph_erase_repair; [exact G2 | exact Ea|]. intros x l Ex Hr.
        destruct (H2 x l Ex Hr) as (A & l0 & B & C). apply A. rewrite <- Ei.
        destruct (g_linked _ _ _ _ _ G x l0 r B C) as (rep0 & X & Y).
        rewrite (graph_repair _ _ _ _ _ _ _ _ G Ea) in X. congruence. }
      eapply sim_weaken; [|apply (IH fuel _ _ pre S1); [fields; exact Ee | lia]].
      intros n' d' [A B]. split; [exact A|]. intros x Hx. apply B in Hx. fields_in Hx. rewrite Ee in Hx. rewrite Er.
      rewrite mkeys_app in *. apply in_app_iff in Hx. apply in_or_app. destruct Hx; [left; assumption | right; right; assumption].
    + rewrite En. apply (IH fuel n d (pre ++ [(r, (p, rep))]) S); [rewrite Er, <- app_assoc; reflexivity | lia].
Qed.

Lemma deliver_outdated_sim l : forall n d, same n d -> (forall x p, In (x, p) l -> In (x, p) (n_ordered n)) -> msorted l ->
  sim (fun n' d' => same n' d' /\ quiet n n') (ndeliver_outdated l n) (deliver_outdated (mkeys l) d).
Proof.
  induction l as [|[x p] l IH]; intros n d S Hl Hs.
  - split; [exact S | apply quiet_refl].
  - cbn [ndeliver_outdated mkeys map deliver_outdated fst].
    assert (Hx : In (x, p) (n_ordered n)) by (apply Hl; left; reflexivity).
    destruct (callback_at_sim n d x p S Hx) as (data & -> & ->). cbn [bind].
    pose proof (same_deliver n d x p data S Hx) as S1.
    apply msorted_cons_inv in Hs. destruct Hs as [Hs Hlt].
    eapply sim_weaken; [|apply (IH _ _ S1); [|exact Hs]].
    + intros n' d' [A [B1 B2]]. split; [exact A|]. split; assumption.
    + intros y q Hy. fields.
      assert (Hne : y <> x) by (specialize (Hlt y q Hy); lia).
      specialize (Hl y q (or_intror Hy)). clear - Hl Hne.
      induction (n_ordered n) as [|[z w] O IH]; [destruct Hl|]. cbn [merase]. destruct Hl as [E|Hl].
      * injection E as -> ->. replace (x =? y) with false by (symmetry; apply N.eqb_neq; congruence). left. reflexivity.
      * destruct (x =? z); [exact Hl | right; apply IH, Hl].
Qed.

(** After the loop nothing older waits, and flushing adds nothing. *)
Lemma deliver_outdated_ordered l : forall d d', deliver_outdated l d = Ok d' -> d_ordered d' = fold_left (fun o x => serase x o) l (d_ordered d).
Proof.
  induction l as [|x l IH]; intros d d' H; cbn [deliver_outdated] in H.
  - same H. reflexivity.
  - apply bind_ok in H. destruct H as (d1 & E & H). apply IH in H. rewrite H. cbn [fold_left].
    unfold callback_ordered in E. destruct (mfind x (d_sources d)); [|discriminate]. same E. reflexivity.
Qed.

Lemma flush_ordered m d d' : flush m d = Ok d' -> forall x, In x (d_ordered d') -> In x (d_ordered d).
Proof.
  unfold flush. destruct (smem _ _); [|intros H; same H; auto].
  generalize (from (d_first d) (d_ordered d)) as l. intros l. revert d. induction l as [|y l IH]; intros d H x Hx; cbn [flush_loop] in H.
  - same H. exact Hx.
  - apply bind_ok in H. destruct H as (u & _ & H). apply bind_ok in H. destruct H as (d1 & E & H).
    unfold callback_ordered in E. destruct (mfind y (d_sources d)); [|discriminate]. same E.
    assert (X : In x (serase y (d_ordered d)) -> In x (d_ordered d)) by apply serase_incl.
    destruct l as [|y' l']; [same H; apply X, Hx|].
    destruct (_ <? y'); [same H; apply X, Hx|]. apply IH with (x := x) in H; [apply X, H | exact Hx].
Qed.

Lemma serase_all l : forall o, ssorted o -> forall x, In x (fold_left (fun o x => serase x o) l o) -> In x o /\ ~ In x l.
Proof.
  induction l as [|y l IH]; intros o Hs x Hx; [auto|]. cbn [fold_left] in Hx. apply IH in Hx; [|apply serase_sorted, Hs].
  destruct Hx as [Hx Hl]. apply serase_in in Hx; [|exact Hs]. destruct Hx as [Hx Hn]. split; [exact Hx|].
  intros [X|X]; [congruence | contradiction].
Qed.

Lemma drop_outdated_sim m n d id : same n d ->
  sim (fun n' d' => same n' d' /\ same_keys_or_fewer n n') (ndrop_outdated m n id) (drop_outdated m d id).
Proof.
  intros S. unfold ndrop_outdated, drop_outdated. cbv zeta.
  assert (S0 : same (set_last n (Some id)) (with_last d (Some id))) by (keeps S; reflexivity).
  set (n0 := set_last n (Some id)) in *. set (d0 := with_last d (Some id)) in *.
  rewrite <- (g_plain _ _ _ _ _ (s_graph _ _ S0)).
  eapply sim_bind; [apply (drop_repairs_sim m id (n_repairs n0) _ n0 d0 [] S0); [reflexivity | lia]|].
  intros n1 d1 [S1 F1].
  (* the part about the order *)
  assert (X : sim (fun n2 d2 => same n2 d2 /\ quiet n1 n2 /\ forall x, In x (d_ordered d2) -> id <= x)
    (if n_in_order n1 then bind (ndeliver_outdated (mbefore id (n_ordered n1)) n1) (fun n => nflush m (if n_first n <? id then set_first n id else n)) else Ok n1)
    (if d_in_order d1 then bind (deliver_outdated (before id (d_ordered d1)) d1) (fun d => flush m (if d_first d <? id then with_first d id else d)) else Ok d1)).
  { rewrite (s_in_order _ _ S1). destruct (d_in_order d1) eqn:Ho; [|split; [exact S1|]; split; [apply quiet_refl|]; intros x Hx; rewrite (s_unordered _ _ S1 Ho) in Hx; destruct Hx].
    pose proof (s_shelf _ _ S1) as H1. pose proof (h_keys _ _ _ _ _ H1) as Hk. rewrite <- Hk, <- mkeys_before.
    pose proof (deliver_outdated_sim (mbefore id (n_ordered n1)) n1 d1 S1) as Y.
    assert (Y1 : forall x p, In (x, p) (mbefore id (n_ordered n1)) -> In (x, p) (n_ordered n1)) by (intros x p Hx; apply filter_In in Hx; apply Hx).
    assert (Y2 : msorted (mbefore id (n_ordered n1))) by (apply msorted_filter; unfold msorted; rewrite Hk; apply H1).
    specialize (Y Y1 Y2). destruct (ndeliver_outdated _ n1) as [n2|e|e], (deliver_outdated _ d1) as [d2|e'|e'] eqn:Ed; cbn [sim] in Y; try contradiction; cbn [bind]; [|exact Y | exact Y].
    destruct Y as [S2 Q2]. rewrite (s_first _ _ S2).
    assert (S3 : same (if d_first d2 <? id then set_first n2 id else n2) (if d_first d2 <? id then with_first d2 id else d2))
      by (destruct (_ <? _); [apply same_first, S2 | exact S2]).
    assert (Q3 : quiet n1 (if d_first d2 <? id then set_first n2 id else n2)) by (destruct (_ <? _); exact Q2).
    assert (O3 : d_ordered (if d_first d2 <? id then with_first d2 id else d2) = d_ordered d2) by (destruct (_ <? _); reflexivity).
    set (n3 := if d_first d2 <? id then set_first n2 id else n2) in *. set (d3 := if d_first d2 <? id then with_first d2 id else d2) in *.
    pose proof (flush_sim m n3 d3 S3) as Z. destruct (nflush m n3) as [n4|e|e], (flush m d3) as [d4|e'|e'] eqn:Ef; cbn [sim] in Z |- *; try contradiction; try exact Z.
    destruct Z as [S4 Q4]. split; [exact S4|]. split; [eapply quiet_trans; eassumption|].
    intros x Hx. apply (flush_ordered _ _ _ Ef) in Hx. rewrite O3, (deliver_outdated_ordered _ _ _ Ed) in Hx.
    apply serase_all in Hx; [|apply H1]. destruct Hx as [Hx Hn]. rewrite mkeys_before, Hk in Hn.
    destruct (x <? id) eqn:E; [|apply N.ltb_ge, E]. exfalso. apply Hn. apply filter_In. auto. }
  eapply sim_bind; [exact X|]. intros n2 d2 (S2 & [Q2 Q3] & Hge). cbv zeta. cbn [sim].
  split.
  2: { intros r Hr. fields_in Hr. rewrite Q3 in Hr. apply F1 in Hr. exact Hr. }
  keeps S2.
  - apply graph_from, (s_graph _ _ S2).
  - pose proof (s_shelf _ _ S2) as H. constructor; try apply H.
    + rewrite plain_from, (h_plain _ _ _ _ _ H). reflexivity.
    + apply msorted_filter, H.
    + apply addrs_filter_nodup, H.
    + intros p Hp. apply addrs_filter_incl in Hp. apply (h_sf _ _ _ _ _ H), Hp.
    + intros x p Hx. destruct (h_ptrs _ _ _ _ _ H x p Hx) as [v Hv]. exists v.
      unfold mfrom. apply at_filter; [apply H | exact Hv|]. cbn [fst].
      assert (Hi : In x (d_ordered d2)) by (rewrite <- (h_keys _ _ _ _ _ H); apply (in_map fst _ (x, p)), Hx).
      specialize (Hge x Hi). now apply N.leb_le.
Qed.

(** ** Full decoding *)

Lemma unlink_or_create_sim p r rep ids : forall n d, same n d -> node_at p (n_repairs n) = Some (r, rep) ->
  sim (fun n' d' => same n' d' /\ n_repairs n' = n_repairs n
         /\ forall x l, mfind x (d_missing d') = Some l -> In r l -> ~ In x ids /\ exists l0, mfind x (d_missing d) = Some l0 /\ In r l0)
    (nunlink_or_create p ids n) (Ok (with_missing d (unlink_or_create r ids (d_missing d)))).
Proof.
  induction ids as [|id ids IH]; intros n d S Hp.
  - cbn [nunlink_or_create unlink_or_create sim]. split; [keeps S|]. split; [reflexivity|].
    intros x l E Hr. fields_in E. split; [intros [] | eauto].
  - cbn [nunlink_or_create unlink_or_create]. unfold find_node. pose proof (s_graph _ _ S) as G.
    pose proof (rel_find _ _ _ id (g_links _ _ _ _ _ G)) as F.
    assert (K : forall n1 d1, same n1 d1 -> n_repairs n1 = n_repairs n ->
      d1 = with_missing d (mset id (serase r match mfind id (d_missing d) with None => [] | Some l => l end) (d_missing d)) ->
      (forall l, mfind id (d_missing d) = Some l -> ssorted l) ->
      sim (fun n' d' => same n' d' /\ n_repairs n' = n_repairs n
         /\ forall x l, mfind x (d_missing d') = Some l -> In r l -> ~ In x (id :: ids) /\ exists l0, mfind x (d_missing d) = Some l0 /\ In r l0)
        (nunlink_or_create p ids n1)
        (Ok (with_missing d (unlink_or_create r ids (mset id (serase r match mfind id (d_missing d) with None => [] | Some l => l end) (d_missing d)))))).
    { intros n1 d1 S1 E1 -> Hso. rewrite <- E1 in Hp. specialize (IH _ _ S1 Hp). fields_in IH. cbn [d_missing with_missing] in IH.
      eapply sim_weaken; [|exact IH]. cbv beta. intros n' d' (A & B & C). split; [exact A|]. split; [congruence|].
      intros x l Ex Hr. destruct (C x l Ex Hr) as (C1 & l0 & C2 & C3). rewrite mfind_mset in C2. destruct (x =? id) eqn:E.
      - exfalso. assert (l0 = serase r match mfind id (d_missing d) with None => [] | Some l => l end) by congruence. subst l0.
        destruct (mfind id (d_missing d)) as [l'|]; [|destruct C3]. apply serase_in in C3; [|apply Hso; reflexivity].
        destruct C3 as [_ C3]. congruence.
      - split; [|eauto]. apply N.eqb_neq in E. intros [X|X]; [congruence | contradiction]. }
    destruct (mfind id (n_missing n)) as [[q l]|] eqn:E1, (mfind id (d_missing d)) as [l'|] eqn:E2; try contradiction.
    + destruct (links_erase_spec (n_repairs n) p r l l') as (l2 & -> & F2); [exists rep; exact Hp | exact F|]. cbn [bind].
      pose proof (find_at _ _ _ _ (g_mu _ _ _ _ _ G) E1) as Eq. pose proof (g_ls _ _ _ _ _ G id l' E2) as Hs.
      eapply K; [|reflexivity | reflexivity | intros l0 X; congruence]. keeps S.
      eapply graph_assign_missing; [exact G | exact Eq | exact F2 | apply serase_sorted, Hs|].
      intros r0 Hr0. apply serase_incl in Hr0. apply (g_linked _ _ _ _ _ G id l' r0 E2 Hr0).
    + eapply K; [|reflexivity | reflexivity | intros l0 X; congruence]. keeps S.
      * eapply graph_new_missing; [exact G | apply mfind_none, E1 | constructor | constructor | intros r0 []].
      * eapply shelf_weaken; [|apply (s_shelf _ _ S)]. lia.
Qed.

Lemma failed_decoding_sim n d k : same n d -> sim same (nfailed_decoding n k) (failed_decoding d k).
Proof.
  intros S. unfold nfailed_decoding, failed_decoding. cbv zeta. fields.
  pose proof (g_plain _ _ _ _ _ (s_graph _ _ S)) as Hp. rewrite <- Hp. unfold plain. rewrite nth_error_map.
  destruct (nth_error (n_repairs n) k) as [[r [p rep]]|] eqn:E; [|reflexivity]. cbn [option_map fst snd].
  assert (S1 : same (set_failed n (n_failed n + 1)) (with_failed d (d_failed d + 1))).
  { keeps S. rewrite (s_failed _ _ S). reflexivity. }
  assert (Ea : node_at p (n_repairs n) = Some (r, rep)).
  { apply node_of; [apply (s_graph _ _ S)|]. eapply nth_error_In, E. }
  pose proof (unlink_or_create_sim p r rep (dr_ids rep) _ _ S1 Ea) as X. fields_in X.
  destruct (nunlink_or_create _ _ _) as [n1|e|e]; cbn [sim] in X; try contradiction. cbn [bind sim]. destruct X as (S2 & X1 & X2).
  keeps S2. fold (plain (n_repairs n)).
  eapply graph_erase_repair; [|rewrite X1; exact Ea|].
  - pose proof (s_graph _ _ S2) as G2. fields_in G2. rewrite Hp. exact G2.
  - intros x l Ex Hr. fields_in X2. destruct (X2 x l Ex Hr) as (A & l0 & B & C). apply A.
    destruct (g_linked _ _ _ _ _ (s_graph _ _ S) x l0 r B C) as (rep0 & Y & Z).
    rewrite (graph_repair _ _ _ _ _ _ _ _ (s_graph _ _ S) Ea) in Y. congruence.
Qed.

Lemma deref_all_ok (R : nodes drepair) : NoDup (addrs R) -> deref_all R (map (fun '(_, (p, _)) => p) R) = Ok (map snd (plain R)).
Proof.
  intros Hu. assert (X : forall l, incl l R -> deref_all R (map (fun '(_, (p, _)) => p) l) = Ok (map snd (plain l))).
  { induction l as [|[r [p rep]] l IH]; intros Hi; [reflexivity|]. cbn [map deref_all plain snd].
    rewrite (deref_some p R (r, rep)); [|apply node_of; [exact Hu | apply Hi; left; reflexivity]].
    cbn [bind]. rewrite IH; [reflexivity|]. intros y Hy. apply Hi. right. exact Hy. }
  apply X. apply incl_refl.
Qed.

Lemma add_decoded_sim m n d id data : same n d ->
  sim (fun n' d' => same n' d' /\ quiet n n') (nadd_decoded m n id data) (add_decoded m d id data).
Proof.
  intros S. unfold nadd_decoded, add_decoded. rewrite (shelf_mem _ _ _ _ _ _ (s_shelf _ _ S)). apply sim_same. intros _ _. cbv zeta.
  pose proof (emplace_source_sim n d id data S) as H. destruct (emplace_source n id data) as [n1 p]. destruct H as (S1 & Q & E).
  rewrite (deref_some _ _ _ E). cbn [bind].
  assert (Em : mput id match mfind id (d_sources d) with None => data | Some old => old end (d_sources d) = mput id data (d_sources d)).
  { unfold mput. destruct (mfind id (d_sources d)); reflexivity. }
  rewrite Em. set (data' := match mfind id (d_sources d) with None => data | Some old => old end) in *.
  set (d1 := with_sources d (mput id data (d_sources d))) in *.
  change (d_in_order d1) with (d_in_order d) in *. change (d_first d1) with (d_first d) in *.
  rewrite (s_in_order _ _ S1). change (d_in_order d1) with (d_in_order d).
  destruct (d_in_order d) eqn:Eo; cbn [negb].
  - rewrite (s_first _ _ S1). change (d_first d1) with (d_first d). destruct (id =? d_first d).
    + pose proof (same_callback n1 d1 id data' S1) as S2.
      replace (n_first (ncallback n1 id data')) with (d_first (callback d1 id data')) by (symmetry; apply (s_first _ _ S2)).
      pose proof (same_first _ _ (u32 (d_first (callback d1 id data') + 1)) S2) as S3.
      eapply sim_weaken; [|apply flush_sim, S3]. intros n' d' [A [B1 B2]]. split; [exact A|].
      destruct Q as [Q1 Q2]. split; [rewrite B1; exact Q1 | rewrite B2; exact Q2].
    + split; [|exact Q]. eapply emplace_ordered_same; [exact S1 | exact Eo | exact E].
  - split; [apply same_callback, S1 | exact Q].
Qed.

Lemma decode_all_sim m k inv R reps ids : deref_all R (map (fun '(_, (p, _)) => p) R) = Ok reps ->
  forall col n d, same n d -> n_repairs n = R ->
  sim (fun n' d' => same n' d' /\ quiet n n')
    (ndecode_all m k inv (map (fun '(_, (p, _)) => p) R) col ids n) (decode_all m k inv reps col ids d).
Proof.
  intros Hr. induction ids as [|id ids IH]; intros col n d S ER.
  - split; [exact S | apply quiet_refl].
  - cbn [ndecode_all decode_all]. rewrite ER, Hr. cbn [bind]. cbv zeta. rewrite (s_field _ _ S).
    apply sim_same. intros data _. eapply sim_bind; [apply add_decoded_sim, S|]. intros n1 d1 [S1 Q1].
    eapply sim_weaken; [|apply IH; [exact S1|]].
    + intros n' d' [A B]. split; [exact A | exact (quiet_trans _ _ _ Q1 B)].
    + destruct Q1 as [_ Q1]. congruence.
Qed.

Lemma attempt_sim m n d : same n d -> sim same (nattempt_full_decoding m n) (attempt_full_decoding m d).
Proof.
  intros S. pose proof (s_graph _ _ S) as G. unfold nattempt_full_decoding, attempt_full_decoding. cbv zeta.
  destruct (graph_length _ _ _ _ _ G) as [-> ->].
  destruct (_ || _); [exact S|]. destruct (Nat.ltb _ _); [exact S|].
  apply sim_same. intros _ _. apply sim_same. intros _ _.
  destruct (negb _); [reflexivity|]. rewrite (s_field _ _ S), (g_plain _ _ _ _ _ G), (rel_keys _ _ _ (g_links _ _ _ _ _ G)).
  apply sim_same. intros [k|[rows inv]] _; [apply failed_decoding_sim, S|].
  pose proof (deref_all_ok (n_repairs n) (g_ru _ _ _ _ _ G)) as X. rewrite (g_plain _ _ _ _ _ G) in X.
  eapply sim_bind; [apply (decode_all_sim m _ inv _ _ _ X 0 n d S eq_refl)|]. intros n1 d1 [S1 Q1]. cbn [sim].
  keeps S1.
  - rewrite (s_decoded _ _ S1). reflexivity.
  - constructor; cbn; try constructor; try (intros; contradiction); try discriminate.
Qed.

Lemma recv_source_sim m n d id data : same n d -> sim same (nrecv_source m n id data) (recv_source m d id data).
Proof.
  intros S. unfold nrecv_source, recv_source, noutdated, outdated. rewrite (not_outdated_same _ _ _ S).
  destruct (negb _); [exact S|]. rewrite (shelf_mem _ _ _ _ _ _ (s_shelf _ _ S)). destruct (mmem _ _); [exact S|].
  rewrite (enough_same _ _ S). eapply sim_bind; [apply add_source_sim, S|]. intros n1 d1 [S1 _]. apply attempt_sim, S1.
Qed.

(** ** A received repair *)

Lemma mset_mset {V} k (v v' : V) l : mset k v' (mset k v l) = mset k v' l.
Proof.
  induction l as [|[x w] l IH]; cbn [mset].
  - rewrite N.ltb_irrefl, N.eqb_refl. reflexivity.
  - destruct (k <? x) eqn:E1; cbn [mset].
    + rewrite N.ltb_irrefl, N.eqb_refl. reflexivity.
    + destruct (k =? x) eqn:E2; cbn [mset].
      * rewrite N.ltb_irrefl, N.eqb_refl. reflexivity.
      * rewrite E1, E2, IH. reflexivity.
Qed.

Lemma merase_mset {V} k (v : V) l : msorted l -> ~ In k (mkeys l) -> merase k (mset k v l) = l.
Proof.
  intros _. induction l as [|[x w] l IH]; intros H; cbn [mset].
  - cbn [merase]. rewrite N.eqb_refl. reflexivity.
  - cbn [mkeys map fst In] in H. destruct (k <? x) eqn:E1; cbn [merase].
    + rewrite N.eqb_refl. reflexivity.
    + replace (k =? x) with false by (symmetry; apply N.eqb_neq; intros ->; apply H; left; reflexivity).
      cbn [merase]. replace (k =? x) with false by (symmetry; apply N.eqb_neq; intros ->; apply H; left; reflexivity).
      rewrite IH; [reflexivity | tauto].
Qed.

Lemma erase_position_serase i x l : NoDup l -> nth_error l i = Some x -> erase_position i l = serase x l.
Proof.
  unfold erase_position. revert i. induction l as [|y l IH]; intros i Hn H; [destruct i; discriminate|].
  inversion Hn as [|? ? Hy Hn']; subst. destruct i as [|i].
  - cbn in H. injection H as ->. cbn [firstn skipn app serase]. rewrite N.eqb_refl. reflexivity.
  - cbn [nth_error] in H. cbn [firstn app serase]. change (skipn (S (S i)) (y :: l)) with (skipn (S i) l). rewrite (IH i Hn' H).
    replace (x =? y) with false; [reflexivity|]. symmetry. apply N.eqb_neq. intros ->. apply Hy. eapply nth_error_In, H.
Qed.

Lemma firstn_nth (l : list N) i x : nth_error l i = Some x -> firstn (S i) l = firstn i l ++ [x].
Proof.
  revert i. induction l as [|y l IH]; intros i H; [destruct i; discriminate|]. destruct i as [|i].
  - cbn in H. injection H as ->. reflexivity.
  - cbn [nth_error] in H. change (firstn (S (S i)) (y :: l)) with (y :: firstn (S i) l). rewrite (IH i H). reflexivity.
Qed.

Lemma firstn_erase_position i (l : list N) : (i <= length l)%nat -> firstn i (erase_position i l) = firstn i l.
Proof.
  intros H. unfold erase_position. rewrite firstn_app, firstn_firstn, firstn_length, Nat.min_id, Nat.min_l by exact H.
  rewrite Nat.sub_diag. cbn [firstn]. apply app_nil_r.
Qed.

Lemma link_repair_sim m p r0 : forall i n d r,
  same n (with_repairs d (mset r0 r (d_repairs d))) -> node_at p (n_repairs n) = Some (r0, r) -> dr_id r = r0 ->
  ssorted (dr_ids r) -> (i <= length (dr_ids r))%nat ->
  (forall x l, mfind x (d_missing d) = Some l -> In r0 l -> ~ In x (firstn i (dr_ids r))) ->
  sim (fun n' '(d', r') => same n' (with_repairs d' (mset r0 r' (d_repairs d'))) /\ node_at p (n_repairs n') = Some (r0, r') /\ dr_id r' = r0
         /\ d_repairs d' = d_repairs d)
    (nlink_repair false m i p n) (link_repair m (rev (firstn i (dr_ids r))) d r).
Proof.
  induction i as [|i IH]; intros n d r S Ea Hid Hso Hi Hl.
  - cbn [nlink_repair firstn rev link_repair sim]. auto.
  - pose proof (ssorted_NoDup _ Hso) as Hnd. destruct (nth_error (dr_ids r) i) as [id|] eqn:En; [|apply nth_error_None in En; lia].
    cbn [nlink_repair]. rewrite (deref_some _ _ _ Ea). cbn [bind]. rewrite En.
    rewrite (firstn_nth _ _ _ En), rev_app_distr. cbn [rev app link_repair].
    pose proof (s_graph _ _ S) as G. fields_in G.
    pose proof (s_shelf _ _ S) as H. fields_in H. rewrite (firstn_nth _ _ _ En) in Hl.
    assert (Hsplit : ~ In id (firstn i (dr_ids r))).
    { intros X. pose proof (firstn_skipn (Datatypes.S i) (dr_ids r)) as Y. rewrite (firstn_nth _ _ _ En) in Y. rewrite <- Y in Hnd.
      rewrite <- app_assoc in Hnd. apply NoDup_remove_2 in Hnd. apply Hnd. apply in_or_app. left. exact X. }
    unfold find_node. rewrite (shelf_find _ _ _ _ _ id H). destruct (mfind id (n_sources n)) as [[q data]|] eqn:Es; cbn [option_map snd].
    + rewrite (s_field _ _ S). fields. apply sim_same. intros r1 Er1. cbv zeta.
      pose proof (remove_data_ids _ _ _ _ _ _ Er1) as [Ei1 Eid1].
      rewrite (erase_position_serase i id (dr_ids r1)) by (rewrite Ei1; assumption).
      set (r2 := with_ids r1 (serase id (dr_ids r1))).
      assert (Ids2 : firstn i (dr_ids r2) = firstn i (dr_ids r)).
      { subst r2. change (dr_ids (with_ids r1 (serase id (dr_ids r1)))) with (serase id (dr_ids r1)). rewrite Ei1.
        rewrite <- (erase_position_serase i id (dr_ids r) Hnd En). apply firstn_erase_position. lia. }
      rewrite <- Ids2.
      eapply sim_weaken; [|apply (IH _ d r2)].
      * intros n' [d' r'] X. exact X.
      * replace (mset r0 r2 (d_repairs d)) with (mset r0 r2 (mset r0 r (d_repairs d))) by apply mset_mset.
        keeps S. eapply graph_assign_repair; [exact G | exact Ea|]. intros x l Ex Hr.
        destruct (g_linked _ _ _ _ _ G x l r0 Ex Hr) as (rep & X & Y). rewrite mfind_mset, N.eqb_refl in X.
        assert (rep = r) by congruence. subst rep.
        change (dr_ids r2) with (serase id (dr_ids r1)). rewrite Ei1. apply serase_in; [exact Hso|]. split; [exact Y|].
        intros ->. apply (Hl id l Ex Hr). apply in_or_app. right. left. reflexivity.
      * fields. rewrite at_assign, N.eqb_refl, Ea. reflexivity.
      * change (dr_id r2) with (dr_id r1). congruence.
      * change (dr_ids r2) with (serase id (dr_ids r1)). rewrite Ei1. apply serase_sorted, Hso.
      * change (dr_ids r2) with (serase id (dr_ids r1)). rewrite Ei1.
        rewrite <- (erase_position_serase i id (dr_ids r) Hnd En). unfold erase_position. rewrite app_length, firstn_length. lia.
      * intros x l Ex Hr X. rewrite Ids2 in X. apply (Hl x l Ex Hr). apply in_or_app. left. exact X.
    + pose proof (rel_find _ _ _ id (g_links _ _ _ _ _ G)) as F.
      assert (K : forall n1, same n1 (with_repairs (with_missing d (mset id (sinsert (dr_id r) match mfind id (d_missing d) with None => [] | Some l => l end) (d_missing d)))
                                       (mset r0 r (d_repairs d))) -> n_repairs n1 = n_repairs n ->
        sim (fun n' '(d', r') => same n' (with_repairs d' (mset r0 r' (d_repairs d'))) /\ node_at p (n_repairs n') = Some (r0, r') /\ dr_id r' = r0
              /\ d_repairs d' = d_repairs d)
          (nlink_repair false m i p n1)
          (link_repair m (rev (firstn i (dr_ids r)))
             (with_missing d (mset id (sinsert (dr_id r) match mfind id (d_missing d) with None => [] | Some l => l end) (d_missing d))) r)).
      { intros n1 S1 R1. eapply sim_weaken; [|apply IH; [exact S1 | rewrite R1; exact Ea | exact Hid | exact Hso | lia|]].
        - intros n' [d' r'] X. exact X.
        - intros x l Ex Hr X. fields_in Ex. rewrite mfind_mset in Ex. destruct (x =? id) eqn:Exi.
          + apply N.eqb_eq in Exi. subst x. apply Hsplit, X.
          + apply (Hl x l Ex Hr). apply in_or_app. left. exact X. }
      assert (Hin : In id (dr_ids r)) by (eapply nth_error_In, En).
      destruct (mfind id (n_missing n)) as [[q l]|] eqn:E1, (mfind id (d_missing d)) as [l'|] eqn:E2; try contradiction.
      * destruct (links_emplace_spec (n_repairs n) p r0 l l') as (l2 & -> & F2); [exists r; exact Ea | exact F|]. cbn [bind].
        pose proof (find_at _ _ _ _ (g_mu _ _ _ _ _ G) E1) as Eq. pose proof (g_ls _ _ _ _ _ G id l' E2) as Hs.
        apply K; [|reflexivity]. rewrite Hid. keeps S.
        eapply graph_assign_missing; [exact G | exact Eq | exact F2 | apply sinsert_sorted, Hs|].
        intros r3 Hr3. apply sinsert_in in Hr3. destruct Hr3 as [->|Hr3].
        -- exists r. rewrite mfind_mset, N.eqb_refl. auto.
        -- apply (g_linked _ _ _ _ _ G id l' r3 E2 Hr3).
      * apply K; [|reflexivity]. rewrite Hid. cbn [sinsert]. keeps S.
        -- eapply graph_new_missing; [exact G | apply mfind_none, E1 | constructor; [exists r; exact Ea | constructor] | constructor; [constructor | constructor]|].
           intros r3 [<-|[]]. exists r. rewrite mfind_mset, N.eqb_refl. auto.
        -- eapply shelf_weaken; [|apply (s_shelf _ _ S)]. lia.
Qed.

Lemma merase_at {V} x p v (l : nodes V) : NoDup (addrs l) -> msorted l -> node_at p l = Some (x, v) -> merase x l = erase_at p l.
Proof.
  intros _. induction l as [|[k' [q u]] l IH]; intros Hs H; [discriminate|].
  apply msorted_cons_inv in Hs. destruct Hs as [Hs Hl]. cbn [node_at] in H. cbn [erase_at merase].
  destruct (p =? q) eqn:E.
  - assert (x = k') by congruence. subst k'. rewrite N.eqb_refl. reflexivity.
  - pose proof (node_in _ _ _ _ H) as Hin. assert (Hk : k' < x) by (apply (Hl x (p, v)), Hin).
    replace (x =? k') with false by (symmetry; apply N.eqb_neq; lia). f_equal. apply IH; assumption.
Qed.

Lemma repairs_mem n d x : same n d -> mmem x (n_repairs n) = mmem x (d_repairs d).
Proof. intros S. rewrite <- (g_plain _ _ _ _ _ (s_graph _ _ S)). symmetry. apply plain_mem. Qed.

Lemma recv_repair_sim m n d r : same n d -> ssorted (dr_ids r) ->
  sim same (nrecv_repair false m n r) (recv_repair m d r).
Proof.
  intros S Hso. unfold nrecv_repair, recv_repair. apply sim_same. intros _ _.
  destruct (dr_ids r) as [|first ids] eqn:Ei; [reflexivity|].
  unfold noutdated, outdated. rewrite (not_outdated_same _ _ _ S). destruct (negb _); [exact S|].
  rewrite <- (repairs_mem _ _ _ S). destruct (mmem (dr_id r) (n_repairs n)) eqn:Er; [exact S|].
  eapply sim_bind; [apply drop_outdated_sim, S|]. intros n1 d1 [S1 F1].
  assert (Hf : forallb (fun id => mmem id (n_sources n1)) (first :: ids) = forallb (fun id => mmem id (d_sources d1)) (first :: ids)).
  { generalize (first :: ids). intros l. induction l as [|x l IH]; [reflexivity|]. cbn [forallb].
    rewrite (shelf_mem _ _ _ _ _ _ (s_shelf _ _ S1)), IH. reflexivity. }
  rewrite Hf. clear Hf. destruct (forallb _ _); [cbn [sim]; keeps S1; rewrite (s_useless _ _ S1); reflexivity|].
  rewrite <- (repairs_mem _ _ _ S1). apply sim_same. intros _ _. cbv zeta.
  assert (Hn : ~ In (dr_id r) (mkeys (n_repairs n1))).
  { intros X. apply F1 in X. apply mmem_spec in X. congruence. }
  pose proof (s_graph _ _ S1) as G1.
  assert (S2 : same (set_next (set_repairs n1 (mset (dr_id r) (n_next n1, r) (n_repairs n1)))) (with_repairs d1 (mset (dr_id r) r (d_repairs d1)))).
  { keeps S1; [apply graph_new_repair; assumption|]. eapply shelf_weaken; [|apply (s_shelf _ _ S1)]. lia. }
  rewrite <- Ei. rewrite <- Ei in Hso. rewrite <- (firstn_all (dr_ids r)) at 2.
  eapply sim_bind; [apply (link_repair_sim m (n_next n1) (dr_id r) _ _ d1 r S2); [|reflexivity | exact Hso | lia|]|].
  - fields. rewrite at_mset, N.eqb_refl; [reflexivity | exact Hn|]. intros X. apply (g_rf _ _ _ _ _ G1) in X. lia.
  - intros x l Ex Hr. exfalso. destruct (g_linked _ _ _ _ _ G1 x l _ Ex Hr) as (rep & X & _). apply Hn.
    rewrite <- plain_keys, (g_plain _ _ _ _ _ G1). apply mfind_keys. eauto.
  - intros n2 [d2 r2] (S3 & Ea & Hid & Erep). rewrite (deref_some _ _ _ Ea). cbn [bind]. rewrite Hid. apply sim_same. intros _ _.
    destruct (Nat.eqb (length (dr_ids r2)) 1) eqn:El; [|apply attempt_sim, S3].
    rewrite (s_field _ _ S3). apply sim_same. intros [id data] Ec. cbv zeta. fields.
    assert (Hids : dr_ids r2 = [id]).
    { apply create_source_id in Ec. apply Nat.eqb_eq in El. destruct (dr_ids r2) as [|a [|b l]]; try discriminate El.
      destruct Ec as [->|[]]. reflexivity. }
    pose proof (s_graph _ _ S3) as G3. fields_in G3.
    set (n3 := set_repairs _ _). set (d3 := with_repairs _ _).
    assert (S4 : same n3 d3).
    { subst n3 d3. keeps S3; [rewrite (s_decoded _ _ S3); reflexivity|].
      assert (G4 : graph (n_repairs n2) (merase id (n_missing n2)) (mset (dr_id r) r2 (d_repairs d2)) (merase id (d_missing d2)) (n_next n2)).
      { destruct (mfind id (n_missing n2)) as [[q l]|] eqn:E.
        - pose proof (find_at _ _ _ _ (g_mu _ _ _ _ _ G3) E) as Eq.
          rewrite (merase_at id q l) by (try exact Eq; try apply G3; apply (graph_sorted _ _ _ _ _ G3)).
          eapply graph_erase_missing; eassumption.
        - apply mfind_none in E. rewrite !merase_notin; [exact G3| |exact E].
          rewrite <- (rel_keys _ _ _ (g_links _ _ _ _ _ G3)). exact E. }
      eapply graph_erase_repair; [exact G4 | exact Ea|]. intros x l Ex Hr.
      rewrite mfind_merase in Ex by apply G3. destruct (x =? id) eqn:Exi; [discriminate|].
      destruct (g_linked _ _ _ _ _ G3 x l _ Ex Hr) as (rep & X & Y). rewrite mfind_mset, N.eqb_refl in X.
      assert (rep = r2) by congruence. subst rep. rewrite Hids in Y. destruct Y as [->|[]]. rewrite N.eqb_refl in Exi. discriminate. }
    rewrite (enough_same _ _ S4). eapply sim_weaken; [|apply add_source_sim, S4]. intros n' d' [A _]. exact A.
Qed.
