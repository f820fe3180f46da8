(** * Properties of the lossy proxy: C68 *)
From Coq Require Import ZArith NArith PeanoNat List Bool Sorted Lia.
From Verif Require Import Outcome GF Packetizer Encoder EncoderRun DetailDecoder Decoder System
  PacketizerFacts PropsPacketizer Proxy.
Import ListNotations.
Open Scope N_scope.
Open Scope outcome_scope.

(** ** Specification: what came in and what went out *)

Definition nonempty (d : list N) : bool := negb (Nat.eqb (length d) 0).
Definition came_a (l : list incoming) : list (list N) :=
  filter nonempty (flat_map (fun e => match e with FromA _ d => [d] | _ => [] end) l).
Definition came_b (l : list incoming) : list (list N) :=
  filter nonempty (flat_map (fun e => match e with FromB _ d => [d] | _ => [] end) l).
Definition went_a (l : list outgoing) : list (list N) := flat_map (fun e => match e with ToA _ d => [d] | _ => [] end) l.
Definition went_b (l : list outgoing) : list (list N) := flat_map (fun e => match e with ToB _ d => [d] | _ => [] end) l.

(** Is the k-th datagram (from 0) lost? *)
Definition after (g : draws) (l : loss) (k : nat) : loss := Nat.iter k (fun x => snd (lose g x)) l.
Definition fate (g : draws) (l : loss) (k : nat) : bool := fst (lose g (after g l k)).

(** The datagrams at the positions that are not lost, cut to 4096 bytes. *)
Definition survivors (g : draws) (l : loss) (n : nat) : list nat := filter (fun k => negb (fate g l k)) (seq 0 n).
Definition cut (d : list N) : list N := firstn (N.to_nat 4096) d.
Definition forwarded (g : draws) (l : loss) (ds : list (list N)) : list (list N) :=
  map (fun k => cut (nth k ds [])) (survivors g l (length ds)).

(** ** One direction *)

Fixpoint lrun (g : draws) (x : direction) (ds : list (list N)) : direction * list (list N) :=
  match ds with
  | [] => (x, [])
  | d :: ds =>
      let '(x, o) := listen g x d in
      let '(x, os) := lrun g x ds in
      (x, match o with Some c => [c] | None => [] end ++ os)
  end.

Lemma prun_dirs g l : forall p p' out, prun g p l = Some (p', out) ->
  lrun g (p_ab p) (flat_map (fun e => match e with FromA _ d => [d] | _ => [] end) l) = (p_ab p', went_b out)
  /\ lrun g (p_ba p) (flat_map (fun e => match e with FromB _ d => [d] | _ => [] end) l) = (p_ba p', went_a out).
Proof.
  induction l as [|e l IH]; intros p p' out H; cbn [prun] in H.
  - assert (p' = p) by congruence. assert (out = []) by congruence. subst. auto.
  - destruct (pstep g p e) as [[p1 o1]|] eqn:E; [|discriminate H].
    destruct (prun g p1 l) as [[p2 o2]|] eqn:E2; [|discriminate H].
    assert (p' = p2) by congruence. assert (out = o1 ++ o2) by congruence. subst. clear H. apply IH in E2. destruct E2 as [I1 I2].
    unfold went_a, went_b in *. rewrite !flat_map_app. unfold pstep in E. destruct e as [from d|from d].
    + cbn [flat_map app lrun]. destruct (listen g (p_ab p) d) as [x o]. injection E as <- <-. cbn [p_ab p_ba] in *.
      rewrite I1, I2. destruct o; auto.
    + cbn [flat_map app lrun]. destruct (listen g (p_ba p) d) as [x o]. destruct o as [c|].
      * destruct (p_a p); [|discriminate E]. injection E as <- <-. cbn [p_ab p_ba] in *. rewrite I1, I2. auto.
      * injection E as <- <-. cbn [p_ab p_ba] in *. rewrite I1, I2. auto.
Qed.

Lemma after_next g l k : after g (snd (lose g l)) k = after g l (S k).
Proof.
  induction k as [|k IH]; [reflexivity|].
  change (after g (snd (lose g l)) (S k)) with (snd (lose g (after g (snd (lose g l)) k))). rewrite IH. reflexivity.
Qed.

Lemma survivors_S g l n : survivors g l (S n) =
  (if fate g l 0 then [] else [0%nat]) ++ map S (survivors g (snd (lose g l)) n).
Proof.
  unfold survivors. cbn [seq filter]. rewrite <- seq_shift.
  assert (X : forall s, filter (fun k => negb (fate g l k)) (map S s) = map S (filter (fun k => negb (fate g (snd (lose g l)) k)) s)).
  { induction s as [|k s IH]; [reflexivity|]. cbn [map filter].
    assert (Y : fate g (snd (lose g l)) k = fate g l (S k)) by (unfold fate; rewrite after_next; reflexivity).
    rewrite Y. destruct (fate g l (S k)); cbn [negb map]; rewrite IH; reflexivity. }
  rewrite X. destruct (fate g l 0); reflexivity.
Qed.

Lemma forwarded_cons g l d ds : forwarded g l (d :: ds) =
  (if fate g l 0 then [] else [cut d]) ++ forwarded g (snd (lose g l)) ds.
Proof.
  unfold forwarded. cbn [length]. rewrite survivors_S, map_app, map_map. cbn [nth].
  destruct (fate g l 0); reflexivity.
Qed.

Lemma filter_shorter {A} (f : A -> bool) (l : list A) : (length (filter f l) <= length l)%nat.
Proof. induction l as [|x l IH]; cbn [filter length]; [lia|]. destruct (f x); cbn [length]; lia. Qed.

Lemma u64_step x y : u64 (u64 x + y) = u64 (x + y).
Proof. unfold u64. rewrite N.add_mod_idemp_l by discriminate. reflexivity. Qed.

Lemma lrun_spec g : forall ds x, let came := filter nonempty ds in
  let kept := survivors g (p_loss x) (length came) in
  snd (lrun g x ds) = forwarded g (p_loss x) came
  /\ p_loss (fst (lrun g x ds)) = after g (p_loss x) (length came)
  /\ u64 (p_total (fst (lrun g x ds))) = u64 (p_total x + N.of_nat (length came))
  /\ u64 (p_losses (fst (lrun g x ds))) = u64 (p_losses x + N.of_nat (length came - length kept)).
Proof.
  induction ds as [|d ds IH]; intros x; cbv zeta.
  - cbn. rewrite !N.add_0_r. auto.
  - cbn [lrun filter]. destruct d as [|b d].
    + cbn [nonempty length Nat.eqb negb]. unfold listen. rewrite firstn_nil.
      specialize (IH x). cbv zeta in IH. destruct (lrun g x ds) as [x' os]. exact IH.
    + cbn [nonempty length Nat.eqb negb]. unfold listen.
      assert (Hc : exists c, firstn proxy_buffer (b :: d) = b :: c).
      { unfold proxy_buffer. destruct (N.to_nat 4096) eqn:E; [lia|]. cbn [firstn]. eauto. }
      destruct Hc as [c Hc]. rewrite Hc.
      destruct (lose g (p_loss x)) as [gone l'] eqn:El.
      match goal with |- context [lrun g ?y ds] => specialize (IH y); set (x1 := y) in * end.
      cbv zeta in IH. destruct (lrun g x1 ds) as [x' os]. cbn [fst snd] in *. destruct IH as (I1 & I2 & I3 & I4).
      assert (Hl : l' = snd (lose g (p_loss x))) by (rewrite El; reflexivity).
      assert (Hg : gone = fate g (p_loss x) 0) by (change (gone = fst (lose g (p_loss x))); rewrite El; reflexivity).
      cbn [x1 p_loss p_total p_losses] in *. unfold x1 in *. cbn [p_loss p_total p_losses] in *.
      rewrite u64_step in I3. rewrite forwarded_cons, survivors_S, app_length, map_length, <- Hg, <- Hl, I1, I2.
      change (cut (b :: d)) with (firstn proxy_buffer (b :: d)). rewrite Hc.
      assert (Hs : (length (survivors g l' (length (filter nonempty ds))) <= length (filter nonempty ds))%nat).
      { unfold survivors. etransitivity; [apply filter_shorter|]. rewrite seq_length. reflexivity. }
      split; [destruct gone; reflexivity|]. split; [rewrite Hl; apply after_next|]. split.
      * rewrite I3; f_equal; lia.
      * rewrite I4. destruct gone; cbn [length].
        -- rewrite u64_step; f_equal; lia.
        -- f_equal; lia.
Qed.

Lemma lrun_small g : forall ds x, p_total x < 2 ^ 64 -> p_losses x < 2 ^ 64 ->
  p_total (fst (lrun g x ds)) < 2 ^ 64 /\ p_losses (fst (lrun g x ds)) < 2 ^ 64.
Proof.
  induction ds as [|d ds IH]; intros x A B; cbn [lrun]; [auto|].
  destruct (listen g x d) as [x1 o] eqn:E. specialize (IH x1).
  assert (X : p_total x1 < 2 ^ 64 /\ p_losses x1 < 2 ^ 64).
  { unfold listen in E. destruct (firstn proxy_buffer d); [injection E as <- <-; auto|].
    destruct (lose g (p_loss x)) as [gone l']. injection E as <- <-. cbn [p_total p_losses].
    split; [|destruct gone; [|exact B]]; apply N.mod_lt; discriminate. }
  destruct (lrun g x1 ds) as [x2 os]. cbn [fst] in *. apply IH; apply X.
Qed.

(** Whatever arrives from whomever, and whatever the loss models: in each direction the proxy forwards the
    datagrams that have contents, cut to 4096 bytes, except those its model loses, in the order of their
    arrival and once. The counters are the numbers of the datagrams and of the losses. *)
Theorem C68_channel :
  forall g ab ba b l p out, prun g (new_proxy ab ba b) l = Some (p, out) ->
  (went_b out = forwarded g ab (came_a l)
   /\ p_total (p_ab p) = u64 (N.of_nat (length (came_a l)))
   /\ p_losses (p_ab p) = u64 (N.of_nat (length (came_a l) - length (went_b out))))
  /\ went_a out = forwarded g ba (came_b l)
  /\ p_total (p_ba p) = u64 (N.of_nat (length (came_b l)))
  /\ p_losses (p_ba p) = u64 (N.of_nat (length (came_b l) - length (went_a out))).
Proof.
  intros g ab ba b l p out H. apply prun_dirs in H. destruct H as [A B].
  assert (One : forall lo ds x out', lrun g (new_direction lo) ds = (x, out') -> let came := filter nonempty ds in
    out' = forwarded g lo came /\ p_total x = u64 (N.of_nat (length came)) /\ p_losses x = u64 (N.of_nat (length came - length out'))).
  { intros lo ds x out' E. pose proof (lrun_spec g ds (new_direction lo)) as S1. cbv zeta in *.
    pose proof (lrun_small g ds (new_direction lo) eq_refl eq_refl) as [Q1 Q2].
    rewrite E in *. cbn [fst snd new_direction p_loss p_total p_losses] in *. destruct S1 as (S1 & _ & S3 & S4).
    split; [exact S1|].
    assert (Hl : length out' = length (survivors g lo (length (filter nonempty ds)))) by (rewrite S1; apply map_length).
    rewrite Hl. unfold u64 in *. rewrite N.mod_small in S3 by exact Q1. rewrite N.mod_small in S4 by exact Q2. auto. }
  split; [apply One, A | apply One, B].
Qed.
Print Assumptions C68_channel.

(** A reply goes to the last one who sent something to the port of a. One that is not lost before anybody
    did so ends the proxy. *)
Definition last_a (l : list incoming) : option N :=
  fold_left (fun a e => match e with FromA from _ => Some from | _ => a end) l None.

Lemma prun_app g l1 l2 : forall p, prun g p (l1 ++ l2) =
  match prun g p l1 with
  | Some (p1, o1) => match prun g p1 l2 with Some (p2, o2) => Some (p2, o1 ++ o2) | None => None end
  | None => None
  end.
Proof.
  induction l1 as [|e l1 IH]; intros p; cbn [app prun].
  - destruct (prun g p l2) as [[p2 o2]|]; reflexivity.
  - destruct (pstep g p e) as [[p1 o1]|]; [|reflexivity]. rewrite IH.
    destruct (prun g p1 l1) as [[p3 o3]|]; [|reflexivity].
    destruct (prun g p3 l2) as [[p4 o4]|]; [|reflexivity]. rewrite app_assoc. reflexivity.
Qed.

Lemma prun_last g l : forall p p' out, prun g p l = Some (p', out) ->
  p_a p' = fold_left (fun a e => match e with FromA from _ => Some from | _ => a end) l (p_a p).
Proof.
  induction l as [|e l IH]; intros p p' out H; cbn [prun] in H; [injection H as <- _; reflexivity|].
  destruct (pstep g p e) as [[p1 o1]|] eqn:E; [|discriminate H].
  destruct (prun g p1 l) as [[p2 o2]|] eqn:E2; [|discriminate H]. apply IH in E2.
  assert (p' = p2) by congruence. subst p2. rewrite E2. cbn [fold_left]. f_equal. unfold pstep in E.
  destruct e as [from d|from d].
  - destruct (listen g (p_ab p) d). injection E as <- _. reflexivity.
  - destruct (listen g (p_ba p) d) as [x [c|]].
    + destruct (p_a p) eqn:Ea; [|discriminate E]. injection E as <- _. reflexivity.
    + injection E as <- _. reflexivity.
Qed.

Theorem C68_replies :
  forall g ab ba b l p out, prun g (new_proxy ab ba b) l = Some (p, out) ->
  forall from d, nonempty d = true ->
  let lost := fate g ba (length (came_b l)) in
  exists r, prun g (new_proxy ab ba b) (l ++ [FromB from d]) = r
  /\ (lost = true -> exists p', r = Some (p', out))
  /\ (lost = false -> forall a, last_a l = Some a -> exists p', r = Some (p', out ++ [ToA a (cut d)]))
  /\ (lost = false -> last_a l = None -> r = None).
Proof.
  intros g ab ba b l p out H from d Hd lost. eexists. split; [reflexivity|].
  rewrite prun_app, H. pose proof (prun_last _ _ _ _ _ H) as La. change (p_a p = last_a l) in La.
  apply prun_dirs in H. destruct H as [_ B].
  pose proof (lrun_spec g (flat_map (fun e => match e with FromB _ d => [d] | _ => [] end) l) (new_direction ba)) as S1.
  cbv zeta in S1. change (p_ba (new_proxy ab ba b)) with (new_direction ba) in B. rewrite B in S1. cbn [fst snd new_direction p_loss] in S1.
  destruct S1 as (_ & S2 & _). cbn [prun]. unfold pstep, listen.
  destruct d as [|c d]; [discriminate Hd|].
  assert (Hc : exists c', firstn proxy_buffer (c :: d) = c :: c').
  { unfold proxy_buffer. destruct (N.to_nat 4096) eqn:E; [lia|]. cbn [firstn]. eauto. }
  destruct Hc as [c' Hc]. change (cut (c :: d)) with (firstn proxy_buffer (c :: d)). rewrite Hc.
  destruct (lose g (p_loss (p_ba p))) as [gone l'] eqn:El.
  assert (Hg : lost = gone).
  { unfold lost, fate. unfold came_b. rewrite <- S2, El. reflexivity. }
  rewrite Hg, La. destruct gone; (split; [|split]).
  - intros _. eexists. rewrite app_nil_r. reflexivity.
  - discriminate.
  - discriminate.
  - discriminate.
  - intros _ a ->. eexists. reflexivity.
  - intros _ ->. reflexivity.
Qed.
Print Assumptions C68_replies.

(** ** The loss models *)

(** Of the 100 values of a draw, how many are such that the predicate holds. *)
Definition chances (lost : N -> bool) : N := N.of_nat (length (filter lost (map N.of_nat (seq 1 100)))).

Lemma after_uniform g t k : forall n, after g (Uniform n t) k = Uniform (n + k) t.
Proof.
  induction k as [|k IH]; intros n; [rewrite Nat.add_0_r; reflexivity|].
  change (snd (lose g (after g (Uniform n t) k)) = Uniform (n + S k) t). rewrite IH. cbn [lose snd]. f_equal. lia.
Qed.

Lemma each_percent (P : N -> bool) : forallb P (map N.of_nat (seq 0 101)) = true -> forall t, t <= 100 -> P t = true.
Proof.
  intros H t Ht. rewrite forallb_forall in H. apply H. apply in_map_iff. exists (N.to_nat t). split; [apply N2Nat.id|].
  apply in_seq. lia.
Qed.

Lemma chances_threshold t : t <= 100 -> chances (fun x => t <? x) = 100 - t.
Proof. intros H. apply N.eqb_eq. revert t H. apply each_percent. vm_compute. reflexivity. Qed.

(** "uniform p" loses a datagram for exactly p of the 100 values of its draw, for p from 1 to 99. With 0 or 100 a build with
    assertions ends; a build without assertions loses nothing for 0 and everything for 100, and from 101 on nothing again. *)
Theorem C68_uniform :
  forall m g b p q, (forall k, 1 <= g k <= 100) -> (1 <= p <= 99)%Z -> (1 <= q <= 99)%Z ->
  exists ab ba, main_uniform m b p q = Ok (new_proxy ab ba b)
  /\ exists lost_ab lost_ba, (forall k, fate g ab k = lost_ab (g k)) /\ (forall k, fate g ba k = lost_ba (g k))
  /\ chances lost_ab = Z.to_N p /\ chances lost_ba = Z.to_N q.
Proof.
  intros m g b p q _ Hp Hq.
  assert (X : forall r, (1 <= r <= 99)%Z -> exists t, u32 (100 + 4294967296 - unsigned r) = t /\ t = 100 - Z.to_N r /\ 0 < t < 100).
  { intros r Hr. eexists. split; [reflexivity|]. unfold unsigned. rewrite Z.mod_small by lia. unfold u32.
    replace (100 + 4294967296 - Z.to_N r) with (100 - Z.to_N r + 1 * 4294967296) by lia.
    rewrite N.mod_add by discriminate. rewrite N.mod_small by lia. lia. }
  destruct (X p Hp) as (t & E & Ht & Bt), (X q Hq) as (t' & E' & Ht' & Bt'). unfold main_uniform. rewrite E, E'.
  assert (Y : forall t, 0 < t < 100 -> new_uniform m t = Ok (Uniform 0 t)).
  { intros y By. unfold new_uniform. replace ((0 <? y) && (y <? 100)) with true; [destruct m; reflexivity|].
    symmetry. apply andb_true_iff. split; apply N.ltb_lt; lia. }
  rewrite !Y by assumption. cbn [bind]. eexists _, _. split; [reflexivity|].
  exists (fun x => t <? x), (fun x => t' <? x). split; [|split; [|split]].
  - intros k. unfold fate. rewrite after_uniform. reflexivity.
  - intros k. unfold fate. rewrite after_uniform. reflexivity.
  - rewrite chances_threshold; lia.
  - rewrite chances_threshold; lia.
Qed.
Print Assumptions C68_uniform.

Theorem C68_uniform_edges_refuted :
  forall g b q, (forall k, 1 <= g k <= 100) ->
  (forall p, (p = 0 \/ 100 <= p <= 2147483647)%Z -> main_uniform Debug b p q = Fault AssertFailure)
  /\ (forall p, (p = 0 \/ 101 <= p <= 2147483647)%Z -> exists x, main_uniform Release b p q = Ok x /\ forall k, fate g (p_loss (p_ab x)) k = false)
  /\ exists x, main_uniform Release b 100 q = Ok x /\ forall k, fate g (p_loss (p_ab x)) k = true.
Proof.
  intros g b q Hg. split; [|split].
  - intros p Hp. unfold main_uniform, new_uniform, assert_.
    assert (X : (0 <? u32 (100 + 4294967296 - unsigned p)) && (u32 (100 + 4294967296 - unsigned p) <? 100) = false).
    { destruct Hp as [->|Hp]; [reflexivity|]. unfold unsigned. rewrite Z.mod_small by lia. apply andb_false_iff.
      destruct (Z.eq_dec p 100) as [->|Ne]; [left; reflexivity|]. right. apply N.ltb_ge. unfold u32. rewrite N.mod_small; lia. }
    rewrite X. reflexivity.
  - intros p Hp. unfold main_uniform, new_uniform, assert_. cbn [bind]. eexists. split; [reflexivity|].
    intros k. cbn [new_proxy p_ab new_direction p_loss]. unfold fate. rewrite after_uniform. cbn [lose fst]. apply N.ltb_ge.
    specialize (Hg (0 + k)%nat). destruct Hp as [->|Hp].
    + change (u32 (100 + 4294967296 - unsigned 0)) with 100. lia.
    + unfold unsigned. rewrite Z.mod_small by lia. unfold u32. rewrite N.mod_small; lia.
  - unfold main_uniform, new_uniform, assert_. cbn [bind]. eexists. split; [reflexivity|].
    intros k. cbn [new_proxy p_ab new_direction p_loss]. unfold fate. rewrite after_uniform. cbn [lose fst]. apply N.ltb_lt.
    change (u32 (100 + 4294967296 - unsigned 100)) with 0. specialize (Hg (0 + k)%nat). lia.
Qed.
Print Assumptions C68_uniform_edges_refuted.

(** "burst good bad": after a datagram that was not lost the next one is lost if the draw is at least [good], after a lost one
    if it is below [bad]. *)
Theorem C68_burst :
  forall g good bad k, let lost := fate g (new_burst good bad) in
  lost k = match k with
           | O => good <=? g O
           | S j => if lost j then g k <? bad else good <=? g k
           end.
Proof.
  intros g good bad k lost.
  assert (X : forall k, exists s, after g (new_burst good bad) k = Burst k s good bad /\ s = match k with O => false | S j => lost j end).
  { clear k. induction k as [|k (s & E & Es)]; [exists false; split; reflexivity|].
    change (after g (new_burst good bad) (S k)) with (snd (lose g (after g (new_burst good bad) k))).
    unfold lost, fate. rewrite E. destruct s; cbn [lose].
    - destruct (g k <? bad); eexists; split; reflexivity.
    - destruct (g k <? good); eexists; split; reflexivity. }
  destruct (X k) as (s & E & Es). unfold lost at 1. unfold fate. rewrite E.
  assert (Y : (good <=? g k) = negb (g k <? good)) by (rewrite N.leb_antisym; reflexivity).
  destruct k as [|j].
  - subst s. cbn [lose]. rewrite Y. destruct (g O <? good); reflexivity.
  - rewrite <- Es. destruct s; cbn [lose]; [destruct (g (S j) <? bad); reflexivity|]. rewrite Y. destruct (g (S j) <? good); reflexivity.
Qed.
Print Assumptions C68_burst.

(** So a datagram is lost with one chance more than 100 - good, and a burst goes on with one chance less than [bad]: a proxy with
    "burst 100 0" loses each datagram whose draw is 100. *)
Theorem C68_burst_percent_refuted :
  (forall good, 1 <= good <= 100 -> chances (fun x => good <=? x) = 100 - good + 1)
  /\ (forall bad, 1 <= bad <= 100 -> chances (fun x => x <? bad) = bad - 1)
  /\ (forall g k, g k = 100 -> (k = O \/ fate g (new_burst 100 0) (k - 1) = false) -> fate g (new_burst 100 0) k = true).
Proof.
  split; [|split].
  - intros t Ht. assert (X : (t =? 0) || (chances (fun x => t <=? x) =? 100 - t + 1) = true).
    { apply (each_percent (fun t => (t =? 0) || (chances (fun x => t <=? x) =? 100 - t + 1))); [vm_compute; reflexivity | lia]. }
    apply orb_true_iff in X. destruct X as [X|X]; apply N.eqb_eq in X; [lia|exact X].
  - intros t Ht. assert (X : (t =? 0) || (chances (fun x => x <? t) =? t - 1) = true).
    { apply (each_percent (fun t => (t =? 0) || (chances (fun x => x <? t) =? t - 1))); [vm_compute; reflexivity | lia]. }
    apply orb_true_iff in X. destruct X as [X|X]; apply N.eqb_eq in X; [lia|exact X].
  - intros g k Hg Hk. rewrite C68_burst. destruct k as [|k]; [rewrite Hg; reflexivity|].
    destruct Hk as [Hk|Hk]; [discriminate Hk|]. cbn [Nat.sub] in Hk. rewrite Nat.sub_0_r in Hk. rewrite Hk, Hg. reflexivity.
Qed.
Print Assumptions C68_burst_percent_refuted.

(** "file": one line for each datagram; the datagram passes if its line starts with '0', and behind the end of the file. An empty
    line is a loss. The end of the last line may be missing. *)
Definition no_newline (l : list N) : Prop := ~ In 10 l.

Lemma split_line_full l r : no_newline l -> split_line (l ++ 10 :: r) = (l, r).
Proof.
  induction l as [|c l IH]; intros H; cbn [app split_line].
  - reflexivity.
  - destruct (N.eqb_spec c 10) as [->|Ne]; [exfalso; apply H; left; reflexivity|].
    rewrite IH; [reflexivity|]. intros X. apply H. right. exact X.
Qed.
Lemma split_line_end l : no_newline l -> split_line l = (l, []).
Proof.
  induction l as [|c l IH]; intros H; cbn [split_line]; [reflexivity|].
  destruct (N.eqb_spec c 10) as [->|Ne]; [exfalso; apply H; left; reflexivity|].
  rewrite IH; [reflexivity|]. intros X. apply H. right. exact X.
Qed.

Lemma fate_S g l k : fate g l (S k) = fate g (snd (lose g l)) k.
Proof. unfold fate. rewrite after_next. reflexivity. Qed.

Lemma end_of_file g k : fate g (File []) k = false.
Proof. induction k as [|k IH]; [reflexivity|]. rewrite fate_S. exact IH. Qed.

Theorem C68_file :
  forall g lines rest, Forall no_newline lines -> no_newline rest ->
  let all := lines ++ (if nonempty rest then [rest] else []) in
  let content := concat (map (fun l => l ++ [10]) lines) ++ rest in
  forall k, fate g (new_file content) k = false <-> (length all <= k)%nat \/ exists more, nth k all [] = 48 :: more.
Proof.
  intros g lines rest Hl Hr. cbv zeta. unfold new_file. induction lines as [|l lines IH]; intros k.
  - cbn [map concat app]. destruct rest as [|c rest].
    + rewrite end_of_file. cbn [nonempty length Nat.eqb negb]. split; [intros _; left; lia|reflexivity].
    + cbn [nonempty length Nat.eqb negb]. destruct k as [|k].
      * change (fate g (File (c :: rest)) 0) with (fst (lose g (File (c :: rest)))). cbn [lose getline].
        rewrite split_line_end by exact Hr. cbn [fst nth]. rewrite negb_false_iff, N.eqb_eq. split.
        -- intros ->. right. eauto.
        -- intros [X|(more & X)]; [cbn in X; lia|congruence].
      * rewrite fate_S. cbn [lose getline]. rewrite split_line_end by exact Hr. cbn [snd]. rewrite end_of_file.
        split; [intros _; left; cbn; lia|reflexivity].
  - inversion Hl; subst. cbn [map concat]. rewrite <- !app_assoc. cbn [app].
    set (tail := concat (map (fun l => l ++ [10]) lines) ++ rest) in *.
    assert (E : getline (l ++ 10 :: tail) = Some (l, tail)).
    { unfold getline. rewrite split_line_full by assumption. destruct (l ++ 10 :: tail) eqn:X; [destruct l; discriminate X|reflexivity]. }
    destruct k as [|k].
    + change (fate g (File (l ++ 10 :: tail)) 0) with (fst (lose g (File (l ++ 10 :: tail)))). cbn [lose]. rewrite E. cbn [fst].
      rewrite negb_false_iff, N.eqb_eq. cbn [length app nth]. split.
      * intros X. right. destruct l as [|c l]; [discriminate X|]. cbn [nth] in X. subst c. eauto.
      * intros [X|(more & ->)]; [lia|reflexivity].
    + rewrite fate_S. cbn [lose]. rewrite E. cbn [snd length app nth]. rewrite (IH ltac:(assumption)).
      split; (intros [X|X]; [left; cbn [length app] in *; lia|right; exact X]).
Qed.
Print Assumptions C68_file.

(** All engines are seeded alike: with the same parameters in both directions, the k-th datagram of one direction is lost if and only if
    the k-th one of the other direction is. *)
Theorem C68_independent_refuted :
  (forall m b p x, main_uniform m b p p = Ok x -> forall g k, fate g (p_loss (p_ab x)) k = fate g (p_loss (p_ba x)) k)
  /\ forall b good bad x, main_burst b [good; bad; good; bad] = Ok x -> forall g k, fate g (p_loss (p_ab x)) k = fate g (p_loss (p_ba x)) k.
Proof.
  split.
  - intros m b p x H g k. unfold main_uniform in H. apply bind_ok in H. destruct H as (ab & A & H).
    apply bind_ok in H. destruct H as (ba & B & H). injection H as <-. cbn [new_proxy p_ab p_ba new_direction p_loss]. congruence.
  - intros b good bad x H g k. injection H as <-. reflexivity.
Qed.
Print Assumptions C68_independent_refuted.


(** ** A sender and a receiver on both sides *)
From Verif Require Import SystemInv SystemRun SystemFifo PropsSystem PropsFifo.

Definition fits (p : list N) : Prop := N.of_nat (length p) <= 4096.

Lemma listen_fits g x p : fits p -> exists x', listen g x p = (x', None) \/ listen g x p = (x', Some p).
Proof.
  intros H. unfold listen. assert (E : firstn proxy_buffer p = p).
  { apply firstn_all2. unfold fits in H. unfold proxy_buffer. lia. }
  rewrite E. destruct p as [|b p]; [eauto|]. destruct (lose g (p_loss x)) as [[] l]; eauto.
Qed.

(** A call of the sender or of the receiver. *)
Definition is_call (a : action) : Prop := match a with Arrive _ => False | AckArrive _ => False | _ => True end.

(** The run [acts] of the closed system from [w] to [w']. *)
Record same_run (f : field) (m : mode) (clk : clock) (w w' : world) (acts : list action) (data : list (list N)) (lo hi : nat) : Prop := {
  sr_run : wrun m clk w acts = Ok w';
  sr_sent : w_sent w' = w_sent w ++ data;
  sr_arrived : w_arrived w' = w_arrived w ++ arrivals acts;
  sr_sorted : StronglySorted lt (arrivals acts);
  sr_range : forall k, In k (arrivals acts) -> (lo <= k < hi)%nat
}.

Lemma arrivals_cat a b : arrivals (a ++ b) = arrivals a ++ arrivals b.
Proof. apply flat_map_app. Qed.

Lemma sorted_cat (a b : list nat) : StronglySorted lt a -> StronglySorted lt b -> (forall x y, In x a -> In y b -> (x < y)%nat) ->
  StronglySorted lt (a ++ b).
Proof.
  induction a as [|x a IH]; intros A B H; [exact B|]. inversion A; subst. cbn [app]. constructor.
  - apply IH; [assumption|assumption|]. intros y z Hy Hz. apply H; [right; exact Hy|exact Hz].
  - apply Forall_app. split; [assumption|]. apply Forall_forall. intros y Hy. apply H; [left; reflexivity|exact Hy].
Qed.

Lemma same_run_trans f m clk w1 w2 w3 a b d e lo mid hi : (lo <= mid <= hi)%nat -> same_run f m clk w1 w2 a d lo mid ->
  same_run f m clk w2 w3 b e mid hi -> same_run f m clk w1 w3 (a ++ b) (d ++ e) lo hi.
Proof.
  intros L [A1 A2 A3 A4 A5] [B1 B2 B3 B4 B5]. constructor.
  - rewrite wrun_app, A1. exact B1.
  - rewrite B2, A2, app_assoc. reflexivity.
  - rewrite B3, A3, arrivals_cat, app_assoc. reflexivity.
  - rewrite arrivals_cat. apply sorted_cat; [assumption|assumption|]. intros x y Hx Hy. apply A5 in Hx. apply B5 in Hy. lia.
  - intros k. rewrite arrivals_cat, in_app_iff. intros [H|H]; [apply A5 in H | apply B5 in H]; lia.
Qed.

Lemma same_run_refl f m clk w lo hi : same_run f m clk w w [] [] lo hi.
Proof. constructor; try (rewrite app_nil_r); try reflexivity; [constructor | intros k []]. Qed.

Lemma ack_emits_nothing m w p w' : sender m w (EPacket p) [] = Ok w' -> w_out w' = w_out w.
Proof.
  unfold sender. cbn [estep]. destruct (notify m (w_enc w) p) as [e r]. destruct r as [n|x|x]; cbn [bind survive]; intros H;
    try discriminate H; injection H as <-; cbn [w_out]; apply app_nil_r.
Qed.

Lemma acks_back_run f m clk g js : forall x w w' x' n, acks_back m g x w js = Ok (w', x') ->
  (forall j, In j js -> (j < length (w_acks w))%nat) -> Forall fits (w_acks w) ->
  w_out w' = w_out w /\ w_acks w' = w_acks w /\ exists acts, same_run f m clk w w' acts [] n n.
Proof.
  induction js as [|j js IH]; intros x w w' x' n H Hj Hf; cbn [acks_back] in H.
  - injection H as <- <-. split; [reflexivity|]. split; [reflexivity|]. exists []. apply same_run_refl.
  - assert (Hn : nth_error (w_acks w) j = Some (nth j (w_acks w) [])) by (apply nth_error_nth', Hj; left; reflexivity).
    assert (Hp : fits (nth j (w_acks w) [])).
    { rewrite Forall_forall in Hf. apply Hf. apply nth_In, Hj. left. reflexivity. }
    destruct (listen_fits g x _ Hp) as (x1 & [E|E]); rewrite E in H.
    + eapply IH; [exact H| |exact Hf]. intros k Hk. apply Hj. right. exact Hk.
    + apply bind_ok in H. destruct H as (w1 & A & H). pose proof (ack_emits_nothing _ _ _ _ A) as Eo.
      pose proof (sender_extends _ _ _ _ _ A) as (_ & Es & Ea & _ & Ek & _).
      destruct (IH _ _ _ _ n H) as (I1 & I2 & acts & R).
      * rewrite Ek. intros k Hk. apply Hj. right. exact Hk.
      * rewrite Ek. exact Hf.
      * split; [congruence|]. split; [congruence|]. exists ([AckArrive j] ++ acts).
        apply (same_run_trans f m clk w w1 w' [AckArrive j] acts [] [] n n n); [lia| |exact R]. constructor.
        -- cbn [wrun wstep]. rewrite Hn, A. reflexivity.
        -- exact Es.
        -- cbn. rewrite app_nil_r. exact Ea.
        -- constructor.
        -- intros k [].
Qed.

Lemma in_since n (l : list packet) k : In k (since n l) -> (n <= k < length l)%nat.
Proof. unfold since. intros H. apply in_seq in H. lia. Qed.

Lemma acks_back_grows m g js : forall x w w' x', acks_back m g x w js = Ok (w', x') -> w_out w' = w_out w /\ w_acks w' = w_acks w.
Proof.
  induction js as [|j js IH]; intros x w w' x' H; cbn [acks_back] in H; [injection H as <- _; auto|].
  destruct (listen g x (nth j (w_acks w) [])) as [x1 [c|]].
  - apply bind_ok in H. destruct H as (w1 & A & H). apply IH in H. destruct H as [H1 H2]. rewrite H1, H2.
    split; [eapply ack_emits_nothing, A|]. apply sender_extends in A. apply A.
  - eapply IH, H.
Qed.

Lemma packets_over_grows m clk g ks : forall ab ba w w' ab' ba', packets_over m clk g ab ba w ks = Ok (w', ab', ba') ->
  w_out w' = w_out w /\ exists l, w_acks w' = w_acks w ++ l.
Proof.
  induction ks as [|k ks IH]; intros ab ba w w' ab' ba' H; cbn [packets_over] in H.
  - injection H as <- _ _. split; [reflexivity|]. exists []. rewrite app_nil_r. reflexivity.
  - destruct (listen g ab (nth k (w_out w) [])) as [x1 [c|]]; [|eapply IH, H].
    apply bind_ok in H. destruct H as (w1 & A & H). apply bind_ok in H. destruct H as ((w2 & ba2) & B & H).
    apply IH in H. destruct H as (H1 & l & H2). apply acks_back_grows in B. destruct B as [B1 B2].
    apply receiver_extends in A. destruct A as (X & _ & Eo & _). destruct (x_acks _ _ X) as [l' El].
    split; [congruence|]. exists (l' ++ l). rewrite H2, B2, El, app_assoc. reflexivity.
Qed.

Lemma proxied_grows m clk g l : forall ab ba w w' ab' ba', proxied m clk g ab ba w l = Ok (w', ab', ba') ->
  (exists a, w_out w' = w_out w ++ a) /\ exists b, w_acks w' = w_acks w ++ b.
Proof.
  induction l as [|a l IH]; intros ab ba w w' ab' ba' H; cbn [proxied] in H.
  - injection H as <- _ _. split; exists []; rewrite app_nil_r; reflexivity.
  - apply bind_ok in H. destruct H as (w1 & A & H). apply bind_ok in H. destruct H as ((w2 & ba2) & B & H).
    apply bind_ok in H. destruct H as (((w3 & ab3) & ba3) & C & H). apply IH in H. destruct H as [[a1 H1] [b1 H2]].
    apply packets_over_grows in C. destruct C as (C1 & b2 & C2). apply acks_back_grows in B. destruct B as [B1 B2].
    apply wstep_extends in A. destruct (x_out _ _ A) as [a3 E1]. destruct (x_acks _ _ A) as [b3 E2]. split.
    + exists (a3 ++ a1). rewrite H1, C1, B1, E1, app_assoc. reflexivity.
    + exists (b3 ++ b2 ++ b1). rewrite H2, C2, B2, E2, !app_assoc. reflexivity.
Qed.

Lemma packets_over_run f m clk g n hi : forall lo ab ba w w' ab' ba', (lo + n = hi)%nat -> packets_over m clk g ab ba w (seq lo n) = Ok (w', ab', ba') ->
  (hi <= length (w_out w))%nat -> Forall fits (w_out w) -> Forall fits (w_acks w') ->
  exists acts, same_run f m clk w w' acts [] lo hi.
Proof.
  induction n as [|n IH]; intros lo ab ba w w' ab' ba' Hn H Hl Ho Ha; cbn [seq packets_over] in H.
  - injection H as <- <- <-. exists []. apply same_run_refl.
  - assert (Hk : nth_error (w_out w) lo = Some (nth lo (w_out w) [])) by (apply nth_error_nth'; lia).
    assert (Hp : fits (nth lo (w_out w) [])).
    { rewrite Forall_forall in Ho. apply Ho. apply nth_In. lia. }
    destruct (listen_fits g ab _ Hp) as (x1 & [E|E]); rewrite E in H.
    + destruct (IH (Datatypes.S lo) _ _ _ _ _ _ ltac:(lia) H Hl Ho Ha) as (acts & [R1 R2 R3 R4 R5]). exists acts.
      constructor; try assumption. intros k Hk'. apply R5 in Hk'. lia.
    + apply bind_ok in H. destruct H as (w1 & A & H). apply bind_ok in H. destruct H as ((w2 & ba2) & B & H).
      pose proof (receiver_extends _ _ _ _ _ _ A) as (X & Es & Eo & Ea & _).
      pose proof (packets_over_grows _ _ _ _ _ _ _ _ _ _ H) as (_ & l & El).
      pose proof (acks_back_grows _ _ _ _ _ _ _ B) as [Bo Ba].
      assert (Ha1 : Forall fits (w_acks w1)) by (rewrite El, Ba in Ha; apply Forall_app in Ha; apply Ha).
      destruct (acks_back_run f m clk g _ _ _ _ _ (Datatypes.S lo) B) as (_ & _ & acts1 & R1).
      { intros j Hj. apply in_since in Hj. lia. }
      { exact Ha1. }
      destruct (IH (Datatypes.S lo) _ _ _ _ _ _ ltac:(lia) H) as (acts2 & R2).
      { rewrite Bo, Eo. exact Hl. }
      { rewrite Bo, Eo. exact Ho. }
      { exact Ha. }
      exists (([Arrive lo] ++ acts1) ++ acts2). change (@nil (list N)) with (([] ++ []) ++ @nil (list N)).
      eapply (same_run_trans f m clk w w2 w' _ _ _ _ lo (Datatypes.S lo) hi); [lia| |exact R2].
      eapply (same_run_trans f m clk w w1 w2 _ _ _ _ lo (Datatypes.S lo) (Datatypes.S lo)); [lia| |exact R1].
      constructor.
      * cbn [wrun wstep]. rewrite Hk, A. reflexivity.
      * rewrite app_nil_r. exact Es.
      * exact Ea.
      * constructor; constructor.
      * intros k [<-|[]]. lia.
Qed.

Lemma proxied_run f m clk g l : forall ab ba w w' ab' ba', proxied m clk g ab ba w l = Ok (w', ab', ba') -> Forall is_call l ->
  Forall fits (w_out w') -> Forall fits (w_acks w') ->
  exists acts, same_run f m clk w w' acts (given l) (length (w_out w)) (length (w_out w')).
Proof.
  induction l as [|a l IH]; intros ab ba w w' ab' ba' H Hc Ho Ha; cbn [proxied] in H.
  - injection H as <- _ _. exists []. apply same_run_refl.
  - inversion Hc as [|? ? Ca Cl]; subst.
    apply bind_ok in H. destruct H as (w1 & A & H). apply bind_ok in H. destruct H as ((w2 & ba2) & B & H).
    apply bind_ok in H. destruct H as (((w3 & ab3) & ba3) & C & H).
    pose proof (proxied_grows _ _ _ _ _ _ _ _ _ _ H) as [[a1 H1] [b1 H2]].
    pose proof (packets_over_grows _ _ _ _ _ _ _ _ _ _ C) as (C1 & b2 & C2).
    pose proof (acks_back_grows _ _ _ _ _ _ _ B) as [B1 B2].
    pose proof (wstep_extends _ _ _ _ _ A) as X. destruct (x_out _ _ X) as [a3 E1].
    assert (Ho1 : Forall fits (w_out w1)) by (rewrite H1, C1, B1 in Ho; apply Forall_app in Ho; apply Ho).
    assert (Ha3 : Forall fits (w_acks w3)) by (rewrite H2 in Ha; apply Forall_app in Ha; apply Ha).
    assert (Ha1 : Forall fits (w_acks w1)) by (rewrite C2, B2 in Ha3; apply Forall_app in Ha3; apply Ha3).
    destruct (IH _ _ _ _ _ _ H Cl Ho Ha) as (acts3 & R3).
    destruct (acks_back_run f m clk g _ _ _ _ _ (length (w_out w)) B) as (_ & _ & acts1 & R1).
    { intros j Hj. apply in_since in Hj. lia. }
    { exact Ha1. }
    unfold since in C.
    assert (Hlen : (length (w_out w) <= length (w_out w1))%nat) by (rewrite E1, app_length; lia).
    destruct (packets_over_run f m clk g (length (w_out w1) - length (w_out w)) (length (w_out w1)) (length (w_out w)) _ _ _ _ _ _ ltac:(lia) C) as (acts2 & R2).
    { rewrite B1. lia. }
    { rewrite B1. exact Ho1. }
    { exact Ha3. }
    assert (R0 : same_run f m clk w w1 [a] (given [a]) (length (w_out w)) (length (w_out w))).
    { assert (E : arrivals [a] = []) by (destruct a; try reflexivity; contradiction).
      constructor.
      - cbn [wrun]. rewrite A. reflexivity.
      - destruct a; cbn [wstep] in A; try contradiction; try (apply sender_extends in A; apply A);
          apply receiver_extends in A; cbn; rewrite app_nil_r; apply A.
      - rewrite E, app_nil_r. destruct a; cbn [wstep] in A; try contradiction; try (apply sender_extends in A; apply A);
          apply receiver_extends in A; destruct A as (_ & _ & _ & A & _); rewrite app_nil_r in A; exact A.
      - rewrite E. constructor.
      - rewrite E. intros k []. }
    exists ((([a] ++ acts1) ++ acts2) ++ acts3).
    assert (Eg : given (a :: l) = ((given [a] ++ []) ++ []) ++ given l).
    { rewrite !app_nil_r. change (a :: l) with ([a] ++ l). apply flat_map_app. }
    rewrite Eg. assert (El3 : length (w_out w3) = length (w_out w1)) by congruence. rewrite El3 in R3.
    assert (L1 : (length (w_out w1) <= length (w_out w'))%nat) by (rewrite H1, C1, B1, app_length; lia).
    refine (same_run_trans f m clk w w3 w' _ _ _ _ (length (w_out w)) (length (w_out w1)) _ _ _ R3); [lia|].
    refine (same_run_trans f m clk w w2 w3 _ _ _ _ (length (w_out w)) (length (w_out w)) _ _ _ R2); [lia|].
    refine (same_run_trans f m clk w w1 w2 _ _ _ _ (length (w_out w)) (length (w_out w)) _ _ R0 R1); lia.
Qed.

(** A sender and a receiver whose packets and acks have at most 4096 bytes, connected by the proxy: the receiver delivers data
    of the sender only, each at most once and, if asked to, in order. More precisely the run is one of the closed
    system over a channel that loses packets and does nothing else. *)
Theorem C68_system :
  forall m clk g f o ab ba l w ab' ba', sizes_fit f w -> Forall (legal_action f) l -> Forall is_call l -> N.of_nat (length (given l)) <= 65535 ->
  proxied m clk g (new_direction ab) (new_direction ba) (start clk f o) l = Ok (w, ab', ba') ->
  Forall fits (w_out w) -> Forall fits (w_acks w) ->
  lossy_fifo m clk f o w /\ StronglySorted lt (w_arrived w) /\ w_sent w = given l
  /\ exists which, NoDup which /\ (forall i, In i which -> (i < length (given l))%nat)
     /\ w_got w = map (fun i => nth i (given l) []) which /\ (o = true -> StronglySorted lt which).
Proof.
  intros m clk g f o ab ba l w ab' ba' Hz Hl Hc Hn H Ho Ha.
  destruct (proxied_run f _ _ _ _ _ _ _ _ _ _ H Hc Ho Ha) as (acts & [R1 R2 R3 R4 R5]). cbn [start w_sent w_arrived app] in *.
  assert (Re : reach m clk f o w) by (exists acts; exact R1).
  assert (Fi : fifo w).
  { unfold fifo. rewrite R3. clear - R4. induction R4; constructor; [assumption|]. eapply Forall_impl; [|eassumption]. intros; lia. }
  assert (Lo : lossy_fifo m clk f o w).
  { split; [exact Re|]. split; [exact Fi|]. eapply short_runs; try eassumption.
    - apply fifo_repairs, Fi.
    - rewrite R2. apply Forall_forall. intros d Hd. unfold given in Hd. apply in_flat_map in Hd.
      destruct Hd as (a & Hin & Hd). rewrite Forall_forall in Hl. specialize (Hl a Hin).
      destruct a; try contradiction. destruct Hd as [<-|[]]. exact Hl.
    - rewrite R2. exact Hn. }
  split; [exact Lo|]. split; [rewrite R3; exact R4|]. split; [exact R2|].
  destruct (delivered _ _ _ _ _ (lossy_normal _ _ _ _ _ Lo)) as (gs & _ & E & B & D & So).
  exists (map N.to_nat (DecoderHeld.handed (core_of w))). rewrite R2 in *. split; [exact D|]. split; [exact B|]. split; [|exact So].
  rewrite E. unfold datum. rewrite R2. reflexivity.
Qed.
Print Assumptions C68_system.

(** A longer source packet is cut, the receiver throws, and its datum does not arrive though the loss model spared it. *)
Theorem C68_long_refuted :
  forall m clk d id data, id < 2 ^ 32 -> 4089 < N.of_nat (length data) < 65536 ->
  exists d', dec_packet m clk d (cut (on_wire (write_source {| es_id := id; es_data := data |}))) = (d', Throw OverflowError).
Proof.
  intros m clk d id data Hid Hd. set (p := on_wire (write_source {| es_id := id; es_data := data |})).
  destruct (C01_source_roundtrip m id data Hid) as (s & E & _); [apply Hd|]. fold p in E.
  assert (An : announced m p TSource) by (intros _; reflexivity).
  assert (Hl : (N.to_nat 4096 < length p)%nat).
  { unfold p. rewrite source_packet, !app_length, !be_length. lia. }
  assert (Tr : read_source m (cut p) = Throw OverflowError).
  { apply (C06_truncated_rejected m p (N.to_nat 4096) ltac:(right; lia)) with (s := s) (n := length p); assumption. }
  assert (Hc : exists r, cut p = 2 :: r).
  { unfold cut, p. rewrite source_packet. destruct (N.to_nat 4096) eqn:X; [lia|]. cbn [firstn app be]. eexists. reflexivity. }
  destruct Hc as [r Hc]. rewrite Hc in *. unfold dec_packet.
  assert (Ty : (_ <- assert_ m (Nat.ltb 0 (length (2 :: r))) ;; get_packet_type (2 :: r)) = Ok TSource) by (destruct m; reflexivity).
  rewrite Ty, Tr. cbn [bind finish]. eauto.
Qed.
Print Assumptions C68_long_refuted.

(** ** Examples *)

Definition some_draws : draws := fun k => nth k [30; 95; 60; 10; 99; 5; 100; 50] 20.

(** Two bursts; empty datagrams neither pass nor count. *)
Example C68_burst_case :
  prun some_draws (new_proxy (new_burst 90 50) (new_burst 90 50) 7)
    [FromA 1 [1]; FromA 2 [2]; FromB 9 [20]; FromA 1 []; FromB 9 [21]; FromA 1 [3]; FromA 3 [4]; FromA 3 [5]]
  = Some ({| p_ab := {| p_loss := Burst 5 true 90 50; p_losses := 2; p_total := 5 |};
             p_ba := {| p_loss := Burst 2 true 90 50; p_losses := 1; p_total := 2 |}; p_a := Some 3; p_b := 9 |},
          [ToB 7 [1]; ToA 2 [20]; ToB 9 [3]; ToB 9 [4]]).
Proof. reflexivity. Qed.

Example C68_draws_case : forall k, 1 <= some_draws k <= 100.
Proof. intros k. do 8 (destruct k as [|k]; [cbn; lia|]). unfold some_draws. rewrite nth_overflow; cbn; lia. Qed.

(** '0', '1', an empty line, "01", and a last line without end: "1". *)
Example C68_file_case : map (fate some_draws (new_file [48; 10; 49; 10; 10; 48; 49; 10; 49])) (seq 0 7)
  = [false; true; true; false; true; false; false].
Proof. reflexivity. Qed.

(** Six data, nine packets of which three are lost; all data arrive. Two of three acks are lost. *)
Definition proxy_calls : list action :=
  [SetRate 2; SetNb 3; Data (sample 0); Data (sample 1); Data (sample 2); Data (sample 3); Data (sample 4); Data (sample 5); Ack].
Example C68_system_case : exists w ab' ba',
  proxied Debug still some_draws (new_direction (new_burst 90 50)) (new_direction (Uniform 0 50)) (start still W8 true) proxy_calls = Ok (w, ab', ba')
  /\ Forall (legal_action W8) proxy_calls /\ Forall is_call proxy_calls /\ Forall fits (w_out w) /\ Forall fits (w_acks w)
  /\ (p_losses ab', p_total ab', p_losses ba', p_total ba', N.of_nat (length (w_got w)))
     = (3, 9, 2, 3, 6).
Proof.
  eexists _, _, _. split; [vm_compute; reflexivity|]. split; [|split; [|split; [|split; [|vm_compute; reflexivity]]]].
  - repeat constructor.
  - repeat constructor.
  - repeat constructor; discriminate.
  - repeat constructor; discriminate.
Qed.
