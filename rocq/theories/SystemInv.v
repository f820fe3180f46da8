(** * Invariant of the closed system

    [all] is the list of all data of the run, known in advance. *)
From Coq Require Import ZArith NArith List Bool Lia Sorted.
From Verif Require Import Outcome GF GFField GFRegion Linear Containers ContainersFacts
  Packetizer PacketizerFacts PropsPacketizer Encoder EncoderRun EncoderFacts EncoderHistory EncoderSafe
  DetailDecoder Decoder DecoderAlgebra DecoderInv DecoderStep DecoderFacts DecoderHeld DecoderOuter System Genuine.
Import ListNotations.
Open Scope N_scope.

Lemma forall2_snoc {A B} (R : A -> B -> Prop) l l' a b :
  Forall2 R l l' -> R a b -> Forall2 R (l ++ [a]) (l' ++ [b]).
Proof. intros H H'. apply Forall2_app; [exact H|]. constructor; [exact H' | constructor]. Qed.

Lemma forall2_nth {A B} (R : A -> B -> Prop) l l' : Forall2 R l l' -> forall k a,
  nth_error l k = Some a -> exists b, nth_error l' k = Some b /\ R a b.
Proof.
  induction 1 as [|x y l l' H F IH]; intros [|k] a E; try discriminate.
  - injection E as <-. exists y. auto.
  - apply IH, E.
Qed.

Lemma nth_snoc {A} (l : list A) a k x : nth_error (l ++ [a]) k = Some x ->
  nth_error l k = Some x \/ k = length l /\ x = a.
Proof.
  intros H. destruct (Nat.lt_ge_cases k (length l)) as [L|L].
  - left. rewrite nth_error_app1 in H by exact L. exact H.
  - right. rewrite nth_error_app2 in H by exact L.
    destruct (k - length l)%nat as [|j] eqn:E; [|destruct j; discriminate].
    injection H as <-. split; [lia | reflexivity].
Qed.

Lemma nth_error_keep {A} (l l' : list A) k x : nth_error l k = Some x -> nth_error (l ++ l') k = Some x.
Proof. intros H. rewrite nth_error_app1; [exact H|]. apply nth_error_Some. congruence. Qed.

(** What a packet of the sender stands for: a source, or a repair on the sources [W]
    emitted when [n] data had been sent. *)
Inductive what : Type :=
| GSource (x : N)
| GRepair (W : list N) (n : N).

Section Sys.
Variable all : list (list N).
Variable m : mode.
Variable f : field.
Variable o : bool.

Definition ok_datum (d : list N) : Prop :=
  (0 < length d)%nat /\ N.of_nat (length d) < 65536 /\ aligned f (length d) = true
  /\ Forall (fun b => b < 256) d.

Hypothesis Hall : Forall ok_datum all.

Definition S (x : N) : list N := nth (N.to_nat x) all [].
Definition lim : N := N.of_nat (length all).

Hypothesis Hlim : lim <= LIM.

Lemma HS x : good_data f (S x).
Proof.
  unfold S. destruct (Nat.lt_ge_cases (N.to_nat x) (length all)) as [L|L].
  - rewrite Forall_forall in Hall. destruct (Hall (nth (N.to_nat x) all [])) as (A & B & C & D).
    { apply nth_In, L. }
    split; [exact D|]. split; assumption.
  - rewrite nth_overflow by exact L. split; [constructor|]. split; [reflexivity|]. destruct f; reflexivity.
Qed.

Definition is (p : packet) (g : what) : Prop :=
  match g with
  | GSource x => x < lim /\ get_packet_type p = Ok TSource
      /\ exists s k, read_source m p = Ok (s, k) /\ ds_id s = x /\ ds_data s = S x
  | GRepair W n => get_packet_type p = Ok TRepair /\ W <> [] /\ ssorted W /\ (forall x, In x W -> x < n)
      /\ n <= lim /\ exists r k, read_repair m p = Ok (r, k) /\ genuine f S r /\ dr_ids r = W
  end.

(** ** The packets of the sender, its window [W] after [n] data, and the receiver *)

Record chan (out : list packet) (gs : list what) (W : list N) (n : N) (d : ddec) : Prop := {
  ch_is : Forall2 is out gs;
  ch_new : forall i W' n', nth_error gs i = Some (GRepair W' n') ->
    n' <= n /\ forall x, In x W -> In x W' \/ n' <= x;
  ch_chain : forall i j W1 n1 W2 n2, (i <= j)%nat ->
    nth_error gs i = Some (GRepair W1 n1) -> nth_error gs j = Some (GRepair W2 n2) ->
    n1 <= n2 /\ forall x, In x W2 -> In x W1 \/ n1 <= x;
  ch_gone : forall j W' n' x, nth_error gs j = Some (GRepair W' n') -> x < n' -> ~ In x W' ->
    settled [] d x \/ forall y, In y W' -> x < y;
  ch_now : forall x, x < n -> ~ In x W -> settled [] d x \/ forall y, In y W -> x < y
}.

Lemma chan_start d : chan [] [] [] 0 d.
Proof.
  constructor.
  - constructor.
  - intros [|i] W' n' H; discriminate.
  - intros [|i] j W1 n1 W2 n2 _ H; discriminate.
  - intros [|j] W' n' x H; discriminate.
  - intros x Hx. lia.
Qed.

Lemma chan_source out gs W n d p x : chan out gs W n d -> is p (GSource x) ->
  chan (out ++ [p]) (gs ++ [GSource x]) W n d.
Proof.
  intros [A1 A2 A3 A4 A5] H. constructor.
  - apply forall2_snoc; assumption.
  - intros i W' n' E. apply nth_snoc in E. destruct E as [E|[_ E]]; [|discriminate]. eapply A2, E.
  - intros i j W1 n1 W2 n2 L E1 E2. apply nth_snoc in E1. apply nth_snoc in E2.
    destruct E1 as [E1|[_ E1]]; [|discriminate]. destruct E2 as [E2|[_ E2]]; [|discriminate]. eapply A3; eassumption.
  - intros j W' n' y E. apply nth_snoc in E. destruct E as [E|[_ E]]; [|discriminate]. eapply A4, E.
  - exact A5.
Qed.

Lemma chan_repair out gs W n d p : chan out gs W n d -> is p (GRepair W n) ->
  chan (out ++ [p]) (gs ++ [GRepair W n]) W n d.
Proof.
  intros [A1 A2 A3 A4 A5] H. constructor.
  - apply forall2_snoc; assumption.
  - intros i W' n' E. apply nth_snoc in E. destruct E as [E|[_ E]]; [eapply A2, E|].
    injection E as -> ->. split; [apply N.le_refl | auto].
  - intros i j W1 n1 W2 n2 L E1 E2. apply nth_snoc in E1. apply nth_snoc in E2.
    destruct E2 as [E2|[Ej E2]].
    + destruct E1 as [E1|[Ei _]]; [eapply A3; eassumption|].
      assert (j < length gs)%nat by (apply nth_error_Some; congruence). lia.
    + injection E2 as -> ->. destruct E1 as [E1|[_ E1]]; [eapply A2, E1|].
      injection E1 as -> ->. split; [apply N.le_refl | auto].
  - intros j W' n' y E. apply nth_snoc in E. destruct E as [E|[_ E]]; [eapply A4, E|].
    injection E as -> ->. apply A5.
  - exact A5.
Qed.

Lemma chan_push out gs W W' n d : chan out gs W n d -> ssorted W -> (forall x, In x W -> x < n) ->
  W' = W ++ [n] \/ (exists x t, W = x :: t /\ W' = t ++ [n]) -> chan out gs W' (n + 1) d.
Proof.
  intros [A1 A2 A3 A4 A5] Hs Hn HW.
  assert (Hin : forall x, In x W' -> In x W \/ x = n).
  { intros x Hx. destruct HW as [->|(y & t & -> & ->)]; apply in_app_iff in Hx.
    - destruct Hx as [Hx|[Hx|[]]]; auto.
    - destruct Hx as [Hx|[Hx|[]]]; [left; right; exact Hx | auto]. }
  constructor; try assumption.
  - intros i W1 n1 E. destruct (A2 _ _ _ E) as [B1 B2]. split; [lia|]. intros x Hx.
    destruct (Hin x Hx) as [Hx'| ->]; [apply B2, Hx' | right; exact B1].
  - intros x Hx Hnin.
    assert (Hx' : x < n).
    { destruct (N.eq_dec x n) as [->|]; [|lia]. exfalso. apply Hnin.
      destruct HW as [->|(y & t & -> & ->)]; apply in_app_iff; right; left; reflexivity. }
    destruct HW as [->|(y & t & -> & ->)].
    + destruct (A5 x Hx') as [B|B]; [|left; exact B|].
      { intros Hin'. apply Hnin, in_app_iff. left. exact Hin'. }
      right. intros z Hz. apply in_app_iff in Hz. destruct Hz as [Hz|[<-|[]]]; [apply B, Hz | exact Hx'].
    + apply ssorted_cons_inv in Hs. destruct Hs as [Hs Hlow].
      destruct (N.eq_dec x y) as [->|Hne].
      * right. intros z Hz. apply in_app_iff in Hz. destruct Hz as [Hz|[<-|[]]]; [apply Hlow, Hz | exact Hx'].
      * destruct (A5 x Hx') as [B|B]; [|left; exact B|].
        { intros [E|Hin']; [congruence|]. apply Hnin, in_app_iff. left. exact Hin'. }
        right. intros z Hz. apply in_app_iff in Hz. destruct Hz as [Hz|[<-|[]]]; [apply B; right; exact Hz | exact Hx'].
Qed.

Lemma chan_erase out gs W W' n d : chan out gs W n d -> (forall x, In x W' -> In x W) ->
  (forall x, In x W -> ~ In x W' -> settled [] d x) -> chan out gs W' n d.
Proof.
  intros [A1 A2 A3 A4 A5] Hin Hset. constructor; try assumption.
  - intros i W1 n1 E. destruct (A2 _ _ _ E) as [B1 B2]. split; [exact B1|]. intros x Hx. apply B2, Hin, Hx.
  - intros x Hx Hnin. destruct (in_dec N.eq_dec x W) as [Hi|Hi]; [left; apply Hset; assumption|].
    destruct (A5 x Hx Hi) as [B|B]; [left; exact B|]. right. intros y Hy. apply B, Hin, Hy.
Qed.

Lemma chan_settle out gs W n d d' : chan out gs W n d -> (forall x, settled [] d x -> settled [] d' x) ->
  chan out gs W n d'.
Proof.
  intros [A1 A2 A3 A4 A5] Hset. constructor; try assumption.
  - intros j W' n' x E Hx Hn. destruct (A4 _ _ _ _ E Hx Hn) as [B|B]; [left; apply Hset, B | right; exact B].
  - intros x Hx Hn. destruct (A5 _ Hx Hn) as [B|B]; [left; apply Hset, B | right; exact B].
Qed.

(** The sizes in the repairs are products without loss of bits. *)
Definition sizes_whole (out : list packet) : Prop := forall p r k x, In p out ->
  get_packet_type p = Ok TRepair -> read_repair m p = Ok (r, k) -> In x (dr_ids r) ->
  size_exact f (N.of_nat (length (S x))) (coefficient f (dr_id r) x).

(** ** The sender *)

Record enc_ok (e : enc) (n : N) : Prop := {
  eo_field : Encoder.e_field e = f;
  eo_source_id : e_source_id e = n;
  eo_repair_id : e_repair_id e < 2 ^ 32;
  eo_sorted : ssorted (map es_id (e_sources e));
  eo_below : forall x, In x (map es_id (e_sources e)) -> x < n;
  eo_data : Forall (original f S) (e_sources e)
}.

Lemma is_repair m0 e n id p : m0 = m -> enc_ok e n -> n <= lim -> repair_of m0 f id (e_sources e) p -> id < 2 ^ 32 ->
  wire_ok (map es_id (e_sources e)) -> sizes_whole [p] -> is p (GRepair (map es_id (e_sources e)) n).
Proof.
  intros -> [A1 A2 A3 A4 A5 A6] Hn Hr Hid Hw Hz.
  assert (H32 : Forall (fun x => x < 2 ^ 32) (map es_id (e_sources e))).
  { apply Forall_forall. intros x Hx. specialize (A5 x Hx). unfold LIM in Hlim. change (2 ^ 32) with 4294967296. lia. }
  assert (Ht : get_packet_type p = Ok TRepair).
  { destruct Hr as (r0 & w & _ & Hw' & ->). apply write_repair_head in Hw' as [t ->]. reflexivity. }
  destruct (repair_genuine f S m id (e_sources e) p Hr Hid A6 A4 H32 Hw) as (T & r & k & R & G & _ & I).
  { intros r k x R. apply (Hz p r k x (or_introl eq_refl) Ht R). }
  split; [exact T|]. split.
  { intros E. apply map_eq_nil in E. rewrite E in Hr. destruct Hr as (r0 & w & He & _).
    unfold encode in He. apply bind_ok in He. destruct He as (u & _ & He). discriminate. }
  split; [exact A4|]. split; [exact A5|]. split; [exact Hn|]. exists r, k. auto.
Qed.

(** ** The receiver *)

Definition accepted (gs : list what) (arrived : list nat) (d : ddec) : Prop :=
  (d_last d = None /\ d_missing d = [])
  \/ exists i W n, nth_error gs i = Some (GRepair W n) /\ In i arrived /\ d_last d = Some (hd 0 W)
     /\ (forall x, miss d x -> x < n) /\ forall x, In x W -> miss d x \/ settled [] d x.

(** What a listed source has come to. *)
Definition kept_id (d : ddec) (x : N) : Prop :=
  settled [] d x /\ (d_in_order d = false -> In x (handed d)).

(** The acks of the receiver. *)
Definition ack_ok (d : ddec) (p : packet) : Prop :=
  exists ids nb, p = the_ack ids nb /\ nb < 65536 /\ id_set ids /\ wire_ok ids
  /\ forall x, In x ids -> kept_id d x.

Record dec_ok (d : dec) : Prop := {
  do_good : good 0 (dc_core d);
  do_ids : a_ids (dc_ack d) = [];
  do_nb : a_nb (dc_ack d) < 65536;
  do_inv : inv f S lim (dc_core d);
  do_order : d_in_order (dc_core d) = o;
  do_held : d_in_order (dc_core d) = false -> incl (keys (dc_core d)) (handed (dc_core d))
}.

(** Later repairs are acceptable. *)
Lemma accept out gs W0 n0 d arrived k p W n r : chan out gs W0 n0 d -> inv f S lim d ->
  accepted gs arrived d -> (forall i, In i arrived -> (exists W' n', nth_error gs i = Some (GRepair W' n')) -> (i <= k)%nat) ->
  nth_error gs k = Some (GRepair W n) -> is p (GRepair W n) -> genuine f S r -> dr_ids r = W ->
  acceptable f S lim d r.
Proof.
  intros [A1 A2 A3 A4 A5] I Acc Hle Ek (T & Hne & Hs & Hlt & Hnl & _) G Er.
  pose proof I as [C Ge L Id].
  assert (Hhd : forall (l : list N), l <> [] -> In (hd 0 l) l)
    by (intros [|a l] X; [congruence | left; reflexivity]).
  assert (Hchain : d_last d = None \/ exists i W' n', nth_error gs i = Some (GRepair W' n') /\ d_last d = Some (hd 0 W')
     /\ (forall x, miss d x -> x < n') /\ (forall x, In x W' -> miss d x \/ settled [] d x)
     /\ n' <= n /\ (forall x, In x W -> In x W' \/ n' <= x) /\ hd 0 W' <= hd 0 W).
  { destruct Acc as [(E & _)|(i & W' & n' & E & Hi & El & B1 & B2)]; [left; exact E|]. right.
    exists i, W', n'. assert (Hik : (i <= k)%nat) by (apply Hle; eauto).
    destruct (A3 _ _ _ _ _ _ Hik E Ek) as [C1 C2].
    split; [exact E|]. split; [exact El|]. split; [exact B1|]. split; [exact B2|]. split; [exact C1|]. split; [exact C2|].
    assert (Hp : exists p', is p' (GRepair W' n')).
    { clear -A1 E. revert i E. induction A1 as [|x y l l' H F IH]; intros [|i] E; try discriminate.
      - injection E as ->. eauto.
      - eapply IH, E. }
    destruct Hp as (p' & _ & Hne' & Hs' & Hlt' & _).
    destruct (C2 (hd 0 W) (Hhd W Hne)) as [X|X].
    - apply sorted_hd; assumption.
    - specialize (Hlt' (hd 0 W') (Hhd W' Hne')). lia. }
  constructor.
  - exact G.
  - rewrite Er. unfold not_outdated. destruct Hchain as [->|(i & W' & n' & _ & -> & _ & _ & _ & _ & X)]; [reflexivity|].
    apply N.leb_le, X.
  - rewrite Er. intros x Hm Hx. destruct (in_dec N.eq_dec x W) as [Hin|Hin]; [exact Hin|]. exfalso.
    assert (Hxn : x < n).
    { destruct Hchain as [E|(i & W' & n' & _ & _ & B1 & _ & B3 & _)].
      - destruct Acc as [(_ & Em)|(i & W' & n' & _ & _ & El & _)]; [|congruence].
        unfold miss in Hm. rewrite Em in Hm. destruct Hm.
      - specialize (B1 x Hm). lia. }
    destruct (A4 _ _ _ _ Ek Hxn Hin) as [B|B].
    + destruct B as [B|B]; [apply (c_disj _ _ _ _ C x Hm B)|].
      destruct (Ge x (or_intror Hm)) as [B' _]. apply outdated_true in B. congruence.
    + specialize (B _ (Hhd W Hne)). lia.
  - rewrite Er. intros y Hy. destruct Acc as [(_ & E)|Acc'].
    + right. right. intros r' rep x X X'. exfalso. pose proof (c_live _ _ _ _ C _ _ _ X X') as M.
      unfold miss in M. rewrite E in M. destruct M.
    + destruct Hchain as [E|(i & W' & n' & _ & El & B1 & B2 & B3 & B4 & B5)].
      * destruct Acc' as (i & W' & n' & _ & _ & El & _). congruence.
      * destruct (B4 y Hy) as [Hy'|Hy'].
        -- destruct (B2 y Hy') as [X|[X|X]]; [right; left; exact X | left; exact X|]. exfalso.
           unfold outdated, not_outdated in X. rewrite El in X. apply negb_true_iff, N.leb_gt in X.
           pose proof (sorted_hd _ y Hs Hy). lia.
        -- right. right. intros r' rep x Hr Hx. specialize (B1 x (c_live _ _ _ _ C _ _ _ Hr Hx)). lia.
  - rewrite Er. intros x Hx. specialize (Hlt x Hx). lia.
Qed.

(** ** Worlds *)

Definition nsent (w : world) : N := N.of_nat (length (w_sent w)).
Definition window (w : world) : list N := map es_id (e_sources (w_enc w)).
Definition core_of (w : world) : ddec := dc_core (w_dec w).

Record wok (gs : list what) (w : world) : Prop := {
  ok_enc : enc_ok (w_enc w) (nsent w);
  ok_sent : exists rest, all = w_sent w ++ rest;
  ok_chan : chan (w_out w) gs (window w) (nsent w) (core_of w);
  ok_acks : Forall (ack_ok (core_of w)) (w_acks w);
  ok_dec : dec_ok (w_dec w);
  ok_last : accepted gs (w_arrived w) (core_of w);
  ok_got : w_got w = map v_data (d_log (core_of w))
}.

Lemma inv_new : inv f S lim (new_ddec f o).
Proof.
  constructor.
  - constructor; try reflexivity; try apply msorted_nil; try discriminate; cbn.
    + split; [apply msorted_nil | discriminate].
    + intros x [].
    + intros x [].
  - intros x [[[]|[]]|[]].
  - constructor; cbn.
    + intros v [].
    + intros v x [].
    + constructor.
    + intros _. constructor; cbn; try (apply ssorted_nil); try (intros ? []); try (intros; lia).
  - left. reflexivity.
Qed.

Lemma wok_start clk : wok [] (start clk f o).
Proof.
  constructor.
  - constructor; try reflexivity; cbn; [apply ssorted_nil | intros x [] | constructor].
  - exists all. reflexivity.
  - apply chan_start.
  - constructor.
  - constructor; try reflexivity; cbn.
    + apply good_new.
    + apply inv_new.
    + intros _ x [].
  - left. split; reflexivity.
  - reflexivity.
Qed.

(** What the sender's calls do; a packet is one of the receiver's acks. *)
Lemma ack_erases d e n p e' r : enc_ok e n -> ack_ok d p -> notify m e p = (e', r) -> ~ is_fault r ->
  enc_ok e' n /\ (forall x, In x (map es_id (e_sources e')) -> In x (map es_id (e_sources e)))
  /\ (forall x, In x (map es_id (e_sources e)) -> ~ In x (map es_id (e_sources e')) -> kept_id d x).
Proof.
  intros [A1 A2 A3 A4 A5 A6] (ids & nb & -> & Hnb & Hids & [Hc Hfit] & Hset) E Hr.
  apply notify_spec in E; [|exact Hr]. destruct E.
  assert (Hsrc : e_sources e' = e_sources e \/ e_sources e' = erase_sources (e_sources e) ids).
  { destruct r as [k|x|x].
    - right. destruct (ap_ok k eq_refl) as (a & _ & Ra & -> & _).
      pose proof (C03_ack_roundtrip m {| a_ids := ids; a_nb := nb |} Hnb Hids Hc Hfit) as R.
      unfold on_wire in R. unfold the_ack in Ra. rewrite R in Ra. injection Ra as <- _. reflexivity.
    - left. destruct (ap_throw x eq_refl) as (-> & _). reflexivity.
    - destruct Hr. eexists. reflexivity. }
  assert (Hin : forall s, In s (e_sources e') -> In s (e_sources e)).
  { destruct Hsrc as [->| ->]; [auto|]. intros s. apply erase_incl. }
  split; [|split].
  - constructor; try congruence.
    + destruct Hsrc as [->| ->]; [exact A4|]. apply erase_sorted_any. exact A4.
    + intros x Hx. apply in_map_iff in Hx. destruct Hx as (s & <- & Hs). apply A5, in_map, Hin, Hs.
    + rewrite Forall_forall in *. intros s Hs. apply A6, Hin, Hs.
  - intros x Hx. apply in_map_iff in Hx. destruct Hx as (s & <- & Hs). apply in_map, Hin, Hs.
  - intros x Hx Hx'. destruct Hsrc as [E|E]; [rewrite E in Hx'; contradiction|].
    rewrite erase_filter in E by (exact A4 || apply Hids).
    apply in_map_iff in Hx. destruct Hx as (s & <- & Hs).
    destruct (smem (es_id s) ids) eqn:Em; [apply Hset, smem_spec, Em|]. exfalso. apply Hx'.
    rewrite E. apply in_map, filter_In. split; [exact Hs|]. rewrite Em. reflexivity.
Qed.

Lemma data_enc e d e' out n : enc_ok e n -> after_data m e d e' out -> n < lim -> S n = d ->
  ok_datum d -> enc_ok e' (n + 1)
  /\ (map es_id (e_sources e') = map es_id (e_sources e) ++ [n]
      \/ exists x t, map es_id (e_sources e) = x :: t /\ map es_id (e_sources e') = t ++ [n]).
Proof.
  intros [A1 A2 A3 A4 A5 A6] A Hn Hd (D1 & D2 & D3 & D4). destruct A.
  assert (Hlim' : n + 1 < 2 ^ 32 + 1) by (unfold LIM in Hlim; change (2 ^ 32) with 4294967296; lia).
  assert (Hpush : exists l, (l = e_sources e \/ exists x, e_sources e = x :: l)
     /\ e_sources e' = l ++ [{| es_id := n; es_data := d |}]).
  { rewrite A2 in ad_push. apply push_source_ok in ad_push.
    destruct ad_push as [(_ & x & t & E & ->)|(_ & ->)]; eauto. }
  destruct Hpush as (l & Hl & El).
  assert (Hin : forall s, In s l -> In s (e_sources e)).
  { destruct Hl as [->|(x & ->)]; [auto|]. intros s Hs. right. exact Hs. }
  split.
  - constructor.
    + congruence.
    + rewrite ad_source_id, A2. unfold u32. apply N.mod_small. unfold LIM in Hlim. lia.
    + destruct ad_repair_id as [->|[_ ->]]; [|exact A3]. apply N.mod_lt. discriminate.
    + rewrite El, map_app. cbn [map es_id]. apply ssorted_snoc.
      * destruct Hl as [->|(x & E)]; [exact A4|]. rewrite E in A4. cbn [map] in A4.
        apply ssorted_cons_inv in A4. apply A4.
      * intros y Hy. apply A5. apply in_map_iff in Hy. destruct Hy as (s & <- & Hs). apply in_map, Hin, Hs.
    + intros x Hx. rewrite El, map_app in Hx. apply in_app_iff in Hx. destruct Hx as [Hx|[<-|[]]]; [|cbn; lia].
      apply in_map_iff in Hx. destruct Hx as (s & <- & Hs). specialize (A5 (es_id s) (in_map _ _ _ (Hin s Hs))). lia.
    + rewrite El. apply Forall_app. split.
      * rewrite Forall_forall in *. intros s Hs. apply A6, Hin, Hs.
      * constructor; [|constructor]. split; [repeat split; assumption|]. split; [exact D4 | symmetry; exact Hd].
  - rewrite El, map_app. cbn [map es_id]. destruct Hl as [->|(x & ->)]; [left; reflexivity|].
    right. exists (es_id x), (map es_id l). split; reflexivity.
Qed.

Lemma chan_out out gs e n d new : chan out gs (map es_id (e_sources e)) n d -> enc_ok e n -> n <= lim ->
  (forall p, In p new -> (exists x, is p (GSource x)) \/ exists id, id < 2 ^ 32 /\ repair_of m f id (e_sources e) p) ->
  (of_type 1 new <> [] -> wire_ok (map es_id (e_sources e))) -> sizes_whole new ->
  exists gs', chan (out ++ new) (gs ++ gs') (map es_id (e_sources e)) n d.
Proof.
  intros C A Hn. revert out gs C. induction new as [|p new IH]; intros out gs C Hnew Hw Hz.
  - exists []. rewrite !app_nil_r. exact C.
  - assert (Hg : exists g, chan (out ++ [p]) (gs ++ [g]) (map es_id (e_sources e)) n d).
    { destruct (Hnew p (or_introl eq_refl)) as [[x Hx]|(id & Hid & Hr)].
      - exists (GSource x). apply chan_source; assumption.
      - exists (GRepair (map es_id (e_sources e)) n). apply chan_repair; [exact C|].
        eapply is_repair; try eassumption; [reflexivity | |].
        + apply Hw. unfold of_type. cbn [filter]. rewrite (repair_of_type _ _ _ _ _ Hr). discriminate.
        + intros q r k x [<-|[]]. apply Hz. left. reflexivity. }
    destruct Hg as (g & C'). destruct (IH _ _ C') as (gs' & C'').
    + intros q Hq. apply Hnew. right. exact Hq.
    + intros H. apply Hw. unfold of_type in *. cbn [filter]. destruct (type_of p =? 1); [discriminate | exact H].
    + intros q r k x Hq. apply Hz. right. exact Hq.
    + exists (g :: gs'). rewrite <- !app_assoc in C''. exact C''.
Qed.

Lemma survive_ok {A} (r : outcome (list A)) l : survive r = Ok l ->
  ~ is_fault r /\ (r = Ok l \/ l = [] /\ exists x, r = Throw x).
Proof.
  destruct r as [a|x|x]; cbn; intros H; try discriminate; (split; [intros [y E]; discriminate|]).
  - left. congruence.
  - right. split; [congruence | eauto].
Qed.

Definition bounded_lists (l : list (list N)) : Prop :=
  Forall (fun ids => ssorted ids /\ forall x, In x ids -> x < lim) l.

Lemma sender_bounded e n new : enc_ok e n -> n <= lim ->
  bounded_lists (map (fun _ : packet => map es_id (e_sources e)) new).
Proof.
  intros [A1 A2 A3 A4 A5 A6] Hn. apply Forall_forall. intros l Hl. apply in_map_iff in Hl.
  destruct Hl as (p & <- & _). split; [exact A4|]. intros x Hx. specialize (A5 x Hx). lia.
Qed.

(** A step of the sender. *)
Lemma sender_wok gs w op data w' : wok gs w -> sender m w op data = Ok w' ->
  data = match op with EData d => [d] | _ => [] end ->
  match op with EPacket p => In p (w_acks w) | _ => True end ->
  (exists rest, all = w_sent w' ++ rest) -> sizes_whole (w_out w') ->
  exists new, w_lists w' = w_lists w ++ new /\ bounded_lists new
  /\ (Forall wire_ok new -> exists gs', wok (gs ++ gs') w').
Proof.
  intros [B1 B2 B3 B4 B5 B6 B7] H Hdata Hop [rest Hrest] Hz. unfold sender in H.
  destruct (estep m (w_enc w) op) as [e r] eqn:E.
  apply bind_ok in H. destruct H as (out & Hout & H).
  assert (Ew : w' = {| w_enc := e; w_dec := w_dec w; w_sent := w_sent w ++ data; w_out := w_out w ++ out;
        w_arrived := w_arrived w; w_got := w_got w; w_acks := w_acks w;
        w_lists := w_lists w ++ map (fun _ => map es_id (e_sources e)) (of_type 1 out) |}) by congruence.
  assert (Hzo : sizes_whole out).
  { intros p r0 k x Hp. apply Hz. rewrite Ew. cbn [w_out]. apply in_app_iff. right. exact Hp. }
  clear H. apply survive_ok in Hout. destruct Hout as [Hnf Hr].
  assert (Hn' : nsent w' = nsent w + N.of_nat (length data)).
  { unfold nsent. rewrite Ew. cbn [w_sent]. rewrite app_length. lia. }
  assert (Hle : nsent w' <= lim).
  { unfold nsent, lim. rewrite Hrest, app_length. lia. }
  exists (map (fun _ => map es_id (e_sources e)) (of_type 1 out)).
  split; [rewrite Ew; reflexivity|].
  assert (Main : enc_ok e (nsent w') /\ ((of_type 1 out <> [] -> wire_ok (map es_id (e_sources e))) ->
     exists gs', chan (w_out w ++ out) (gs ++ gs') (map es_id (e_sources e)) (nsent w') (core_of w))).
  { destruct op as [d|p| |b|k|n|b].
    - apply estep_data in E; [|exact Hnf]. destruct E as (out' & -> & A).
      assert (out' = out) by (destruct Hr as [Hr|[_ [x Hr]]]; congruence). subst out'.
      subst data. cbn [length] in Hn'. change (N.of_nat 1) with 1 in Hn'.
      assert (Hlt : nsent w < lim) by lia.
      assert (HSd : S (nsent w) = d).
      { unfold S, nsent. rewrite Hrest, Ew, Nat2N.id. cbn [w_sent]. rewrite <- app_assoc.
        rewrite app_nth2 by lia. rewrite Nat.sub_diag. reflexivity. }
      assert (Hd : ok_datum d).
      { rewrite Forall_forall in Hall. apply Hall. rewrite Hrest, Ew. cbn [w_sent]. apply in_app_iff. left.
        apply in_app_iff. right. left. reflexivity. }
      destruct (data_enc _ _ _ _ _ B1 A Hlt HSd Hd) as [Q1 Q2]. rewrite <- Hn' in Q1. split; [exact Q1|].
      intros Hw. apply chan_out; try assumption.
      + rewrite Hn'. eapply chan_push; [exact B3 | apply B1 | apply B1 |]. exact Q2.
      + destruct A. destruct ad_out as (first & rest' & -> & O1 & O2 & O3 & O4).
        rewrite (eo_field _ _ B1) in *. pose proof (eo_repair_id _ _ B1) as Hid.
        assert (Hid2 : (if e_systematic (w_enc w) then e_repair_id (w_enc w) else u32 (e_repair_id (w_enc w) + 1)) < 2 ^ 32).
        { destruct (e_systematic (w_enc w)); [exact Hid | apply N.mod_lt; discriminate]. }
        intros p [<-|Hp].
        * destruct (e_systematic (w_enc w)) eqn:Es.
          -- left. exists (nsent w). rewrite (O1 eq_refl). rewrite (eo_source_id _ _ B1).
             split; [exact Hlt|]. destruct Hd as (D1 & D2 & D3 & D4).
             assert (Hor : original f S {| es_id := nsent w; es_data := d |}).
             { split; [repeat split; assumption|]. split; [exact D4 | symmetry; exact HSd]. }
             assert (H32 : nsent w < 2 ^ 32) by (unfold LIM in Hlim; change (2 ^ 32) with 4294967296; lia).
             destruct (source_genuine f S m _ Hor H32) as (T & s & k & R1 & R2 & R3).
             split; [exact T|]. exists s, k. auto.
          -- right. exists (e_repair_id (w_enc w)). auto.
        * destruct (N.eq_dec (u32 (e_source_id (w_enc w) + 1) mod e_rate (w_enc w)) 0) as [Hz0|Hz0].
          -- destruct (O3 Hz0) as (q & -> & Rq). destruct Hp as [<-|[]]. right. eauto.
          -- rewrite (O4 Hz0) in Hp. destruct Hp.
    - cbn [estep] in E. destruct (notify m (w_enc w) p) as [e1 q] eqn:En.
      assert (e1 = e) by congruence. subst e1.
      assert (Hq : ~ is_fault q).
      { intros [x Hx]. apply Hnf. rewrite Hx in E. cbn in E. exists x. congruence. }
      rewrite Forall_forall in B4. subst data. cbn [length] in Hn'. rewrite N.add_0_r in Hn'. rewrite Hn'.
      destruct (ack_erases _ _ _ _ _ _ B1 (B4 _ Hop) En Hq) as (Q1 & Q2 & Q3). split; [exact Q1|].
      intros _. exists []. rewrite app_nil_r.
      assert (out = []).
      { destruct Hr as [Hr|[Hr _]]; [|exact Hr]. destruct q; cbn in E; congruence. }
      subst out. rewrite app_nil_r. eapply chan_erase; [exact B3 | exact Q2|]. intros x X1 X2. apply (Q3 x X1 X2).
    - cbn [estep] in E. subst data. cbn [length] in Hn'. rewrite N.add_0_r in Hn'. rewrite Hn' in *.
      destruct (generate_repair m (w_enc w)) as [[e1 o1]|x|x] eqn:Eg.
      + assert (e1 = e /\ r = Ok o1) as [-> ->] by (split; congruence).
        assert (o1 = out) by (destruct Hr as [Hr|[_ [x Hr]]]; congruence). subst o1.
        apply generate_repair_ok in Eg as (r0 & w0 & Er & Ewr & -> & F1 & F2 & F3 & F4 & F5 & F6 & F7
          & F8 & F9 & F10 & F11 & F12).
        assert (Q : enc_ok e (nsent w)).
        { destruct B1. constructor; rewrite ?F8; try congruence; try assumption. rewrite F7. apply N.mod_lt. discriminate. }
        split; [exact Q|]. intros Hw. apply chan_out; try assumption.
        * rewrite F8. exact B3.
        * intros p [<-|[]]. right. exists (e_repair_id (w_enc w)). split; [apply B1|].
          rewrite F8. exists r0, w0. rewrite <- (eo_field _ _ B1). auto.
      + now apply generate_repair_no_throw in Eg.
      + exfalso. apply Hnf. exists x. congruence.
    - assert (e = set_code_type (w_enc w) b /\ out = []) as [-> ->].
      { cbn [estep] in E. split; [congruence|]. destruct Hr as [Hr|[Hr _]]; congruence. }
      subst data. cbn [length] in Hn'. rewrite N.add_0_r in Hn'. rewrite Hn'.
      split; [destruct B1; constructor; assumption|]. intros _. exists []. rewrite !app_nil_r. exact B3.
    - assert (X : e_sources e = e_sources (w_enc w) /\ enc_ok e (nsent w) /\ out = []).
      { cbn [estep] in E. unfold set_rate in E. destruct (assert_ m (0 <? k)) as [u|x|x] eqn:Ea; cbn [bind] in E.
        - assert (out = []) by (destruct Hr as [Hr|[Hr _]]; congruence).
          apply (f_equal fst) in E; cbn in E; subst e. split; [reflexivity|]. split; [|assumption].
          destruct B1; constructor; assumption.
        - destruct m; unfold assert_ in Ea; [destruct (0 <? k)|]; discriminate.
        - exfalso. apply Hnf. exists x. congruence. }
      destruct X as (-> & Q & ->).
      subst data. cbn [length] in Hn'. rewrite N.add_0_r in Hn'. rewrite Hn'.
      split; [exact Q|]. intros _. exists []. rewrite !app_nil_r. exact B3.
    - assert (X : e_sources e = e_sources (w_enc w) /\ enc_ok e (nsent w) /\ out = []).
      { cbn [estep] in E. unfold set_window_size in E. destruct (assert_ m (0 <? n)) as [u|x|x] eqn:Ea; cbn [bind] in E.
        - assert (out = []) by (destruct Hr as [Hr|[Hr _]]; congruence).
          apply (f_equal fst) in E; cbn in E; subst e. split; [reflexivity|]. split; [|assumption].
          destruct B1; constructor; assumption.
        - destruct m; unfold assert_ in Ea; [destruct (0 <? n)|]; discriminate.
        - exfalso. apply Hnf. exists x. congruence. }
      destruct X as (-> & Q & ->).
      subst data. cbn [length] in Hn'. rewrite N.add_0_r in Hn'. rewrite Hn'.
      split; [exact Q|]. intros _. exists []. rewrite !app_nil_r. exact B3.
    - assert (e = set_adaptive (w_enc w) b /\ out = []) as [-> ->].
      { cbn [estep] in E. split; [congruence|]. destruct Hr as [Hr|[Hr _]]; congruence. }
      subst data. cbn [length] in Hn'. rewrite N.add_0_r in Hn'. rewrite Hn'.
      split; [destruct B1; constructor; assumption|]. intros _. exists []. rewrite !app_nil_r. exact B3. }
  destruct Main as [M1 M2]. split; [eapply sender_bounded; eassumption|].
  intros Hw. destruct M2 as [gs' M2].
  { intros Hne. destruct (of_type 1 out) as [|q l] eqn:Eo; [congruence|]. cbn [map] in Hw.
    inversion Hw. assumption. }
  exists gs'. constructor.
  - rewrite Ew at 1. exact M1.
  - eauto.
  - unfold window, core_of. rewrite Ew at 1 2 4. exact M2.
  - unfold core_of. rewrite Ew. exact B4.
  - rewrite Ew. exact B5.
  - unfold core_of. rewrite Ew. cbn [w_dec w_arrived]. destruct B6 as [B6|(i & W & n & Hi & B6)]; [left; exact B6|].
    right. exists i, W, n. split; [apply nth_error_keep, Hi | exact B6].
  - unfold core_of. rewrite Ew. exact B7.
Qed.

(** ** Arrivals *)

Lemma accepted_more gs arr k d : accepted gs arr d -> accepted gs (arr ++ [k]) d.
Proof.
  intros [A|(i & W & n & A1 & A2 & A3)]; [left; exact A|]. right. exists i, W, n.
  split; [exact A1|]. split; [apply in_app_iff; left; exact A2 | exact A3].
Qed.

Lemma core_source gs arr k d x c : inv f S lim d -> accepted gs arr d -> x < lim ->
  recv_source m d x (S x) = Ok c ->
  inv f S lim c /\ (forall y, settled [] d y -> settled [] c y) /\ accepted gs (arr ++ [k]) c.
Proof.
  intros I A Hx H. destruct (recv_source_spec f S m lim Hlim HS d x c I Hx H) as (I' & E & _ & El & _).
  split; [exact I'|]. split; [apply E|]. apply accepted_more.
  destruct A as [(A1 & A2)|(i & W & n & A1 & A2 & A3 & A4 & A5)].
  - left. split; [congruence|]. destruct (d_missing c) as [|[y l] t] eqn:Em; [reflexivity|]. exfalso.
    destruct (e_missing _ _ _ _ E y) as [M|[]]; [unfold miss; rewrite Em; left; reflexivity|].
    unfold miss in M. rewrite A2 in M. destruct M.
  - right. exists i, W, n. split; [exact A1|]. split; [exact A2|]. split; [congruence|]. split.
    + intros y Hy. destruct (e_missing _ _ _ _ E y Hy) as [M|[]]. apply A4, M.
    + intros y Hy. destruct (A5 y Hy) as [M|M]; [apply (e_keep _ _ _ _ E), M | right; apply (e_settled _ _ _ _ E), M].
Qed.

Lemma core_repair out gs W0 n0 arr k d p W n r q c : chan out gs W0 n0 d -> inv f S lim d -> accepted gs arr d ->
  (forall i, In i arr -> (exists W' n', nth_error gs i = Some (GRepair W' n')) -> (i <= k)%nat) ->
  nth_error gs k = Some (GRepair W n) -> is p (GRepair W n) -> read_repair m p = Ok (r, q) ->
  recv_repair m d r = Ok c ->
  inv f S lim c /\ (forall y, settled [] d y -> settled [] c y) /\ accepted gs (arr ++ [k]) c.
Proof.
  intros C I A Hle Ek Hp Hr H.
  assert (G : genuine f S r /\ dr_ids r = W).
  { destruct Hp as (_ & _ & _ & _ & _ & r' & q' & R & G & E).
    assert (r' = r) by congruence. subst r'. auto. }
  destruct G as [G Er].
  pose proof (accept _ _ _ _ _ _ _ _ _ _ _ C I A Hle Ek Hp G Er) as B.
  destruct (recv_repair_spec f S m lim Hlim HS d r c I B H) as (I' & E & N1 & N2).
  split; [exact I'|]. split; [apply E|].
  destruct (outdated d (last (dr_ids r) 0)) eqn:Eo.
  { rewrite N1 by (left; reflexivity). apply accepted_more, A. }
  destruct (in_dec N.eq_dec (dr_id r) (mkeys (d_repairs d))) as [Hi|Hi].
  { rewrite N1 by (right; exact Hi). apply accepted_more, A. }
  destruct (N2 eq_refl Hi) as (S1 & S2 & _). rewrite Er in *. destruct Hp as (_ & _ & _ & Hlt & _).
  right. exists k, W, n. split; [exact Ek|]. split; [apply in_app_iff; right; left; reflexivity|].
  split; [exact S2|]. split; [|exact S1].
  intros x Hx. destruct (e_missing _ _ _ _ E x Hx) as [M|M]; [|apply Hlt, M].
  destruct A as [(_ & A2)|(i & W' & n' & A1 & A2 & A3 & A4 & A5)].
  - unfold miss in M. rewrite A2 in M. destruct M.
  - assert (Hik : (i <= k)%nat) by (apply Hle; eauto).
    destruct (ch_chain _ _ _ _ _ C _ _ _ _ _ _ Hik A1 Ek) as [X _]. specialize (A4 x M). lia.
Qed.

Lemma type_of_repair p : get_packet_type p = Ok TRepair -> type_of p = 1.
Proof.
  unfold type_of, get_packet_type. destruct p as [|b p]; [discriminate|]. cbn [nth].
  destruct (N.eqb_spec b 0); [discriminate|]. destruct (N.eqb_spec b 1); [auto|].
  destruct (N.eqb_spec b 2); discriminate.
Qed.

Lemma sorted_last l k : StronglySorted le (l ++ [k]) -> forall i, In i l -> (i <= k)%nat.
Proof.
  induction l as [|a l IH]; intros H i Hi; [destruct Hi|]. inversion H as [|? ? H1 H2]; subst.
  destruct Hi as [<-|Hi]; [|apply IH; assumption].
  rewrite Forall_forall in H2. apply H2, in_app_iff. right. left. reflexivity.
Qed.

Lemma settled_dec_ok d d' p : (forall y, settled [] d y -> settled [] d' y) -> d_in_order d' = d_in_order d ->
  incl (handed d) (handed d') -> ack_ok d p -> ack_ok d' p.
Proof.
  intros H Ho Hh (ids & nb & E & Hn & H1 & H2 & H3). exists ids, nb. repeat (split; [assumption|]).
  intros x Hx. destruct (H3 x Hx) as [A B]. split; [apply H, A|]. rewrite Ho. intros X. apply Hh, B, X.
Qed.

Lemma ids_set l : ssorted l -> (forall x, In x l -> x < lim) -> id_set l.
Proof.
  intros H1 H2. split; [exact H1|]. apply Forall_forall. intros x Hx. specialize (H2 x Hx).
  unfold LIM in Hlim. change (2 ^ 32) with 4294967296. lia.
Qed.

(** A call that keeps the core of the decoder. *)
Lemma same_core_wok gs w d out arr :
  wok gs w -> dc_core d = core_of w -> a_ids (dc_ack d) = [] -> a_nb (dc_ack d) < 65536 ->
  to_user out = [] ->
  (to_network out = [] \/ to_network out = [the_ack (keys (core_of w)) (a_nb (dc_ack (w_dec w)))]) ->
  bounded_lists (acked (w_dec w) d out)
  /\ (forall x, kept_id (core_of w) x -> kept_id (dc_core d) x)
  /\ (Forall wire_ok (acked (w_dec w) d out) -> wok gs
      {| w_enc := w_enc w; w_dec := d; w_sent := w_sent w; w_out := w_out w;
        w_arrived := w_arrived w ++ arr; w_got := w_got w ++ to_user out;
        w_acks := w_acks w ++ to_network out;
        w_lists := w_lists w ++ acked (w_dec w) d out |}).
Proof.
  intros [B1 B2 B3 B4 B5 B6 B7] Hc Ha Hn Hu Ho.
  pose proof B5 as [D1 D2 D3 D4 D5 D6].
  assert (Hk : id_set (keys (core_of w)) /\ forall x, In x (keys (core_of w)) -> x < lim).
  { split; [apply ids_set; [apply D1|]|]; intros x Hx; apply (i_ge _ _ _ _ D4 x); left; left; exact Hx. }
  assert (El : acked (w_dec w) d out = match to_network out with [] => [] | _ => [keys (core_of w)] end).
  { unfold acked. rewrite Hc. unfold core_of. rewrite skipn_all. destruct (to_network out); reflexivity. }
  split.
  { rewrite El. destruct Ho as [->| ->]; [constructor|]. constructor; [|constructor]. split; [apply Hk | apply Hk]. }
  split; [rewrite Hc; auto|].
  intros Hw. rewrite El in Hw. constructor; cbn [w_enc w_dec w_sent w_out w_arrived w_got w_acks].
  - exact B1.
  - exact B2.
  - unfold core_of. cbn [w_dec]. rewrite Hc. exact B3.
  - unfold core_of. cbn [w_dec]. rewrite Hc. apply Forall_app. split; [exact B4|].
    destruct Ho as [->|Ho]; [constructor|]. rewrite Ho in Hw |- *. constructor; [|constructor].
    exists (keys (core_of w)), (a_nb (dc_ack (w_dec w))). split; [reflexivity|]. split; [exact D3|].
    split; [apply Hk|]. split; [inversion Hw; assumption|]. intros x Hx. split; [left; left; exact Hx|]. intros X. apply D6; [exact X | exact Hx].
  - constructor; rewrite ?Hc; assumption.
  - unfold core_of. cbn [w_dec]. rewrite Hc.
    clear -B6. revert B6. generalize (core_of w). intros c B6. induction arr as [|k arr IH] using rev_ind.
    + rewrite app_nil_r. exact B6.
    + rewrite app_assoc. apply accepted_more, IH.
  - unfold core_of. cbn [w_dec]. rewrite Hc, Hu, app_nil_r. exact B7.
Qed.

Lemma nb_below d repairs sources c d' acks ids : many (with_core (count_packet d repairs sources) c) d' acks ids ->
  a_nb (dc_ack d') < 65536.
Proof.
  intros [M1 M2 M3 M4 M5]. destruct acks as [|p l].
  - destruct (M3 eq_refl) as [E _]. rewrite E. cbn [with_core count_packet dc_ack a_nb]. apply N.mod_lt. discriminate.
  - destruct M4 as [E _]; [discriminate|]. rewrite E. reflexivity.
Qed.

(** A call of the decoding algorithm. *)
Lemma ran_wok gs w d c new out s r arr : wok gs w -> ran (w_dec w) d s r c new out ->
  inv f S lim c -> good 0 c -> d_in_order c = o -> tells (core_of w) c -> (forall y, settled [] (core_of w) y -> settled [] c y) ->
  accepted gs (w_arrived w ++ arr) c ->
  bounded_lists (acked (w_dec w) d out)
  /\ (forall x, kept_id (core_of w) x -> kept_id (dc_core d) x)
  /\ (Forall wire_ok (acked (w_dec w) d out) -> wok gs
      {| w_enc := w_enc w; w_dec := d; w_sent := w_sent w; w_out := w_out w;
        w_arrived := w_arrived w ++ arr; w_got := w_got w ++ to_user out;
        w_acks := w_acks w ++ to_network out;
        w_lists := w_lists w ++ acked (w_dec w) d out |}).
Proof.
  intros [B1 B2 B3 B4 B5 B6 B7] (R1 & R2 & _ & _ & R3 & R4 & R5) I G O Ht Hset Acc.
  pose proof B5 as [D1 D2 D3 D4 D5 D6].
  assert (Hv : forall v, In v new -> ssorted (v_known v) /\ (forall x, In x (v_known v) -> x < lim)
    /\ forall x, In x (v_known v) -> kept_id c x).
  { intros v Hv. rewrite Forall_forall in R3. destruct (R3 v Hv) as (O1 & _ & O3). split; [exact O1|]. split.
    - intros x Hx. destruct (O3 x Hx) as [Y|Y].
      + apply (i_ge _ _ _ _ D4 x). left. left. exact Y.
      + apply (i_ge _ _ _ _ I x). left. left. exact Y.
    - intros x Hx. split.
      + apply (l_settled _ _ _ _ _ (i_logs _ _ _ _ I) v x); [|right; exact Hx].
        rewrite R1. apply in_app_iff. right. exact Hv.
      + intros X. assert (X' : d_in_order (core_of w) = false) by (unfold core_of; congruence).
        destruct (Ht X') as (_ & T1 & T2). specialize (D6 X').
        destruct (O3 x Hx) as [Y|Y]; [apply T1, D6, Y | apply T2; [exact D6 | exact Y]]. }
  assert (El : acked (w_dec w) d out = match to_network out with [] => [] | _ => map v_known new end).
  { unfold acked. rewrite R2, R1, skipn_length_app. destruct (to_network out) as [|p l] eqn:Eo; [reflexivity|].
    destruct new as [|v new]; [|reflexivity]. exfalso.
    destruct (my_each _ _ _ _ R5 0%nat p eq_refl) as (ids & [] & _). }
  split.
  { rewrite El. destruct (to_network out); [constructor|]. apply Forall_forall. intros ids Hi.
    apply in_map_iff in Hi. destruct Hi as (v & <- & Hi). destruct (Hv v Hi) as (Y1 & Y2 & _). split; assumption. }
  split.
  { intros x [Y1 Y2]. rewrite R2. split; [apply Hset, Y1|]. intros X.
    assert (X' : d_in_order (core_of w) = false) by (unfold core_of; congruence).
    destruct (Ht X') as (_ & T1 & _). apply T1, Y2, X'. }
  intros Hw. rewrite El in Hw. constructor; cbn [w_enc w_dec w_sent w_out w_arrived w_got w_acks].
  - exact B1.
  - exact B2.
  - unfold core_of. cbn [w_dec]. rewrite R2. eapply chan_settle; [exact B3 | exact Hset].
  - unfold core_of. cbn [w_dec]. rewrite R2. apply Forall_app. split.
    + eapply Forall_impl; [|exact B4]. intros p. apply settled_dec_ok; [exact Hset | unfold core_of; congruence|].
      unfold handed. rewrite R1, map_app. apply incl_appl, incl_refl.
    + apply Forall_forall. intros p Hp. apply In_nth_error in Hp. destruct Hp as [i Hi].
      destruct (my_each _ _ _ _ R5 i p Hi) as (ids & Hin & ->).
      assert (Hwi : wire_ok ids).
      { destruct (to_network out) as [|q l]; [destruct i; discriminate|]. rewrite Forall_forall in Hw. apply Hw, Hin. }
      apply in_map_iff in Hin. destruct Hin as (v & <- & Hin). destruct (Hv v Hin) as (Y1 & Y2 & Y3).
      eexists _, _. split; [reflexivity|]. split.
      { destruct (Nat.eqb i 0); [|reflexivity]. cbn [with_core count_packet dc_ack a_nb]. apply N.mod_lt. discriminate. }
      split; [apply ids_set; assumption|]. split; [exact Hwi | exact Y3].
  - constructor; rewrite ?R2; try assumption; [apply (my_ids _ _ _ _ R5) | eapply nb_below, R5|].
    intros X. apply Ht; [unfold core_of; congruence|]. apply D6. congruence.
  - unfold core_of. cbn [w_dec]. rewrite R2. exact Acc.
  - unfold core_of. cbn [w_dec]. rewrite R2, R1, map_app, R4, B7. reflexivity.
Qed.

(** Repairs that arrived before. *)
Lemma earlier_repairs gs w w' k W n : Forall2 is (w_out w) gs -> w_out w' = w_out w ->
  w_arrived w' = w_arrived w ++ [k] -> repairs_in_order w' -> nth_error gs k = Some (GRepair W n) ->
  forall i, In i (w_arrived w) -> (exists W' n', nth_error gs i = Some (GRepair W' n')) -> (i <= k)%nat.
Proof.
  intros H E1 E2 Ho Hk i Hi (W' & n' & Hg).
  assert (Hr : forall j W1 n1, nth_error gs j = Some (GRepair W1 n1) -> repair_at w' j = true).
  { intros j W1 n1 Hj. unfold repair_at. rewrite E1.
    assert (X : exists p, nth_error (w_out w) j = Some p /\ is p (GRepair W1 n1)).
    { clear -H Hj. revert j Hj. induction H as [|x y l l' H F IH]; intros [|j] Hj; try discriminate.
      - injection Hj as ->. exists x. auto.
      - apply IH, Hj. }
    destruct X as (p & -> & T & _). apply N.eqb_eq, type_of_repair, T. }
  unfold repairs_in_order in Ho. rewrite E2, filter_app in Ho. cbn [filter] in Ho.
  rewrite (Hr _ _ _ Hk) in Ho. apply (sorted_last _ _ Ho). apply filter_In. split; [exact Hi|]. eapply Hr, Hg.
Qed.

(** A step of the receiver. *)
Lemma receiver_wok gs clk w op arr w' : wok gs w -> receiver m clk w op arr = Ok w' ->
  match op with
  | DPacket p => exists k, arr = [k] /\ nth_error (w_out w) k = Some p
  | _ => arr = []
  end ->
  repairs_in_order w' ->
  exists new, w_lists w' = w_lists w ++ new /\ bounded_lists new
  /\ (forall x, kept_id (core_of w) x -> kept_id (core_of w') x)
  /\ (Forall wire_ok new -> wok gs w').
Proof.
  intros B H Hop Ho. unfold receiver in H.
  destruct (dstep m clk (w_dec w) op) as [d r] eqn:E.
  apply bind_ok in H. destruct H as (out & Hout & H).
  assert (Ew : w' = {| w_enc := w_enc w; w_dec := d; w_sent := w_sent w; w_out := w_out w;
        w_arrived := w_arrived w ++ arr; w_got := w_got w ++ to_user out;
        w_acks := w_acks w ++ to_network out;
        w_lists := w_lists w ++ acked (w_dec w) d out |}) by congruence.
  clear H. exists (acked (w_dec w) d out). split; [rewrite Ew; reflexivity|].
  pose proof B as [B1 B2 B3 B4 B5 B6 B7]. pose proof B5 as [D1 D2 D3 D4 D5 D6].
  apply survive_ok in Hout. destruct Hout as [Hnf Hr].
  assert (Ec' : core_of w' = dc_core d) by (rewrite Ew; reflexivity). rewrite Ec'.
  assert (Main : bounded_lists (acked (w_dec w) d out)
     /\ (forall x, kept_id (core_of w) x -> kept_id (dc_core d) x) /\ (Forall wire_ok (acked (w_dec w) d out) -> wok gs
     {| w_enc := w_enc w; w_dec := d; w_sent := w_sent w; w_out := w_out w;
        w_arrived := w_arrived w ++ arr; w_got := w_got w ++ to_user out;
        w_acks := w_acks w ++ to_network out;
        w_lists := w_lists w ++ acked (w_dec w) d out |})); [|rewrite <- Ew in Main; exact Main].
  destruct Hr as [->|(-> & x & ->)].
  - destruct op as [p| | |t|nb]; cbn [dstep] in E.
    + destruct Hop as (k & -> & Hk).
      destruct (dec_packet m clk (w_dec w) p) as [d1 r] eqn:Ed.
      assert (X : d1 = d /\ exists q, r = Ok (out, q)).
      { destruct r as [[o1 q]| |]; cbn in E; [|congruence|congruence]. split; [congruence|]. exists q. congruence. }
      destruct X as [-> [q ->]]. apply dec_packet_ok in Ed; [|exact D1 | exact D2].
      destruct (forall2_nth _ _ _ (ch_is _ _ _ _ _ B3) k p Hk) as (g & Hg & Hp).
      destruct Ed as [s c new Et Er Ec R|r c new Et Er Hr Ec R].
      * destruct g as [x|W n]; [|destruct Hp as (Y & _); congruence].
        destruct Hp as (Hx & _ & s' & q' & R1 & R2 & R3).
        assert (s' = s) by congruence. subst s'. rewrite R3, R2 in Ec.
        destruct (core_source gs _ k _ _ _ D4 B6 Hx Ec) as (I & Hs & Acc).
        eapply ran_wok; try eassumption.
        -- eapply recv_source_good; [exact D1 | exact Ec].
        -- rewrite (mv_in_order _ _ (recv_source_moves _ _ _ _ _ Ec)). exact D5.
        -- eapply recv_source_tells, Ec.
      * destruct g as [x|W n]; [destruct Hp as (_ & Y & _); congruence|].
        assert (Hle : forall i, In i (w_arrived w) -> (exists W' n', nth_error gs i = Some (GRepair W' n')) -> (i <= k)%nat).
        { eapply earlier_repairs; [apply B3 | | | exact Ho | exact Hg]; rewrite Ew; reflexivity. }
        destruct (core_repair _ _ _ _ _ k _ _ _ _ _ _ _ B3 D4 B6 Hle Hg Hp Er Ec) as (I & Hs & Acc).
        eapply ran_wok; try eassumption.
        -- eapply recv_repair_good; [exact D1 | exact Hr | exact Ec].
        -- rewrite (mv_in_order _ _ (recv_repair_moves _ _ _ _ Ec)). exact D5.
        -- eapply recv_repair_tells, Ec.
    + destruct (generate_ack (w_dec w)) as [d1 o1] eqn:Eg. assert (d1 = d /\ o1 = out) as [-> ->] by (split; congruence).
      unfold generate_ack in Eg. apply generate_ack_of_spec in Eg; [|exact D2 | apply D1].
      destruct Eg as ([K1 _ _ _ _] & E1 & _ & _ & _ & ->).
      apply same_core_wok; try assumption; try (rewrite E1; reflexivity); try reflexivity. right. reflexivity.
    + destruct (maybe_ack clk (w_dec w)) as [d1 o1] eqn:Eg. assert (d1 = d /\ o1 = out) as [-> ->] by (split; congruence).
      unfold maybe_ack in Eg. apply maybe_ack_of_spec in Eg; [|exact D2 | apply D1].
      destruct Eg as ([K1 _ _ _ _] & E0 & [(_ & -> & E1 & _)|(_ & -> & E1 & _)]).
      * apply same_core_wok; try assumption; try (rewrite E1; reflexivity); try reflexivity. right. reflexivity.
      * apply same_core_wok; try assumption; try reflexivity; [rewrite E1; exact D3 | left; reflexivity].
    + assert (d = set_ack_period (w_dec w) t /\ out = []) as [-> ->] by (split; congruence).
      apply same_core_wok; try assumption; try reflexivity. left. reflexivity.
    + apply finish_ok in E. apply bind_ok in E. destruct E as (d1 & Ed & E).
      unfold set_ack_nb_packets in Ed. apply bind_ok in Ed. destruct Ed as (u & _ & Ed).
      assert (d = with_ack_params (w_dec w) (dc_period (w_dec w)) (N.min nb 128) /\ out = []) as [-> ->] by (split; congruence).
      apply same_core_wok; try assumption; try reflexivity. left. reflexivity.
  - apply dstep_throw in E. destruct E as (p & -> & E). apply dec_packet_throw in E.
    assert (X : dc_core d = core_of w /\ a_ids (dc_ack d) = [] /\ a_nb (dc_ack d) < 65536).
    { destruct E as [(_ & _ & ->)|[(_ & ->)|(_ & ->)]]; cbn [count_packet dc_core dc_ack a_ids a_nb]; (split; [reflexivity|]);
        (split; [exact D2|]); try exact D3; apply N.mod_lt; discriminate. }
    destruct X as (X1 & X2 & X3). apply same_core_wok; try assumption; try reflexivity. left. reflexivity.
Qed.
End Sys.
