(** * Properties of packets and of packet dumps: C45, C46 *)
From Coq Require Import NArith List Bool Lia Arith.
From Verif Require Import Outcome GF Packetizer PropsPacketizer Encoder Packet.
Import ListNotations.
Open Scope N_scope.

(** ** C45: a packet is a vector of bytes *)

(** The operations of a user. *)
Inductive op :=
| Resize (count : nat)
| ResizeWith (count : nat) (value : N)
| Clear
| PushBack (value : N)
| Write (pos : nat) (value : N)
| AssignValue (count : nat) (value : N)
| Assign (l : list N)
| NewSized (count : nat)
| NewFilled (count : nat) (value : N)
| NewFrom (l : list N).

(** What the library does; [junk] is the content of fresh memory at that time. *)
Definition perform (junk : memory) (p : pkt) (o : op) : outcome pkt :=
  match o with
  | Resize n => Ok (packet_resize junk p n)
  | ResizeWith n v => Ok (packet_resize_with p n v)
  | Clear => Ok (packet_clear junk p)
  | PushBack v => Ok (packet_push_back p v)
  | Write pos v => packet_put p pos v
  | AssignValue n v => packet_assign_value junk p n v
  | Assign l => packet_assign junk p l
  | NewSized n => Ok (packet_sized junk n)
  | NewFilled n v => Ok (packet_filled n v)
  | NewFrom l => packet_of junk l
  end.

Fixpoint perform_all (p : pkt) (l : list (memory * op)) : outcome pkt :=
  match l with
  | [] => Ok p
  | (junk, o) :: l' => bind (perform junk p o) (fun p' => perform_all p' l')
  end.

(** What a vector does: contents before and after. *)
Definition expected (l : list N) (o : op) (l' : list N) : Prop :=
  match o with
  | Resize n => length l' = n
      /\ forall i, (i < n)%nat -> (i < length l)%nat -> nth_error l' i = nth_error l i
  | ResizeWith n v => length l' = n
      /\ forall i, (i < n)%nat -> nth_error l' i = if Nat.ltb i (length l) then nth_error l i else Some v
  | Clear => l' = []
  | PushBack v => l' = l ++ [v]
  | Write pos v => (pos < length l)%nat /\ length l' = length l
      /\ forall i, nth_error l' i = if Nat.eqb i pos then Some v else nth_error l i
  | AssignValue n v | NewFilled n v => l' = repeat v n
  | Assign l1 | NewFrom l1 => l' = l1
  | NewSized n => length l' = n
  end.

Inductive trace : list N -> list (memory * op) -> list N -> Prop :=
| trace_nil l : trace l [] l
| trace_cons l junk o l1 ops l2 : expected l o l1 -> trace l1 ops l2 -> trace l ((junk, o) :: ops) l2.

(** The bytes between begin() and end(). *)
Definition shows (p : pkt) (l : list N) : Prop := packet_range p = Ok l.

Lemma shows_iff p l : shows p l <-> exists h, k_buffer p = h ++ l /\ length h = shift.
Proof.
  unfold shows, packet_range. split.
  - destruct (Nat.leb_spec shift (length (k_buffer p))) as [H|H]; [|discriminate].
    intros E. assert (E' : l = skipn shift (k_buffer p)) by congruence. exists (firstn shift (k_buffer p)).
    rewrite E', firstn_skipn, firstn_length, Nat.min_l by exact H. split; reflexivity.
  - intros (h & E & Hh). rewrite E, app_length, Hh. destruct (Nat.leb_spec shift (shift + length l)); [|lia].
    f_equal. rewrite <- Hh. rewrite skipn_app, skipn_all, Nat.sub_diag. reflexivity.
Qed.

Lemma uninitialised_length junk n : length (uninitialised junk n) = n.
Proof. unfold uninitialised. rewrite map_length, seq_length. reflexivity. Qed.

(** Room for the unused bytes. *)
Lemma split_shift (l : list N) : (shift <= length l)%nat ->
  exists h t, l = h ++ t /\ length h = shift /\ length t = (length l - shift)%nat.
Proof.
  intros H. exists (firstn shift l), (skipn shift l).
  rewrite firstn_skipn, firstn_length, skipn_length, Nat.min_l by exact H. repeat split.
Qed.

Lemma vec_copy_all h src t : length src = length t ->
  vec_copy src (length h) (h ++ t) = Ok (h ++ src).
Proof.
  intros E. unfold vec_copy. rewrite app_length, E.
  destruct (Nat.leb_spec (length h + length t) (length h + length t)); [|lia]. f_equal.
  rewrite firstn_app, firstn_all, Nat.sub_diag, firstn_O, app_nil_r.
  rewrite skipn_all2 by (rewrite app_length; lia). rewrite app_nil_r. reflexivity.
Qed.

Lemma vec_copy_at h src t n : length h = n -> length src = length t ->
  vec_copy src n (h ++ t) = Ok (h ++ src).
Proof. intros <-. apply vec_copy_all. Qed.

Lemma resize_shape l n new h : (forall k, length (new k) = k) -> length h = shift ->
  vec_resize (h ++ l) (n + shift) new = h ++ firstn n l ++ new (n - length l)%nat.
Proof.
  intros Hn Hh. unfold vec_resize. rewrite firstn_app, app_length, Hh, firstn_all2 by lia.
  replace (n + shift - shift)%nat with n by lia. rewrite app_assoc.
  replace (n + shift - (shift + length l))%nat with (n - length l)%nat by lia. rewrite <- app_assoc. reflexivity.
Qed.

Lemma resize_any l n new : (forall k, length (new k) = k) ->
  length (vec_resize l n new) = n.
Proof. intros Hn. unfold vec_resize. rewrite app_length, firstn_length, Hn. lia. Qed.

Lemma resize_nth (l extra : list N) n i : (i < n)%nat -> (i < length l)%nat ->
  nth_error (firstn n l ++ extra) i = nth_error l i.
Proof.
  intros H1 H2. rewrite nth_error_app1 by (rewrite firstn_length; lia).
  revert n i H1 H2. induction l as [|a l IH]; intros n i H1 H2; [cbn in H2; lia|].
  destruct n as [|n]; [lia|]. destruct i as [|i]; [reflexivity|]. cbn. apply IH; cbn in *; lia.
Qed.

(** One operation on a packet that shows [l]. *)
Lemma perform_ok junk p o l : shows p l ->
  (forall pos v, o = Write pos v -> (pos < length l)%nat) ->
  exists p' l', perform junk p o = Ok p' /\ shows p' l' /\ expected l o l'.
Proof.
  intros Hs Hw. apply shows_iff in Hs. destruct Hs as (h & E & Hh).
  assert (Hu := uninitialised_length junk).
  assert (Hr : forall (v : N) k, length (repeat v k) = k) by (intros; apply repeat_length).
  destruct o as [n|n v| |v|pos v|n v|l1|n|n v|l1]; cbn [perform expected].
  - eexists. eexists. split; [reflexivity|]. split.
    + apply shows_iff. exists h. split; [|exact Hh]. cbn [packet_resize k_buffer]. rewrite E.
      apply resize_shape; assumption.
    + split; [rewrite app_length, firstn_length, Hu; lia|]. intros i H1 H2. apply resize_nth; assumption.
  - eexists. eexists. split; [reflexivity|]. split.
    + apply shows_iff. exists h. split; [|exact Hh]. cbn [packet_resize_with k_buffer]. rewrite E.
      apply resize_shape; [apply Hr | assumption].
    + split; [rewrite app_length, firstn_length, Hr; lia|]. intros i H1.
      destruct (Nat.ltb_spec i (length l)) as [H2|H2]; [apply resize_nth; assumption|].
      rewrite nth_error_app2 by (rewrite firstn_length; lia). rewrite firstn_length.
      replace (Nat.min n (length l)) with (length l) by lia.
      rewrite (nth_error_nth' _ v) by (rewrite Hr; lia). rewrite nth_repeat. reflexivity.
  - eexists. exists []. split; [reflexivity|]. split; [|reflexivity].
    apply shows_iff. exists h. split; [|exact Hh]. cbn [packet_clear k_buffer]. rewrite E.
    exact (resize_shape l 0 (uninitialised junk) h Hu Hh).
  - eexists. eexists. split; [reflexivity|]. split; [|reflexivity].
    apply shows_iff. exists h. split; [|exact Hh]. cbn. rewrite E, app_assoc. reflexivity.
  - specialize (Hw pos v eq_refl). unfold packet_put, vec_copy. rewrite E, app_length, Hh. cbn [length].
    destruct (Nat.leb_spec (pos + shift + 1) (shift + length l)) as [H|H]; [|lia]. cbn [bind].
    eexists. exists (firstn pos l ++ [v] ++ skipn (pos + 1) l). split; [reflexivity|]. split.
    + apply shows_iff. exists h. split; [|exact Hh]. cbn [k_buffer].
      rewrite firstn_app, skipn_app, Hh.
      rewrite (firstn_all2 h) by lia. rewrite (skipn_all2 h) by lia.
      replace (pos + shift - shift)%nat with pos by lia.
      replace (pos + shift + 1 - shift)%nat with (pos + 1)%nat by lia.
      rewrite <- app_assoc. reflexivity.
    + split; [exact Hw|]. split.
      * rewrite !app_length, firstn_length, skipn_length. cbn [length]. lia.
      * intros i. destruct (Nat.eqb_spec i pos) as [->|Hi].
        -- rewrite nth_error_app2 by (rewrite firstn_length; lia). rewrite firstn_length.
           replace (pos - Nat.min pos (length l))%nat with 0%nat by lia. reflexivity.
        -- assert (Hi' : (i < pos \/ pos < i)%nat) by lia. destruct Hi' as [Hi'|Hi'].
           ++ apply resize_nth; lia.
           ++ rewrite nth_error_app2 by (rewrite firstn_length; lia). rewrite firstn_length.
              replace (Nat.min pos (length l)) with pos by lia.
              rewrite nth_error_app2 by (cbn [length]; lia). cbn [length].
              rewrite <- (firstn_skipn (pos + 1) l) at 2.
              rewrite (nth_error_app2 (firstn _ _)) by (rewrite firstn_length; lia). rewrite firstn_length.
              f_equal. lia.
  - unfold packet_assign_value. cbn [packet_resize k_buffer]. rewrite E, (resize_shape l n (uninitialised junk) h Hu Hh).
    set (t := firstn n l ++ uninitialised junk (n - length l)).
    assert (Ht : length t = n) by (subst t; rewrite app_length, firstn_length, Hu; lia).
    replace (length (h ++ t) - shift)%nat with n by (rewrite app_length; lia).
    rewrite (vec_copy_at _ _ _ _ Hh) by (rewrite Hr; lia). cbn [bind].
    eexists. eexists. split; [reflexivity|]. split; [|reflexivity]. apply shows_iff. exists h. split; [reflexivity | exact Hh].
  - unfold packet_assign. cbn [packet_resize k_buffer]. rewrite E, (resize_shape l (length l1) (uninitialised junk) h Hu Hh).
    set (t := firstn (length l1) l ++ uninitialised junk (length l1 - length l)).
    assert (Ht : length t = length l1) by (subst t; rewrite app_length, firstn_length, Hu; lia).
    rewrite (vec_copy_at _ _ _ _ Hh) by lia. cbn [bind].
    eexists. eexists. split; [reflexivity|]. split; [|reflexivity]. apply shows_iff. exists h. split; [reflexivity | exact Hh].
  - destruct (split_shift (uninitialised junk (n + shift))) as (h' & t & Es & Hh' & Ht); [rewrite Hu; lia|].
    eexists. exists t. split; [reflexivity|]. split; [apply shows_iff; exists h'; split; assumption|].
    rewrite Ht, Hu. lia.
  - eexists. exists (repeat v n). split; [reflexivity|]. split; [|reflexivity].
    apply shows_iff. exists (repeat v shift). split; [|apply Hr]. cbn [packet_filled k_buffer].
    rewrite <- repeat_app. f_equal. lia.
  - unfold packet_of. destruct (split_shift (uninitialised junk (length l1 + shift))) as (h' & t & Es & Hh' & Ht); [rewrite Hu; lia|].
    rewrite Es. rewrite (vec_copy_at _ _ _ _ Hh') by (rewrite Ht, Hu; lia). cbn [bind].
    eexists. eexists. split; [reflexivity|]. split; [|reflexivity]. apply shows_iff. exists h'. split; [reflexivity | exact Hh'].
Qed.

(** Every sequence of operations is carried out as on a vector, or stops at a write
    behind the end. *)
Theorem C45_vector :
  forall ops p l, shows p l ->
  (exists p' l', perform_all p ops = Ok p' /\ shows p' l' /\ trace l ops l')
  \/ (exists before junk pos v after l1, ops = before ++ (junk, Write pos v) :: after
      /\ trace l before l1 /\ (length l1 <= pos)%nat).
Proof.
  induction ops as [|[junk o] ops IH]; intros p l Hs.
  - left. exists p, l. split; [reflexivity|]. split; [exact Hs | constructor].
  - assert (D : (exists pos v, o = Write pos v /\ (length l <= pos)%nat)
                \/ (forall pos v, o = Write pos v -> (pos < length l)%nat)).
    { destruct o as [| | | |pos v| | | | |]; try (right; intros; discriminate).
      destruct (Nat.le_gt_cases (length l) pos) as [H|H].
      - left. exists pos, v. split; [reflexivity | exact H].
      - right. intros pos' v' E. injection E as <- <-. exact H. }
    destruct D as [(pos & v & -> & H)|H].
    + right. exists [], junk, pos, v, ops, l. split; [reflexivity|]. split; [constructor | exact H].
    + destruct (perform_ok junk p o l Hs H) as (p1 & l1 & E1 & Hs1 & X1).
      destruct (IH p1 l1 Hs1) as [(p' & l' & E2 & Hs2 & T2)|(before & j & pos & v & after & l2 & -> & T2 & Hl)].
      * left. exists p', l'. split; [cbn [perform_all]; rewrite E1; exact E2|]. split; [exact Hs2|].
        econstructor; eassumption.
      * right. exists ((junk, o) :: before), j, pos, v, after, l2. split; [reflexivity|]. split; [|exact Hl].
        econstructor; eassumption.
Qed.
Print Assumptions C45_vector.

(** The observers agree with the contents; the empty constructor shows nothing. *)
Theorem C45_observers :
  (forall junk, shows (packet_empty junk) [])
  /\ forall p l, shows p l -> N.of_nat (length l) < 2 ^ 64 - 9 ->
     packet_size p = N.of_nat (length l)
     /\ (packet_is_empty p = true <-> l = [])
     /\ forall i, packet_get p i = match nth_error l i with Some b => Ok b | None => Fault OutOfBounds end.
Proof.
  split.
  - intros junk. apply shows_iff. exists (uninitialised junk shift). split; [rewrite app_nil_r; reflexivity | apply uninitialised_length].
  - intros p l Hs Hl. apply shows_iff in Hs. destruct Hs as (h & E & Hh).
    assert (Hz : packet_size p = N.of_nat (length l)).
    { unfold packet_size, u64. rewrite E, app_length, Hh, Nat2N.inj_add.
      change (N.of_nat shift) with 9. change (2 ^ 64) with 18446744073709551616 in *.
      replace (9 + N.of_nat (length l) + (18446744073709551616 - 9))
        with (N.of_nat (length l) + 1 * 18446744073709551616) by lia.
      rewrite N.mod_add by discriminate. apply N.mod_small. lia. }
    split; [exact Hz|]. split.
    + unfold packet_is_empty. rewrite Hz, N.eqb_eq. destruct l; cbn [length]; split; intros; try discriminate; try reflexivity; lia.
    + intros i. unfold packet_get. rewrite E, nth_error_app2 by lia.
      replace (i + shift - length h)%nat with i by lia. reflexivity.
Qed.
Print Assumptions C45_observers.

(** The symbol of a source or repair packet that is read from a packet object starts at
    symbol(), which is aligned if the buffer is. *)
Theorem C45_symbol :
  forall junk s p, packet_of junk (on_wire (write_source s)) = Ok p ->
  packet_symbol p = Ok (es_data s).
Proof.
  intros junk s p E. assert (Hs : shows p (on_wire (write_source s))).
  { destruct (perform_ok junk (packet_empty junk) (NewFrom (on_wire (write_source s))) []) as (p' & l' & E' & S' & X').
    - apply C45_observers.
    - intros; discriminate.
    - cbn [perform expected] in E', X'. subst l'. assert (p' = p) by congruence. subst. exact S'. }
  apply shows_iff in Hs. destruct Hs as (h & E1 & Hh). unfold packet_symbol. rewrite E1, app_length, Hh.
  unfold on_wire, write_source. cbn [concat be app length]. rewrite app_nil_r.
  destruct (Nat.leb_spec alignment (shift + Datatypes.S (Datatypes.S (Datatypes.S (Datatypes.S (Datatypes.S
    (Datatypes.S (Datatypes.S (length (es_data s)))))))))) as [H|H]; [|unfold alignment, shift in H; lia].
  f_equal. rewrite skipn_app, Hh, skipn_all2 by (rewrite Hh; unfold alignment, shift; lia). reflexivity.
Qed.
Print Assumptions C45_symbol.

Theorem C45_symbol_repair :
  forall junk m r calls p, write_repair m r = Ok calls -> packet_of junk (on_wire calls) = Ok p ->
  exists rest, packet_symbol p = Ok (er_sym r ++ rest).
Proof.
  intros junk m r calls p Ec E. assert (Hs : shows p (on_wire calls)).
  { destruct (perform_ok junk (packet_empty junk) (NewFrom (on_wire calls)) []) as (p' & l' & E' & S' & X').
    - apply C45_observers.
    - intros; discriminate.
    - cbn [perform expected] in E', X'. subst l'. assert (p' = p) by congruence. subst. exact S'. }
  unfold write_repair in Ec. apply bind_ok in Ec. destruct Ec as (_ & _ & Ec).
  apply (f_equal (fun x => match x with Ok y => y | _ => [] end)) in Ec. subst calls.
  apply shows_iff in Hs. destruct Hs as (h & E1 & Hh). unfold packet_symbol. rewrite E1, app_length, Hh.
  unfold on_wire. cbn [concat be app].
  set (tail := concat _). cbn [length].
  match goal with |- context [Nat.leb alignment ?n] => destruct (Nat.leb_spec alignment n) as [H|H] end;
    [|unfold alignment, shift in H; lia].
  exists tail. f_equal. rewrite skipn_app, Hh, skipn_all2 by (rewrite Hh; unfold alignment, shift; lia). reflexivity.
Qed.
Print Assumptions C45_symbol_repair.

Theorem C45_aligned :
  forall base, base mod 16 = 0 ->
  (base + N.of_nat alignment) mod 16 = 0
  /\ N.of_nat alignment = N.of_nat shift + N.of_nat (length (on_wire (write_source {| es_id := 0; es_data := [] |}))).
Proof.
  intros base H. split; [|reflexivity]. change (N.of_nat alignment) with (1 * 16).
  rewrite N.mod_add by discriminate. exact H.
Qed.
Print Assumptions C45_aligned.

(** A moved-from packet claims an enormous size, cannot be read and loses what is
    appended to it; resizing, clearing, assigning or replacing it repairs it. *)
Theorem C45_moved_from :
  packet_size moved_from = 2 ^ 64 - 9 /\ packet_is_empty moved_from = false
  /\ (forall i, packet_get moved_from i = Fault OutOfBounds)
  /\ (forall v, packet_range (packet_push_back moved_from v) = Fault OutOfBounds)
  /\ forall junk o, match o with PushBack _ | Write _ _ => False | _ => True end ->
     exists p' l', perform junk moved_from o = Ok p' /\ shows p' l' /\ expected [] o l'.
Proof.
  split; [vm_compute; reflexivity|]. split; [vm_compute; reflexivity|]. split; [intros i; unfold packet_get, moved_from; cbn [k_buffer]; destruct (i + shift)%nat; reflexivity|].
  split; [reflexivity|]. intros junk o Ho.
  assert (Hu := uninitialised_length junk).
  assert (Hr : forall (v : N) k, length (repeat v k) = k) by (intros; apply repeat_length).
  destruct o as [n|n v| |v|pos v|n v|l1|n|n v|l1]; try contradiction; cbn [perform expected].
  - eexists. destruct (split_shift (uninitialised junk (n + shift))) as (h & t & Es & Hh & Ht); [rewrite Hu; lia|].
    exists t. split; [reflexivity|]. split.
    + apply shows_iff. exists h. split; [|exact Hh]. cbn [packet_resize k_buffer moved_from vec_resize].
      unfold vec_resize. rewrite firstn_nil, Nat.sub_0_r. exact Es.
    + split; [rewrite Ht, Hu; lia|]. intros i _ H. cbn in H. lia.
  - eexists. exists (repeat v n). split; [reflexivity|]. split.
    + apply shows_iff. exists (repeat v shift). split; [|apply Hr]. cbn [packet_resize_with k_buffer moved_from].
      unfold vec_resize. rewrite firstn_nil, Nat.sub_0_r. cbn [app]. rewrite <- repeat_app. f_equal. lia.
    + split; [apply Hr|]. intros i H. cbn [length]. destruct (Nat.ltb_spec i 0); [lia|].
      rewrite (nth_error_nth' _ v) by (rewrite Hr; lia). rewrite nth_repeat. reflexivity.
  - eexists. exists []. split; [reflexivity|]. split; [|reflexivity].
    apply shows_iff. exists (uninitialised junk shift). split; [|apply Hu]. cbn [packet_clear k_buffer moved_from].
    unfold vec_resize. rewrite firstn_nil, Nat.sub_0_r, app_nil_r. reflexivity.
  - unfold packet_assign_value. cbn [packet_resize k_buffer moved_from]. unfold vec_resize. rewrite firstn_nil, Nat.sub_0_r. cbn [app].
    destruct (split_shift (uninitialised junk (n + shift))) as (h & t & Es & Hh & Ht); [rewrite Hu; lia|].
    rewrite Hu. replace (n + shift - shift)%nat with n by lia. rewrite Es. rewrite (vec_copy_at _ _ _ _ Hh) by (rewrite Ht, Hu, Hr; lia). cbn [bind].
    eexists. eexists. split; [reflexivity|]. split; [|reflexivity]. apply shows_iff. exists h. split; [reflexivity | exact Hh].
  - unfold packet_assign. cbn [packet_resize k_buffer moved_from]. unfold vec_resize. rewrite firstn_nil, Nat.sub_0_r. cbn [app].
    destruct (split_shift (uninitialised junk (length l1 + shift))) as (h & t & Es & Hh & Ht); [rewrite Hu; lia|].
    rewrite Es. rewrite (vec_copy_at _ _ _ _ Hh) by (rewrite Ht, Hu; lia). cbn [bind].
    eexists. eexists. split; [reflexivity|]. split; [|reflexivity]. apply shows_iff. exists h. split; [reflexivity | exact Hh].
  - apply (perform_ok junk (packet_empty junk) (NewSized n) []); [apply C45_observers | intros; discriminate].
  - apply (perform_ok junk (packet_empty junk) (NewFilled n v) []); [apply C45_observers | intros; discriminate].
  - apply (perform_ok junk (packet_empty junk) (NewFrom l1) []); [apply C45_observers | intros; discriminate].
Qed.
Print Assumptions C45_moved_from.

(** A user fills a packet of 4 bytes, appends one, and cuts it. *)
Example C45_case :
  let j := fun _ => 99 in
  exists p, perform_all (packet_empty j)
    [(j, NewSized 4); (j, Write 0 7); (j, Write 1 8); (j, PushBack 9); (j, Resize 2); (j, PushBack 5)] = Ok p
  /\ shows p [7; 8; 5] /\ packet_size p = 3.
Proof. eexists. split; [vm_compute; reflexivity|]. split; vm_compute; reflexivity. Qed.

Example C45_symbol_case :
  exists p, packet_of (fun _ => 0) (on_wire (write_source {| es_id := 5; es_data := [1; 2; 3] |})) = Ok p
  /\ packet_symbol p = Ok [1; 2; 3] /\ packet_size p = 10.
Proof. eexists. split; [vm_compute; reflexivity|]. split; vm_compute; reflexivity. Qed.

(** ** C46: dumps *)

(** The packets that are read one after the other from a stream. *)
Fixpoint load_all (style : copy_n_style) (n : nat) (s : list N) : outcome (list pkt * list N) :=
  match n with
  | O => Ok ([], s)
  | Datatypes.S n' => bind (load_packet style s) (fun '(p, s) =>
      bind (load_all style n' s) (fun '(l, s) => Ok (p :: l, s)))
  end.

Lemma size_bytes n : n < 65536 ->
  N.to_nat (fold_left (fun a b => a * 256 + b) (be 2 n) 0) = N.to_nat n.
Proof.
  intros H. f_equal. cbn [be app fold_left].
  pose proof (N.div_mod n 256). pose proof (N.mod_small (n / 256) 256).
  assert (n / 256 < 256) by (apply N.div_lt_upper_bound; lia). lia.
Qed.

Lemma be2 n : exists a b, be 2 n = [a; b].
Proof. eexists. eexists. reflexivity. Qed.

(** If std::copy_n stops on the last character, every sequence of packets is read back. *)
Theorem C46_dumps_stepwise :
  forall ps rest,
  (forall p, In p ps -> exists l, shows p l /\ N.of_nat (length l) <= 65526) ->
  load_all Stepwise (length ps) (concat (map dump_packet ps) ++ rest) = Ok (ps, rest).
Proof.
  induction ps as [|p ps IH]; intros rest H; [reflexivity|].
  cbn [length load_all map concat]. rewrite <- app_assoc.
  set (tail := concat (map dump_packet ps) ++ rest).
  destruct (H p (or_introl eq_refl)) as (l & Hs & Hl).
  apply shows_iff in Hs. destruct Hs as (h & E & Hh).
  assert (Hn : length (k_buffer p) = (shift + length l)%nat) by (rewrite E, app_length, Hh; reflexivity).
  assert (Hn' : (0 < length (k_buffer p))%nat) by (unfold shift in Hn; lia).
  assert (Hb : N.of_nat (length (k_buffer p)) < 65536) by (unfold shift in Hn; lia).
  assert (EL : load_packet Stepwise (dump_packet p ++ tail) = Ok (p, tail)).
  { unfold load_packet, dump_packet. pose proof (size_bytes _ Hb) as Hz.
    destruct (be2 (N.of_nat (length (k_buffer p)))) as (a & b & E2). rewrite E2 in *. rewrite <- app_assoc.
    cbn [app]. unfold copy_n at 1. cbn [length Nat.ltb Nat.leb bind firstn skipn Nat.sub bump tl].
    rewrite Hz, Nat2N.id. unfold copy_n. rewrite app_length.
    destruct (Nat.ltb_spec (length (k_buffer p) + length tail) (length (k_buffer p))) as [X|_]; [lia|].
    cbn [bind]. rewrite firstn_app, firstn_all, Nat.sub_diag, firstn_O, app_nil_r.
    destruct p as [buf]. cbn [k_buffer] in *. f_equal. f_equal. unfold bump.
    clear -Hn'. induction buf as [|x buf IHb]; [cbn in Hn'; lia|].
    cbn [length Nat.sub]. rewrite Nat.sub_0_r. destruct buf as [|y buf]; [reflexivity|].
    cbn [length app skipn]. cbn [length] in IHb. specialize (IHb ltac:(lia)).
    cbn [Nat.sub] in IHb. rewrite Nat.sub_0_r in IHb. exact IHb. }
  rewrite EL. cbn [bind]. unfold tail. rewrite IH by (intros q Hq; apply H; right; exact Hq). reflexivity.
Qed.
Print Assumptions C46_dumps_stepwise.

Example C46_case :
  load_all Stepwise 2 (concat (map dump_packet [packet_filled 3 7; packet_filled 0 1])) = Ok ([packet_filled 3 7; packet_filled 0 1], []).
Proof. vm_compute. reflexivity. Qed.

(** If it stops behind the last character, a dump of one packet is never read back: the
    code skips a character twice. *)
Theorem C46_dumps_bulk_refuted :
  (forall p l, shows p l -> N.of_nat (length l) <= 65526 -> load_packet Bulk (dump_packet p) = Fault OutOfBounds)
  /\ exists p q r rest, load_packet Bulk (dump_packet p ++ dump_packet q) = Ok (r, rest)
     /\ shows p [1; 2; 3] /\ shows r [2; 3; 0].
Proof.
  split.
  - intros p l Hs Hl. apply shows_iff in Hs. destruct Hs as (h & E & Hh).
    assert (Hn : length (k_buffer p) = (shift + length l)%nat) by (rewrite E, app_length, Hh; reflexivity).
    assert (Hb : N.of_nat (length (k_buffer p)) < 65536) by (unfold shift in Hn; lia).
    unfold load_packet, dump_packet. pose proof (size_bytes _ Hb) as Hz.
    destruct (be2 (N.of_nat (length (k_buffer p)))) as (a & b & E2). rewrite E2 in *.
    cbn [app]. unfold copy_n at 1. cbn [length Nat.ltb Nat.leb bind firstn skipn bump].
    rewrite Hz, Nat2N.id. unfold copy_n. destruct (k_buffer p) as [|x buf]; [unfold shift in Hn; cbn in Hn; lia|].
    unfold bump. cbn [tl length].
    destruct (Nat.ltb_spec (length buf) (Datatypes.S (length buf))) as [_|X]; [reflexivity | lia].
  - exists {| k_buffer := repeat 0 9 ++ [1; 2; 3] |}, (packet_filled 2 5). eexists. eexists.
    split; [vm_compute; reflexivity|]. split; vm_compute; reflexivity.
Qed.
Print Assumptions C46_dumps_bulk_refuted.

(** The size is written with 16 bits: a packet of 65527 bytes is read back as a packet
    without a buffer. *)
Theorem C46_long_refuted :
  forall p l, shows p l -> length l = N.to_nat 65527 ->
  exists rest, load_packet Stepwise (dump_packet p) = Ok (moved_from, rest).
Proof.
  intros p l Hs Hl. apply shows_iff in Hs. destruct Hs as (h & E & Hh).
  assert (Hn : N.of_nat (length (k_buffer p)) = 65536).
  { rewrite E, app_length, Hh, Hl, Nat2N.inj_add, N2Nat.id. reflexivity. }
  unfold load_packet, dump_packet. rewrite Hn. change (be 2 65536) with [0; 0]. cbn [app].
  unfold copy_n at 1. cbn [length Nat.ltb Nat.leb bind firstn skipn Nat.sub bump tl fold_left].
  change (N.to_nat ((0 * 256 + 0) * 256 + 0)) with 0%nat. unfold copy_n.
  destruct (Nat.ltb_spec (length (k_buffer p)) 0) as [X|_]; [lia|]. cbn [bind firstn skipn Nat.sub].
  eexists. reflexivity.
Qed.
Print Assumptions C46_long_refuted.
