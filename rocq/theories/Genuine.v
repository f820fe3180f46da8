(** * What a decoder reads from a packet that an encoder made *)
From Coq Require Import NArith List Bool Lia Arith.
From Verif Require Import Outcome GF GFField GFRegion Linear RegionFacts Containers ContainersFacts
  Packetizer PacketizerFacts PropsPacketizer Encoder EncoderRun EncoderFacts EncoderHistory
  PropsEncoder DetailDecoder DecoderAlgebra System.
Import ListNotations.
Open Scope N_scope.

(** ** Bytes *)

Lemma concat_bytes l : Forall bytes l -> bytes (concat l).
Proof. induction 1; [constructor|]. cbn [concat]. apply bytes_app; assumption. Qed.

Lemma write_ids_bytes ids : bytes (concat (write_ids ids)).
Proof.
  apply concat_bytes. unfold write_ids. destruct ids as [|x l].
  - constructor; [apply be_bytes | constructor].
  - constructor; [apply be_bytes|]. constructor; [apply be_bytes|].
    induction (rle (differences x l)) as [|[a b] q IH]; [constructor|].
    cbn [flat_map app]. constructor; [apply be_bytes|]. constructor; [apply be_bytes | exact IH].
Qed.

Lemma write_ack_bytes a : bytes (concat (write_ack a)).
Proof.
  unfold write_ack. rewrite concat_app. apply bytes_app; [|apply write_ids_bytes].
  apply concat_bytes. constructor; [apply be_bytes|]. constructor; [apply be_bytes | constructor].
Qed.

Lemma bytes_skipn n l : bytes l -> bytes (skipn n l).
Proof.
  intros H. apply Forall_forall. intros b Hb. unfold bytes in H. rewrite Forall_forall in H. apply H.
  rewrite <- (firstn_skipn n l). apply in_or_app. right. exact Hb.
Qed.

(** ** Repairs *)

Lemma read_repair_fits m p r n : read_repair m p = Ok (r, n) ->
  dr_buf r = skipn 7 p /\ (N.to_nat (dr_size r) <= length (dr_buf r))%nat.
Proof.
  intros H. unfold read_repair in H. pose proof H as H'.
  apply bind_ok in H. destruct H as (u & Eu & _). destruct u.
  change (read_repair m p = Ok (r, n)) in H'. rewrite (read_repair_parse m p Eu) in H'.
  apply result_ok in H'; [|apply wfp_repair]. destruct H' as (a & used & rest & P & -> & _).
  destruct a as [[[id size] ids] enc]. cbn [mk_repair_of dr_buf dr_size]. split; [reflexivity|].
  unfold prepair, pbind in P.
  do 7 (destruct p as [|? p]; [discriminate|]).
  destruct (pbe 1 0 _) as [[x1 s1]|] eqn:E1; [|discriminate]. injection E1 as _ <-.
  destruct (pbe 4 0 _) as [[x2 s2]|] eqn:E2; [|discriminate]. injection E2 as _ <-.
  destruct (pbe 2 0 _) as [[x3 s3]|] eqn:E3; [|discriminate]. injection E3 as E3 <-.
  destruct (pskip (N.to_nat x3) _) as [[x4 s4]|] eqn:E4; [|discriminate].
  unfold pskip in E4. destruct (Nat.ltb_spec (length p) (N.to_nat x3)) as [|L]; [discriminate|].
  destruct (pids s4) as [[x5 s5]|]; [|discriminate].
  destruct (pbe 2 0 s5) as [[x6 s6]|]; [|discriminate].
  unfold pret in P. assert (size = x3) by congruence. subst size.
  change (skipn 7 _) with p. exact L.
Qed.

Lemma maxlen_le s l : In s l -> (dlen s <= maxlen l)%nat.
Proof.
  induction l as [|t l IH]; [intros []|]. cbn [maxlen fold_right].
  fold (maxlen l). intros [->|H]; [lia|]. specialize (IH H). lia.
Qed.

Lemma maxlen_in l : l <> [] -> exists s, In s l /\ maxlen l = dlen s.
Proof.
  induction l as [|t l IH]; [congruence|]. intros _. cbn [maxlen fold_right]. fold (maxlen l).
  destruct l as [|u l]; [exists t; cbn; split; [auto | lia]|].
  destruct IH as (s & Hs & E); [discriminate|].
  destruct (Nat.max_spec (dlen t) (maxlen (u :: l))) as [[_ ->]|[_ ->]].
  - exists s. split; [right; exact Hs | exact E].
  - exists t. split; [left; reflexivity | reflexivity].
Qed.

Section Genuine.
Variable f : field.
Variable S : N -> list N.

(** A source as the encoder keeps it. *)
Definition original (s : esource) : Prop :=
  legal f (es_data s) /\ bytes (es_data s) /\ es_data s = S (es_id s).

Lemma combination_vec id l r i : Forall original l -> combination f id l r -> er_ids r = map es_id l ->
  (forall s, In s l -> size_exact f (N.of_nat (dlen s)) (coefficient f id (es_id s))) ->
  vec (er_enc r) (er_sym r) i
  = xsum (fun x => rmul_at f (coefficient f id x) (svec S x) i) (er_ids r).
Proof.
  intros Hl C E Hx. rewrite E, xsum_map. rewrite Forall_forall in Hl.
  rewrite (xsum_ext _ (fun s => vec (part_size f id s) (rmul f (coefficient f id (es_id s)) (es_data s)) i)).
  - destruct i as [|[|[|[|i]]]]; cbn [vec].
    1-4: rewrite (c_enc _ _ _ _ C); apply le_byte_xsum.
    + apply (c_sym _ _ _ _ C).
  - intros s Hs. destruct (Hl s Hs) as ((L1 & L2 & L3) & B & D). unfold svec. rewrite <- D.
    unfold part_size, dlen. apply rmul_at_vec; try assumption; [apply Hx, Hs | apply coefficient_elt].
Qed.

Lemma repair_genuine m id l p : repair_of m f id l p -> id < 2 ^ 32 ->
  Forall original l -> ssorted (map es_id l) -> Forall (fun x => x < 2 ^ 32) (map es_id l) ->
  wire_ok (map es_id l) ->
  (forall r n x, read_repair m p = Ok (r, n) -> In x (dr_ids r) ->
     size_exact f (N.of_nat (length (S x))) (coefficient f (dr_id r) x)) ->
  get_packet_type p = Ok TRepair
  /\ exists r n, read_repair m p = Ok (r, n) /\ genuine f S r /\ dr_id r = id /\ dr_ids r = map es_id l.
Proof.
  intros (r0 & w & He & Hw & ->) Hid Hl Hs H32 [Hc Hfit] Hex.
  split. { apply write_repair_head in Hw as [t ->]. reflexivity. }
  assert (Hleg : Forall (fun s => legal f (es_data s)) l) by (eapply Forall_impl; [|exact Hl]; intros s H; apply H).
  apply encode_spec in He as [C Hne]; [|eapply legal_small; exact Hleg].
  assert (Eids : er_ids r0 = map es_id l) by (apply (combination_ids f id); assumption).
  destruct (maxlen_in l Hne) as (s0 & Hs0 & Emax).
  pose proof Hl as Hl'. rewrite Forall_forall in Hl'.
  destruct (Hl' s0 Hs0) as ((L1 & L2 & L3) & _ & _).
  assert (Henc : er_enc r0 < 65536).
  { rewrite (c_enc _ _ _ _ C). apply (xsum_below _ _ 16). intros s _. apply multiply_size_below. }
  assert (Hlen : length (er_sym r0) = dlen s0) by (rewrite (c_len _ _ _ _ C); exact Emax).
  destruct (C02_repair_roundtrip m r0) as (calls & d & n & W & R & D1 & D2 & D3 & D4 & _).
  { rewrite (c_id _ _ _ _ C). exact Hid. }
  { rewrite Eids. split; assumption. }
  { rewrite Eids. exact Hc. }
  { rewrite Eids. exact Hfit. }
  { exact Henc. }
  { intros E. rewrite E in Hlen. unfold dlen in Hlen. cbn in Hlen. lia. }
  { rewrite Hlen. exact L2. }
  rewrite Hw in W. injection W as <-. exists d, n. split; [exact R|].
  rewrite (c_id _ _ _ _ C) in D1. rewrite Eids in D2. split; [|auto].
  destruct (read_repair_fits _ _ _ _ R) as [B1 B2]. specialize (fun x => Hex _ _ x R).
  assert (Hsize : N.to_nat (dr_size d) = dlen s0).
  { rewrite <- Hlen, <- D4. unfold dr_sym. rewrite firstn_length. lia. }
  assert (Hsym : bytes (er_sym r0)).
  { apply Forall_forall. intros b Hb. apply (In_nth _ _ 0) in Hb. destruct Hb as (i & _ & <-).
    rewrite (c_sym _ _ _ _ C). apply (xsum_below _ _ 8). intros s _. unfold part.
    change (2 ^ 8) with 256. apply bytes_fn_nth, rmul_bytes. }
  constructor.
  - rewrite D2. exact Hs.
  - rewrite D3. exact Henc.
  - rewrite B1. apply bytes_skipn. unfold write_repair in Hw. apply bind_ok in Hw. destruct Hw as (u & _ & Hw).
    assert (Ew : w = [be 1 1; be 4 (er_id r0); be 2 (N.of_nat (length (er_sym r0))); er_sym r0] ++ write_ids (er_ids r0)
      ++ [be 2 (er_enc r0); be 2 (N.of_nat (length (er_sym r0))); er_sym r0]) by congruence.
    unfold on_wire. rewrite Ew, !concat_app. apply bytes_app; [|apply bytes_app; [apply write_ids_bytes|]];
      apply concat_bytes; repeat (constructor; [first [apply be_bytes | assumption]|]); constructor.
  - exact B2.
  - rewrite Hsize. exact L3.
  - intros x Hx. rewrite D2 in Hx. apply in_map_iff in Hx. destruct Hx as (s & <- & Hx).
    destruct (Hl' s Hx) as (_ & _ & <-). pose proof (maxlen_le s l Hx). unfold dlen in *. lia.
  - intros x Hx. rewrite D2 in Hx. apply in_map_iff in Hx. destruct Hx as (s & <- & Hx).
    destruct (Hl' s Hx) as ((X1 & X2 & X3) & X4 & <-). repeat split; assumption.
  - intros i. rewrite D1, D2, D3, D4, <- Eids. apply combination_vec with l; try assumption.
    intros s Hin. destruct (Hl' s Hin) as (_ & _ & E). unfold dlen. rewrite E, <- D1. apply Hex.
    rewrite D2. apply in_map, Hin.
  - exact Hex.
Qed.

(** ** Sources *)

Lemma source_genuine m s : original s -> es_id s < 2 ^ 32 ->
  get_packet_type (concat (write_source s)) = Ok TSource
  /\ exists r n, read_source m (concat (write_source s)) = Ok (r, n)
     /\ ds_id r = es_id s /\ ds_data r = S (es_id s).
Proof.
  intros ((L1 & L2 & L3) & _ & E) Hid. split. { destruct (write_source_head s) as [t ->]. reflexivity. }
  destruct s as [id data]. cbn [es_id es_data] in *.
  destruct (C01_source_roundtrip m id data Hid L2) as (r & R & R1 & R2).
  exists r, (length (on_wire (write_source {| es_id := id; es_data := data |}))).
  split; [exact R|]. split; [exact R1 | congruence].
Qed.

End Genuine.
