(** * Properties of the tools: C69 (replay), C70 (source forwarder) *)
From Coq Require Import ZArith NArith PeanoNat List Bool Lia.
From Verif Require Import Outcome GF Packetizer PacketizerFacts PropsPacketizer Packet PropsPacket Encoder EncoderRun DetailDecoder Decoder
  DecoderFacts PropsModes Tools.
Import ListNotations.
Open Scope N_scope.
Open Scope outcome_scope.

(** ** C69: replay *)

(** None of the calls throws. *)
Fixpoint all_return (m : mode) (clk : clock) (d : dec) (ops : list dop) : Prop :=
  match ops with
  | [] => True
  | op :: ops => exists out, snd (dstep m clk d op) = Ok out /\ all_return m clk (fst (dstep m clk d op)) ops
  end.

Definition small (p : pkt) (l : list N) : Prop := shows p l /\ N.of_nat (length l) <= 65526.

Lemma load_one p l tail : small p l -> load_packet Stepwise (dump_packet p ++ tail) = Ok (p, tail).
Proof.
  intros [Hs Hl]. pose proof (C46_dumps_stepwise [p] tail) as H. cbn [map concat length load_all] in H. rewrite app_nil_r in H.
  destruct (load_packet Stepwise (dump_packet p ++ tail)) as [[q r]|x|x].
  - cbn [bind] in H. specialize (H ltac:(intros q' [<-|[]]; eauto)). congruence.
  - cbn [bind] in H. specialize (H ltac:(intros q' [<-|[]]; eauto)). discriminate H.
  - cbn [bind] in H. specialize (H ltac:(intros q' [<-|[]]; eauto)). discriminate H.
Qed.

Lemma dump_not_empty p tail : dump_packet p ++ tail <> [].
Proof. unfold dump_packet. destruct (be2 (N.of_nat (length (k_buffer p)))) as (a & b & ->). discriminate. Qed.

(** The receiver throws if and only if the tool's own parsing or its receiver throws. *)
Lemma preview_ok m c p c' : core_packet m c p = Ok c' -> preview m p = Ok tt.
Proof.
  unfold core_packet, preview. intros H. apply bind_ok in H. destruct H as (t & E & H). apply bind_ok in E. destruct E as (u & _ & E).
  rewrite E. cbn [bind]. destruct t; [discriminate H| |];
    (apply bind_ok in H; destruct H as ((r & n) & E1 & _); rewrite E1; reflexivity).
Qed.

Lemma one_round fuel m clk d p l tail c : small p l -> tail <> [] -> core_packet m (dc_core d) l = Ok c ->
  exists d' out new, dc_core d' = c /\ d_log c = d_log (dc_core d) ++ new /\ to_user out = map v_data new /\
  replay_loop (S fuel) Stepwise m clk d (dump_packet p ++ tail)
  = '(d2, out', e) <- replay_loop fuel Stepwise m clk d' tail ;; Ok (d2, out ++ out', e).
Proof.
  intros Hs Ht Hc. cbn [replay_loop]. rewrite (load_one p l tail Hs). cbn [bind]. destruct tail as [|x tail]; [contradiction Ht; reflexivity|].
  destruct Hs as [Hs _]. rewrite Hs. cbn [bind]. rewrite (preview_ok _ _ _ _ Hc).
  pose proof (dec_packet_core m clk d l) as H. rewrite Hc in H. destruct H as (d' & out & n & new & E & Ec & El & Eu).
  rewrite E. exists d', out, new. auto.
Qed.

Lemma step_core m clk d op : legal_setting op ->
  match op with
  | DPacket p => core_packet m (dc_core d) p
  | _ => Ok (dc_core d)
  end = Ok (dc_core (fst (dstep m clk d op))) \/ ~ exists out, snd (dstep m clk d op) = Ok out.
Proof.
  intros L. destruct op as [p| | |t|n].
  - pose proof (dec_packet_core m clk d p) as H. cbn [dstep]. destruct (core_packet m (dc_core d) p) as [c|x|x].
    + destruct H as (d' & out & n & new & -> & <- & _). left. reflexivity.
    + destruct H as (d' & -> & _). right. cbn. intros [o H]. discriminate H.
    + destruct H as (d' & ->). right. cbn. intros [o H]. discriminate H.
  - left. reflexivity.
  - left. cbn [dstep]. unfold maybe_ack, maybe_ack_of, generate_ack_of.
    destruct (_ <=? _); [|destruct (_ =? _)%Z; [|destruct (_ <=? _)%Z]]; reflexivity.
  - left. reflexivity.
  - left. cbn [dstep legal_setting] in *. unfold set_ack_nb_packets. replace (0 <? n) with true by (symmetry; apply N.ltb_lt, L).
    replace (assert_ m true) with (Ok tt) by (destruct m; reflexivity). reflexivity.
Qed.

(** The states of the core, if no packet throws. *)
Fixpoint clean (m : mode) (c : ddec) (ls : list packet) : option ddec :=
  match ls with
  | [] => Some c
  | l :: ls => match core_packet m c l with Ok c' => clean m c' ls | _ => None end
  end.

Lemma returns_clean m clk ops : Forall legal_setting ops -> forall d, all_return m clk d ops ->
  exists c, clean m (dc_core d) (packets ops) = Some c /\ core_run m (dc_core d) (packets ops) = Ok c.
Proof.
  induction 1 as [|op ops L _ IH]; intros d R; [exists (dc_core d); split; reflexivity|].
  destruct R as (out & E & R). destruct (step_core m clk d op L) as [S|S]; [|contradiction S; eauto].
  destruct (IH _ R) as (c & C1 & C2). exists c.
  destruct op as [p| | |t|n]; cbn [packets clean core_run].
  1: rewrite S; auto.
  all: assert (X : forall a b : ddec, Ok a = Ok b -> b = a) by (intros a b Y; congruence); apply X in S; rewrite S in C1, C2; auto.
Qed.

Lemma rounds m clk ps : forall ls fuel d tail c, Forall2 small ps ls -> tail <> [] -> clean m (dc_core d) ls = Some c ->
  exists d' out new, dc_core d' = c /\ d_log c = d_log (dc_core d) ++ new /\ to_user out = map v_data new
  /\ replay_loop (length ps + fuel) Stepwise m clk d (concat (map dump_packet ps) ++ tail)
     = '(d2, out', e) <- replay_loop fuel Stepwise m clk d' tail ;; Ok (d2, out ++ out', e).
Proof.
  induction ps as [|p ps IH]; intros ls fuel d tail c F Ht Hc; inversion F as [|? l ? ls' Hs F']; subst.
  - injection Hc as <-. exists d, [], []. rewrite app_nil_r. cbn [length Nat.add map concat app].
    destruct (replay_loop fuel Stepwise m clk d tail) as [[[d2 o] e]|x|x]; auto.
  - cbn [clean] in Hc. destruct (core_packet m (dc_core d) l) as [c1|x|x] eqn:E; [|discriminate Hc | discriminate Hc].
    cbn [map concat length Nat.add]. rewrite <- app_assoc.
    destruct (one_round (length ps + fuel) m clk d p l (concat (map dump_packet ps) ++ tail) c1 Hs) as (d1 & o1 & n1 & <- & L1 & U1 & R1).
    { destruct ps as [|q ps]; [exact Ht|]. cbn [map concat]. rewrite <- app_assoc. apply dump_not_empty. }
    { exact E. }
    destruct (IH ls' fuel d1 tail c F' Ht Hc) as (d2 & o2 & n2 & <- & L2 & U2 & R2).
    exists d2, (o1 ++ o2), (n1 ++ n2). split; [reflexivity|]. split; [rewrite L2, L1, app_assoc; reflexivity|].
    split; [rewrite to_user_app, map_app, U1, U2; reflexivity|]. rewrite R1, R2.
    destruct (replay_loop fuel Stepwise m clk d2 tail) as [[[d3 o3] e]|x|x]; cbn [bind]; [|reflexivity | reflexivity].
    rewrite app_assoc. reflexivity.
Qed.

Lemma dump_long p : (2 <= length (dump_packet p))%nat.
Proof. unfold dump_packet. destruct (be2 (N.of_nat (length (k_buffer p)))) as (a & b & ->). cbn. lia. Qed.

Lemma dumps_long ps : (length ps <= length (concat (map dump_packet ps)))%nat.
Proof. induction ps as [|p ps IH]; [cbn; lia|]. cbn [map concat length]. rewrite app_length. pose proof (dump_long p). lia. Qed.

(** What the receiver did with the packets before the last one is done again. The receiver that made the dump may have any
    clock and ack settings and may have been asked for acks at any time. *)
Theorem C69_replay :
  forall m clk1 clk2 ps last ls l ops d1 out1,
  Forall2 small (ps ++ [last]) (ls ++ [l]) -> packets ops = ls -> Forall legal_setting ops ->
  all_return m clk1 (new_dec clk1 W8 true) ops ->
  drun m clk1 (new_dec clk1 W8 true) ops = Ok (d1, out1) ->
  exists d2 out2, replay Stepwise m clk2 (concat (map dump_packet (ps ++ [last]))) = Ok (d2, out2, AtEnd)
  /\ dc_core d2 = dc_core d1 /\ to_user out2 = to_user out1.
Proof.
  intros m clk1 clk2 ps last ls l ops d1 out1 F Ep L R E.
  apply Forall2_app_inv_r in F. destruct F as (a & b & Fa & Fb & Eab).
  assert (a = ps /\ b = [last]) as [-> ->].
  { inversion Fb as [|x ? b' ? Hx Fn]; subst. inversion Fn; subst. apply app_inj_tail in Eab. destruct Eab; subst. auto. }
  inversion Fb as [|? ? ? ? Hl _]; subst.
  destruct (returns_clean _ _ _ L _ R) as (c & C1 & C2).
  pose proof (drun_core m clk1 ops L (new_dec clk1 W8 true)) as D. rewrite C2, E in D. destruct D as (d1' & o1' & new1 & Ed & <- & L1 & U1).
  injection Ed as <- <-.
  change (dc_core (new_dec clk1 W8 true)) with (dc_core (new_dec clk2 W8 true)) in *.
  unfold replay. rewrite map_app, concat_app. cbn [map concat]. rewrite app_nil_r.
  set (tail := dump_packet last).
  set (k := length (concat (map dump_packet ps) ++ tail)).
  assert (Hk : (length ps <= k)%nat) by (unfold k; rewrite app_length; pose proof (dumps_long ps); lia).
  destruct (rounds m clk2 ps (packets ops) (Datatypes.S (k - length ps)) (new_dec clk2 W8 true) tail (dc_core d1) Fa) as (d2 & o2 & n2 & Ec & L2 & U2 & R2).
  { intros X. pose proof (dump_not_empty last []) as Y. rewrite app_nil_r in Y. apply Y, X. }
  { exact C1. }
  replace (length ps + Datatypes.S (k - length ps))%nat with (Datatypes.S k) in R2 by lia.
  rewrite R2. cbn [replay_loop]. replace tail with (dump_packet last ++ []) by apply app_nil_r. rewrite (load_one last l [] Hl). cbn [bind].
  exists d2, (o2 ++ []). split; [reflexivity|]. split; [exact Ec|]. rewrite app_nil_r, U2, U1. f_equal.
  rewrite L1 in L2. apply app_inv_head in L2. congruence.
Qed.
Print Assumptions C69_replay.

Lemma preview_throw m c p x : core_packet m c p = Throw x -> (exists y, preview m p = Throw y) \/ preview m p = Ok tt.
Proof.
  unfold core_packet, preview. destruct p as [|b p].
  - destruct m; intros H; discriminate H.
  - replace (assert_ m (Nat.ltb 0 (length (b :: p)))) with (Ok tt) by (destruct m; reflexivity). cbn [bind].
    destruct (get_packet_type (b :: p)) as [t|y|y]; cbn [bind]; [|eauto | discriminate].
    destruct t; [eauto | |].
    + destruct (read_repair m (b :: p)) as [[r n]|y|y]; cbn [bind]; [auto | eauto | discriminate].
    + destruct (read_source m (b :: p)) as [[r n]|y|y]; cbn [bind]; [auto | eauto | discriminate].
Qed.

Lemma last_round fuel m clk d p l tail x : small p l -> tail <> [] -> core_packet m (dc_core d) l = Throw x ->
  exists d', dc_core d' = dc_core d /\ replay_loop (Datatypes.S fuel) Stepwise m clk d (dump_packet p ++ tail) = Ok (d', [], ByException).
Proof.
  intros Hs Ht Hc. cbn [replay_loop]. rewrite (load_one p l tail Hs). cbn [bind]. destruct tail as [|y tail]; [contradiction Ht; reflexivity|].
  destruct Hs as [Hs _]. rewrite Hs. cbn [bind]. destruct (preview_throw _ _ _ _ Hc) as [[z E]|E]; rewrite E.
  - exists d. auto.
  - pose proof (dec_packet_core m clk d l) as H. rewrite Hc in H. destruct H as (d' & -> & H). exists d'. auto.
Qed.

(** The first packet that made the receiver throw ends the tool: nothing behind it is replayed. *)
Theorem C69_stops :
  forall m clk1 clk2 ps bad more ls l ops d1 out1 x d1',
  more <> [] -> Forall2 small (ps ++ [bad]) (ls ++ [l]) -> packets ops = ls -> Forall legal_setting ops ->
  all_return m clk1 (new_dec clk1 W8 true) ops ->
  drun m clk1 (new_dec clk1 W8 true) ops = Ok (d1, out1) -> dec_packet m clk1 d1 l = (d1', Throw x) ->
  exists d2 out2, replay Stepwise m clk2 (concat (map dump_packet (ps ++ [bad])) ++ more) = Ok (d2, out2, ByException)
  /\ dc_core d2 = dc_core d1 /\ to_user out2 = to_user out1.
Proof.
  intros m clk1 clk2 ps bad more ls l ops d1 out1 x d1' Hm F Ep L R E Et.
  apply Forall2_app_inv_r in F. destruct F as (a & b & Fa & Fb & Eab).
  assert (a = ps /\ b = [bad]) as [-> ->].
  { inversion Fb as [|? ? b' ? Hx Fn]; subst. inversion Fn; subst. apply app_inj_tail in Eab. destruct Eab; subst. auto. }
  inversion Fb as [|? ? ? ? Hl _]; subst.
  destruct (returns_clean _ _ _ L _ R) as (c & C1 & C2).
  pose proof (drun_core m clk1 ops L (new_dec clk1 W8 true)) as D. rewrite C2, E in D. destruct D as (d1'' & o1' & new1 & Ed & <- & L1 & U1).
  injection Ed as <- <-.
  change (dc_core (new_dec clk1 W8 true)) with (dc_core (new_dec clk2 W8 true)) in *.
  unfold replay. rewrite map_app, concat_app. cbn [map concat]. rewrite app_nil_r, <- app_assoc.
  set (tail := dump_packet bad ++ more).
  set (k := length (concat (map dump_packet ps) ++ tail)).
  assert (Hk : (length ps <= k)%nat) by (unfold k; rewrite app_length; pose proof (dumps_long ps); lia).
  destruct (rounds m clk2 ps (packets ops) (Datatypes.S (k - length ps)) (new_dec clk2 W8 true) tail (dc_core d1) Fa) as (d2 & o2 & n2 & Ec & L2 & U2 & R2).
  { unfold tail. apply dump_not_empty. }
  { exact C1. }
  replace (length ps + Datatypes.S (k - length ps))%nat with (Datatypes.S k) in R2 by lia.
  rewrite R2. unfold tail. pose proof (dec_packet_core m clk1 d1 l) as H. rewrite Et in H.
  destruct (core_packet m (dc_core d1) l) as [c1|y|y] eqn:Ey.
  - destruct H as (? & ? & ? & ? & H & _). discriminate H.
  - destruct (last_round (k - length ps) m clk2 d2 bad l more y Hl Hm) as (d3 & Hd & R3); [rewrite Ec; exact Ey|].
    rewrite R3. cbn [bind]. exists d3, (o2 ++ []). split; [reflexivity|]. split; [congruence|].
    rewrite app_nil_r, U2, U1. f_equal. rewrite L1 in L2. apply app_inv_head in L2. congruence.
  - destruct H as (? & H). discriminate H.
Qed.
Print Assumptions C69_stops.

(** So not all of a dump is replayed: the last packet is read and dropped, whatever it is; what the receiver got after an
    exception is not replayed; and an empty dump is read behind its end. *)
Theorem C69_all_refuted :
  (forall m clk p l, small p l -> replay Stepwise m clk (dump_packet p) = Ok (new_dec clk W8 true, [], AtEnd))
  /\ (forall style m clk, replay style m clk [] = Fault OutOfBounds)
  /\ (forall m clk p l, small p l -> replay Bulk m clk (dump_packet p) = Fault OutOfBounds)
  /\ exists p q r bytes x, small p bytes /\ small q x /\ small r x
     /\ forall m clk, (exists d out, drun m clk (new_dec clk W8 true) [DPacket bytes; DPacket x; DPacket x] = Ok (d, out) /\ to_user out = [[42]])
     /\ exists d out, replay Stepwise m clk (concat (map dump_packet [p; q; r])) = Ok (d, out, ByException) /\ to_user out = [].
Proof.
  split; [|split; [|split]].
  - intros m clk p l H. unfold replay. cbn [replay_loop]. rewrite <- (app_nil_r (dump_packet p)), (load_one p l [] H). reflexivity.
  - intros style m clk. reflexivity.
  - intros m clk p l [H1 H2]. unfold replay. cbn [replay_loop]. rewrite (proj1 C46_dumps_bulk_refuted p l H1 H2). reflexivity.
  - exists {| k_buffer := repeat 0 9 ++ [7] |}. set (y := on_wire (write_source {| es_id := 0; es_data := [42] |})).
    exists {| k_buffer := repeat 0 9 ++ y |}, {| k_buffer := repeat 0 9 ++ y |}, [7], y.
    split; [split; [reflexivity | cbn; lia]|]. split; [split; [reflexivity | vm_compute; discriminate]|]. split; [split; [reflexivity | vm_compute; discriminate]|].
    intros m clk. split.
    + pose proof (drun_core m clk [DPacket [7]; DPacket y; DPacket y] ltac:(repeat constructor) (new_dec clk W8 true)) as H.
      change (dc_core (new_dec clk W8 true)) with (dc_core (new_dec (fun _ => 0%Z) W8 true)) in H.
      destruct (core_run m (dc_core (new_dec (fun _ => 0%Z) W8 true)) (packets [DPacket [7]; DPacket y; DPacket y])) as [c|z|z] eqn:E.
      * destruct H as (d & out & new & Ed & Ec & El & Eu). exists d, out. split; [exact Ed|]. rewrite Eu.
        assert (X : map v_data (d_log c) = [[42]]) by (destruct m; vm_compute in E; injection E as <-; reflexivity).
        rewrite El in X. exact X.
      * contradiction.
      * destruct m; vm_compute in E; discriminate E.
    + destruct (C69_stops m clk clk [] {| k_buffer := repeat 0 9 ++ [7] |} (dump_packet {| k_buffer := repeat 0 9 ++ y |} ++ dump_packet {| k_buffer := repeat 0 9 ++ y |})
        [] [7] [] (new_dec clk W8 true) [] PacketTypeError (new_dec clk W8 true)) as (d & out & E & _ & U).
      * apply dump_not_empty.
      * constructor; [split; [reflexivity | cbn; lia] | constructor].
      * reflexivity.
      * constructor.
      * exact I.
      * reflexivity.
      * destruct m; reflexivity.
      * exists d, out. split; [|exact U]. rewrite <- E. cbn [map concat]. rewrite !app_nil_r. reflexivity.
Qed.
Print Assumptions C69_all_refuted.

(** The hypotheses hold for a receiver that missed the first datum, was asked for an ack, and got it back by a repair. *)
Definition calls : list dop :=
  [DPacket [2; 0; 0; 0; 1; 0; 2; 3; 4]; DAck; DSetNb 2;
   DPacket [1; 0; 0; 0; 0; 0; 2; 15; 22; 0; 2; 0; 0; 0; 0; 1; 0; 1; 0; 14; 0; 2; 15; 22]].
Definition wrapped (l : list N) : pkt := {| k_buffer := repeat 0 9 ++ l |}.
Example C69_case :
  let clk : clock := fun _ => 0%Z in
  let tail := [2; 0; 0; 0; 2; 0; 1; 9] in
  Forall2 small (map wrapped (packets calls) ++ [wrapped tail]) (packets calls ++ [tail]) /\ Forall legal_setting calls
  /\ all_return Debug clk (new_dec clk W8 true) calls
  /\ exists d out, drun Debug clk (new_dec clk W8 true) calls = Ok (d, out) /\ to_user out = [[1; 2]; [3; 4]].
Proof.
  cbv zeta. split; [|split; [|split]].
  - repeat constructor; cbv; discriminate.
  - repeat constructor.
  - cbn [all_return calls]. repeat (eexists; split; [vm_compute; reflexivity|]). exact I.
  - eexists _, _. split; [vm_compute; reflexivity | reflexivity].
Qed.

(** ** C70: the source forwarder *)

(** The whole function: a datagram with a complete header. *)
Theorem C70_exact :
  forall m junk b1 b2 b3 b4 b5 b6 rest,
  let size := b5 * 256 + b6 in
  (size <= 4089 -> exists after, forward m junk (2 :: b1 :: b2 :: b3 :: b4 :: b5 :: b6 :: rest) = Ok (Some (firstn (N.to_nat size) (rest ++ after))))
  /\ (4089 < size -> forward m junk (2 :: b1 :: b2 :: b3 :: b4 :: b5 :: b6 :: rest) = Throw OverflowError).
Proof.
  intros m junk b1 b2 b3 b4 b5 b6 rest size. set (d := 2 :: _). set (k := N.to_nat 4089).
  assert (Ek : forwarder_buffer = (7 + k)%nat) by (unfold forwarder_buffer, k; lia).
  assert (Ed : firstn forwarder_buffer d = 2 :: b1 :: b2 :: b3 :: b4 :: b5 :: b6 :: firstn k rest) by (rewrite Ek; reflexivity).
  set (after := skipn (length (firstn forwarder_buffer d)) (uninitialised junk forwarder_buffer)).
  assert (El : (length (firstn k rest ++ after) = k)%nat).
  { unfold after. rewrite Ed, app_length, skipn_length. unfold uninitialised. rewrite map_length, seq_length, Ek.
    cbn [length]. pose proof (firstn_le_length k rest). lia. }
  assert (Er : read_source m (firstn forwarder_buffer d ++ after)
    = if 4089 <? size then Throw OverflowError
      else Ok ({| ds_id := ((b1 * 256 + b2) * 256 + b3) * 256 + b4; ds_buf := firstn k rest ++ after; ds_size := size |}, (7 + N.to_nat size)%nat)).
  { rewrite Ed. cbn [app]. unfold read_source. replace (assert_type m _ TSource) with (Ok tt) by (destruct m; reflexivity).
    cbn [bind]. cbv zeta. cbn [length read Nat.ltb Nat.leb copy_be nth_error bind Nat.add Nat.sub]. rewrite El.
    rewrite Nat.sub_0_r. rewrite !N.mul_0_l, !N.add_0_l. fold size. unfold skip.
    replace (Nat.ltb k (N.to_nat size)) with (4089 <? size).
    2:{ unfold k. destruct (N.ltb_spec 4089 size), (Nat.ltb_spec (N.to_nat 4089) (N.to_nat size)); try reflexivity; lia. }
    destruct (4089 <? size); reflexivity. }
  unfold forward. fold after. rewrite Er, Ed. split; intros H.
  - replace (4089 <? size) with false by (symmetry; apply N.ltb_ge, H). cbn [N.eqb Pos.eqb bind]. unfold ds_data. cbn [ds_size ds_buf].
    exists after. do 2 f_equal. destruct (Nat.le_gt_cases (length rest) k) as [X|X].
    + rewrite (firstn_all2 rest) by exact X. reflexivity.
    + rewrite !firstn_app, firstn_firstn, firstn_length.
      replace (min (N.to_nat size) k) with (N.to_nat size) by (unfold k; lia).
      replace (N.to_nat size - min k (length rest))%nat with 0%nat by (unfold k in *; lia).
      replace (N.to_nat size - length rest)%nat with 0%nat by (unfold k in *; lia). reflexivity.
  - replace (4089 <? size) with true by (symmetry; apply N.ltb_lt, H). reflexivity.
Qed.
Print Assumptions C70_exact.

(** The datum of a source packet leaves unchanged, whatever follows the packet in the datagram and whatever was in memory. *)
Theorem C70_sources :
  forall m junk id data more, id < 2 ^ 32 -> N.of_nat (length data) <= 4089 ->
  forward m junk (on_wire (write_source {| es_id := id; es_data := data |}) ++ more) = Ok (Some data).
Proof.
  intros m junk id data more Hid Hl. rewrite source_packet. change (be 1 2) with [2]. cbn [app].
  destruct (be2 (N.of_nat (length data))) as (b5 & b6 & E).
  assert (Es : b5 * 256 + b6 = N.of_nat (length data)).
  { pose proof (size_bytes (N.of_nat (length data)) ltac:(lia)) as Hz. rewrite E in Hz. cbn [fold_left] in Hz. lia. }
  rewrite E. pose proof (be_length 4 id) as L4. destruct (be 4 id) as [|b1 [|b2 [|b3 [|b4 [|]]]]]; try discriminate L4. cbn [app].
  destruct (proj1 (C70_exact m junk b1 b2 b3 b4 b5 b6 (data ++ more)) ltac:(lia)) as (after & ->).
  rewrite Es, Nat2N.id, <- app_assoc, firstn_app, firstn_all, Nat.sub_diag, firstn_O, app_nil_r. reflexivity.
Qed.
Print Assumptions C70_sources.

(** Nothing leaves for any other datagram. *)
Theorem C70_others :
  forall m junk d, (forall rest, d <> 2 :: rest) -> forward m junk d = Ok None.
Proof.
  intros m junk d H. unfold forward. destruct d as [|b d]; [destruct forwarder_buffer; reflexivity|].
  assert (E : forwarder_buffer = Datatypes.S (N.to_nat 4095)) by (unfold forwarder_buffer; lia). rewrite E. cbn [firstn].
  destruct (N.eqb_spec b 2) as [->|_]; [contradiction (H d); reflexivity | reflexivity].
Qed.
Print Assumptions C70_others.

(** No datagram makes the tool read outside of its buffer, and what leaves fits into a datagram. *)
Theorem C70_safe :
  forall m junk d, match forward m junk d with
  | Ok (Some out) => (length out <= N.to_nat 4089)%nat
  | Ok None => forall rest, d <> 2 :: rest
  | Throw x => x = OverflowError
  | Fault _ => False
  end.
Proof.
  intros m junk d.
  assert (D : (exists rest, d = 2 :: rest) \/ forall rest, d <> 2 :: rest).
  { destruct d as [|b d]; [right; discriminate|]. destruct (N.eqb_spec b 2) as [->|X]; [left; eauto | right; congruence]. }
  destruct D as [[rest ->]|D]; [|rewrite (C70_others m junk d D); exact D].
  unfold forward. set (d := 2 :: rest). set (buffer := firstn forwarder_buffer d ++ _).
  assert (Eb : forwarder_buffer = Datatypes.S (N.to_nat 4095)) by (unfold forwarder_buffer; lia).
  assert (El : length buffer = forwarder_buffer).
  { unfold buffer. rewrite app_length, skipn_length. unfold uninitialised. rewrite map_length, seq_length.
    pose proof (firstn_le_length forwarder_buffer d). lia. }
  assert (Ef : exists r, firstn forwarder_buffer d = 2 :: r /\ exists r', buffer = 2 :: r').
  { unfold buffer, d. rewrite Eb. cbn [firstn]. eexists. split; [reflexivity|]. eexists. reflexivity. }
  destruct Ef as (r & Er & r' & Er'). rewrite Er. cbn [N.eqb Pos.eqb].
  rewrite Er' in El. clearbody buffer. subst buffer. rewrite Eb in El. cbn [length] in El.
  do 6 (destruct r' as [|? r']; [exfalso; cbn [length] in El; lia|]). cbn [length] in El.
  unfold read_source. replace (assert_type m _ TSource) with (Ok tt) by (destruct m; reflexivity).
  cbn [bind]. cbv zeta. cbn [length read Nat.ltb Nat.leb copy_be nth_error bind Nat.add Nat.sub]. unfold skip.
  match goal with |- context [Nat.ltb ?a ?b] => destruct (Nat.ltb a b) end; cbn [bind]; [reflexivity|].
  unfold ds_data. cbn [ds_size ds_buf skipn]. rewrite firstn_length. lia.
Qed.
Print Assumptions C70_safe.

(** A sequence of datagrams: the data of the source packets leave in order, each once, and nothing else. *)
Inductive arrives : list N -> list (list N) -> Prop :=
| ASource id data more : id < 2 ^ 32 -> N.of_nat (length data) <= 4089 ->
    arrives (on_wire (write_source {| es_id := id; es_data := data |}) ++ more) [data]
| AOther d : (forall rest, d <> 2 :: rest) -> arrives d [].

Theorem C70_stream :
  forall m l outs, Forall2 (fun x => arrives (snd x)) l outs -> forward_all m l = Ok (concat outs).
Proof.
  induction 1 as [|[junk d] out l outs H _ IH]; [reflexivity|]. cbn [forward_all concat snd] in *.
  destruct H as [id data more Hid Hl | d Hd].
  - rewrite (C70_sources m junk id data more Hid Hl), IH. reflexivity.
  - rewrite (C70_others m junk d Hd), IH. reflexivity.
Qed.
Print Assumptions C70_stream.

Example C70_case : forward_all Debug
  [(fun _ => 170, on_wire (write_source {| es_id := 0; es_data := [1; 2] |})); (fun _ => 0, [1; 9; 9]); (fun _ => 3, []);
   (fun _ => 170, on_wire (write_source {| es_id := 5; es_data := [] |}) ++ [4; 4])] = Ok [[1; 2]; []].
Proof.
  change [[1; 2]; []] with (concat [[[1; 2]]; []; []; [@nil N]]). apply C70_stream.
  repeat (apply Forall2_cons || apply Forall2_nil); cbn [snd].
  - rewrite <- (app_nil_r (on_wire _)). constructor; [reflexivity | cbn; lia].
  - apply AOther. discriminate.
  - apply AOther. discriminate.
  - constructor; [reflexivity | cbn; lia].
Qed.

(** A datum of more than 4089 bytes ends the tool, and nothing behind it is forwarded. *)
Theorem C70_long_refuted :
  forall m id data more, id < 2 ^ 32 -> 4089 < N.of_nat (length data) < 65536 ->
  forall junk before after, (exists outs, Forall2 (fun x => arrives (snd x)) before outs) ->
  forward_all m (before ++ (junk, on_wire (write_source {| es_id := id; es_data := data |}) ++ more) :: after) = Throw OverflowError.
Proof.
  intros m id data more Hid Hl junk before after [outs F]. induction F as [|[j d] out l outs H _ IH]; cbn [app forward_all].
  - rewrite source_packet. change (be 1 2) with [2]. cbn [app].
    destruct (be2 (N.of_nat (length data))) as (b5 & b6 & E).
    assert (Es : b5 * 256 + b6 = N.of_nat (length data)).
    { pose proof (size_bytes (N.of_nat (length data)) ltac:(lia)) as Hz. rewrite E in Hz. cbn [fold_left] in Hz. lia. }
    rewrite E. pose proof (be_length 4 id) as L4. destruct (be 4 id) as [|b1 [|b2 [|b3 [|b4 [|]]]]]; try discriminate L4. cbn [app].
    rewrite (proj2 (C70_exact m junk b1 b2 b3 b4 b5 b6 (data ++ more)) ltac:(lia)). reflexivity.
  - cbn [snd] in H. destruct H as [id' data' more' Hid' Hl' | d Hd].
    + rewrite (C70_sources m j id' data' more' Hid' Hl'), IH. reflexivity.
    + rewrite (C70_others m j d Hd), IH. reflexivity.
Qed.
Print Assumptions C70_long_refuted.

(** The size of the datagram is not used: a header alone makes the tool send its memory. *)
Theorem C70_leak_refuted :
  forall m junk b1 b2 b3 b4 b5 b6, let size := b5 * 256 + b6 in size <= 4089 ->
  forward m junk [2; b1; b2; b3; b4; b5; b6] = Ok (Some (map junk (seq 7 (N.to_nat size)))).
Proof.
  intros m junk b1 b2 b3 b4 b5 b6 size H.
  set (rest := map junk (seq 7 (N.to_nat 4089))).
  assert (Eb : forwarder_buffer = (7 + N.to_nat 4089)%nat) by (unfold forwarder_buffer; lia).
  assert (E : forward m junk [2; b1; b2; b3; b4; b5; b6] = forward m junk (2 :: b1 :: b2 :: b3 :: b4 :: b5 :: b6 :: rest)).
  { unfold forward. rewrite Eb. cbn [Nat.add firstn]. replace (firstn (N.to_nat 4089) []) with (@nil N) by (destruct (N.to_nat 4089); reflexivity).
    replace (firstn (N.to_nat 4089) rest) with rest by (symmetry; apply firstn_all2; unfold rest; rewrite map_length, seq_length; lia).
    cbn [N.eqb Pos.eqb]. assert (X : forall a b, a = b -> ('(s, _) <- read_source m a ;; Ok (Some (ds_data s))) = ('(s, _) <- read_source m b ;; Ok (Some (ds_data s)))) by (intros a b ->; reflexivity).
    apply X. unfold uninitialised. cbn [length app].
    assert (L : length rest = N.to_nat 4089) by (unfold rest; rewrite map_length, seq_length; reflexivity). rewrite L.
    cbn [Nat.add seq map skipn]. fold rest. rewrite (skipn_all2 rest) by lia. rewrite app_nil_r. reflexivity. }
  rewrite E. destruct (proj1 (C70_exact m junk b1 b2 b3 b4 b5 b6 rest) H) as (after & ->). do 2 f_equal. fold size.
  rewrite firstn_app. replace (N.to_nat size - length rest)%nat with 0%nat by (unfold rest; rewrite map_length, seq_length; lia).
  cbn [firstn]. rewrite app_nil_r. unfold rest. rewrite firstn_map. f_equal.
  replace (N.to_nat 4089) with (N.to_nat size + (N.to_nat 4089 - N.to_nat size))%nat by lia.
  rewrite seq_app, firstn_app, seq_length, Nat.sub_diag, firstn_O, app_nil_r. apply firstn_all2. rewrite seq_length. lia.
Qed.
Print Assumptions C70_leak_refuted.
