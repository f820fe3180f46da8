(** * C65: the objects of the C interface *)
From Coq Require Import ZArith NArith List Bool Lia Arith.
From Verif Require Import Outcome GF Packetizer PropsPacketizer Packet Encoder EncoderFacts EncoderRun EncoderHistory DetailDecoder Decoder DecoderThrow DecoderOuter
  CApi PropsPacket CSession.
Import ListNotations.
Open Scope N_scope.

(** What the caller sees of the packet object. *)
Definition packet_shows (s : session) (l : list N) : Prop := shows (c_packet s) l.

(** The packet object cannot be used: its size is reported as 65527, its bytes must not be
    touched, it must not be given to the encoder or decoder. Resizing it makes it
    usable. *)
Definition unusable (m : mode) (clk : clock) (s : session) : Prop :=
  (forall junk, exists s', cstep m clk junk s PacketSize = Ok s' /\ c_result s' = 65527)
  /\ (forall junk i v, cstep m clk junk s (PacketPut i v) = Fault OutOfBounds)
  /\ (forall junk, cstep m clk junk s DecAddPacket = Fault OutOfBounds)
  /\ (forall junk, cstep m clk junk s EncAddPacket = Fault OutOfBounds)
  /\ (forall junk n, n < 65536 -> exists s' l, cstep m clk junk s (PacketResize n) = Ok s' /\ packet_shows s' l /\ length l = N.to_nat n).

Lemma u16_small n : n < 65536 -> u16 n = n.
Proof. intros H. unfold u16. apply N.mod_small. exact H. Qed.

Lemma checked_ok s n : exists e h, checked s (Ok n) = Ok (with_error s e h n) /\ ce_type e = NoError.
Proof. exists {| ce_type := NoError; ce_message := ce_message (c_err s) |}, (c_heap s). split; reflexivity. Qed.

Lemma checked_throw s x : exists e h, checked s (Throw x) = Ok (with_error s e h 0)
  /\ ce_type e = match x with PacketTypeError => PacketTypeErr | OverflowError => OverflowErr end.
Proof. exists {| ce_type := match x with PacketTypeError => PacketTypeErr | OverflowError => OverflowErr end; ce_message := ce_message (c_err s) |}, (c_heap s). destruct x; split; reflexivity. Qed.

Lemma checked_void_ok s : exists e h, checked_void s = Ok (with_error s e h (c_result s)) /\ ce_type e = NoError.
Proof. destruct (checked_ok s 0) as (e & h & E & T). exists e, h. unfold checked_void. rewrite E. split; [reflexivity|exact T]. Qed.

Lemma resize_shows junk p n : (exists l, shows p l) \/ p = moved_from ->
  exists l', shows (packet_resize junk p n) l' /\ length l' = n.
Proof.
  intros [[l H]| ->].
  - destruct (perform_ok junk p (Resize n) l H) as (p' & l' & E & S & X); [discriminate|]. injection E as <-. exists l'. split; [exact S|apply X].
  - destruct C45_moved_from as (_ & _ & _ & _ & H). destruct (H junk (Resize n) I) as (p' & l' & E & S & X). injection E as <-. exists l'. split; [exact S|apply X].
Qed.

Lemma moved_unusable m clk s : c_packet s = moved_from -> unusable m clk s.
Proof.
  intros H. unfold unusable, packet_shows. cbn [cstep]. rewrite H. split; [|split; [|split; [|split]]].
  - intros _. eexists. split; [reflexivity|reflexivity].
  - intros _ i v. unfold packet_put, vec_copy. cbn [k_buffer moved_from length].
    destruct (Nat.leb_spec (i + shift + 1) 0) as [X|X]; [lia|reflexivity].
  - intros _. reflexivity.
  - intros _. reflexivity.
  - intros junk n Hn. rewrite u16_small by exact Hn.
    match goal with |- context [checked_void ?x] => destruct (checked_void_ok x) as (e & h & E & _) end.
    destruct (resize_shows junk moved_from (N.to_nat n) (or_intror eq_refl)) as (l & S & L).
    eexists _, l. split; [exact E|]. split; [exact S|exact L].
Qed.


(** ** Packets *)

Lemma after_throw m clk d bytes d' x p : dec_packet m clk d bytes = (d', Throw x) -> packet_after m p bytes = p.
Proof.
  unfold dec_packet, packet_after. intros E. pose proof (quiet_assert m (Nat.ltb 0 (length bytes))) as Qa.
  destruct (assert_ m (Nat.ltb 0 (length bytes))) as [u|y|]; cbn [bind] in E; try discriminate.
  - destruct (get_packet_type bytes) as [[| |]| |]; try reflexivity.
    + destruct (read_repair m bytes) as [[r n]| |]; try reflexivity. exfalso. cbn [bind] in E. unfold call_core in E. cbn [count_packet dc_core] in E.
      pose proof (recv_repair_quiet m (dc_core d) r) as Q. destruct (recv_repair m (dc_core d) r) as [c|y|y]; cbn [bind] in E.
      * match type of E with context [handle_sources ?a ?b ?c] => destruct (handle_sources a b c) end; cbn [bind finish] in E; discriminate.
      * exact (Q y eq_refl).
      * cbn [finish] in E. discriminate.
    + destruct (read_source m bytes) as [[r n]| |]; try reflexivity. exfalso. cbn [bind] in E. unfold call_core in E. cbn [count_packet dc_core] in E.
      pose proof (recv_source_quiet m (dc_core d) (ds_id r) (ds_data r)) as Q. destruct (recv_source m (dc_core d) (ds_id r) (ds_data r)) as [c|y|y]; cbn [bind] in E.
      * match type of E with context [handle_sources ?a ?b ?c] => destruct (handle_sources a b c) end; cbn [bind finish] in E; discriminate.
      * exact (Q y eq_refl).
      * cbn [finish] in E. discriminate.
  - exfalso. exact (Qa y eq_refl).
Qed.

Lemma after_ok m clk d bytes d' r p : dec_packet m clk d bytes = (d', Ok r) -> packet_after m p bytes = moved_from.
Proof.
  unfold dec_packet, packet_after. intros E. destruct (assert_ m (Nat.ltb 0 (length bytes))) as [u| |]; cbn [bind] in E; try discriminate.
  destruct (get_packet_type bytes) as [[| |]| |]; try discriminate.
  - destruct (read_repair m bytes) as [[y n]| |]; try reflexivity; discriminate.
  - destruct (read_source m bytes) as [[y n]| |]; try reflexivity; discriminate.
Qed.

(** What [ntc_decoder_add_packet] does with a packet that shows [l]. *)
Lemma dec_add m clk junk s l : packet_shows s l ->
  match dec_packet m clk (c_dec s) l with
  | (d, Ok (out, n)) => exists e h, cstep m clk junk s DecAddPacket
      = Ok (with_error (with_packet (with_receiver s d out) moved_from) e h (N.of_nat n)) /\ ce_type e = NoError
  | (d, Throw x) => exists e h, cstep m clk junk s DecAddPacket
      = Ok (with_error (with_packet (with_receiver s d []) (c_packet s)) e h 0)
      /\ ce_type e = match x with PacketTypeError => PacketTypeErr | OverflowError => OverflowErr end
  | (_, Fault x) => cstep m clk junk s DecAddPacket = Fault x
  end.
Proof.
  intros Hl. cbn [cstep]. unfold packet_bytes. rewrite Hl. cbn [bind].
  destruct (dec_packet m clk (c_dec s) l) as [d r] eqn:E. destruct r as [[out n]|x|x]; cbn [bind].
  - rewrite (after_ok _ _ _ _ _ _ (c_packet s) E). apply checked_ok.
  - rewrite (after_throw _ _ _ _ _ _ (c_packet s) E). apply checked_throw.
  - reflexivity.
Qed.

(** [ntc_decoder_add_packet]: without error the packet is gone; with an error it is as before
    and nothing was sent or delivered. *)
Theorem C65_decoder_add_packet :
  forall m clk junk s s' l, packet_shows s l -> cstep m clk junk s DecAddPacket = Ok s' ->
  (ce_type (c_err s') = NoError /\ unusable m clk s')
  \/ ((ce_type (c_err s') = PacketTypeErr \/ ce_type (c_err s') = OverflowErr)
      /\ packet_shows s' l /\ c_result s' = 0 /\ c_acks s' = c_acks s /\ c_read s' = c_read s).
Proof.
  intros m clk junk s s' l Hl E. pose proof (dec_add m clk junk s l Hl) as H.
  destruct (dec_packet m clk (c_dec s) l) as [d r]. destruct r as [[out n]|x|x].
  - left. destruct H as (e & h & E' & T). rewrite E' in E. injection E as <-.
    split; [exact T|]. apply moved_unusable. reflexivity.
  - right. destruct H as (e & h & E' & T). rewrite E' in E. injection E as <-.
    split; [cbn [with_error c_err]; rewrite T; destruct x; auto|]. split; [exact Hl|]. split; [reflexivity|].
    cbn [with_error with_packet with_receiver c_acks c_read to_network to_user]. rewrite !app_nil_r. split; reflexivity.
  - rewrite H in E. discriminate.
Qed.
Print Assumptions C65_decoder_add_packet.

Lemma enc_add m clk junk s l : packet_shows s l ->
  match notify m (c_enc s) l with
  | (e1, Ok n) => exists e h, cstep m clk junk s EncAddPacket
      = Ok (with_error (with_sender s e1 []) e h (N.of_nat n)) /\ ce_type e = NoError
  | (e1, Throw x) => exists e h, cstep m clk junk s EncAddPacket
      = Ok (with_error (with_sender s e1 []) e h 0)
      /\ ce_type e = match x with PacketTypeError => PacketTypeErr | OverflowError => OverflowErr end
  | (_, Fault x) => cstep m clk junk s EncAddPacket = Fault x
  end.
Proof.
  intros Hl. cbn [cstep]. unfold packet_bytes. rewrite Hl. cbn [bind].
  destruct (notify m (c_enc s) l) as [e r]. destruct r as [n|x|x]; cbn [bind]; [apply checked_ok|apply checked_throw|reflexivity].
Qed.

(** [ntc_encoder_add_packet] leaves the packet as it is, and reports the errors. *)
Theorem C65_encoder_add_packet :
  forall m clk junk s s' l, packet_shows s l -> cstep m clk junk s EncAddPacket = Ok s' ->
  packet_shows s' l /\ c_sent s' = c_sent s
  /\ (ce_type (c_err s') = NoError \/ ce_type (c_err s') = PacketTypeErr \/ ce_type (c_err s') = OverflowErr).
Proof.
  intros m clk junk s s' l Hl E. pose proof (enc_add m clk junk s l Hl) as H.
  destruct (notify m (c_enc s) l) as [e r]. destruct r as [n|x|x].
  1, 2: destruct H as (e' & h & E' & T); rewrite E' in E; injection E as <-; split; [exact Hl|]; split;
    [cbn [with_error with_sender c_sent]; apply app_nil_r|cbn [with_error c_err]; rewrite T; try destruct x; auto].
  rewrite H in E. discriminate.
Qed.
Print Assumptions C65_encoder_add_packet.

(** ** A program *)

(** What a program does; the bytes of the data and packets are its own. *)
Inductive action :=
| Send (d : list N)
| Receive (p : packet)
| ReceiveAck (p : packet)
| SendRepair
| SendAck
| UseCode (code : N)
| UseRate (rate : N)
| UseWindow (size : N)
| UseAdaptive (adaptive : bool)
| UsePeriod (period : N)
| UseThreshold (nb : N).

(** A period above the largest signed number is taken for a negative one. *)
Definition signed (n : N) : Z := if n <? 2 ^ 63 then Z.of_N n else (Z.of_N n - 2 ^ 64)%Z.

Fixpoint each_byte (put : nat -> N -> cop) (i : nat) (l : list N) : list cop :=
  match l with
  | [] => []
  | b :: l' => put i b :: each_byte put (Datatypes.S i) l'
  end.

(** The calls that do it with the one data object and the one packet object. *)
Definition calls_of (a : action) : list cop :=
  match a with
  | Send d => DataResize (N.of_nat (length d)) :: each_byte DataPut 0 d ++ [AddData]
  | Receive p => PacketResize (N.of_nat (length p)) :: each_byte PacketPut 0 p ++ [DecAddPacket]
  | ReceiveAck p => PacketResize (N.of_nat (length p)) :: each_byte PacketPut 0 p ++ [EncAddPacket]
  | SendRepair => [GenerateRepair]
  | SendAck => [GenerateAck]
  | UseCode c => [SetCodeType c]
  | UseRate n => [SetRate n]
  | UseWindow n => [SetWindowSize n]
  | UseAdaptive b => [SetAdaptive b]
  | UsePeriod n => [SetAckPeriod n]
  | UseThreshold n => [SetAckNbPackets n]
  end.

(** Sizes and the threshold fit 16 bits, the other numbers 64 bits. *)
Definition fits (a : action) : Prop :=
  match a with
  | Send l | Receive l | ReceiveAck l => N.of_nat (length l) < 65536
  | UseRate n | UseWindow n | UsePeriod n => n < 2 ^ 64
  | UseThreshold n => n < 65536
  | _ => True
  end.

(** The same program with the C++ objects. *)
Fixpoint for_encoder (l : list action) : list eop :=
  match l with
  | [] => []
  | Send d :: l' => EData d :: for_encoder l'
  | ReceiveAck p :: l' => EPacket p :: for_encoder l'
  | SendRepair :: l' => ERepair :: for_encoder l'
  | UseCode c :: l' => ESetCode (match c with 0 => true | _ => false end) :: for_encoder l'
  | UseRate n :: l' => ESetRate n :: for_encoder l'
  | UseWindow n :: l' => ESetWindow n :: for_encoder l'
  | UseAdaptive b :: l' => ESetAdaptive b :: for_encoder l'
  | _ :: l' => for_encoder l'
  end.

Fixpoint for_decoder (l : list action) : list dop :=
  match l with
  | [] => []
  | Receive p :: l' => DPacket p :: for_decoder l'
  | SendAck :: l' => DAck :: for_decoder l'
  | UsePeriod n :: l' => DSetPeriod (signed n) :: for_decoder l'
  | UseThreshold n :: l' => DSetNb n :: for_decoder l'
  | _ :: l' => for_decoder l'
  end.

(** The packet object is usable, or the last call moved it away. *)
Definition ready (s : session) : Prop := (exists l, packet_shows s l) \/ c_packet s = moved_from.

Lemma crun_app m clk l1 l2 : forall s, crun m clk s (l1 ++ l2) = bind (crun m clk s l1) (fun s' => crun m clk s' l2).
Proof.
  induction l1 as [|[j o] l IH]; intros s; [reflexivity|]. cbn [app crun]. destruct (cstep m clk j s o) as [s'|x|x]; cbn [bind]; [apply IH|reflexivity|reflexivity].
Qed.

Lemma put_one h v x t : vec_copy [v] (length h) (h ++ x :: t) = Ok (h ++ v :: t).
Proof.
  unfold vec_copy. rewrite app_length. cbn [length]. destruct (Nat.leb_spec (length h + 1) (length h + Datatypes.S (length t))); [|lia].
  rewrite firstn_app, firstn_all, Nat.sub_diag. cbn [firstn]. rewrite app_nil_r.
  rewrite skipn_app, skipn_all2 by lia. replace (length h + 1 - length h)%nat with 1%nat by lia. reflexivity.
Qed.

Lemma data_puts m clk junk l : forall s done rest, c_data s = done ++ rest -> length rest = length l ->
  crun m clk s (map (pair junk) (each_byte DataPut (length done) l)) = Ok (with_data s (done ++ l)).
Proof.
  induction l as [|b l IH]; intros s done rest E L.
  - destruct rest; [|discriminate]. cbn. rewrite <- E. destruct s; reflexivity.
  - destruct rest as [|x rest]; [discriminate|]. cbn [each_byte map crun cstep]. rewrite E, put_one. cbn [bind].
    specialize (IH (with_data s (done ++ b :: rest)) (done ++ [b]) rest).
    rewrite app_length in IH. cbn [length] in IH. rewrite Nat.add_1_r in IH. rewrite IH; [|cbn [with_data c_data]; rewrite <- app_assoc; reflexivity|cbn in L; lia].
    rewrite <- app_assoc. reflexivity.
Qed.

Lemma packet_puts m clk junk h l : length h = shift -> forall s done rest, k_buffer (c_packet s) = h ++ done ++ rest -> length rest = length l ->
  crun m clk s (map (pair junk) (each_byte PacketPut (length done) l)) = Ok (with_packet s {| k_buffer := h ++ done ++ l |}).
Proof.
  intros Hh. induction l as [|b l IH]; intros s done rest E L.
  - destruct rest; [|discriminate]. cbn. rewrite <- E. destruct s as [? ? ? [?]]; reflexivity.
  - destruct rest as [|x rest]; [discriminate|]. cbn [each_byte map crun cstep]. unfold packet_put. rewrite E.
    replace (length done + shift)%nat with (length (h ++ done)) by (rewrite app_length; lia). rewrite app_assoc, put_one. cbn [bind].
    specialize (IH (with_packet s {| k_buffer := (h ++ done) ++ b :: rest |}) (done ++ [b]) rest).
    rewrite app_length in IH. cbn [length] in IH. rewrite Nat.add_1_r in IH. rewrite IH; [|cbn [with_packet c_packet k_buffer]; rewrite <- !app_assoc; reflexivity|cbn in L; lia].
    rewrite <- !app_assoc. reflexivity.
Qed.

(** Filling the data object and the packet object. *)
Lemma fill_data m clk junk s d k : N.of_nat (length d) < 65536 ->
  exists e h, crun m clk s (map (pair junk) (DataResize (N.of_nat (length d)) :: each_byte DataPut 0 d ++ k))
  = crun m clk (with_data (with_error s e h (c_result s)) d) (map (pair junk) k) /\ ce_type e = NoError.
Proof.
  intros H. cbn [map crun cstep]. rewrite u16_small, Nat2N.id by exact H.
  match goal with |- context [checked_void ?x] => destruct (checked_void_ok x) as (e & h & E & T) end.
  exists e, h. split; [|exact T]. rewrite E. cbn [bind]. rewrite map_app, crun_app.
  match goal with |- context [crun m clk ?x (map (pair junk) (each_byte _ _ _))] =>
    pose proof (data_puts m clk junk d x [] (c_data x) eq_refl) as P end.
  cbn [length app] in P. rewrite P; [reflexivity|].
  cbn [with_error with_data c_data]. apply resize_any. apply uninitialised_length.
Qed.

Lemma fill_packet m clk junk s p k : ready s -> N.of_nat (length p) < 65536 ->
  exists e h q, crun m clk s (map (pair junk) (PacketResize (N.of_nat (length p)) :: each_byte PacketPut 0 p ++ k))
  = crun m clk (with_packet (with_error s e h (c_result s)) q) (map (pair junk) k) /\ shows q p.
Proof.
  intros R H. cbn [map crun cstep]. rewrite u16_small, Nat2N.id by exact H.
  match goal with |- context [checked_void ?x] => destruct (checked_void_ok x) as (e & h & E & T) end.
  destruct (resize_shows junk (c_packet s) (length p) R) as (l & S & L). apply shows_iff in S. destruct S as (hd & Eb & Lh).
  exists e, h, {| k_buffer := hd ++ p |}. split; [|apply shows_iff; exists hd; split; [reflexivity|exact Lh]].
  rewrite E. cbn [bind]. rewrite map_app, crun_app.
  match goal with |- context [crun m clk ?x (map (pair junk) (each_byte _ _ _))] =>
    pose proof (packet_puts m clk junk hd p Lh x [] l Eb L) as P end.
  cbn [length app] in P. rewrite P. reflexivity.
Qed.

(** The calls of one action. *)
Definition both (m : mode) (clk : clock) (s : session) (a : list action) (r : outcome session) : Prop :=
  match r with
  | Ok s' => ready s'
      /\ (exists e out, erun m (c_enc s) (for_encoder a) = Ok (e, out) /\ c_enc s' = e /\ c_sent s' = c_sent s ++ out)
      /\ (exists d out, drun m clk (c_dec s) (for_decoder a) = Ok (d, out) /\ c_dec s' = d
            /\ c_read s' = c_read s ++ to_user out /\ c_acks s' = c_acks s ++ to_network out)
  | Throw _ => False
  | Fault x => erun m (c_enc s) (for_encoder a) = Fault x \/ drun m clk (c_dec s) (for_decoder a) = Fault x
  end.

Lemma u64_small n : n < 2 ^ 64 -> u64 n = n.
Proof. intros H. unfold u64. apply N.mod_small. exact H. Qed.

Lemma milliseconds_signed n : n < 2 ^ 64 -> milliseconds_of n = signed n.
Proof.
  intros H. unfold milliseconds_of, signed. change (2 ^ 63)%N with 9223372036854775808 in *. change (2 ^ 64)%N with 18446744073709551616 in *.
  change (2 ^ 63)%Z with 9223372036854775808%Z. change (2 ^ 64)%Z with 18446744073709551616%Z.
  destruct (N.ltb_spec n 9223372036854775808).
  - rewrite Z.mod_small by lia. lia.
  - replace (Z.of_N n + 9223372036854775808)%Z with ((Z.of_N n - 9223372036854775808) + 1 * 18446744073709551616)%Z by lia.
    rewrite Z.mod_add by lia. rewrite Z.mod_small by lia. lia.
Qed.

Lemma set_rate_quiet m e n : quiet (set_rate m e n).
Proof. unfold set_rate. apply quiet_bind; [apply quiet_assert|]. intros a _. apply quiet_ok. Qed.
Lemma set_window_quiet m e n : quiet (set_window_size m e n).
Proof. unfold set_window_size. apply quiet_bind; [apply quiet_assert|]. intros a _. apply quiet_ok. Qed.
Lemma set_nb_quiet m d n : quiet (set_ack_nb_packets m d n).
Proof. unfold set_ack_nb_packets. apply quiet_bind; [apply quiet_assert|]. intros a _. apply quiet_ok. Qed.

Lemma one_action m clk junk s a : ready s -> fits a -> both m clk s [a] (crun m clk s (map (pair junk) (calls_of a))).
Proof.
  intros R F. destruct a as [d|p|p| | |k|k|k|b|k|k]; cbn [calls_of fits] in *.
  - destruct (fill_data m clk junk s d [AddData] F) as (e & h & -> & _). cbn [map crun cstep with_data with_error c_enc c_data].
    cbn [both for_encoder for_decoder erun estep drun].
    pose proof (enc_data_no_throw m (c_enc s) d) as Q. destruct (enc_data m (c_enc s) d) as [[e1 out]|x|x] eqn:E; cbn [bind].
    + match goal with |- context [checked_void ?x] => destruct (checked_void_ok x) as (e2 & h2 & -> & _) end. cbn [bind both for_encoder for_decoder erun estep drun].
      rewrite E. split; [exact R|]. split.
      * exists e1, (out ++ []). split; [reflexivity|]. split; [reflexivity|]. rewrite app_nil_r. reflexivity.
      * exists (c_dec s), []. cbn [to_user to_network]. rewrite !app_nil_r. repeat split; reflexivity.
    + exfalso. exact (Q x eq_refl).
    + cbn [both for_encoder for_decoder erun estep drun]. rewrite E. left. reflexivity.
  - destruct (fill_packet m clk junk s p [DecAddPacket] R F) as (e & h & q & -> & S). cbn [map crun].
    match goal with |- context [cstep m clk junk ?x DecAddPacket] => pose proof (dec_add m clk junk x p S) as H end.
    cbn [with_packet with_error c_dec] in H.
    destruct (dec_packet m clk (c_dec s) p) as [d r] eqn:E. destruct r as [[out n]|x|x].
    + destruct H as (e2 & h2 & -> & _). cbn [bind both for_encoder for_decoder erun drun dstep]. rewrite E. cbn [bind].
      split; [right; reflexivity|]. split.
      * exists (c_enc s), []. rewrite app_nil_r. repeat split; reflexivity.
      * exists d, (out ++ []). rewrite app_nil_r. repeat split; reflexivity.
    + destruct H as (e2 & h2 & -> & _). cbn [bind both for_encoder for_decoder erun drun dstep]. rewrite E. cbn [bind].
      split; [left; exists p; exact S|]. split.
      * exists (c_enc s), []. rewrite app_nil_r. repeat split; reflexivity.
      * exists d, []. repeat split; reflexivity.
    + rewrite H. cbn [bind both for_encoder for_decoder erun drun dstep]. rewrite E. right. reflexivity.
  - destruct (fill_packet m clk junk s p [EncAddPacket] R F) as (e & h & q & -> & S). cbn [map crun].
    match goal with |- context [cstep m clk junk ?x EncAddPacket] => pose proof (enc_add m clk junk x p S) as H end.
    cbn [with_packet with_error c_enc] in H.
    destruct (notify m (c_enc s) p) as [e1 r] eqn:E. destruct r as [n|x|x].
    1, 2: destruct H as (e2 & h2 & -> & _); cbn [bind both for_encoder for_decoder erun drun estep]; rewrite E; cbn [bind];
      (split; [left; exists p; exact S|]); split;
      [exists e1, []; repeat split; reflexivity
      |exists (c_dec s), []; cbn [to_user to_network]; rewrite !app_nil_r; repeat split; reflexivity].
    rewrite H. cbn [bind both for_encoder for_decoder erun drun estep]. rewrite E. left. reflexivity.
  - cbn [map crun cstep]. pose proof (generate_repair_no_throw m (c_enc s)) as Q. destruct (generate_repair m (c_enc s)) as [[e1 out]|x|x] eqn:E; cbn [bind].
    + match goal with |- context [checked_void ?x] => destruct (checked_void_ok x) as (e2 & h2 & -> & _) end. cbn [bind both for_encoder for_decoder erun estep drun].
      rewrite E. split; [exact R|]. split.
      * exists e1, (out ++ []). split; [reflexivity|]. split; [reflexivity|]. rewrite app_nil_r. reflexivity.
      * exists (c_dec s), []. cbn [to_user to_network]. rewrite !app_nil_r. repeat split; reflexivity.
    + exfalso. exact (Q x eq_refl).
    + cbn [both for_encoder for_decoder erun estep drun]. rewrite E. left. reflexivity.
  - cbn [map crun cstep]. destruct (generate_ack (c_dec s)) as [d out] eqn:E.
    match goal with |- context [checked_void ?x] => destruct (checked_void_ok x) as (e2 & h2 & -> & _) end. cbn [bind both for_encoder for_decoder erun dstep drun].
    rewrite E. split; [exact R|]. split.
    + exists (c_enc s), []. rewrite app_nil_r. repeat split; reflexivity.
    + exists d, (out ++ []). rewrite app_nil_r. repeat split; reflexivity.
  - cbn [map crun cstep bind both for_encoder for_decoder erun estep drun]. split; [exact R|].
    replace (k =? 0) with (match k with 0 => true | _ => false end) by (destruct k; reflexivity). split.
    + eexists _, []. split; [reflexivity|]. split; reflexivity.
    + exists (c_dec s), []. cbn [to_user to_network]. rewrite !app_nil_r. repeat split; reflexivity.
  - cbn [map crun cstep]. rewrite (u64_small k) by exact F. pose proof (set_rate_quiet m (c_enc s) k) as Q.
    destruct (set_rate m (c_enc s) k) as [e|x|x] eqn:E; cbn [bind both for_encoder for_decoder erun estep drun]; rewrite ?E; cbn [bind].
    + split; [exact R|]. split.
      * eexists _, []. split; [reflexivity|]. split; reflexivity.
      * exists (c_dec s), []. cbn [to_user to_network]. rewrite !app_nil_r. repeat split; reflexivity.
    + exact (Q x eq_refl).
    + left. reflexivity.
  - cbn [map crun cstep]. rewrite (u64_small k) by exact F. pose proof (set_window_quiet m (c_enc s) k) as Q.
    destruct (set_window_size m (c_enc s) k) as [e|x|x] eqn:E; cbn [bind both for_encoder for_decoder erun estep drun]; rewrite ?E; cbn [bind].
    + split; [exact R|]. split.
      * eexists _, []. split; [reflexivity|]. split; reflexivity.
      * exists (c_dec s), []. cbn [to_user to_network]. rewrite !app_nil_r. repeat split; reflexivity.
    + exact (Q x eq_refl).
    + left. reflexivity.
  - cbn [map crun cstep bind both for_encoder for_decoder erun estep drun]. split; [exact R|]. split.
    + eexists _, []. split; [reflexivity|]. split; reflexivity.
    + exists (c_dec s), []. cbn [to_user to_network]. rewrite !app_nil_r. repeat split; reflexivity.
  - cbn [map crun cstep bind both for_encoder for_decoder erun dstep drun]. rewrite (milliseconds_signed k) by exact F. split; [exact R|]. split.
    + exists (c_enc s), []. rewrite app_nil_r. repeat split; reflexivity.
    + eexists _, []. cbn [bind app]. split; [reflexivity|]. split; [reflexivity|]. split; reflexivity.
  - cbn [map crun cstep]. rewrite (u16_small k) by exact F. pose proof (set_nb_quiet m (c_dec s) k) as Q.
    destruct (set_ack_nb_packets m (c_dec s) k) as [d|x|x] eqn:E; cbn [bind both for_encoder for_decoder erun dstep drun]; rewrite ?E; cbn [bind finish].
    + split; [exact R|]. split.
      * exists (c_enc s), []. rewrite app_nil_r. repeat split; reflexivity.
      * eexists _, []. cbn [bind app]. split; [reflexivity|]. split; [reflexivity|]. split; reflexivity.
    + exact (Q x eq_refl).
    + right. reflexivity.
Qed.

Lemma erun_cat m a b : forall e, erun m e (a ++ b) =
  bind (erun m e a) (fun '(e1, o1) => bind (erun m e1 b) (fun '(e2, o2) => Ok (e2, o1 ++ o2))).
Proof.
  induction a as [|o a IH]; intros e.
  - cbn [app erun bind]. destruct (erun m e b) as [[e2 o2]| |]; reflexivity.
  - cbn [app erun]. destruct (estep m e o) as [e1 [out|x|x]].
    + rewrite IH. destruct (erun m e1 a) as [[e2 o2]| |]; cbn [bind]; try reflexivity.
      destruct (erun m e2 b) as [[e3 o3]| |]; cbn [bind]; try reflexivity. rewrite app_assoc. reflexivity.
    + apply IH.
    + reflexivity.
Qed.

Lemma drun_cat m clk a b : forall d, drun m clk d (a ++ b) =
  bind (drun m clk d a) (fun '(d1, o1) => bind (drun m clk d1 b) (fun '(d2, o2) => Ok (d2, o1 ++ o2))).
Proof.
  induction a as [|o a IH]; intros d.
  - cbn [app drun bind]. destruct (drun m clk d b) as [[d2 o2]| |]; reflexivity.
  - cbn [app drun]. destruct (dstep m clk d o) as [d1 [out|x|x]].
    + rewrite IH. destruct (drun m clk d1 a) as [[d2 o2]| |]; cbn [bind]; try reflexivity.
      destruct (drun m clk d2 b) as [[d3 o3]| |]; cbn [bind]; try reflexivity. rewrite app_assoc. reflexivity.
    + apply IH.
    + reflexivity.
Qed.

Lemma for_encoder_cons a l : for_encoder (a :: l) = for_encoder [a] ++ for_encoder l.
Proof. destruct a; reflexivity. Qed.
Lemma for_decoder_cons a l : for_decoder (a :: l) = for_decoder [a] ++ for_decoder l.
Proof. destruct a; reflexivity. Qed.

(** The calls of a program; the memory is different each time. *)
Definition program (l : list (memory * action)) : list (memory * cop) :=
  flat_map (fun '(junk, a) => map (pair junk) (calls_of a)) l.

(** A program that reuses one data object and one packet object through the C interface has the effects of
    the C++ objects: the same packets, data and acks, and undefined behaviour only where those
    have it. *)
Theorem C65_program :
  forall m clk l s, ready s -> Forall (fun a => fits (snd a)) l ->
  match crun m clk s (program l) with
  | Ok s' => ready s'
      /\ (exists out, erun m (c_enc s) (for_encoder (map snd l)) = Ok (c_enc s', out) /\ c_sent s' = c_sent s ++ out)
      /\ (exists out, drun m clk (c_dec s) (for_decoder (map snd l)) = Ok (c_dec s', out)
            /\ c_read s' = c_read s ++ to_user out /\ c_acks s' = c_acks s ++ to_network out)
  | Throw _ => False
  | Fault x => erun m (c_enc s) (for_encoder (map snd l)) = Fault x
      \/ drun m clk (c_dec s) (for_decoder (map snd l)) = Fault x
  end.
Proof.
  intros m clk. induction l as [|[junk a] l IH]; intros s R F.
  - cbn [program flat_map crun map for_encoder for_decoder erun drun]. split; [exact R|]. split.
    + exists []. rewrite app_nil_r. split; reflexivity.
    + exists []. cbn [to_user to_network]. rewrite !app_nil_r. repeat split; reflexivity.
  - inversion F as [|x y F1 F2]; subst. change (program ((junk, a) :: l)) with (map (pair junk) (calls_of a) ++ program l).
    rewrite crun_app. cbn [map snd]. rewrite for_encoder_cons, for_decoder_cons, erun_cat, drun_cat.
    pose proof (one_action m clk junk s a R F1) as H.
    destruct (crun m clk s (map (pair junk) (calls_of a))) as [s1|x|x]; cbn [bind both] in *.
    + destruct H as (R1 & (e1 & o1 & E1 & <- & S1) & (d1 & o2 & D1 & <- & U1 & A1)). rewrite E1, D1. cbn [bind].
      specialize (IH s1 R1 F2). destruct (crun m clk s1 (program l)) as [s2|x|x].
      * destruct IH as (R2 & (o3 & E2 & S2) & (o4 & D2 & U2 & A2)). rewrite E2, D2. cbn [bind]. split; [exact R2|]. split.
        -- exists (o1 ++ o3). split; [reflexivity|]. rewrite S2, S1, app_assoc. reflexivity.
        -- exists (o2 ++ o4). rewrite to_user_app, to_network_app. rewrite U2, U1, A2, A1, !app_assoc. repeat split; reflexivity.
      * exact IH.
      * destruct IH as [->| ->]; cbn [bind]; auto.
    + exact H.
    + destruct H as [->| ->]; cbn [bind]; auto.
Qed.
Print Assumptions C65_program.

(** [ntc_encoder_add_data] empties the data object; without a resize it cannot be filled, and adding
    it again is an assertion failure in Debug, while in Release an empty datum is sent. *)
Theorem C65_spent_data :
  forall m clk junk s s1, cstep m clk junk s AddData = Ok s1 ->
  ce_type (c_err s1) = NoError
  /\ (forall j, exists s2, cstep m clk j s1 DataSize = Ok s2 /\ c_result s2 = 0)
  /\ (forall j i v, cstep m clk j s1 (DataPut i v) = Fault OutOfBounds)
  /\ (m = Debug -> forall j, cstep m clk j s1 AddData = Fault AssertFailure)
  /\ (m = Release -> e_systematic (c_enc s1) = true -> forall j s2, cstep m clk j s1 AddData = Ok s2 ->
      exists rest, c_sent s2 = c_sent s1 ++ (2 :: be 4 (e_source_id (c_enc s1)) ++ [0; 0]) :: rest).
Proof.
  intros m clk junk s s1 E. cbn [cstep] in E. destruct (enc_data m (c_enc s) (c_data s)) as [[e out]|x|x]; try discriminate. cbn [bind] in E.
  match type of E with checked_void ?x = _ => destruct (checked_void_ok x) as (e2 & h2 & E2 & T) end. rewrite E2 in E. injection E as <-. clear E2.
  cbn [with_error with_data with_sender c_err c_enc c_sent].
  split; [exact T|]. split; [intros j; eexists; split; reflexivity|]. split; [|split].
  - intros j i v. cbn [cstep with_error with_data c_data]. unfold vec_copy. cbn [length].
    destruct (Nat.leb_spec (i + 1) 0) as [X|X]; [lia|reflexivity].
  - intros -> j. reflexivity.
  - intros -> Sy j s2 E3. cbn [cstep with_error with_data with_sender c_data c_enc] in E3.
    destruct (enc_data Release e []) as [[e3 out3]| |] eqn:Ed; try discriminate. cbn [bind] in E3.
    match type of E3 with checked_void ?x = _ => destruct (checked_void_ok x) as (e4 & h4 & E4 & _) end. rewrite E4 in E3. injection E3 as <-.
    cbn [with_error with_data with_sender c_sent]. unfold enc_data in Ed. cbn [length Nat.ltb Nat.leb assert_ bind] in Ed.
    unfold commit in Ed. destruct (push_source _ _) as [l| |]; try discriminate Ed. cbn [bind] in Ed.
    unfold send_source in Ed. cbn [Encoder.with_sources e_systematic e_source_id] in Ed. rewrite Sy in Ed. cbn [bind e_rate e_source_id] in Ed.
    match type of Ed with (if ?b then _ else _) = _ => destruct b; [discriminate Ed|] end.
    match type of Ed with bind ?x _ = _ => destruct x as [[e5 o5]| |]; try discriminate Ed end. cbn [bind] in Ed.
    injection Ed as <- <-. exists o5. cbn [app].
    reflexivity.
Qed.
Print Assumptions C65_spent_data.

(** The sizes that are reported are those that were asked for. *)
Theorem C65_sizes :
  forall m clk junk junk' s n, n < 65536 ->
  (exists s', crun m clk s [(junk, NewData n); (junk', DataSize)] = Ok s' /\ c_result s' = n)
  /\ (exists s', crun m clk s [(junk, DataResize n); (junk', DataSize)] = Ok s' /\ c_result s' = n)
  /\ (exists s', crun m clk s [(junk, NewPacket n); (junk', PacketSize)] = Ok s' /\ c_result s' = n)
  /\ (exists s', crun m clk s [(junk, PacketResize n); (junk', PacketSize)] = Ok s' /\ c_result s' = n).
Proof.
  intros m clk junk junk' s n Hn.
  assert (P : forall b, length b = (N.to_nat n + shift)%nat -> u16 (packet_size {| k_buffer := b |}) = n).
  { intros b L. unfold packet_size. cbn [k_buffer]. rewrite L. unfold shift.
    replace (N.of_nat (N.to_nat n + 9) + (2 ^ 64 - N.of_nat 9)) with (n + 1 * 2 ^ 64) by lia.
    unfold u64. rewrite N.mod_add by lia. rewrite (N.mod_small n) by lia. apply u16_small. exact Hn. }
  cbn [crun cstep]. rewrite u16_small by exact Hn. split; [|split; [|split]].
  - eexists. split; [reflexivity|]. cbn [with_result with_data c_result c_data]. rewrite uninitialised_length, N2Nat.id. apply u16_small. exact Hn.
  - match goal with |- context [checked_void ?x] => destruct (checked_void_ok x) as (e & h & -> & _) end. cbn [bind].
    eexists. split; [reflexivity|]. cbn [with_result with_data with_error c_result c_data].
    rewrite resize_any by apply uninitialised_length. rewrite N2Nat.id. apply u16_small. exact Hn.
  - eexists. split; [reflexivity|]. cbn [with_result with_packet c_result c_packet]. unfold packet_sized. apply P. apply uninitialised_length.
  - match goal with |- context [checked_void ?x] => destruct (checked_void_ok x) as (e & h & -> & _) end. cbn [bind].
    eexists. split; [reflexivity|]. cbn [with_result with_packet with_error c_result c_packet]. unfold packet_resize. apply P.
    apply resize_any. apply uninitialised_length.
Qed.
Print Assumptions C65_sizes.

(** A program that forgets the resize: without assertions, the receiver of its packets gets an
    empty datum between the others. *)
Definition forgetful : list (memory * cop) :=
  map (pair (fun _ => 99)) [DataResize 1; DataPut 0 7; AddData; AddData; DataResize 1; DataPut 0 8; AddData].

Definition quiet_clock : clock := fun _ => 0%Z.
Definition fresh : session :=
  new_session quiet_clock W8 true {| ce_type := NoError; ce_message := Null |} {| h_live := []; h_next := 0 |}.

Theorem C65_forgotten_resize_refuted :
  exists s' d out, crun Release quiet_clock fresh forgetful = Ok s'
  /\ length (c_sent s') = 3%nat
  /\ drun Release quiet_clock (c_dec fresh) (map DPacket (c_sent s')) = Ok (d, out)
  /\ to_user out = [[7]; []; [8]].
Proof.
  eexists _, _, _. split; [vm_compute; reflexivity|]. split; [reflexivity|]. split; [vm_compute; reflexivity|]. reflexivity.
Qed.
Print Assumptions C65_forgotten_resize_refuted.

(** Data are sent and received, with a byte that is no packet, a cut packet, an ack on either side. *)
Definition sample : list (memory * action) :=
  map (pair (fun i => N.of_nat i))
    [UseCode 0; UseRate 2; UseWindow 9; UseAdaptive false; UsePeriod 0; UseThreshold 60;
     Send [1; 2]; Send [3]; Receive [9]; Receive [2; 0; 0; 0]; Receive [2; 0; 0; 0; 0; 0; 2; 1; 2]; ReceiveAck [7];
     SendAck; Receive [2; 0; 0; 0; 1; 0; 1; 3]; SendRepair].

Example C65_case :
  ready fresh /\ Forall (fun a => fits (snd a)) sample
  /\ exists s', crun Debug quiet_clock fresh (program sample) = Ok s'
     /\ c_read s' = [[1; 2]; [3]] /\ length (c_sent s') = 4%nat /\ length (c_acks s') = 1%nat
     /\ packet_size (c_packet s') = 2 ^ 64 - 9.
Proof.
  split; [left; exists []; reflexivity|]. split; [repeat constructor|].
  eexists. split; [vm_compute; reflexivity|]. repeat split; reflexivity.
Qed.

(** Errors leave the packet. *)
Example C65_error_case :
  let s := with_packet fresh {| k_buffer := repeat 0 shift ++ [2; 0; 0; 0] |} in
  packet_shows s [2; 0; 0; 0]
  /\ exists s', cstep Release quiet_clock (fun _ => 0) s DecAddPacket = Ok s' /\ ce_type (c_err s') = OverflowErr.
Proof. split; [reflexivity|]. eexists. split; [vm_compute; reflexivity|reflexivity]. Qed.
