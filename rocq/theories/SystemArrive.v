(** * The arrival of a packet in the closed system, seen from the decoding algorithm *)
From Coq Require Import ZArith NArith List Bool Lia Sorted.
From Verif Require Import Outcome GF Containers ContainersFacts Packetizer PropsPacketizer
  Encoder EncoderRun EncoderHistory DetailDecoder Decoder DecoderAlgebra DecoderInv DecoderStep DecoderFacts DecoderOuter
  DecoderHeld DecoderThrow System SystemInv SystemRun.
Import ListNotations.
Open Scope N_scope.

(** An exception comes from the parsers. *)
Lemma dec_packet_exception m clk d p d' e : dec_packet m clk d p = (d', Throw e) ->
  (get_packet_type p = Throw e \/ get_packet_type p = Ok TAck)
  \/ (get_packet_type p = Ok TSource /\ read_source m p = Throw e)
  \/ (get_packet_type p = Ok TRepair /\ read_repair m p = Throw e).
Proof.
  intros H. unfold dec_packet in H.
  destruct (_ <- assert_ m (Nat.ltb 0 (length p)) ;; get_packet_type p)%outcome as [t|x|x] eqn:Et; [| |discriminate].
  - apply type_ok in Et. destruct t; cbv zeta in H; [left; right; exact Et | right; right | right; left]; (split; [exact Et|]).
    + destruct (read_repair m p) as [[r n]|x|x] eqn:Er; cbn [bind finish] in H; [|congruence|congruence].
      exfalso. unfold call_core in H. cbn [count_packet dc_core] in H.
      destruct (recv_repair m (dc_core d) r) as [c|x|x] eqn:Ec; cbn [bind] in H.
      * destruct (handle_sources _ _ _) as [d1 o1]. cbn [finish] in H. discriminate.
      * apply (recv_repair_quiet m (dc_core d) r x Ec).
      * cbn [finish] in H. discriminate.
    + destruct (read_source m p) as [[s n]|x|x] eqn:Er; cbn [bind finish] in H; [|congruence|congruence].
      exfalso. unfold call_core in H. cbn [count_packet dc_core] in H.
      destruct (recv_source m (dc_core d) (ds_id s) (ds_data s)) as [c|x|x] eqn:Ec; cbn [bind] in H.
      * destruct (handle_sources _ _ _) as [d1 o1]. cbn [finish] in H. discriminate.
      * apply (recv_source_quiet m (dc_core d) (ds_id s) (ds_data s) x Ec).
      * cbn [finish] in H. discriminate.
  - left. left. destruct (assert_ m (Nat.ltb 0 (length p))) as [u|y|y] eqn:Ea; cbn [bind] in Et.
    + assert (x = e) by congruence. subst. exact Et.
    + exfalso. exact (quiet_assert _ _ _ Ea).
    + discriminate.
Qed.

Section Arrive.
Variable m : mode.
Variable clk : clock.
Variable f : field.
Variable o : bool.

Lemma arrive_core w k w' p : reach m clk f o w -> wstep m clk w (Arrive k) = Ok w' ->
  repairs_in_order w' -> within_limits f w' -> nth_error (w_out w) k = Some p ->
  exists gs, wok (w_sent w') m f o gs w
  /\ ((exists s q, get_packet_type p = Ok TSource /\ read_source m p = Ok (s, q)
         /\ ds_id s < lim (w_sent w')
         /\ recv_source m (core_of w) (ds_id s) (S (w_sent w') (ds_id s)) = Ok (core_of w'))
      \/ (exists r q, get_packet_type p = Ok TRepair /\ read_repair m p = Ok (r, q)
         /\ acceptable f (S (w_sent w')) (lim (w_sent w')) (core_of w) r
         /\ recv_repair m (core_of w) r = Ok (core_of w'))).
Proof.
  intros R E Ho L Hk. pose proof (wstep_extends _ _ _ _ _ E) as Xt.
  pose proof (repairs_in_order_before _ _ _ _ _ _ R Xt Ho) as Ho0.
  destruct (run_wok m clk f o w w' R Xt L Ho0) as [gs B]. exists gs. split; [exact B|].
  pose proof B as [B1 B2 B3 B4 B5 B6 B7]. pose proof B5 as [D1 D2 D3 D4 D5 D6].
  destruct (forall2_nth _ _ _ (ch_is _ _ _ _ _ _ _ _ B3) k p Hk) as (g & Hg & Hp).
  cbn [wstep] in E. rewrite Hk in E.
  pose proof (receiver_extends _ _ _ _ _ _ E) as (_ & _ & Xo & Xa & _).
  unfold receiver in E. cbn [dstep] in E.
  destruct (dec_packet m clk (w_dec w) p) as [d r] eqn:Ed.
  assert (Hq : forall e, r <> Throw e).
  { intros e ->. apply dec_packet_exception in Ed. destruct g as [x|W n].
    - destruct Hp as (_ & Y & s & q & Z & _). destruct Ed as [[Ed|Ed]|[[_ Ed]|[Ed _]]]; congruence.
    - destruct Hp as (Y & _ & _ & _ & _ & r0 & q & Z & _). destruct Ed as [[Ed|Ed]|[[Ed _]|[_ Ed]]]; congruence. }
  destruct r as [[out q]|e|e]; [|destruct (Hq e eq_refl)|discriminate]. cbn [survive bind] in E.
  assert (Ec : core_of w' = dc_core d).
  { apply (f_equal (fun r => match r with Ok y => core_of y | _ => dc_core d end)) in E. symmetry. exact E. }
  rewrite Ec. apply dec_packet_ok in Ed; [|exact D1 | exact D2].
  destruct Ed as [s c new Et Er Ecc Rn|r c new Et Er Hr Ecc Rn].
  - left. exists s, q. split; [exact Et|]. split; [exact Er|].
    destruct g as [x|W n]; [|destruct Hp as (Y & _); congruence].
    destruct Hp as (Hx & _ & s' & q' & R1 & R2 & R3). assert (s' = s) by congruence. subst s'.
    rewrite R2. split; [exact Hx|]. rewrite R3, R2 in Ecc.
    destruct Rn as (_ & -> & _). exact Ecc.
  - right. exists r, q. split; [exact Et|]. split; [exact Er|].
    destruct g as [x|W n]; [destruct Hp as (_ & Y & _); congruence|].
    split; [|destruct Rn as (_ & -> & _); exact Ecc].
    pose proof Hp as (_ & Y2 & Y3 & Y4 & Y5 & r' & q' & R1 & R2 & R3). assert (r' = r) by congruence. subst r'.
    eapply accept; try eassumption.
    + eapply lim_bound, L.
    + intros i Hi Hg'. eapply (earlier_repairs (w_sent w') m f); try eassumption.  apply (ch_is _ _ _ _ _ _ _ _ B3).
Qed.

End Arrive.
