(** * Sizes of the emitted packets: C62 *)
From Coq Require Import ZArith NArith List Bool Lia Arith Sorted.
From Verif Require Import Outcome GF Containers Packetizer PacketizerFacts PropsPacketizer
  Encoder EncoderFacts EncoderSafe EncoderRun EncoderHistory DetailDecoder Decoder DecoderOuter
  PropsEncoder PropsDecoder.
Import ListNotations.
Open Scope N_scope.

(** The bytes of a list of identifiers on the wire (C09). *)
Definition ids_bytes (ids : list N) : nat := length (on_wire (write_ids ids)).

Lemma ids_bytes_bounds ids : (ids_bytes ids <= 3 + 3 * length ids)%nat /\ (2 <= ids_bytes ids)%nat
  /\ (ids <> [] -> (6 <= ids_bytes ids)%nat).
Proof.
  unfold ids_bytes. destruct ids as [|x l].
  - cbn. split; [lia|]. split; [lia|]. intros H. contradiction.
  - destruct (C09_any_cost (x :: l)) as [A B]; [discriminate|]. cbn [length] in *. split; [lia|]. split; [lia|]. intros _. exact A.
Qed.

Lemma source_bytes s : length (concat (write_source s)) = (7 + length (es_data s))%nat.
Proof. unfold write_source. cbn [concat]. rewrite !app_length, !be_length. cbn [length]. lia. Qed.

Lemma ack_bytes a : length (concat (write_ack a)) = (3 + ids_bytes (a_ids a))%nat.
Proof. unfold write_ack, ids_bytes, on_wire. rewrite concat_app. cbn [concat]. rewrite !app_length, !be_length. cbn [length]. lia. Qed.

Lemma repair_bytes m r w : write_repair m r = Ok w ->
  length (concat w) = (11 + 2 * length (er_sym r) + ids_bytes (er_ids r))%nat.
Proof.
  unfold write_repair. destruct (assert_ m _); try discriminate. cbn [bind]. intros E. injection E as <-.
  unfold ids_bytes, on_wire. cbn [app concat]. rewrite concat_app. cbn [concat length app]. rewrite !app_length. cbn [length]. rewrite !app_length. cbn [length]. lia.
Qed.

(** What one call emits. A source packet has 7 bytes more than its datum. A repair has the
    longest outstanding datum twice, 11 bytes and the list of identifiers. *)
Theorem C62_exact_sizes :
  forall m f ops e out op e' new p,
  reached m f ops e out -> estep m e op = (e', Ok new) ->
  short_data (ops ++ [op]) -> nb_data (ops ++ [op]) <= 2 ^ 32 -> In p new ->
  (type_of p = 2 /\ exists d, op = EData d /\ length p = (7 + length d)%nat)
  \/ (type_of p = 1
      /\ length p = (11 + 2 * longest (e_sources e') + length (on_wire (write_ids (map es_id (e_sources e')))))%nat
      /\ (17 + 2 * longest (e_sources e') <= length p <= 14 + 2 * longest (e_sources e') + 3 * length (e_sources e'))%nat).
Proof.
  intros m f ops e out op e' new p Hr Hs Hshort Hnb Hp.
  pose proof (history_step m f ops out e op e' (Ok new) (history_of_run _ _ _ _ _ Hr) Hs) as Hh.
  specialize (Hh (fun H => match H with ex_intro _ _ H => ltac:(discriminate H) end)).
  assert (Ht : type_of p = 1 \/ type_of p = 2).
  { pose proof (h_types _ _ _ _ Hh) as T. rewrite Forall_forall in T. apply T. apply in_or_app. right. exact Hp. }
  destruct Ht as [Ht|Ht]; [right|left].
  - split; [exact Ht|]. pose proof Hp as Hp0.
    destruct (C17_repair_is_combination m f ops e out op e' new p Hr Hs Hshort Hnb Hp Ht) as (calls & r & -> & Ew & _ & Ei & El & _).
    pose proof (repair_bytes _ _ _ Ew) as L. unfold on_wire at 1. rewrite Ei, El in L.
    assert (Ne : map es_id (e_sources e') <> []).
    { destruct (e_sources e') as [|s l] eqn:Es; [|discriminate]. exfalso.
      cbn in El. unfold write_repair in Ew. destruct op; cbn [estep] in Hs.
      - destruct (enc_data m e d) as [[e1 o1]|x|x] eqn:E1; try discriminate. injection Hs as -> ->.
        pose proof (enc_data_spec _ _ _ _ _ E1) as A. pose proof (ad_push _ _ _ _ _ A) as P. rewrite Es in P.
        unfold push_source in P. destruct (_ =? _); [destruct (e_sources e)|]; try discriminate; injection P as P; destruct (app_cons_not_nil _ _ _ (eq_sym P)).
      - destruct (notify m e p) as [e1 [n|x|x]]; try discriminate. cbn in Hs. injection Hs as _ <-. destruct Hp.
      - destruct (generate_repair m e) as [[e1 o1]|x|x] eqn:E1; try discriminate. injection Hs as -> ->.
        assert (Hs0 : e_sources e = []).
        { unfold generate_repair in E1. destruct (assert_ m _); try discriminate. cbn [bind] in E1.
          destruct (encode _ _ _ _); try discriminate. cbn [bind] in E1. destruct (write_repair m _); try discriminate. cbn [bind] in E1.
          injection E1 as <- _. exact Es. }
        pose proof (C24_repair_of_empty_window m e Hs0) as F. rewrite E1 in F. destruct F as [x F]. discriminate.
      - injection Hs as _ <-. destruct Hp.
      - destruct (set_rate m e rate); try discriminate. injection Hs as _ <-. destruct Hp.
      - destruct (set_window_size m e size); try discriminate. injection Hs as _ <-. destruct Hp.
      - injection Hs as _ <-. destruct Hp. }
    destruct (ids_bytes_bounds (map es_id (e_sources e'))) as (B1 & _ & B3). specialize (B3 Ne). rewrite map_length in B1.
    split; [exact L|]. unfold on_wire at 1 2. lia.
  - split; [exact Ht|]. destruct op; cbn [estep] in Hs.
    + destruct (enc_data m e d) as [[e1 o1]|x|x] eqn:E1; try discriminate. injection Hs as -> ->. exists d. split; [reflexivity|].
      pose proof (enc_data_spec _ _ _ _ _ E1) as A. destruct (ad_out _ _ _ _ _ A) as (first & rest & -> & Hsys & Hnon & H0 & H1).
      assert (Rest : ~ In p rest).
      { intros Hin. destruct (N.eq_dec (u32 (e_source_id e + 1) mod e_rate e) 0) as [Z|Z].
        - destruct (H0 Z) as (q & -> & Hq). destruct Hin as [->|[]]. rewrite (repair_of_type _ _ _ _ _ Hq) in Ht. discriminate.
        - rewrite (H1 Z) in Hin. exact Hin. }
      destruct Hp as [->|Hp]; [|contradiction].
      destruct (e_systematic e) eqn:Sy.
      * rewrite (Hsys eq_refl), source_bytes. reflexivity.
      * pose proof (repair_of_type _ _ _ _ _ (Hnon eq_refl)) as T. rewrite T in Ht. discriminate.
    + destruct (notify m e p0) as [e1 [n|x|x]]; try discriminate. cbn in Hs. injection Hs as _ <-. destruct Hp.
    + destruct (generate_repair m e) as [[e1 o1]|x|x] eqn:E1; try discriminate. injection Hs as -> ->.
      unfold generate_repair in E1. destruct (assert_ m _); try discriminate. cbn [bind] in E1.
      destruct (encode _ _ _ _) as [r| |]; try discriminate. cbn [bind] in E1. destruct (write_repair m r) as [w| |] eqn:Ew; try discriminate. cbn [bind] in E1.
      injection E1 as _ <-. destruct Hp as [<-|[]].
      unfold write_repair in Ew. destruct (assert_ m _); try discriminate. cbn [bind] in Ew. injection Ew as <-.
      cbn in Ht. discriminate.
    + injection Hs as _ <-. destruct Hp.
    + destruct (set_rate m e rate); try discriminate. injection Hs as _ <-. destruct Hp.
    + destruct (set_window_size m e size); try discriminate. injection Hs as _ <-. destruct Hp.
    + injection Hs as _ <-. destruct Hp.
Qed.
Print Assumptions C62_exact_sizes.

Lemma longest_bound b l : Forall (fun s => (length (es_data s) <= b)%nat) l -> (longest l <= b)%nat.
Proof. induction 1 as [|s l H _ IH]; cbn; [lia|]. fold (longest l). lia. Qed.

Lemma erun_snoc m e ops op e' out : erun m e (ops ++ [op]) = Ok (e', out) ->
  exists e1 o1 r, erun m e ops = Ok (e1, o1) /\ estep m e1 op = (e', r) /\ ~ is_fault r /\ out = o1 ++ emitted r.
Proof.
  intros E. destruct (erun_app _ _ _ _ _ _ E) as (e1 & o1 & o2 & E1 & E2 & ->).
  destruct (erun_step _ _ _ _ _ _ E2) as (e2 & r & o3 & Es & Nf & E3 & ->). cbn in E3. injection E3 as <- <-.
  exists e1, o1, r. repeat split; auto. rewrite app_nil_r. reflexivity.
Qed.

(** With a window of at most n data of at most b bytes no packet of the sender has more than
    14 + 2 b + 3 n bytes, whatever acks arrive. *)
Theorem C62_bound :
  forall m f n b ops e out,
  reached m f (ESetWindow n :: ops) e out -> Forall keeps_window_size ops -> nb_data ops <= 2 ^ 32 ->
  Forall (fun d => (length d <= b)%nat) (datas ops) -> N.of_nat b < 65536 ->
  Forall (fun p => N.of_nat (length p) <= 14 + 2 * N.of_nat b + 3 * n) out.
Proof.
  intros m f n b ops. induction ops as [|op ops IH] using rev_ind; intros e out Hr Hk Hnb Hd Hb.
  - unfold reached in Hr. cbn [erun] in Hr. destruct (estep m (new_encoder f) (ESetWindow n)) as [e1 [o1|x|x]] eqn:E1; try discriminate.
    + cbn in Hr. injection Hr as <- <-. cbn [estep] in E1. destruct (set_window_size m (new_encoder f) n); try discriminate. injection E1 as _ <-. constructor.
    + cbn in Hr. injection Hr as <- <-. constructor.
  - change (ESetWindow n :: ops ++ [op]) with ((ESetWindow n :: ops) ++ [op]) in Hr.
    pose proof Hr as Hr0.
    destruct (erun_snoc _ _ _ _ _ _ Hr) as (e1 & o1 & r & E1 & Es & Nf & ->).
    rewrite Forall_app in Hk. destruct Hk as [Hk Hk1]. rewrite datas_app, Forall_app in Hd. destruct Hd as [Hd Hd1].
    apply Forall_app. rewrite nb_data_app in Hnb. split; [apply (IH e1 o1); auto; lia|].
    destruct r as [new|x|x]; cbn [emitted]; try constructor.
    apply Forall_forall. intros p Hp.
    assert (Hshort : short_data ((ESetWindow n :: ops) ++ [op])).
    { unfold short_data. change (datas ((ESetWindow n :: ops) ++ [op])) with (datas (ops ++ [op])). rewrite datas_app. apply Forall_app.
      split; (eapply Forall_impl; [|eassumption]); cbn; intros d H; lia. }
    destruct (C62_exact_sizes m f (ESetWindow n :: ops) e1 o1 op e new p E1 Es Hshort) as [[_ (d & -> & L)]|[_ [_ [_ L]]]].
    + change (nb_data ((ESetWindow n :: ops) ++ [op])) with (nb_data (ops ++ [op])). rewrite nb_data_app. lia.
    + exact Hp.
    + cbn [datas flat_map app] in Hd1. inversion Hd1; subst. lia.
    + assert (W : window e <= n).
      { destruct (C19_window_bound m f n [] (new_encoder f) []) with (ops := ops ++ [op]) (e' := e) (out' := o1 ++ new) as [_ W]; auto.
        - reflexivity.
        - cbn. lia.
        - apply Forall_app. split; assumption.
        - cbn [app]. rewrite nb_data_app. lia. }
      assert (Lo : (longest (e_sources e) <= b)%nat).
      { apply longest_bound. apply Forall_forall. intros s Hin.
        pose proof (history_of_run _ _ _ _ _ Hr0) as Hh. destruct (h_window _ _ _ _ Hh s Hin) as (k & Ek & _).
        apply nth_error_In in Ek. change (datas ((ESetWindow n :: ops) ++ [op])) with (datas (ops ++ [op])) in Ek.
        rewrite datas_app in Ek. apply in_app_or in Ek. rewrite Forall_forall in Hd, Hd1. destruct Ek as [Ek|Ek]; auto. }
      unfold window in W. lia.
Qed.
Print Assumptions C62_bound.

(** The largest payload of a UDP datagram over IPv4. *)
Definition udp_payload : nat := N.to_nat 65507.

(** A source packet fits into a datagram if and only if the datum has at most 65500 bytes, a
    repair only if all outstanding data have at most 32745. *)
Theorem C62_datagrams :
  forall m f ops e out op e' new p,
  reached m f ops e out -> estep m e op = (e', Ok new) ->
  short_data (ops ++ [op]) -> nb_data (ops ++ [op]) <= 2 ^ 32 ->
  In p new -> (length p <= udp_payload)%nat ->
  (type_of p = 2 -> exists d, op = EData d /\ N.of_nat (length d) <= 65500)
  /\ (type_of p = 1 -> Forall (fun s => N.of_nat (length (es_data s)) <= 32745) (e_sources e')).
Proof.
  intros m f ops e out op e' new p Hr Hs Hsh Hnb Hp Hl. unfold udp_payload in Hl.
  destruct (C62_exact_sizes m f ops e out op e' new p Hr Hs Hsh Hnb Hp) as [[T (d & -> & L)]|[T [_ [L _]]]]; rewrite T; (split; [intros E; try discriminate|intros E; try discriminate]).
  - exists d. split; [reflexivity|lia].
  - apply Forall_forall. intros s Hin. assert (length (es_data s) <= longest (e_sources e'))%nat; [|lia].
    clear -Hin. induction (e_sources e') as [|a l IH]; [destruct Hin|]. cbn. fold (longest l). destruct Hin as [->|H]; [lia|]. specialize (IH H). lia.
Qed.
Print Assumptions C62_datagrams.

(** The claim that whatever can be sent in a source packet can be repaired is false: for every datum of
    32746 to 65500 bytes the source packet fits into a datagram and no repair of it does. *)
Theorem C62_repairable_refuted :
  forall m f d, legal f d -> 32746 <= N.of_nat (length d) <= 65500 ->
  exists e source repair, reached m f [EData d; ERepair] e [source; repair]
  /\ type_of source = 2 /\ type_of repair = 1
  /\ (length source <= udp_payload)%nat /\ (udp_payload < length repair)%nat.
Proof.
  intros m f d Hd Hl.
  destruct (enc_data_total m (new_encoder f) d Hd) as (e1 & o1 & E1); [constructor | discriminate | discriminate |].
  pose proof (enc_data_spec _ _ _ _ _ E1) as A. pose proof (ad_push _ _ _ _ _ A) as P.
  destruct (ad_out _ _ _ _ _ A) as (first & rest & -> & Hsys & _ & _ & H1). specialize (Hsys eq_refl). specialize (H1 ltac:(discriminate)). subst first rest.
  cbn in P. injection P as P. pose proof (ad_field _ _ _ _ _ A) as F.
  destruct (C24_repair_of_window m e1) as (e2 & p & E2 & T2).
  { rewrite <- P. constructor; [|constructor]. rewrite F. exact Hd. }
  { rewrite <- P. discriminate. }
  assert (S1 : estep m (new_encoder f) (EData d) = (e1, Ok [concat (write_source {| es_id := 0; es_data := d |})])) by (cbn [estep]; rewrite E1; reflexivity).
  assert (S2 : estep m e1 ERepair = (e2, Ok [p])) by (cbn [estep]; rewrite E2; reflexivity).
  assert (R1 : reached m f [EData d] e1 [concat (write_source {| es_id := 0; es_data := d |})]).
  { unfold reached. cbn [erun]. rewrite S1. reflexivity. }
  exists e2, (concat (write_source {| es_id := 0; es_data := d |})), p.
  split; [|split; [reflexivity|split; [exact T2|]]].
  { unfold reached. cbn [erun]. rewrite S1. cbn [erun]. rewrite S2. reflexivity. }
  rewrite source_bytes. cbn [es_data]. unfold udp_payload. split; [lia|].
  destruct (Nat.le_gt_cases (length p) udp_payload) as [C|C]; [exfalso|unfold udp_payload in C; lia].
  destruct (C62_datagrams m f [EData d] e1 _ ERepair e2 [p] p R1 S2) as [_ H]; auto.
  - unfold short_data. cbn [app datas flat_map]. constructor; [lia|constructor].
  - cbn. lia.
  - left. reflexivity.
  - specialize (H T2). destruct (C17_repair_is_combination m f [EData d] e1 _ ERepair e2 [p] p R1 S2) as (calls & r & _); auto; try (left; reflexivity).
    + unfold short_data. cbn [app datas flat_map]. constructor; [lia|constructor].
    + cbn. lia.
    + assert (Hs2 : e_sources e2 = e_sources e1).
      { unfold generate_repair in E2. destruct (assert_ m _); try discriminate. cbn [bind] in E2.
        destruct (encode _ _ _ _); try discriminate. cbn [bind] in E2. destruct (write_repair m _); try discriminate. cbn [bind] in E2.
        injection E2 as <- _. reflexivity. }
      rewrite Hs2, <- P in H. inversion H; subst. cbn [es_data] in *. lia.
Qed.
Print Assumptions C62_repairable_refuted.

(** Acks: 5 bytes if nothing is held, otherwise at most 6 bytes and 3 per held source. *)
Theorem C62_acks :
  forall m clk f o tr d op out d' p,
  receiver m clk f o tr d -> dstep m clk d op = (d', Ok out) -> In p (to_network out) ->
  (5 <= length p <= 6 + 3 * (length (held d) + length (held d')))%nat.
Proof.
  intros m clk f o tr d op out d' p Hr Hs Hp. apply In_nth_error in Hp. destruct Hp as [i Hi].
  destruct (C39_acks_truthful m clk f o tr d op out d' i p Hr Hs Hi) as (ids & nb & -> & So & _ & Sub & _).
  rewrite ack_bytes. cbn [a_ids]. destruct (ids_bytes_bounds ids) as (B1 & B2 & _). split; [lia|].
  assert (length ids <= length (held d) + length (held d'))%nat; [|lia].
  rewrite <- app_length. apply NoDup_incl_length.
  - clear -So. induction So as [|x l H IH F]; constructor; auto. intros Hin. rewrite Forall_forall in F. specialize (F x Hin). lia.
  - intros x Hx. apply in_or_app. apply Sub. exact Hx.
Qed.
Print Assumptions C62_acks.

(** Five data in a window of three, one ack and a repair asked for: the hypotheses hold and the
    upper bound of C62_exact_sizes is met by the last repair (identifiers 2 and 4). *)
Definition C62_ops : list eop :=
  [EData [1; 2]; EData [3]; EData [4; 5; 6]; EData [7]; EData [8; 9];
   EPacket (concat (write_ack {| a_ids := [3]; a_nb := 5 |})); ERepair].
Example C62_case :
  Forall keeps_window_size C62_ops
  /\ Forall (fun d => (length d <= 3)%nat) (datas C62_ops)
  /\ exists e out, reached Debug W8 (ESetWindow 3 :: C62_ops) e out
     /\ map type_of out = [2; 2; 2; 2; 2; 1; 1]
     /\ map (@length N) out = [9; 8; 10; 8; 9; 26; 26]%nat.
Proof.
  split; [repeat constructor|]. split; [repeat constructor|].
  eexists. eexists. split; [vm_compute; reflexivity|]. split; vm_compute; reflexivity.
Qed.

Example C62_long_case : legal W8 (repeat 7 (N.to_nat 40000))
  /\ 32746 <= N.of_nat (length (repeat 7 (N.to_nat 40000))) <= 65500.
Proof. unfold legal. rewrite !repeat_length, !N2Nat.id. split; [|lia]. split; [lia|]. split; [lia|]. vm_compute. reflexivity. Qed.

(** A receiver that holds two sources and is asked for an ack. *)
Example C62_ack_case :
  exists d, (exists tr, receiver Debug still W8 false tr d) /\ held d = [1; 2]
  /\ map (@length N) (to_network (snd (generate_ack d))) = [12]%nat.
Proof.
  exists (after false [spkt 1; spkt 2]). split; [apply after_receiver; vm_compute; reflexivity|].
  split; vm_compute; reflexivity.
Qed.
