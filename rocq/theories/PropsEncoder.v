(** * Properties of the encoder: C17 - C26 *)
From Coq Require Import NArith List Bool Lia Arith Sorted.
From Verif Require Import Outcome GF GFProofs GFField GFRegion Linear RegionFacts GFPoly
  Containers ContainersFacts Packetizer PacketizerFacts PropsPacketizer Rate RateFacts Encoder EncoderRun
  EncoderFacts EncoderHistory EncoderSafe.
Import ListNotations.
Open Scope N_scope.

(** ** Specification vocabulary

    [type_of p], [id_of p]: the first byte, and the next four (big endian).
    [count t out]: the number of packets of type [t] (1: repair, 2: source).
    [datas ops], [acks ops]: the data given, the ack-typed packets received.
    [legal f d]: data of 1 to 65535 bytes, whole words of the field.
    [legal_op f op]: what the documentation asks of the caller. *)

(** A history of a fresh encoder that is not cut short. *)
Definition reached (m : mode) (f : field) (ops : list eop) (e : enc) (out : list packet) : Prop :=
  erun m (new_encoder f) ops = Ok (e, out).

(** [d] filled up with zeros to [n] bytes. *)
Definition padded (n : nat) (d : list N) : list N := d ++ repeat 0 (n - length d).

Definition longest (l : list esource) : nat :=
  fold_right (fun s n => Nat.max (length (es_data s)) n) 0%nat l.

(** The xor of the products with the coefficients. *)
Definition mixed (f : field) (id : N) (l : list esource) : list N :=
  fold_right (fun s acc => xorl (rmul f (coefficient f id (es_id s)) (padded (longest l) (es_data s))) acc)
    (repeat 0 (longest l)) l.

Definition mixed_size (f : field) (id : N) (l : list esource) : N :=
  fold_right (fun s acc => N.lxor (multiply_size f (N.of_nat (length (es_data s)))
                                     (coefficient f id (es_id s))) acc) 0 l.

Definition short_data (ops : list eop) : Prop :=
  Forall (fun d => N.of_nat (length d) < 65536) (datas ops).

(** ** C17 *)

Lemma longest_maxlen l : longest l = maxlen l.
Proof. reflexivity. Qed.

Lemma mixed_correct f id l r : combination f id l r -> er_sym r = mixed f id l.
Proof.
  intros C. pose proof (c_aligned _ _ _ _ C) as Hal.
  assert (Hmax : aligned f (longest l) = true) by now apply maxlen_aligned.
  assert (G : forall k n, (forall s, In s k -> (length (es_data s) <= n)%nat) ->
    Forall (fun s => aligned f (dlen s) = true) k -> aligned f n = true ->
    let x := fold_right (fun s acc => xorl (rmul f (coefficient f id (es_id s)) (padded n (es_data s))) acc)
      (repeat 0 n) k in
    length x = n /\ forall i, nth i x 0 = xsum (part f id i) k).
  { intros k n Hk Ha Hn. induction k as [|s k IH]; cbn [fold_right].
    - split; [apply repeat_length|]. intros i. apply nth_repeat.
    - destruct IH as [IH1 IH2]; [intros; apply Hk; now right|now apply Forall_cons_iff in Ha|].
      apply Forall_cons_iff in Ha as [Hs _].
      assert (Hle : (length (es_data s) <= n)%nat) by (apply Hk; now left). split.
      + rewrite xorl_length, IH1, rmul_length. unfold padded.
        rewrite app_length, repeat_length. lia.
      + intros i. rewrite xorl_nth, IH2. cbn [xsum]. f_equal. unfold part, padded.
        rewrite rmul_pad; [apply nth_pad|exact Hs|].
        unfold aligned, dlen in *. apply Nat.eqb_eq in Hs, Hn. apply Nat.eqb_eq.
        destruct f; cbn [wbytes] in *; try reflexivity;
          [apply Nat.mod_divide in Hs, Hn; try discriminate; apply Nat.mod_divide; [discriminate|];
           now apply Nat.divide_sub_r|
           apply Nat.mod_divide in Hs, Hn; try discriminate; apply Nat.mod_divide; [discriminate|];
           now apply Nat.divide_sub_r]. }
  destruct (G l (longest l)) as [G1 G2]; [intros s Hs; now apply maxlen_ge|assumption|assumption|].
  apply list_eq_nth.
  - rewrite (c_len _ _ _ _ C). symmetry. exact G1.
  - intros i _. rewrite (c_sym _ _ _ _ C). symmetry. apply G2.
Qed.

Lemma mixed_size_correct f id l : mixed_size f id l = xsum (part_size f id) l.
Proof.
  unfold mixed_size. induction l as [|s l IH]; [reflexivity|].
  cbn [fold_right xsum]. now rewrite IH.
Qed.

Lemma history_small f ops out e : history f ops out e -> short_data ops -> Forall small (e_sources e).
Proof.
  intros H Hs. apply Forall_forall. intros s Hin.
  destruct (h_window _ _ _ _ H s Hin) as (k & E & _). apply nth_error_In in E.
  unfold short_data in Hs. rewrite Forall_forall in Hs. now apply Hs.
Qed.

Lemma repair_combination :
  forall m f ops e out op e' new p,
  reached m f ops e out -> estep m e op = (e', Ok new) ->
  short_data (ops ++ [op]) -> nb_data (ops ++ [op]) <= 2 ^ 32 ->
  In p new -> type_of p = 1 ->
  exists calls r, p = on_wire calls /\ write_repair m r = Ok calls
  /\ combination f (id_of p) (e_sources e') r
  /\ er_ids r = map es_id (e_sources e')
  /\ history f (ops ++ [op]) (out ++ new) e'.
Proof.
  intros m f ops e out op e' new p R E Hs Hn Hp Ht.
  pose proof (history_of_run _ _ _ _ _ R) as H0.
  assert (H1 : history f (ops ++ [op]) (out ++ new) e').
  { apply (history_step _ _ _ _ _ _ _ _ H0 E). intros [x K]. discriminate. }
  assert (Q : exists id, repair_of m f id (e_sources e') p /\ id < 2 ^ 32).
  { pose proof (h_field _ _ _ _ H0) as Hf.
    assert (Hrid : e_repair_id e < 2 ^ 32).
    { rewrite (h_repair_id _ _ _ _ H0). unfold u32. apply N.mod_lt. discriminate. }
    destruct op as [d|q| |b|k|n|b].
    - apply estep_data in E as (o & Eo & A); [|intros [x K]; discriminate]. injection Eo as <-.
      destruct A. destruct ad_out as (first & rest & -> & O1 & O2 & O3 & O4). rewrite Hf in *.
      destruct Hp as [<-|Hp].
      + destruct (e_systematic e).
        * rewrite (O1 eq_refl), source_type in Ht. discriminate.
        * exists (e_repair_id e). auto.
      + destruct (N.eq_dec (u32 (e_source_id e + 1) mod e_rate e) 0) as [Hz|Hz].
        * destruct (O3 Hz) as (p' & -> & R'). destruct Hp as [<-|[]].
          eexists. split; [exact R'|]. destruct (e_systematic e); [assumption|].
          unfold u32. apply N.mod_lt. discriminate.
        * rewrite (O4 Hz) in Hp. destruct Hp.
    - apply estep_packet in E as (q' & _ & _ & _ & Eq); [|intros [x K]; discriminate].
      cbn [emitted] in Eq. subst new. destruct Hp.
    - apply estep_repair in E as (o & Eo & G); [|intros [x K]; discriminate]. injection Eo as <-.
      apply generate_repair_ok in G as (r & w & Er & Ew & -> & F1 & F2 & F3 & F4 & F5 & F6 & F7
        & F8 & F9 & F10 & F11 & F12). destruct Hp as [<-|[]].
      rewrite F8, <- Hf. exists (e_repair_id e). split; [exists r, w; auto|assumption].
    - apply estep_setters in E as (E & _); [|intros [x K]; discriminate|exact I].
      injection E as ->. destruct Hp.
    - apply estep_setters in E as (E & _); [|intros [x K]; discriminate|exact I].
      injection E as ->. destruct Hp.
    - apply estep_setters in E as (E & _); [|intros [x K]; discriminate|exact I].
      injection E as ->. destruct Hp.
    - apply estep_setters in E as (E & _); [|intros [x K]; discriminate|exact I].
      injection E as ->. destruct Hp. }
  destruct Q as (id & Q & Hid). pose proof (repair_of_id _ _ _ _ _ Q) as Eid.
  rewrite N.mod_small in Eid by assumption.
  destruct Q as (r & w & Er & Ew & Ep).
  apply encode_spec in Er as [C _]; [|eapply history_small; eassumption].
  destruct (h_sorted _ _ _ _ H1 Hn) as [Sorted _].
  exists w, r. rewrite Eid. split; [exact Ep|]. split; [assumption|].
  split; [exact C|]. split; [now apply (combination_ids f id)|]. exact H1.
Qed.

(** Every repair packet of every history is the mix of the window that the
    encoder has after the call. *)
Theorem C17_repair_is_combination :
  forall m f ops e out op e' new p,
  reached m f ops e out -> estep m e op = (e', Ok new) ->
  short_data (ops ++ [op]) -> nb_data (ops ++ [op]) <= 2 ^ 32 ->
  In p new -> type_of p = 1 ->
  exists calls r, p = on_wire calls /\ write_repair m r = Ok calls
  /\ er_id r = id_of p
  /\ er_ids r = map es_id (e_sources e')
  /\ length (er_sym r) = longest (e_sources e')
  /\ er_sym r = mixed f (id_of p) (e_sources e')
  /\ er_enc r = mixed_size f (id_of p) (e_sources e').
Proof.
  intros m f ops e out op e' new p R E Hs Hn Hp Ht.
  destruct (repair_combination m f ops e out op e' new p R E Hs Hn Hp Ht) as (w & r & Ep & Ew & C & Ei & _).
  exists w, r. split; [exact Ep|]. split; [assumption|].
  split; [apply C|]. split; [exact Ei|]. split; [apply C|].
  split; [now apply mixed_correct|]. rewrite mixed_size_correct. apply C.
Qed.
Print Assumptions C17_repair_is_combination.

(** The coefficient of the source [s] in the repair [r], as the documentation of the code has it. *)
Definition stated_coefficient (f : field) (r s : N) : N :=
  let base := ((r + s + 2) * (r + 1)) mod 2 ^ 32 in
  match f with
  | W4 => base mod 15 + 1
  | W8 => base mod 255 + 1
  | W16 => base mod 65535 + 1
  | W32 => if base =? 0 then 1 else base
  end.

Lemma stated_coefficient_ok f r s : coefficient f r s = stated_coefficient f r s.
Proof.
  unfold coefficient, stated_coefficient.
  replace (u32 (u32 (u32 (r + 1) + u32 (s + 1)) * u32 (r + 1))) with (((r + s + 2) * (r + 1)) mod 2 ^ 32);
    [destruct f; reflexivity|].
  unfold u32. change 4294967296 with (2 ^ 32). rewrite <- N.add_mod, <- N.mul_mod by discriminate. do 2 f_equal. lia.
Qed.

Lemma symbol_ext f l l' k : (forall i, nth i l 0 = nth i l' 0) -> symbol f l k = symbol f l' k.
Proof. intros H. unfold symbol. destruct f; rewrite !H; reflexivity. Qed.

Lemma symbol_xsum {A} f (g : A -> list N) k L : (forall s, In s L -> bytes (g s)) -> forall l,
  (forall i, nth i l 0 = xsum (fun s => nth i (g s) 0) L) -> symbol f l k = xsum (fun s => symbol f (g s) k) L.
Proof.
  induction L as [|s L IH]; intros Hg l Hl.
  - cbn [xsum] in *. rewrite (symbol_ext f l [] k) by (intros i; rewrite Hl; now destruct i).
    assert (Z : forall i, nth i (@nil N) 0 = 0) by (intros [|i]; reflexivity).
    unfold symbol. destruct f; rewrite !Z; try (destruct (Nat.even k)); reflexivity.
  - set (l' := fold_right (fun s => xorl (g s)) [] L).
    assert (N' : forall i, nth i l' 0 = xsum (fun s => nth i (g s) 0) L).
    { intros i. unfold l'. clear. induction L as [|s L IH]; [now destruct i|]. cbn [fold_right xsum]. rewrite nth_xorl, IH. reflexivity. }
    assert (B : bytes l').
    { unfold l'. clear - Hg. assert (H : forall s, In s L -> bytes (g s)) by (intros; apply Hg; now right). clear Hg.
      induction L as [|s' L IH]; [apply Forall_nil|]. cbn [fold_right]. apply xorl_bytes; [apply H; now left|]. apply IH. intros; apply H; now right. }
    cbn [xsum]. rewrite <- (IH (fun s' H => Hg s' (or_intror H)) l' N'). rewrite <- symbol_xorl by (exact B || apply Hg; now left).
    apply symbol_ext. intros i. rewrite Hl, nth_xorl, N'. reflexivity.
Qed.

(** The same without the operations of the model: each symbol of the repair is the sum, over the window, of the products of the stated
    coefficients with the symbols at the same place (the field product and sum of C11; symbols behind the end of a datum are zero). *)
Theorem C17_symbols :
  forall m f ops e out op e' new p,
  reached m f ops e out -> estep m e op = (e', Ok new) ->
  short_data (ops ++ [op]) -> nb_data (ops ++ [op]) <= 2 ^ 32 -> Forall (Forall (fun b => b < 256)) (datas (ops ++ [op])) ->
  In p new -> type_of p = 1 ->
  exists calls r, p = on_wire calls /\ write_repair m r = Ok calls
  /\ er_ids r = map es_id (e_sources e')
  /\ forall k, symbol f (er_sym r) k
     = fold_right N.lxor 0 (map (fun s => gf_multiply f (stated_coefficient f (id_of p) (es_id s)) (symbol f (es_data s) k)) (e_sources e')).
Proof.
  intros m f ops e out op e' new p R E Hs Hn Hb Hp Ht.
  destruct (repair_combination m f ops e out op e' new p R E Hs Hn Hp Ht) as (w & r & Ep & Ew & C & Ei & H1).
  exists w, r. split; [exact Ep|]. split; [exact Ew|]. split; [exact Ei|]. intros k.
  assert (B : forall s, In s (e_sources e') -> bytes (es_data s)).
  { intros s Hin. destruct (h_window _ _ _ _ H1 s Hin) as (j & Ej & _). apply nth_error_In in Ej. rewrite Forall_forall in Hb. now apply Hb. }
  rewrite (symbol_xsum f (fun s => rmul f (coefficient f (id_of p) (es_id s)) (es_data s)) k (e_sources e')).
  - pose proof (c_aligned _ _ _ _ C) as Al. rewrite Forall_forall in Al. clear C Ei.
    induction (e_sources e') as [|s l IH]; [reflexivity|].
    cbn [xsum map fold_right]. rewrite IH by (intros; (apply B || apply Al); now right). f_equal.
    rewrite <- stated_coefficient_ok, gf_multiply_gmul. apply symbol_rmul; [apply coefficient_elt | apply B; now left | apply Al; now left].
  - intros s _. apply rmul_bytes.
  - intros i. exact (c_sym _ _ _ _ C i).
Qed.
Print Assumptions C17_symbols.

Example C17_hyps : exists e e' s r,
  let ops := [EData [1;2;3;4]; EData [9;8]] in
  reached Debug W8 ops e [[2; 0;0;0;0; 0;4; 1;2;3;4]; [2; 0;0;0;1; 0;2; 9;8]]
  /\ estep Debug e ERepair = (e', Ok [r]) /\ type_of r = 1
  /\ short_data (ops ++ [ERepair]) /\ nb_data (ops ++ [ERepair]) <= 2 ^ 32
  /\ mixed W8 0 (e_sources e') = s /\ s = [39; 38; 5; 12].
Proof.
  do 4 eexists. split; [vm_compute; reflexivity|]. split; [vm_compute; reflexivity|].
  split; [reflexivity|]. split; [repeat constructor|]. split; [vm_compute; discriminate|].
  split; vm_compute; reflexivity.
Qed.

Example C17_symbols_case : stated_coefficient W8 0 0 = 3 /\ stated_coefficient W8 0 1 = 4
  /\ N.lxor (gf_multiply W8 3 1) (gf_multiply W8 4 9) = 39
  /\ Forall (Forall (fun b => b < 256)) (datas ([EData [1;2;3;4]; EData [9;8]] ++ [ERepair])).
Proof. vm_compute. repeat constructor. Qed.

(** Above 2^32 data, still, no other identifier is listed. *)
Theorem C17_repair_after_wraparound :
  forall m f ops e out e' p,
  reached m f ops e out -> short_data ops ->
  generate_repair m e = Ok (e', [p]) ->
  exists calls r, p = on_wire calls /\ write_repair m r = Ok calls
  /\ er_id r = id_of p
  /\ (forall x, In x (er_ids r) <-> In x (map es_id (e_sources e)))
  /\ er_sym r = mixed f (id_of p) (e_sources e)
  /\ er_enc r = mixed_size f (id_of p) (e_sources e).
Proof.
  intros m f ops e out e' p R Hs G.
  pose proof (history_of_run _ _ _ _ _ R) as H0.
  apply generate_repair_ok in G as (r & w & Er & Ew & Ep & F1 & _). injection Ep as ->.
  rewrite (h_field _ _ _ _ H0) in Er.
  assert (Q : repair_of m f (e_repair_id e) (e_sources e) (concat w)) by (exists r, w; auto).
  apply encode_spec in Er as [C _]; [|eapply history_small; eassumption].
  assert (Eid : id_of (concat w) = e_repair_id e).
  { rewrite (repair_of_id _ _ _ _ _ Q). apply N.mod_small.
    rewrite (h_repair_id _ _ _ _ H0). unfold u32. apply N.mod_lt. discriminate. }
  exists w, r. rewrite Eid. split; [reflexivity|]. split; [assumption|]. split; [apply C|].
  split; [apply C|]. split; [now apply mixed_correct|]. rewrite mixed_size_correct. apply C.
Qed.
Print Assumptions C17_repair_after_wraparound.

(** ** C18 *)

(** The sources that are not listed. *)
Definition unlisted (ids : list N) (l : list esource) : list esource :=
  filter (fun s => negb (existsb (N.eqb (es_id s)) ids)) l.

Lemma existsb_smem x l : existsb (N.eqb x) l = smem x l.
Proof.
  induction l as [|y l IH]; [reflexivity|]. cbn. now rewrite IH.
Qed.

Lemma erase_unlisted l ids : ssorted (ids_of l) -> ssorted ids ->
  erase_sources l ids = unlisted ids l.
Proof.
  intros Hl Hi. rewrite erase_filter by assumption. apply filter_ext.
  intros s. now rewrite existsb_smem.
Qed.

Theorem C18_ack_removes_exactly :
  forall m f ops e out p e' a n n',
  reached m f ops e out -> nb_data ops <= 2 ^ 32 ->
  notify m e p = (e', Ok n') -> read_ack m p = Ok (a, n) ->
  e_sources e' = unlisted (a_ids a) (e_sources e)
  /\ (forall s, In s (e_sources e') <-> In s (e_sources e) /\ ~ In (es_id s) (a_ids a))
  /\ (forall e'' n'', notify m e' p = (e'', Ok n'') -> e_sources e'' = e_sources e').
Proof.
  intros m f ops e out p e' a n n' R Hn E Ea.
  pose proof (history_of_run _ _ _ _ _ R) as H.
  destruct (h_sorted _ _ _ _ H Hn) as [Sorted _].
  destruct (read_ack_ids _ _ _ _ Ea) as [Sa _].
  assert (A : after_packet m e p e' (Ok n')).
  { apply notify_spec; [assumption|]. intros [x K]. discriminate. }
  destruct (ap_ok _ _ _ _ _ A n' eq_refl) as (a' & _ & Ea' & Es & _).
  rewrite Ea in Ea'. injection Ea' as <- <-.
  rewrite erase_unlisted in Es by assumption. split; [assumption|].
  assert (I : forall l s, In s (unlisted (a_ids a) l) <-> In s l /\ ~ In (es_id s) (a_ids a)).
  { intros l s. unfold unlisted. rewrite filter_In, existsb_smem, negb_true_iff.
    now rewrite smem_false. }
  split; [intros s; rewrite Es; apply I|].
  intros e'' n'' E'.
  assert (A' : after_packet m e' p e'' (Ok n'')).
  { apply notify_spec; [assumption|]. intros [x K]. discriminate. }
  destruct (ap_ok _ _ _ _ _ A' n'' eq_refl) as (a' & _ & Ea' & Es' & _).
  rewrite Ea in Ea'. injection Ea' as <- <-.
  rewrite Es', Es. rewrite erase_unlisted.
  - assert (F : forall l, unlisted (a_ids a) (unlisted (a_ids a) l) = unlisted (a_ids a) l).
    { induction l as [|s l IH]; [reflexivity|]. unfold unlisted in *. cbn [filter].
      destruct (negb _) eqn:En; [|assumption]. cbn [filter]. now rewrite En, IH. }
    apply F.
  - rewrite <- erase_unlisted by assumption. now apply erase_sorted.
  - assumption.
Qed.
Print Assumptions C18_ack_removes_exactly.

(** The ack lists an unknown id (9), one of the middle of the window, the last. *)
Example C18_hyps : exists e out e' a n,
  let ops := [EData [1]; EData [2]; EData [3]; EData [4]] in
  reached Debug W8 ops e out /\ nb_data ops <= 2 ^ 32
  /\ notify Debug e [0; 0;4; 0;3; 0;0;0;1; 1;0;2; 1;0;6] = (e', Ok n)
  /\ read_ack Debug [0; 0;4; 0;3; 0;0;0;1; 1;0;2; 1;0;6] = Ok (a, n) /\ a_ids a = [1; 3; 9]
  /\ map es_id (e_sources e') = [0; 2].
Proof.
  do 5 eexists. split; [vm_compute; reflexivity|]. split; [vm_compute; discriminate|].
  split; [vm_compute; reflexivity|]. split; [vm_compute; reflexivity|]. split; vm_compute; reflexivity.
Qed.

Lemma two_window m ops : forall e j, Forall (fun op => exists d, op = EData d) ops ->
  e_window_size e = 2 -> map es_id (e_sources e) = [u32 j; u32 (j + 1)] -> e_source_id e = u32 (j + 2) ->
  forall e' out, erun m e ops = Ok (e', out) ->
  map es_id (e_sources e') = [u32 (j + N.of_nat (length ops)); u32 (j + N.of_nat (length ops) + 1)].
Proof.
  induction ops as [|op ops IH]; intros e j Ho Hw Hs Hi e' out E.
  - cbn in E. injection E as <- <-. cbn [length]. change (N.of_nat 0) with 0.
    now rewrite N.add_0_r.
  - apply Forall_cons_iff in Ho as [[d ->] Ho].
    apply erun_step in E as (e1 & r & o & E1 & Hf & E2 & ->).
    apply estep_data in E1 as (out1 & -> & A); [|assumption].
    assert (L : length (e_sources e) = 2%nat).
    { rewrite <- (map_length es_id), Hs. reflexivity. }
    replace (j + N.of_nat (length (EData d :: ops))) with (j + 1 + N.of_nat (length ops))
      by (cbn [length]; lia).
    apply (IH e1 (j + 1)) with (out := o); try assumption.
    + now rewrite (ad_window _ _ _ _ _ A).
    + pose proof (ad_push _ _ _ _ _ A) as P.
      apply push_source_ok in P as [(_ & x & t & Ex & ->)|(N2 & _)].
      * rewrite Ex in Hs. cbn [map] in Hs. injection Hs as _ Hs. rewrite map_app, Hs. cbn [map es_id app].
        rewrite Hi. do 3 f_equal. lia.
      * rewrite L, Hw in N2. now destruct N2.
    + rewrite (ad_source_id _ _ _ _ _ A), Hi, u32_add. f_equal. lia.
Qed.

(** After more than 2^32 data, an ack of the newest source removes nothing. *)
Theorem C18_wraparound_refuted :
  exists ops e out p n e', reached Debug W8 ops e out /\ Forall (legal_op W8) ops
  /\ map es_id (e_sources e) = [4294967295; 0]
  /\ read_ack Debug p = Ok ({| a_ids := [0]; a_nb := 1 |}, n)
  /\ notify Debug e p = (e', Ok n)
  /\ map es_id (e_sources e') = [4294967295; 0].
Proof.
  assert (Big : exists k, N.of_nat k = 4294967295) by (exists (N.to_nat 4294967295); apply N2Nat.id).
  destruct Big as [big Hbig].
  set (ops := [ESetWindow 2; EData [1]; EData [1]] ++ repeat (EData [1]) big).
  assert (L : Forall (legal_op W8) ops).
  { unfold ops. apply Forall_app. split.
    - constructor; [reflexivity|]. constructor; [|constructor; [|constructor]];
        (split; [|split]; cbn; [lia|reflexivity|reflexivity]).
    - apply Forall_forall. intros x Hx. apply repeat_spec in Hx. subst x.
      split; [|split]; cbn; [lia|reflexivity|reflexivity]. }
  assert (R : exists e out, reached Debug W8 ops e out).
  { destruct (erun_safe Debug W8 (new_encoder W8) ops (new_safe W8) L) as
      [(e & out & E & _)|(before & after & e0 & out & Eo & _)].
    - now exists e, out.
    - exfalso. assert (K : In ERepair ops) by (rewrite Eo; apply in_or_app; right; now left).
      unfold ops in K. apply in_app_iff in K as [[K|[K|[K|[]]]]|K]; try discriminate.
      apply repeat_spec in K. discriminate. }
  destruct R as (e & out & R).
  assert (W : map es_id (e_sources e) = [4294967295; 0]).
  { unfold reached, ops in R. apply erun_app in R as (e1 & o1 & o2 & R1 & R2 & _).
    vm_compute in R1. injection R1 as <- <-.
    apply (two_window _ _ _ 0) in R2; try reflexivity.
    - rewrite R2, repeat_length, Hbig. reflexivity.
    - apply Forall_forall. intros x Hx. apply repeat_spec in Hx. eauto. }
  pose (p := [0; 0;1; 0;1; 0;0;0;0]).
  assert (Ea : read_ack Debug p = Ok ({| a_ids := [0]; a_nb := 1 |}, 9%nat)) by (vm_compute; reflexivity).
  assert (Had : e_adaptive e = false).
  { clear L W. unfold reached in R.
    assert (G : forall ops e0 e1 out, e_adaptive e0 = false ->
       Forall (fun op => match op with EData _ | ESetWindow _ => True | _ => False end) ops ->
       erun Debug e0 ops = Ok (e1, out) -> e_adaptive e1 = false).
    { clear. induction ops as [|op ops IH]; intros e0 e1 out H0 Ho E.
      - cbn in E. injection E as <- <-. assumption.
      - apply Forall_cons_iff in Ho as [Ho1 Ho].
        apply erun_step in E as (e2 & r & o & E1 & Hf & E2 & ->).
        apply (IH e2 e1 o); try assumption. destruct op; try contradiction.
        + apply estep_data in E1 as (out1 & -> & A); [|assumption].
          now rewrite (ad_adaptive _ _ _ _ _ A).
        + apply estep_setters in E1 as (_ & _ & _ & _ & _ & E1 & _); [|assumption|exact I].
          now rewrite E1. }
    apply (G ops (new_encoder W8) e out); try assumption; [reflexivity|].
    unfold ops. apply Forall_app. split; [repeat constructor|].
    apply Forall_forall. intros x Hx. apply repeat_spec in Hx. now subst x. }
  destruct (notify Debug e p) as [e' q] eqn:En.
  assert (Hn : q = Ok 9%nat /\ e_sources e' = erase_sources (e_sources e) [0]).
  { unfold notify in En. unfold p at 1 in En.
    change (_ <- assert_ Debug (Nat.ltb 0 (length p)) ;; get_packet_type p) with (@Ok ptype TAck) in En.
    cbn [get_packet_type assert_ bind length Nat.ltb Nat.leb N.eqb] in En.
    rewrite Ea in En. unfold apply_ack in En. cbn [with_ack e_adaptive] in En. rewrite Had in En.
    cbn [bind] in En. injection En as <- <-. now split. }
  destruct Hn as [-> Hn].
  exists ops, e, out, p, 9%nat, e'. split; [assumption|]. split; [assumption|].
  split; [assumption|]. split; [assumption|]. split; [assumption|].
  rewrite Hn. destruct (e_sources e) as [|s1 [|s2 [|s3 l]]]; try discriminate.
  cbn [map] in W. injection W as W1 W2. rewrite erase_cons, W1.
  change (4294967295 =? 0) with false. change (0 <? 4294967295) with true. cbn [map erase_sources].
  now rewrite W1, W2.
Qed.
Print Assumptions C18_wraparound_refuted.

(** ** C19 *)

(** The last [n] elements. *)
Definition keep_last {A} (n : N) (l : list A) : list A :=
  skipn (length l - N.to_nat n) l.

(** What should be outstanding: a new data is appended and only the last [n]
    are kept; an ack removes what it lists. [k] counts the data. *)
Fixpoint outstanding (m : mode) (n : N) (k : N) (w : list esource) (ops : list eop) : list esource :=
  match ops with
  | [] => w
  | EData d :: ops' =>
      outstanding m n (k + 1) (keep_last n (w ++ [{| es_id := k; es_data := d |}])) ops'
  | EPacket p :: ops' =>
      outstanding m n k
        (match type_of p, read_ack m p with
         | 0, Ok (a, _) => unlisted (a_ids a) w
         | _, _ => w
         end) ops'
  | _ :: ops' => outstanding m n k w ops'
  end.

Definition keeps_window_size (op : eop) : Prop := match op with ESetWindow _ => False | _ => True end.

Lemma keep_last_length {A} n (l : list A) : N.of_nat (length (keep_last n l)) <= n.
Proof. unfold keep_last. rewrite skipn_length. lia. Qed.

Lemma outstanding_bound m n ops : forall k w, N.of_nat (length w) <= n ->
  N.of_nat (length (outstanding m n k w ops)) <= n.
Proof.
  induction ops as [|op ops IH]; intros k w Hw; [assumption|].
  destruct op; cbn [outstanding]; try now apply IH.
  - apply IH, keep_last_length.
  - apply IH. destruct (type_of p); [|assumption]. destruct (read_ack m p) as [[a n']|x|x]; try assumption.
    unfold unlisted. 
    assert (F : forall (g : esource -> bool) l, (length (filter g l) <= length l)%nat).
    { intros g l. induction l as [|s l IHl]; [apply le_n|]. cbn [filter].
      destruct (g s); cbn [length]; lia. }
    specialize (F (fun s => negb (existsb (N.eqb (es_id s)) (a_ids a))) w). lia.
Qed.

Lemma window_is_outstanding m f n ops : forall done out e,
  history f done out e -> e_window_size e = n -> N.of_nat (length (e_sources e)) <= n ->
  Forall keeps_window_size ops -> nb_data (done ++ ops) <= 2 ^ 32 ->
  forall e' out', erun m e ops = Ok (e', out') ->
  e_sources e' = outstanding m n (nb_data done) (e_sources e) ops /\ e_window_size e' = n.
Proof.
  induction ops as [|op ops IH]; intros done out e H Hw Hl Ho Hn e' out' E.
  - cbn in E. injection E as <- <-. now split.
  - apply Forall_cons_iff in Ho as [Ho1 Ho].
    apply erun_step in E as (e1 & r & o & E1 & Hf & E2 & ->).
    pose proof (history_step _ _ _ _ _ _ _ _ H E1 Hf) as H1.
    assert (Hn1 : nb_data ((done ++ [op]) ++ ops) <= 2 ^ 32) by (rewrite <- app_assoc; exact Hn).
    assert (K : e_window_size e1 = n -> forall w, e_sources e1 = w -> N.of_nat (length w) <= n ->
        forall k, nb_data (done ++ [op]) = k ->
        e_sources e' = outstanding m n k w ops /\ e_window_size e' = n).
    { intros W w <- Lw k <-. exact (IH _ _ _ H1 W Lw Ho Hn1 _ _ E2). }
    assert (Nd : match op with EData _ => nb_data (done ++ [op]) = nb_data done + 1
                 | _ => nb_data (done ++ [op]) = nb_data done end).
    { rewrite nb_data_app. destruct op; unfold nb_data; cbn; lia. }
    destruct op as [d|p| |b|k|k|b]; cbn [outstanding].
    + apply estep_data in E1 as (out1 & -> & A); [|assumption].
      assert (Eid : e_source_id e = nb_data done).
      { rewrite (h_source_id _ _ _ _ H). unfold u32. apply N.mod_small.
        change (2 ^ 32) with 4294967296 in Hn. rewrite nb_data_app in Hn.
        unfold nb_data in Hn at 2. cbn [datas flat_map app length] in Hn. lia. }
      apply K; [now rewrite (ad_window _ _ _ _ _ A)| |apply keep_last_length|exact Nd].
      pose proof (ad_push _ _ _ _ _ A) as P. rewrite Eid in P. unfold keep_last.
      rewrite app_length. cbn [length].
      apply push_source_ok in P as [(Ln & x & t & Ex & ->)|(N2 & ->)].
      * rewrite Ex in *. cbn [length] in *.
        replace (S (length t) + 1 - N.to_nat n)%nat with 1%nat by lia. reflexivity.
      * replace (length (e_sources e) + 1 - N.to_nat n)%nat with 0%nat by lia. reflexivity.
    + apply estep_packet in E1 as (q & En & Hq & A & Em); [|assumption].
      assert (L1 : e_sources e1 = match type_of p, read_ack m p with
         | 0, Ok (a, _) => unlisted (a_ids a) (e_sources e) | _, _ => e_sources e end).
      { destruct (h_sorted _ _ _ _ H) as [Sorted _].
        { rewrite nb_data_app in Hn. lia. }
        destruct q as [k|x|x].
        - destruct (ap_ok _ _ _ _ _ A k eq_refl) as (a & T & Ea & Es & _). rewrite T, Ea, Es.
          apply erase_unlisted; [assumption|]. now apply (read_ack_ids m p a k).
        - destruct (ap_throw _ _ _ _ _ A x eq_refl) as (Es & _ & _ & [(b & q & -> & Hb)|[T Ea]]).
          + unfold type_of. cbn [nth]. destruct b; [contradiction|assumption].
          + now rewrite T, Ea.
        - destruct Hq. eexists; reflexivity. }
      apply K; [now rewrite (ap_window _ _ _ _ _ A)|exact L1| |exact Nd].
      assert (B := outstanding_bound m n [EPacket p] 0 (e_sources e) Hl). exact B.
    + apply estep_repair in E1 as (out1 & -> & G); [|assumption].
      apply generate_repair_ok in G as (r & w & Er & Ew & _ & F1 & F2 & F3 & F4 & F5 & F6 & F7
        & F8 & _). apply K; try assumption. congruence.
    + apply estep_setters in E1 as (_ & Es & _ & _ & _ & _ & Ew); [|assumption|exact I].
      apply K; try assumption. congruence.
    + apply estep_setters in E1 as (_ & Es & _ & _ & _ & _ & Ew); [|assumption|exact I].
      apply K; try assumption. congruence.
    + destruct Ho1.
    + apply estep_setters in E1 as (_ & Es & _ & _ & _ & _ & Ew); [|assumption|exact I].
      apply K; try assumption. congruence.
Qed.

(** From a state with at most [n] sources, the window of size [n] follows the
    specification; in particular it holds at most [n] sources. *)
Theorem C19_window_bound :
  forall m f n before e out, reached m f before e out -> N.of_nat (length (e_sources e)) <= n ->
  forall ops e' out', erun m e (ESetWindow n :: ops) = Ok (e', out') ->
  Forall keeps_window_size ops -> nb_data (before ++ ops) <= 2 ^ 32 ->
  e_sources e' = outstanding m n (nb_data before) (e_sources e) ops
  /\ window e' <= n.
Proof.
  intros m f n before e out R Hl ops e' out' E Ho Hn.
  pose proof (history_of_run _ _ _ _ _ R) as H.
  apply erun_step in E as (e1 & r & o & E1 & Hf & E2 & ->).
  pose proof (history_step _ _ _ _ _ _ _ _ H E1 Hf) as H1.
  apply estep_setters in E1 as (_ & Es & _ & _ & _ & _ & Ew); [|assumption|exact I].
  assert (Nd : nb_data (before ++ [ESetWindow n]) = nb_data before).
  { rewrite nb_data_app. unfold nb_data. cbn. lia. }
  destruct (window_is_outstanding m f n ops _ _ _ H1) with (e' := e') (out' := o) as [W _]; try assumption.
  - now rewrite Es.
  - rewrite nb_data_app, Nd, <- nb_data_app. assumption.
  - rewrite Nd, Es in W. split; [assumption|]. unfold window. rewrite W.
    now apply outstanding_bound.
Qed.
Print Assumptions C19_window_bound.

Example C19_hyps : exists e out e' out',
  let ops := [EData [3]; EData [4]; EPacket [0; 0;1; 0;1; 0;0;0;2]; EData [5]; EData [6]] in
  reached Debug W8 [EData [1]; EData [2]] e out /\ N.of_nat (length (e_sources e)) <= 2
  /\ erun Debug e (ESetWindow 2 :: ops) = Ok (e', out')
  /\ map es_id (e_sources e') = [4; 5].
Proof.
  do 4 eexists. split; [vm_compute; reflexivity|]. split; [vm_compute; discriminate|].
  split; vm_compute; reflexivity.
Qed.

(** A window size below the number of outstanding sources is never applied:
    the window then grows with every data. *)
Theorem C19_shrink_refuted :
  forall n, exists ops e out, reached Debug W8 ([EData [1]; EData [2]; ESetWindow 1] ++ ops) e out
  /\ Forall (legal_op W8) ops /\ Forall keeps_window_size ops /\ e_window_size e = 1
  /\ window e = 2 + N.of_nat n.
Proof.
  intros n.
  assert (G : exists ops e out, reached Debug W8 ([EData [1]; EData [2]; ESetWindow 1] ++ ops) e out
    /\ Forall (legal_op W8) ops /\ Forall keeps_window_size ops /\ e_window_size e = 1
    /\ window e = 2 + N.of_nat n /\ safe W8 e).
  { induction n as [|n (ops & e & out & R & Lo & Ho & Hw & Hl & S)].
    - exists []. do 2 eexists. split; [vm_compute; reflexivity|]. split; [constructor|].
      split; [constructor|]. split; [reflexivity|]. split; [reflexivity|].
      constructor; try reflexivity.
      constructor; [|constructor; [|constructor]];
        (split; [|split]; cbn; [lia|reflexivity|reflexivity]).
    - assert (L : legal_op W8 (EData [3])) by (split; [|split]; cbn; [lia|reflexivity|reflexivity]).
      destruct (estep_safe Debug W8 e (EData [3]) S L) as (e' & r & E & Hf & S'); [discriminate|].
      assert (E1 : erun Debug e [EData [3]] = Ok (e', emitted r)).
      { rewrite erun_cons, E. destruct r as [o|x|x].
        - cbn [erun bind emitted]. now rewrite app_nil_r.
        - reflexivity.
        - destruct Hf. eexists; reflexivity. }
      exists (ops ++ [EData [3]]), e', (out ++ emitted r). rewrite app_assoc.
      split; [exact (erun_app_ok _ _ _ _ _ _ _ _ R E1)|].
      split; [apply Forall_app; split; [assumption|constructor; [assumption|constructor]]|].
      split; [apply Forall_app; split; [assumption|constructor; [exact I|constructor]]|].
      apply estep_data in E as (o & -> & A); [|assumption].
      split; [now rewrite (ad_window _ _ _ _ _ A)|]. split; [|assumption].
      pose proof (ad_push _ _ _ _ _ A) as P. unfold window in *.
      apply push_source_ok in P as [(Ln & _)|(_ & ->)]; [lia|].
      rewrite app_length. cbn [length]. lia. }
  destruct G as (ops & e & out & R & Lo & Ho & Hw & Hl & _). exists ops, e, out. auto.
Qed.
Print Assumptions C19_shrink_refuted.

(** ** C20 *)

Theorem C20_identifiers :
  forall m f ops e out, reached m f ops e out ->
  (forall k p, nth_error (of_type 1 out) k = Some p -> id_of p = N.of_nat k mod 2 ^ 32)
  /\ (forall d e' new, estep m e (EData d) = (e', Ok new) ->
        In {| es_id := nb_data ops mod 2 ^ 32; es_data := d |} (e_sources e')
        /\ forall p, In p new -> type_of p = 2 -> id_of p = nb_data ops mod 2 ^ 32)
  /\ (forall s, In s (e_sources e) -> exists k, nth_error (datas ops) k = Some (es_data s)
        /\ es_id s = N.of_nat k mod 2 ^ 32)
  /\ (nb_data ops <= 2 ^ 32 -> StronglySorted N.lt (map es_id (e_sources e))).
Proof.
  intros m f ops e out R. pose proof (history_of_run _ _ _ _ _ R) as H.
  split; [apply H|]. split; [|split; [apply H|]].
  - intros d e' new E. apply estep_data in E as (o & Eo & A); [|intros [x K]; discriminate].
    injection Eo as <-.
    assert (Ei : nb_data ops mod 2 ^ 32 = e_source_id e) by (rewrite (h_source_id _ _ _ _ H); reflexivity).
    rewrite Ei. destruct A. split; [now apply push_source_in in ad_push|].
    destruct ad_out as (first & rest & -> & O1 & O2 & O3 & O4). intros p [<-|Hp] Ht.
    + destruct (e_systematic e) eqn:Es.
      * rewrite (O1 eq_refl), source_id. cbn [es_id]. apply N.mod_small. rewrite <- Ei.
        apply N.mod_lt. discriminate.
      * rewrite (repair_of_type _ _ _ _ _ (O2 eq_refl)) in Ht. discriminate.
    + destruct (N.eq_dec (u32 (e_source_id e + 1) mod e_rate e) 0) as [Hz|Hz].
      * destruct (O3 Hz) as (p' & -> & R'). destruct Hp as [<-|[]].
        rewrite (repair_of_type _ _ _ _ _ R') in Ht. discriminate.
      * rewrite (O4 Hz) in Hp. destruct Hp.
  - intros Hn. now destruct (h_sorted _ _ _ _ H Hn).
Qed.
Print Assumptions C20_identifiers.

Example C20_hyps : exists e out,
  reached Debug W8 [EData [1]; ERepair; EPacket [0; 0;1; 0;1; 0;0;0;0]; ESetCode false; EData [2]; EData [3]] e out
  /\ map id_of (of_type 1 out) = [0; 1; 2] /\ map es_id (e_sources e) = [1; 2].
Proof. do 2 eexists. split; [vm_compute; reflexivity|]. split; vm_compute; reflexivity. Qed.

(** ** C21 *)

(** Calls that neither force a repair nor change the code. *)
Definition plain (op : eop) : Prop :=
  match op with EData _ | EPacket _ | ESetWindow _ => True | _ => False end.

Lemma div_succ n k : k <> 0 -> (n + 1) / k = n / k + if (n + 1) mod k =? 0 then 1 else 0.
Proof.
  intros Hk. pose proof (N.div_mod n k Hk) as E. pose proof (N.mod_lt n k Hk) as L.
  set (q := n / k) in *. set (r := n mod k) in *. clearbody q r.
  destruct (N.eq_dec (r + 1) k) as [D|D].
  - assert (E1 : n + 1 = k * (q + 1) + 0) by (rewrite N.mul_add_distr_l; lia).
    rewrite <- (N.div_unique (n + 1) k (q + 1) 0), <- (N.mod_unique (n + 1) k (q + 1) 0);
      try assumption; try lia. reflexivity.
  - assert (E1 : n + 1 = k * q + (r + 1)) by lia.
    rewrite <- (N.div_unique (n + 1) k q (r + 1)), <- (N.mod_unique (n + 1) k q (r + 1));
      try assumption; try lia.
    destruct (N.eqb_spec (r + 1) 0); lia.
Qed.

Lemma rate_run m (b : bool) k ops : forall e n0, k <> 0 -> Forall plain ops ->
  e_rate e = k -> e_systematic e = b -> e_adaptive e = false -> e_source_id e = n0 ->
  n0 + nb_data ops < 2 ^ 32 ->
  forall e' out, erun m e ops = Ok (e', out) ->
  count 2 out = (if b then nb_data ops else 0)
  /\ count 1 out + n0 / k = (n0 + nb_data ops) / k + (if b then 0 else nb_data ops).
Proof.
  induction ops as [|op ops IH]; intros e n0 Hk Ho Hr Hs Ha Hi Hn e' out E.
  - cbn in E. injection E as <- <-. change (nb_data []) with 0. rewrite !count_nil, N.add_0_r.
    destruct b; lia.
  - apply Forall_cons_iff in Ho as [Ho1 Ho].
    apply erun_step in E as (e1 & r & o & E1 & Hf & E2 & ->). rewrite !count_app.
    assert (Nd : nb_data (op :: ops) = nb_data [op] + nb_data ops) by apply (nb_data_app [op]).
    destruct op as [d|p| | | |w|]; try contradiction.
    + apply estep_data in E1 as (out1 & -> & A); [|assumption].
      change (nb_data [EData d]) with 1 in Nd. destruct A.
      assert (Ei : u32 (e_source_id e + 1) = n0 + 1).
      { unfold u32. rewrite Hi. apply N.mod_small. change (2 ^ 32) with 4294967296 in Hn. lia. }
      destruct (IH e1 (n0 + 1)) with (e' := e') (out := o) as [I1 I2]; try assumption; try congruence.
      { lia. }
      cbn [emitted]. rewrite I1. rewrite Nd, N.add_assoc.
      rewrite (div_succ n0 k Hk) in I2.
      destruct ad_out as (first & rest & -> & O1 & O2 & O3 & O4).
      rewrite Ei, Hr in O3, O4. rewrite !count_cons.
      assert (Tf : type_of first = if b then 2 else 1).
      { destruct b.
        - rewrite (O1 Hs). apply source_type.
        - exact (repair_of_type _ _ _ _ _ (O2 Hs)). }
      rewrite Tf.
      assert (Cr : count 2 rest = 0 /\ count 1 rest = if (n0 + 1) mod k =? 0 then 1 else 0).
      { destruct (N.eqb_spec ((n0 + 1) mod k) 0) as [Z|Z].
        - destruct (O3 Z) as (p & -> & R). rewrite !count_one, (repair_of_type _ _ _ _ _ R). now split.
        - rewrite (O4 Z). now split. }
      destruct Cr as [-> ->].
      destruct b; cbn [N.eqb Pos.eqb]; split; lia.
    + apply estep_packet in E1 as (q & En & Hq & A & ->); [|assumption].
      change (nb_data [EPacket p]) with 0 in Nd. rewrite Nd, N.add_0_l in *. rewrite !count_nil, !N.add_0_l.
      apply (IH e1) with (e' := e'); try assumption.
      * destruct q as [x|x|x].
        -- destruct (ap_ok _ _ _ _ _ A x eq_refl) as (a & _ & _ & _ & _ & E & _). rewrite E by assumption.
           assumption.
        -- destruct (ap_throw _ _ _ _ _ A x eq_refl) as (_ & E & _). congruence.
        -- destruct Hq. eexists; reflexivity.
      * now rewrite (ap_systematic _ _ _ _ _ A).
      * now rewrite (ap_adaptive _ _ _ _ _ A).
      * now rewrite (ap_source_id _ _ _ _ _ A).
    + apply estep_setters in E1 as (-> & _ & G1 & G2 & G3 & G4 & _); [|assumption|exact I].
      change (nb_data [ESetWindow w]) with 0 in Nd. rewrite Nd, N.add_0_l in *. cbn [emitted].
      rewrite !count_nil, !N.add_0_l. apply (IH e1) with (e' := e'); try assumption; congruence.
Qed.

Theorem C21_code_rate :
  forall m f b k ops e out, 0 < k -> Forall plain ops -> nb_data ops < 2 ^ 32 ->
  reached m f ([ESetCode b; ESetRate k] ++ ops) e out ->
  count 2 out = (if b then nb_data ops else 0)
  /\ count 1 out = nb_data ops / k + (if b then 0 else nb_data ops).
Proof.
  intros m f b k ops e out Hk Ho Hn R. unfold reached in R. apply erun_app in R as (e1 & o1 & o2 & R1 & R2 & ->).
  assert (K : erun m (new_encoder f) [ESetCode b; ESetRate k]
    = Ok ({| e_field := f; e_systematic := b; e_rate := k; e_window_size := 18446744073709551615;
             e_adaptive := false; e_source_id := 0; e_repair_id := 0; e_sources := [];
             e_nb_sent_repairs := 0; e_nb_acks := 0; e_nb_sent_sources := 0; e_nb_sent_packets := 0 |}, [])).
  { rewrite erun_cons. cbn [estep set_code_type]. rewrite erun_cons. cbn [estep]. unfold set_rate.
    replace (assert_ m (0 <? k)) with (Ok tt); [reflexivity|].
    destruct m; [|reflexivity]. unfold assert_. apply N.ltb_lt in Hk. now rewrite Hk. }
  rewrite K in R1. injection R1 as <- <-. cbn [app].
  apply (rate_run m b k ops _ 0) in R2; try reflexivity; try assumption; [|lia].
  destruct R2 as [I1 I2]. split; [assumption|]. rewrite N.div_0_l in I2 by lia. rewrite N.add_0_l in I2. lia.
Qed.
Print Assumptions C21_code_rate.

Example C21_hyps : exists e out e' out',
  let ops := [EData [1]; EData [2]; EPacket [0; 0;1; 0;1; 0;0;0;0]; EData [3]; EData [4]; EData [5]] in
  Forall plain ops
  /\ reached Debug W8 ([ESetCode true; ESetRate 2] ++ ops) e out /\ map type_of out = [2;2;1;2;2;1;2]
  /\ reached Debug W8 ([ESetCode false; ESetRate 2] ++ ops) e' out' /\ map type_of out' = [1;1;1;1;1;1;1].
Proof.
  do 4 eexists. split; [repeat constructor|]. split; [vm_compute; reflexivity|].
  split; [vm_compute; reflexivity|]. split; vm_compute; reflexivity.
Qed.

(** ** C22 *)

Lemma sent_bound m ops : forall e, e_nb_sent_packets e < 65536 ->
  forall e' out, erun m e ops = Ok (e', out) -> e_nb_sent_packets e' < 65536.
Proof.
  induction ops as [|op ops IH]; intros e H e' out E.
  - cbn in E. injection E as <- <-. assumption.
  - apply erun_step in E as (e1 & r & o & E1 & Hf & E2 & ->). apply (IH e1) with (out := o); [|assumption].
    destruct op as [d|p| |b|k|w|b].
    + apply estep_data in E1 as (out1 & -> & A); [|assumption].
      rewrite (ad_nb_packets _ _ _ _ _ A). apply u16_lt.
    + apply estep_packet in E1 as (q & En & Hq & A & _); [|assumption]. destruct q as [n|x|x].
      * destruct (ap_ok _ _ _ _ _ A n eq_refl) as (a & _ & _ & _ & E & _). rewrite E. reflexivity.
      * destruct (ap_throw _ _ _ _ _ A x eq_refl) as (_ & _ & E & _). now rewrite E.
      * destruct Hq. eexists; reflexivity.
    + apply estep_repair in E1 as (out1 & -> & G); [|assumption].
      apply generate_repair_ok in G as (r & w & Er & Ew & _ & F1 & F2 & F3 & F4 & F5 & F6 & F7
        & F8 & F9 & F10 & F11 & F12). rewrite F12. apply u16_lt.
    + cbn [estep] in E1. injection E1 as <- _. assumption.
    + cbn [estep] in E1. unfold set_rate in E1.
      destruct (assert_ m (0 <? k)); cbn [bind] in E1; injection E1 as <- _; assumption.
    + cbn [estep] in E1. unfold set_window_size in E1.
      destruct (assert_ m (0 <? w)); cbn [bind] in E1; injection E1 as <- _; assumption.
    + cbn [estep] in E1. injection E1 as <- _. assumption.
Qed.

(** The computation, with the rounding of doubles. *)
Theorem C22_rate_between_1_and_50 :
  forall sent received, sent < 65536 -> received < 65536 ->
  exists r, adapted_rate sent received = Ok r /\ 1 <= r <= 50.
Proof. exact adapted_rate_bounds. Qed.
Print Assumptions C22_rate_between_1_and_50.

(** In a history: any ack, with any counter. *)
Theorem C22_adaptive_encoder :
  forall m f ops e out p, reached m f ops e out -> e_adaptive e = true ->
  type_of p = 0 -> bytes p -> forall e' n, notify m e p = (e', Ok n) -> 1 <= e_rate e' <= 50.
Proof.
  intros m f ops e out p R Ha Ht Hb e' n E.
  assert (A : after_packet m e p e' (Ok n)).
  { apply notify_spec; [assumption|]. intros [x K]. discriminate. }
  destruct (ap_ok _ _ _ _ _ A n eq_refl) as (a & _ & Ea & _ & _ & _ & Er).
  destruct (adapted_rate_bounds (e_nb_sent_packets e) (a_nb a)) as (r & Hr & B).
  - apply (sent_bound m ops (new_encoder f)) with (out := out); [reflexivity|assumption].
  - eapply read_ack_nb; eassumption.
  - rewrite Er in Hr by assumption. injection Hr as ->. assumption.
Qed.
Print Assumptions C22_adaptive_encoder.

(** Five packets were sent; the acks claim that 4 and 60000 were received. *)
Example C22_hyps : exists e out e1 e2 n,
  reached Debug W8 [ESetAdaptive true; EData [1]; EData [2]; EData [3]; EData [4]; ERepair] e out
  /\ notify Debug e [0; 0;4; 0;0] = (e1, Ok n) /\ e_rate e1 = 3
  /\ notify Debug e [0; 234;96; 0;0] = (e2, Ok n) /\ e_rate e2 = 50.
Proof.
  do 5 eexists. split; [vm_compute; reflexivity|]. split; [vm_compute; reflexivity|].
  split; [vm_compute; reflexivity|]. split; vm_compute; reflexivity.
Qed.

(** ** C23 *)

Definition same_but_acks (e e' : enc) : Prop :=
  e_field e' = e_field e /\ e_systematic e' = e_systematic e /\ e_rate e' = e_rate e
  /\ e_window_size e' = e_window_size e /\ e_adaptive e' = e_adaptive e
  /\ e_source_id e' = e_source_id e /\ e_repair_id e' = e_repair_id e /\ e_sources e' = e_sources e
  /\ e_nb_sent_repairs e' = e_nb_sent_repairs e /\ e_nb_sent_sources e' = e_nb_sent_sources e
  /\ e_nb_sent_packets e' = e_nb_sent_packets e.

Lemma notify_no_fault m e p : e_nb_sent_packets e < 65536 -> p <> [] -> bytes p ->
  ~ is_fault (snd (notify m e p)).
Proof.
  intros Hs Hp Hb. unfold notify. destruct p as [|b q]; [congruence|].
  replace (_ <- assert_ m (Nat.ltb 0 (length (b :: q))) ;; get_packet_type (b :: q))
    with (get_packet_type (b :: q)) by now destruct m.
  cbn [get_packet_type].
  destruct (N.eqb_spec b 0) as [->|Hb0].
  - assert (NF : ~ is_fault (read_ack m (0 :: q))) by now apply read_ack_no_fault.
    destruct (read_ack m (0 :: q)) as [[a n]|x|x] eqn:E.
    + unfold apply_ack. cbn [with_ack e_adaptive e_nb_sent_packets e_rate].
      destruct (e_adaptive e).
      * destruct (adapted_rate_bounds (e_nb_sent_packets e) (a_nb a)) as (r & Hr & Hr');
          [assumption|eapply read_ack_nb; eassumption|].
        rewrite Hr. intros [x K]. discriminate.
      * intros [x K]. discriminate.
    + intros [y K]. discriminate.
    + destruct NF. eexists; reflexivity.
  - destruct (b =? 1); [intros [x K]; discriminate|]. destruct (b =? 2); intros [x K]; discriminate.
Qed.

Theorem C23_survives_any_packet :
  forall m f ops e out p, reached m f ops e out -> p <> [] -> bytes p ->
  exists e', (exists n, notify m e p = (e', Ok n))
  \/ (notify m e p = (e', Throw PacketTypeError) \/ notify m e p = (e', Throw OverflowError))
     /\ same_but_acks e e'.
Proof.
  intros m f ops e out p R Hp Hb.
  assert (NF : ~ is_fault (snd (notify m e p))).
  { apply notify_no_fault; try assumption.
    apply (sent_bound m ops (new_encoder f)) with (out := out); [reflexivity|assumption]. }
  destruct (notify m e p) as [e' r] eqn:E. cbn [snd] in NF.
  pose proof (notify_spec _ _ _ _ _ E NF) as A. exists e'. destruct r as [n|x|x].
  - left. now exists n.
  - right. split; [destruct x; auto|]. destruct (ap_throw _ _ _ _ _ A x eq_refl) as (T1 & T2 & T3 & _).
    destruct A. unfold same_but_acks. auto 12.
  - destruct NF. eexists; reflexivity.
Qed.
Print Assumptions C23_survives_any_packet.

(** A truncated ack, a repair, an unknown type, an ack with a hostile list. *)
Example C23_hyps : exists e out,
  reached Release W8 [EData [1]] e out
  /\ snd (notify Release e [0; 0;4; 0;3; 0]) = Throw OverflowError
  /\ snd (notify Release e [1; 0]) = Throw PacketTypeError
  /\ snd (notify Release e [77]) = Throw PacketTypeError
  /\ snd (notify Release e [0; 0;1; 0;3; 255;255;255;255; 255;0;0; 1;0;1]) = Ok 15%nat.
Proof.
  do 2 eexists. split; [vm_compute; reflexivity|]. split; [vm_compute; reflexivity|].
  split; [vm_compute; reflexivity|]. split; vm_compute; reflexivity.
Qed.

(** ** C24 *)

Theorem C24_repair_of_empty_window :
  forall m e, e_sources e = [] -> is_fault (generate_repair m e).
Proof. exact generate_repair_empty. Qed.
Print Assumptions C24_repair_of_empty_window.

(** ... which is reached by acknowledging everything. *)
Example C24_empty_reached : exists e out,
  reached Debug W8 [EData [1]; EPacket [0; 0;1; 0;1; 0;0;0;0]] e out /\ e_sources e = [].
Proof. do 2 eexists. split; vm_compute; reflexivity. Qed.

Theorem C24_repair_of_window :
  forall m e, Forall (fun s => legal (e_field e) (es_data s)) (e_sources e) -> e_sources e <> [] ->
  exists e' p, generate_repair m e = Ok (e', [p]) /\ type_of p = 1.
Proof.
  intros m e L Hne. destruct (generate_repair_total m e L Hne) as (e' & p & E). exists e', p.
  split; [assumption|].
  apply generate_repair_ok in E as (r & w & Er & Ew & Ep & _). injection Ep as ->.
  eapply repair_of_type. exists r, w. eauto.
Qed.
Print Assumptions C24_repair_of_window.

(** In both builds a history of legal calls only goes wrong when a repair is
    forced on an empty window. *)
Theorem C24_only_bad_case :
  forall m f ops, Forall (legal_op f) ops ->
  (exists e out, reached m f ops e out)
  \/ exists before after e out, ops = before ++ ERepair :: after
     /\ reached m f before e out /\ e_sources e = [].
Proof.
  intros m f ops L. destruct (erun_safe m f (new_encoder f) ops (new_safe f) L) as
    [(e & out & E & _)|(before & after & e0 & out & Eo & E)].
  - left. now exists e, out.
  - right. exists before, after, e0, out. now split.
Qed.
Print Assumptions C24_only_bad_case.

Example C24_hyps : Forall (legal_op W16)
  [EData [1;2]; EPacket [0; 0;1; 0;1; 0;0;0;0]; EData [4;5;6;7]; ERepair; ESetWindow 1; EData [8;9]].
Proof. repeat (constructor; [cbn; unfold legal; cbn; repeat split; try lia; try discriminate;
  try (repeat constructor; fail); auto|]). constructor. Qed.

(** ** C25 *)

Theorem C25_counters :
  forall m f ops e out, reached m f ops e out ->
  e_nb_sent_sources e = count 2 out mod 2 ^ 64
  /\ e_nb_sent_repairs e = count 1 out mod 2 ^ 64
  /\ N.of_nat (length out) = count 1 out + count 2 out
  /\ e_nb_acks e = N.of_nat (length (acks ops)) mod 2 ^ 64.
Proof.
  intros m f ops e out R. pose proof (history_of_run _ _ _ _ _ R) as H.
  split; [apply (h_nb_sources _ _ _ _ H)|]. split; [apply (h_nb_repairs _ _ _ _ H)|].
  split; [|apply (h_nb_acks _ _ _ _ H)].
  pose proof (h_types _ _ _ _ H) as T. clear -T. induction T as [|p out Hp T IH]; [reflexivity|].
  rewrite !count_cons. cbn [length]. destruct Hp as [-> | ->]; cbn [N.eqb Pos.eqb]; lia.
Qed.
Print Assumptions C25_counters.

Example C25_hyps : exists e out,
  reached Debug W8 [EData [1]; ERepair; EPacket [0; 0;1]; EPacket [0; 0;1; 0;0]; EPacket [3]; EData [2]] e out
  /\ e_nb_sent_sources e = 2 /\ e_nb_sent_repairs e = 1 /\ e_nb_acks e = 2.
Proof.
  do 2 eexists. split; [vm_compute; reflexivity|]. split; [vm_compute; reflexivity|].
  split; vm_compute; reflexivity.
Qed.

(** ** C26 *)

Theorem C26_systematic :
  forall m f ops e out d e' new, reached m f ops e out -> e_systematic e = true ->
  enc_data m e d = Ok (e', new) ->
  exists rest, new = on_wire (write_source {| es_id := nb_data ops mod 2 ^ 32; es_data := d |}) :: rest
  /\ (rest = [] \/ exists p, rest = [p] /\ type_of p = 1).
Proof.
  intros m f ops e out d e' new R Hs E. pose proof (history_of_run _ _ _ _ _ R) as H.
  apply enc_data_spec in E. destruct E.
  assert (Ei : nb_data ops mod 2 ^ 32 = e_source_id e) by (rewrite (h_source_id _ _ _ _ H); reflexivity).
  destruct ad_out as (first & rest & -> & O1 & O2 & O3 & O4). exists rest.
  rewrite (O1 Hs), Ei. split; [reflexivity|].
  destruct (N.eq_dec (u32 (e_source_id e + 1) mod e_rate e) 0) as [Hz|Hz].
  - right. destruct (O3 Hz) as (p & -> & R'). exists p. split; [reflexivity|]. eapply repair_of_type, R'.
  - left. auto.
Qed.
Print Assumptions C26_systematic.

Theorem C26_non_systematic :
  forall m f ops e out d e' new, reached m f ops e out -> e_systematic e = false ->
  short_data (ops ++ [EData d]) -> enc_data m e d = Ok (e', new) ->
  Forall (fun p => type_of p = 1) new
  /\ exists p rest calls r, new = p :: rest
  /\ p = on_wire calls /\ write_repair m r = Ok calls /\ In (nb_data ops mod 2 ^ 32) (er_ids r).
Proof.
  intros m f ops e out d e' new R Hs Hd E. pose proof (history_of_run _ _ _ _ _ R) as H.
  apply enc_data_spec in E.
  pose proof (history_data _ _ _ _ _ _ _ _ H E) as H1. destruct E.
  assert (Ei : nb_data ops mod 2 ^ 32 = e_source_id e) by (rewrite (h_source_id _ _ _ _ H); reflexivity).
  destruct ad_out as (first & rest & -> & O1 & O2 & O3 & O4).
  pose proof (O2 Hs) as R1. split.
  - constructor; [eapply repair_of_type, R1|].
    destruct (N.eq_dec (u32 (e_source_id e + 1) mod e_rate e) 0) as [Hz|Hz].
    + destruct (O3 Hz) as (p & -> & R'). constructor; [|constructor]. eapply repair_of_type, R'.
    + rewrite (O4 Hz). constructor.
  - destruct R1 as (r & w & Er & Ew & ->). exists (concat w), rest, w, r.
    split; [reflexivity|]. split; [reflexivity|]. split; [assumption|].
    apply encode_spec in Er as [C _]; [|eapply history_small; eassumption].
    apply (c_ids _ _ _ _ C). rewrite Ei.
    apply push_source_in in ad_push as [Hin _].
    apply (in_map es_id) in Hin. exact Hin.
Qed.
Print Assumptions C26_non_systematic.

Example C26_hyps : exists e out e1 new1 e2 new2,
  let ops := [EData [1]; EData [2]; EData [3]; EData [4]] in
  reached Debug W8 ops e out
  /\ enc_data Debug e [7;7] = Ok (e1, new1) /\ map type_of new1 = [2; 1]
  /\ enc_data Debug (set_code_type e false) [7;7] = Ok (e2, new2) /\ map type_of new2 = [1; 1]
  /\ short_data (ops ++ [ESetCode false] ++ [EData [7;7]]).
Proof.
  do 6 eexists. split; [vm_compute; reflexivity|]. split; [vm_compute; reflexivity|].
  split; [vm_compute; reflexivity|]. split; [vm_compute; reflexivity|].
  split; [vm_compute; reflexivity|]. repeat constructor.
Qed.
