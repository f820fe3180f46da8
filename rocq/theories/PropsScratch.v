(** * Properties of the memory that is used again: C74 *)
From Coq Require Import ZArith NArith List Bool.
From Verif Require Import Outcome GF Containers Packetizer Matrix Encoder EncoderRun DetailDecoder DecoderFacts Decoder Handlers Scratch ScratchFacts.
Import ListNotations.
Open Scope N_scope.

(** ** C74: no trace of earlier calls in the reused memory *)

(** The sender: the calls of the packet handler, how each call of the user ends and
    the state are the same for all contents of the buffers of the packetizer and of
    the repair that is used again. The handler may throw at any time. *)
Theorem C74_sender :
  forall h m e tr ops, shrun h m e tr ops = hrun h m e tr (map snd ops).
Proof. intros h m e tr ops. apply shrun_spec. Qed.
Print Assumptions C74_sender.

Theorem C74_sender_any_memory :
  forall h m e tr ops ops', map snd ops = map snd ops' -> shrun h m e tr ops = shrun h m e tr ops'.
Proof. intros h m e tr ops ops' E. rewrite !shrun_spec, E. reflexivity. Qed.
Print Assumptions C74_sender_any_memory.

(** The receiver, from its construction on and for arbitrary packets: the data, the
    acks, the exceptions and the state are the same for all contents of the buffers of
    the packetizer, of the two matrices and of the index, and for all contents of memory
    that was never written. With assertions there is no further condition. *)
Theorem C74_receiver :
  forall m clk f o ops,
  m = Debug \/ drun m clk (new_dec clk f o) (map snd ops) <> Fault Uninitialised ->
  sdrun m clk (new_dec clk f o) ops = drun m clk (new_dec clk f o) (map snd ops).
Proof. intros m clk f o ops H. apply sdrun_spec; [apply good_new | exact H]. Qed.
Print Assumptions C74_receiver.

Theorem C74_receiver_any_memory :
  forall m clk f o ops ops', map snd ops = map snd ops' ->
  m = Debug \/ drun m clk (new_dec clk f o) (map snd ops) <> Fault Uninitialised ->
  sdrun m clk (new_dec clk f o) ops = sdrun m clk (new_dec clk f o) ops'.
Proof.
  intros m clk f o ops ops' E H.
  rewrite !C74_receiver; [rewrite E; reflexivity | rewrite <- E; exact H | exact H].
Qed.
Print Assumptions C74_receiver_any_memory.

(** One recovered datum, made from one repair: all of its bytes are
    written, although its memory is not initialised. *)
Theorem C74_fresh_memory :
  forall m f r mem mem', screate_source mem m f r = screate_source mem' m f r.
Proof. intros m f r mem mem'. rewrite !screate_source_spec. reflexivity. Qed.
Print Assumptions C74_fresh_memory.

(** ** Examples *)

(** Memory full of other values. *)
Definition dirty (x : N) : pscratch :=
  {| ps_diff := [x; 7; 9]; ps_rle := [(x, 3); (200, x)] |}.
Definition dirty_sender (x : N) : ememory :=
  {| em_ps := fun b => dirty (if b then x else x + 1);
     em_repair := fun _ => {| er_id := x; er_ids := [x; x + 5]; er_enc := x; er_sym := [x; x; x; x; x; x] |} |}.
Definition dirty_receiver (x : N) : dmemory :=
  {| dm_read := dirty x; dm_acks := fun k => dirty (x + N.of_nat k);
     dm_coeff := [x; 1; x; 2; x]; dm_inv := repeat x 40; dm_index := [x; x];
     dm_grow := fun k => x + N.of_nat k; dm_fresh := fun r k => r + x + N.of_nat k |}.

(** The packet handler throws in the middle of the first repair, and the user goes
    on with another repair, for which nothing of the first one is found. *)
Definition angry : handler := fun tr c => Nat.eqb (length tr) 13.

Example C74_sender_case :
  let ops := [EData [1; 2]; EData [3; 4; 5]; ERepair; ERepair] in
  let rs := snd (shrun angry Debug (new_encoder W8) [] (map (fun op => (dirty_sender 77, op)) ops)) in
  map snd rs = [HDone; HDone; HThrew; HThrew] /\ map (fun r => length (fst r)) rs = [5; 5; 3; 0]%nat.
Proof. vm_compute. split; reflexivity. Qed.

(** Two lost data are recovered from two repairs with the matrices full of junk. *)
Definition packets (ops : list eop) : list packet :=
  match erun Debug (new_encoder W8) ops with Ok (_, l) => l | _ => [] end.

Example C74_receiver_case :
  let ps := packets [EData [1; 2]; EData [3; 4; 5]; ERepair; ERepair] in
  let ops := map (fun p => (dirty_receiver 99, DPacket p)) (skipn 2 ps) in
  exists d, sdrun Release (fun _ => 0%Z) (new_dec (fun _ => 0%Z) W8 false) ops
            = Ok (d, [ToUser [1; 2]; ToUser [3; 4; 5]]).
Proof. eexists. vm_compute. reflexivity. Qed.

(** Without assertions, packets that no sender would send lead to a decoding with
    more repairs than missing sources. What it does depends on the matrix of an
    earlier decoding. *)
Definition made_repair (id : N) (ids : list N) : packet :=
  match write_repair Debug {| er_id := id; er_ids := ids; er_enc := 1; er_sym := [7; 9] |} with
  | Ok l => concat l
  | _ => []
  end.
Definition with_matrix (l : list N) : dmemory :=
  {| dm_read := new_pscratch; dm_acks := fun _ => new_pscratch; dm_coeff := l; dm_inv := [];
     dm_index := []; dm_grow := fun _ => 0; dm_fresh := fun _ _ => 0 |}.

Theorem C74_more_repairs_refuted :
  exists ops op mem mem' d,
  drun Release (fun _ => 0%Z) (new_dec (fun _ => 0%Z) W4 false) ops = Ok (d, [ToUser [1]])
  /\ snd (sdstep mem Release (fun _ => 0%Z) d op) = Ok []
  /\ exists x y, snd (sdstep mem' Release (fun _ => 0%Z) d op) = Ok [ToUser x; ToUser y].
Proof.
  exists (map DPacket [concat (write_source {| es_id := 0; es_data := [1] |}); made_repair 16 [0; 1; 2; 3];
                       made_repair 0 [0; 2; 3]; made_repair 15 [0; 2; 3]]).
  exists (DPacket (made_repair 17 [2; 3])), (with_matrix []), (with_matrix [0; 0; 1]).
  eexists. split; [vm_compute; reflexivity|]. split; [vm_compute; reflexivity|].
  eexists. eexists. vm_compute. reflexivity.
Qed.
Print Assumptions C74_more_repairs_refuted.
