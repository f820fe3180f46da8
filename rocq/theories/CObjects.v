(** * Model of programs with any number of objects of the C interface: netcode/c/data.cc, packet.cc,
    encoder.cc, decoder.cc

    The program keeps the pointers in variables. Two variables never hold the same pointer. What a call does to the objects
    behind its arguments is the model of [CSession.v]. Errors of the allocator are not modelled. *)
From Coq Require Import ZArith NArith List Bool.
From Verif Require Import Outcome GF Packetizer Packet Encoder EncoderRun DetailDecoder Decoder DecoderOuter CApi CSession.
Import ListNotations.
Open Scope N_scope.

(** c/detail/types.hh 11-29 and c/error.h 24-33. An encoder comes with the packets its callback got, a decoder with
    the times its clock shows and with what its callbacks got. An ntc_error is the caller's, with the messages allocated for it. *)
Inductive obj :=
| OEncoder (e : enc) (sent : list packet)
| ODecoder (clk : clock) (d : dec) (acks : list packet) (read : list (list N))
| OData (l : list N)
| OPacket (p : pkt)
| OError (e : c_error) (h : heap).

Inductive kind := KEncoder | KDecoder | KData | KPacket | KError.

Definition kind_of (b : obj) : kind :=
  match b with
  | OEncoder _ _ => KEncoder
  | ODecoder _ _ _ _ => KDecoder
  | OData _ => KData
  | OPacket _ => KPacket
  | OError _ _ => KError
  end.

Definition kind_eqb (a b : kind) : bool :=
  match a, b with
  | KEncoder, KEncoder | KDecoder, KDecoder | KData, KData | KPacket, KPacket | KError, KError => true
  | _, _ => false
  end.

(** A variable: without value, with the pointer to a deleted object, with the pointer to an object. *)
Inductive var := Unset | Gone | Held (b : obj).

Definition store := nat -> var.
Definition update (st : store) (x : nat) (v : var) : store := fun y => if Nat.eqb y x then v else st y.

(** The arguments of a call. *)
Record args := { a_enc : nat; a_dec : nat; a_data : nat; a_packet : nat; a_err : nat }.
Definition arg (v : args) (k : kind) : nat :=
  match k with KEncoder => a_enc v | KDecoder => a_dec v | KData => a_data v | KPacket => a_packet v | KError => a_err v end.

(** Which arguments a function has, and which kind of object it makes (the signatures in c/*.h). *)
Inductive role := Unused | Used | Made.

Definition role_of (o : cop) (k : kind) : role :=
  match o with
  | NewData _ | NewDataFrom _ => match k with KData => Made | _ => Unused end
  | DataPut _ _ | DataSize => match k with KData => Used | _ => Unused end
  | DataResize _ => match k with KData | KError => Used | _ => Unused end
  | NewPacket _ | NewPacketFrom _ => match k with KPacket => Made | _ => Unused end
  | PacketPut _ _ | PacketSize => match k with KPacket => Used | _ => Unused end
  | PacketResize _ => match k with KPacket | KError => Used | _ => Unused end
  | AddData => match k with KEncoder | KData | KError => Used | _ => Unused end
  | EncAddPacket => match k with KEncoder | KPacket | KError => Used | _ => Unused end
  | GenerateRepair => match k with KEncoder | KError => Used | _ => Unused end
  | Window | SetCodeType _ | SetRate _ | SetWindowSize _ | SetAdaptive _ => match k with KEncoder => Used | _ => Unused end
  | DecAddPacket => match k with KDecoder | KPacket | KError => Used | _ => Unused end
  | GenerateAck => match k with KDecoder | KError => Used | _ => Unused end
  | SetAckPeriod _ | SetAckNbPackets _ => match k with KDecoder => Used | _ => Unused end
  end.

Inductive ccall :=
| MakeEncoder (x : nat) (f : field)                             (* encoder.cc 8-14 *)
| MakeDecoder (x : nat) (clk : clock) (f : field) (ordered : bool) (* decoder.cc 9-19 *)
| MakeError (x : nat) (e : c_error) (h : heap)                  (* the caller's own *)
| Delete (k : kind) (x : nat)   (* encoder.cc 18-23, decoder.cc 23-28, data.cc 26-31, packet.cc 26-31; of an error: end of life *)
| Call (o : cop) (v : args).    (* the other functions, and those that make data and packets *)

(** The end of a call: it returns, it follows a pointer to no object or to one of another kind, or the library itself
    fails or throws. *)
Inductive ending (A : Type) :=
| Back (a : A)
| Dangling
| Escaped (e : exn)
| Inside (f : fault).
Arguments Back {A} a.
Arguments Dangling {A}.
Arguments Escaped {A} e.
Arguments Inside {A} f.

Definition chain {A B} (x : ending A) (k : A -> ending B) : ending B :=
  match x with Back a => k a | Dangling => Dangling | Escaped e => Escaped e | Inside f => Inside f end.

Definition lift {A} (x : outcome A) : ending A :=
  match x with Ok a => Back a | Throw e => Escaped e | Fault f => Inside f end.

Definition fetch (r : role) (k : kind) (v : var) (default : obj) : ending obj :=
  match r with
  | Used => match v with
            | Held b => if kind_eqb (kind_of b) k then Back b else Dangling
            | _ => Dangling
            end
  | _ => Back default
  end.

(** Stand for arguments a function does not have. *)
Definition no_error : c_error := {| ce_type := NoError; ce_message := Null |}.
Definition no_heap : heap := {| h_live := []; h_next := 0 |}.
Definition no_clock : clock := fun _ => 0%Z.
Definition default (k : kind) : obj :=
  match k with
  | KEncoder => OEncoder (new_encoder W8) []
  | KDecoder => ODecoder no_clock (new_dec no_clock W8 true) [] []
  | KData => OData []
  | KPacket => OPacket {| k_buffer := repeat 0 shift |}
  | KError => OError no_error no_heap
  end.

Definition session_of (e d a p r : obj) : clock * session :=
  let '(enc, sent) := match e with OEncoder e s => (e, s) | _ => (new_encoder W8, []) end in
  let '(clk, dec, acks, got) := match d with ODecoder c d a g => (c, d, a, g) | _ => (no_clock, new_dec no_clock W8 true, [], []) end in
  let data := match a with OData l => l | _ => [] end in
  let packet := match p with OPacket p => p | _ => {| k_buffer := repeat 0 shift |} end in
  let '(err, heap) := match r with OError e h => (e, h) | _ => (no_error, no_heap) end in
  (clk, {| c_enc := enc; c_dec := dec; c_data := data; c_packet := packet; c_sent := sent; c_acks := acks; c_read := got;
           c_err := err; c_heap := heap; c_result := 0 |}).

Definition load (o : cop) (v : args) (st : store) : ending (clock * session) :=
  let get k := fetch (role_of o k) k (st (arg v k)) (default k) in
  chain (get KEncoder) (fun e =>
  chain (get KDecoder) (fun d =>
  chain (get KData) (fun a =>
  chain (get KPacket) (fun p =>
  chain (get KError) (fun r => Back (session_of e d a p r)))))).

Definition put (r : role) (x : nat) (b : obj) (st : store) : store :=
  match r with Unused => st | _ => update st x (Held b) end.

Definition save (o : cop) (v : args) (clk : clock) (s : session) (st : store) : store :=
  put (role_of o KEncoder) (a_enc v) (OEncoder (c_enc s) (c_sent s))
  (put (role_of o KDecoder) (a_dec v) (ODecoder clk (c_dec s) (c_acks s) (c_read s))
  (put (role_of o KData) (a_data v) (OData (c_data s))
  (put (role_of o KPacket) (a_packet v) (OPacket (c_packet s))
  (put (role_of o KError) (a_err v) (OError (c_err s) (c_heap s)) st)))).

(** [junk] is the content of uninitialised memory. The number is the result of the call, 0 if it has none. *)
Definition ostep (m : mode) (junk : memory) (st : store) (c : ccall) : ending (store * N) :=
  match c with
  | MakeEncoder x f => Back (update st x (Held (OEncoder (new_encoder f) [])), 0)
  | MakeDecoder x clk f o => Back (update st x (Held (ODecoder clk (new_dec clk f o) [] [])), 0)
  | MakeError x e h => Back (update st x (Held (OError e h)), 0)
  | Delete k x => match st x with
                  | Held b => if kind_eqb (kind_of b) k then Back (update st x Gone, 0) else Dangling
                  | _ => Dangling
                  end
  | Call o v =>
      chain (load o v st) (fun '(clk, s) =>
      chain (lift (cstep m clk junk s o)) (fun s' => Back (save o v clk s' st, c_result s')))
  end.

(** The results, each beside its call. *)
Fixpoint orun (m : mode) (st : store) (l : list (memory * ccall)) : ending (store * list (ccall * N)) :=
  match l with
  | [] => Back (st, [])
  | (junk, c) :: l' =>
      chain (ostep m junk st c) (fun '(st, n) =>
      chain (orun m st l') (fun '(st, rs) => Back (st, (c, n) :: rs)))
  end.

Definition no_objects : store := fun _ => Unset.
