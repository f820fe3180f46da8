(** * Model of the lossy proxy: tools/lossy_proxy.cc and tools/loss/

    Two sockets; a datagram that arrives at one of them leaves through the other one, unless
    the loss model of its direction drops it. The timer that prints the counters (71-93) is
    not modelled, nor are errors of the network. *)
From Coq Require Import ZArith NArith List Bool.
From Verif Require Import Outcome GF Packetizer Encoder EncoderRun DetailDecoder Decoder System.
Import ListNotations.
Open Scope N_scope.
Open Scope outcome_scope.

(** The values of [m_dist(m_gen)], from 1 to 100. Each engine is built by its default constructor
    (uniform.hh 15, burst.hh 15): all objects get the same values. *)
Definition draws := nat -> N.

(** A loss model; [n] is the number of values drawn so far. *)
Inductive loss : Type :=
| Uniform (n : nat) (threshold : N)                     (* uniform.hh 31-34 *)
| Burst (n : nat) (is_bad : bool) (good bad : N)        (* burst.hh 60-65 *)
| File (rest : list N).                                 (* stream.hh 37-38: what is left of the file *)

(** Constructors: uniform.hh 14-20, burst.hh 13-19, stream.hh 15-17. *)
Definition new_uniform (m : mode) (threshold : N) : outcome loss :=
  _ <- assert_ m ((0 <? threshold) && (threshold <? 100)) ;; Ok (Uniform 0 threshold).
Definition new_burst (good bad : N) : loss := Burst 0 false good bad.
Definition new_file (content : list N) : loss := File content.

(** std::getline: the next line, and what follows its end; nothing at the end of the file. *)
Fixpoint split_line (s : list N) : list N * list N :=
  match s with
  | [] => ([], [])
  | c :: s => if c =? 10 then ([], s) else let '(l, r) := split_line s in (c :: l, r)
  end.
Definition getline (s : list N) : option (list N * list N) :=
  match s with
  | [] => None
  | _ => Some (split_line s)
  end.

(** [operator()]: uniform.hh 23-28, burst.hh 22-55, stream.hh 19-33. A line without characters has
    the character 0 at its first position. *)
Definition lose (g : draws) (l : loss) : bool * loss :=
  match l with
  | Uniform n t => (t <? g n, Uniform (S n) t)
  | Burst n false good bad =>
      if g n <? good then (false, Burst (S n) false good bad) else (true, Burst (S n) true good bad)
  | Burst n true good bad =>
      if g n <? bad then (true, Burst (S n) true good bad) else (false, Burst (S n) false good bad)
  | File s =>
      match getline s with
      | Some (line, s') => (negb (nth 0 line 0 =? 48), File s')
      | None => (false, File s)
      end
  end.

(** One direction: its loss model and its counters, lines 16-20. *)
Record direction := { p_loss : loss; p_losses : N; p_total : N }.

(** The proxy, 99-126: two directions and the two endpoints; that of a is unknown at first. *)
Record proxy := { p_ab : direction; p_ba : direction; p_a : option N; p_b : N }.

Definition new_direction (l : loss) : direction := {| p_loss := l; p_losses := 0; p_total := 0 |}.
Definition new_proxy (ab ba : loss) (b : N) : proxy :=
  {| p_ab := new_direction ab; p_ba := new_direction ba; p_a := None; p_b := b |}.

(** [main], 151-186, for each kind of loss: the arguments are integers that are converted to unsigned int.
    Five arguments behind "burst" (argc = 9); with three (argc = 7), argv[7] is a null pointer
    and argv[8] is outside of argv. *)
Definition unsigned (z : Z) : N := Z.to_N (z mod 4294967296)%Z.
Definition main_uniform (m : mode) (b : N) (p p_inv : Z) : outcome proxy :=
  ab <- new_uniform m (u32 (100 + 4294967296 - unsigned p)) ;;
  ba <- new_uniform m (u32 (100 + 4294967296 - unsigned p_inv)) ;;
  Ok (new_proxy ab ba b).
Definition main_burst (b : N) (args : list Z) : outcome proxy :=
  match args with
  | [good; bad; good'; bad'] =>
      Ok (new_proxy (new_burst (unsigned good) (unsigned bad)) (new_burst (unsigned good') (unsigned bad')) b)
  | _ => Fault OutOfBounds
  end.
Definition main_file (b : N) (ab ba : list N) : outcome proxy := Ok (new_proxy (new_file ab) (new_file ba) b).

(** The size of the buffers, 114-115. *)
Definition proxy_buffer : nat := N.to_nat 4096.

(** The callback, 39-65, up to the call of [send_to]: what is sent, if anything. *)
Definition listen (g : draws) (x : direction) (datagram : list N) : direction * option (list N) :=
  match firstn proxy_buffer datagram with
  | [] => (x, None)
  | cut =>
      let '(gone, l) := lose g (p_loss x) in
      ({| p_loss := l;
          p_losses := if gone then u64 (p_losses x + 1) else p_losses x;
          p_total := u64 (p_total x + 1) |},
       if gone then None else Some cut)
  end.

(** A datagram that arrives, with its sender; one that leaves, with its destination. *)
Inductive incoming : Type :=
| FromA (from : N) (datagram : list N)
| FromB (from : N) (datagram : list N).
Inductive outgoing : Type :=
| ToA (to : N) (datagram : list N)
| ToB (to : N) (datagram : list N).

(** One arrival. The endpoint of the socket becomes the sender, even of an empty datagram. [send_to] an
    endpoint that is not known yet throws, which ends the program (188-191): [None]. *)
Definition pstep (g : draws) (p : proxy) (e : incoming) : option (proxy * list outgoing) :=
  match e with
  | FromA from d =>
      let '(x, out) := listen g (p_ab p) d in
      Some ({| p_ab := x; p_ba := p_ba p; p_a := Some from; p_b := p_b p |},
            match out with Some c => [ToB (p_b p) c] | None => [] end)
  | FromB from d =>
      let '(x, out) := listen g (p_ba p) d in
      let p' := {| p_ab := p_ab p; p_ba := x; p_a := p_a p; p_b := from |} in
      match out, p_a p with
      | None, _ => Some (p', [])
      | Some c, Some a => Some (p', [ToA a c])
      | Some _, None => None
      end
  end.

Fixpoint prun (g : draws) (p : proxy) (l : list incoming) : option (proxy * list outgoing) :=
  match l with
  | [] => Some (p, [])
  | e :: l =>
      match pstep g p e with
      | Some (p, out) =>
          match prun g p l with
          | Some (p, out') => Some (p, out ++ out')
          | None => None
          end
      | None => None
      end
  end.

(** ** A sender and a receiver connected by the proxy

    The sender is at a, the receiver at b. After each call the proxy handles the new packets in the order
    of their emission, and after each of them the acks it caused. *)

(** The acks number [js] on their way to the sender. *)
Fixpoint acks_back (m : mode) (g : draws) (x : direction) (w : world) (js : list nat) : outcome (world * direction) :=
  match js with
  | [] => Ok (w, x)
  | j :: js =>
      match listen g x (nth j (w_acks w) []) with
      | (x, Some c) => w <- sender m w (EPacket c) [] ;; acks_back m g x w js
      | (x, None) => acks_back m g x w js
      end
  end.

(** From the n-th to the last. *)
Definition since (n : nat) (l : list packet) : list nat := seq n (length l - n).

(** The packets number [ks] on their way to the receiver. *)
Fixpoint packets_over (m : mode) (clk : clock) (g : draws) (ab ba : direction) (w : world) (ks : list nat)
  : outcome (world * direction * direction) :=
  match ks with
  | [] => Ok (w, ab, ba)
  | k :: ks =>
      match listen g ab (nth k (w_out w) []) with
      | (ab, Some c) =>
          w' <- receiver m clk w (DPacket c) [k] ;;
          '(w', ba) <- acks_back m g ba w' (since (length (w_acks w)) (w_acks w')) ;;
          packets_over m clk g ab ba w' ks
      | (ab, None) => packets_over m clk g ab ba w ks
      end
  end.

(** Calls of the sender and of the receiver. *)
Fixpoint proxied (m : mode) (clk : clock) (g : draws) (ab ba : direction) (w : world) (l : list action)
  : outcome (world * direction * direction) :=
  match l with
  | [] => Ok (w, ab, ba)
  | a :: l =>
      w1 <- wstep m clk w a ;;
      '(w2, ba) <- acks_back m g ba w1 (since (length (w_acks w)) (w_acks w1)) ;;
      '(w3, ab, ba) <- packets_over m clk g ab ba w2 (since (length (w_out w)) (w_out w1)) ;;
      proxied m clk g ab ba w3 l
  end.
