(** * Histories of calls of an encoder *)
From Coq Require Import NArith List Bool.
From Verif Require Import Outcome GF Packetizer Encoder.
Import ListNotations.
Open Scope N_scope.

(** The member functions of encoder.hh that change the encoder. *)
Inductive eop : Type :=
| EData (d : list N)          (* operator()(data), 79-96 *)
| EPacket (p : packet)        (* operator()(packet), 98-111 *)
| ERepair                     (* generate_repair, 161-169 *)
| ESetCode (systematic : bool)
| ESetRate (rate : N)
| ESetWindow (size : N)
| ESetAdaptive (adaptive : bool).

(** One call: the new state, the packets given to the packet handler. *)
Definition estep (m : mode) (e : enc) (op : eop) : enc * outcome (list packet) :=
  let lift (x : outcome (enc * list packet)) :=
    match x with
    | Ok (e', out) => (e', Ok out)
    | Throw x => (e, Throw x)
    | Fault x => (e, Fault x)
    end in
  match op with
  | EData d => lift (enc_data m e d)
  | EPacket p => let '(e', r) := notify m e p in (e', _ <- r ;; Ok [])
  | ERepair => lift (generate_repair m e)
  | ESetCode b => (set_code_type e b, Ok [])
  | ESetRate r => lift (e' <- set_rate m e r ;; Ok (e', []))
  | ESetWindow n => lift (e' <- set_window_size m e n ;; Ok (e', []))
  | ESetAdaptive b => (set_adaptive e b, Ok [])
  end.

(** A sequence of calls; the caller survives exceptions, faults end the run.
    The packets are in the order of emission. *)
Fixpoint erun (m : mode) (e : enc) (ops : list eop) : outcome (enc * list packet) :=
  match ops with
  | [] => Ok (e, [])
  | op :: ops' =>
      match estep m e op with
      | (e', Ok out) => '(e'', out') <- erun m e' ops' ;; Ok (e'', out ++ out')
      | (e', Throw _) => erun m e' ops'
      | (_, Fault x) => Fault x
      end
  end.
