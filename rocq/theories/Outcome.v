(** * Outcomes of calls to the library

    A C++ call either returns ([Ok]), throws one of the documented exceptions
    ([Throw]) or does something a caller can never rely on ([Fault]): a failed
    [assert] (Debug builds), undefined behaviour, or an abort in gf-complete. *)

(** The exceptions of [netcode/errors.hh] 12-33. *)
Inductive exn : Set :=
| PacketTypeError
| OverflowError.

Inductive fault : Set :=
| AssertFailure      (* a failed assert() in a build without NDEBUG *)
| OutOfBounds        (* access outside of a buffer *)
| EmptyFront         (* front of an empty container *)
| DeadIterator       (* dereference of end() or of an erased element *)
| Uninitialised      (* read of an uninitialised matrix entry *)
| GfMisaligned       (* gf-complete aborts: length not a multiple of the word *)
| DivisionByZero
| SignedOverflow     (* of std::int64_t *)
| OutOfFuel.         (* artefact of the model; proved unreachable *)

Inductive outcome (A : Type) : Type :=
| Ok (a : A)
| Throw (e : exn)
| Fault (f : fault).
Arguments Ok {A} a.
Arguments Throw {A} e.
Arguments Fault {A} f.

Definition bind {A B} (x : outcome A) (k : A -> outcome B) : outcome B :=
  match x with
  | Ok a => k a
  | Throw e => Throw e
  | Fault f => Fault f
  end.

Declare Scope outcome_scope.
Delimit Scope outcome_scope with outcome.
Notation "x <- e ;; k" := (bind e (fun x => k))
  (at level 61, e at next level, right associativity) : outcome_scope.
Notation "' p <- e ;; k" := (bind e (fun p => k))
  (at level 61, p pattern, e at next level, right associativity) : outcome_scope.
Open Scope outcome_scope.

(** How [assert] behaves: CMakeLists.txt selects Release (NDEBUG) by default. *)
Inductive mode : Set := Debug | Release.

Definition assert_ (m : mode) (b : bool) : outcome unit :=
  match m with
  | Release => Ok tt
  | Debug => if b then Ok tt else Fault AssertFailure
  end.

Definition is_ok {A} (x : outcome A) : Prop := exists a, x = Ok a.
Definition is_fault {A} (x : outcome A) : Prop := exists f, x = Fault f.

Lemma bind_ok {A B} (x : outcome A) (k : A -> outcome B) b :
  bind x k = Ok b -> exists a, x = Ok a /\ k a = Ok b.
Proof. destruct x; simpl; intros H; try discriminate; eauto. Qed.

Lemma bind_assoc {A B C} (x : outcome A) (f : A -> outcome B) (g : B -> outcome C) :
  bind (bind x f) g = bind x (fun a => bind (f a) g).
Proof. destruct x; reflexivity. Qed.

Lemma assert_ok m b : assert_ m b = Ok tt -> m = Debug -> b = true.
Proof. destruct m, b; simpl; congruence. Qed.
