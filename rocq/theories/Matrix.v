(** * Matrix inversion: model of [netcode/detail/invert_matrix.cc] and
      [netcode/detail/square_matrix.hh]

    A matrix of dimension [n] is its storage [m_vec], a list of [n * n] values
    (square_matrix.hh 16-20, 95). Reading or writing outside of it is a fault. *)
From Coq Require Import NArith List Bool Arith.
From Verif Require Import Outcome GF.
Import ListNotations.
Open Scope N_scope.

(** [operator[]], square_matrix.hh 54-70. *)
Definition get (v : list N) (k : nat) : outcome N :=
  match nth_error v k with
  | Some x => Ok x
  | None => Fault OutOfBounds
  end.

Fixpoint upd (v : list N) (k : nat) (x : N) : list N :=
  match v, k with
  | [], _ => []
  | _ :: v', O => x :: v'
  | y :: v', S k' => y :: upd v' k' x
  end.

Definition set (v : list N) (k : nat) (x : N) : outcome (list N) :=
  if Nat.ltb k (length v) then Ok (upd v k x) else Fault OutOfBounds.

(** [operator()(row, col)], square_matrix.hh 22-36. *)
Definition index (n row col : nat) : nat := (col * n + row)%nat.

(** A [for] loop over the given indices. *)
Fixpoint loop {S} (is : list nat) (body : nat -> S -> outcome S) (s : S) : outcome S :=
  match is with
  | [] => Ok s
  | i :: is' => s' <- body i s ;; loop is' body s'
  end.

(** invert_matrix.cc 18-24. *)
Definition set_identity (n : nat) (inv : list N) : outcome (list N) :=
  loop (seq 0 n) (fun i inv =>
    loop (seq 0 n) (fun j inv =>
      set inv (index n i j) (if Nat.eqb i j then 1 else 0)) inv) inv.

(** invert_matrix.cc 35-38: the search of a row to swap with, from [j];
    [k] is [rows - j]. *)
Fixpoint find_row (n i : nat) (mat : list N) (k j : nat) : outcome nat :=
  match k with
  | O => Ok j
  | S k' =>
      x <- get mat (n * j + i) ;;
      if x =? 0 then find_row n i mat k' (S j) else Ok j
  end.

(** invert_matrix.cc 46-56, for one of the two matrices. The original
    interleaves the exchanges of both matrices, which do not share memory. *)
Definition swap_rows (n i j : nat) (v : list N) : outcome (list N) :=
  loop (seq 0 n) (fun k v =>
    tmp <- get v (i * n + k) ;;
    x <- get v (j * n + k) ;;
    v <- set v (i * n + k) x ;;
    set v (j * n + k) tmp) v.

(** invert_matrix.cc 64-68, for one of the two matrices. *)
Definition scale_row (f : field) (n i : nat) (c : N) (v : list N) : outcome (list N) :=
  loop (seq 0 n) (fun j v =>
    x <- get v (i * n + j) ;;
    set v (i * n + j) (gf_multiply f x c)) v.

(** invert_matrix.cc 80-85, for one of the two matrices. *)
Definition xor_row (n i j : nat) (v : list N) : outcome (list N) :=
  loop (seq 0 n) (fun x v =>
    a <- get v (n * j + x) ;;
    b <- get v (i * n + x) ;;
    set v (n * j + x) (N.lxor a b)) v.

(** invert_matrix.cc 89-95 and 112-115, for one of the two matrices. *)
Definition add_row (f : field) (n i j : nat) (c : N) (v : list N) : outcome (list N) :=
  loop (seq 0 n) (fun x v =>
    a <- get v (n * j + x) ;;
    b <- get v (i * n + x) ;;
    set v (n * j + x) (N.lxor a (gf_multiply f c b))) v.

(** invert_matrix.cc 71-98. *)
Definition eliminate (f : field) (n i : nat) (mv : list N * list N) : outcome (list N * list N) :=
  loop (seq (S i) (n - S i)) (fun j mv =>
    let '(mat, inv) := mv in
    x <- get mat (i * n + i + (j - i) * n) ;;
    if x =? 0 then Ok (mat, inv)
    else if x =? 1 then
      mat <- xor_row n i j mat ;;
      inv <- xor_row n i j inv ;;
      Ok (mat, inv)
    else
      mat <- add_row f n i j x mat ;;
      inv <- add_row f n i j x inv ;;
      Ok (mat, inv)) mv.

(** invert_matrix.cc 27-99, one iteration; [inl] is the early return of the
    index. *)
Definition pivot (f : field) (n i : nat) (mv : list N * list N)
  : outcome (nat + list N * list N) :=
  let '(mat, inv) := mv in
  x <- get mat (i * n + i) ;;
  r <- (if x =? 0 then
          j <- find_row n i mat (n - S i) (S i) ;;
          if Nat.eqb j n then Ok (inl (j - 1)%nat)
          else
            mat <- swap_rows n i j mat ;;
            inv <- swap_rows n i j inv ;;
            Ok (inr (mat, inv))
        else Ok (inr (mat, inv))) ;;
  match r with
  | inl k => Ok (inl k)
  | inr (mat, inv) =>
      tmp <- get mat (i * n + i) ;;
      mv <- (if tmp =? 1 then Ok (mat, inv)
             else
               let inverse := gf_invert f tmp in
               mat <- scale_row f n i inverse mat ;;
               inv <- scale_row f n i inverse inv ;;
               Ok (mat, inv)) ;;
      mv <- eliminate f n i mv ;;
      Ok (inr mv)
  end.

Fixpoint triangulate (f : field) (n : nat) (is : list nat) (mv : list N * list N)
  : outcome (nat + list N * list N) :=
  match is with
  | [] => Ok (inr mv)
  | i :: is' =>
      r <- pivot f n i mv ;;
      match r with
      | inl k => Ok (inl k)
      | inr mv => triangulate f n is' mv
      end
  end.

(** invert_matrix.cc 101-123. For dimension 0 the index [rows - 1] wraps and
    the first access is outside of the matrix. *)
Definition back_substitute (f : field) (n : nat) (mv : list N * list N)
  : outcome (list N * list N) :=
  if Nat.eqb n 0 then Fault OutOfBounds
  else loop (rev (seq 0 n)) (fun i mv =>
    loop (seq 0 i) (fun j mv =>
      let '(mat, inv) := mv in
      tmp <- get mat (j * n + i) ;;
      if tmp =? 0 then Ok (mat, inv)
      else
        mat <- set mat (j * n + i) 0 ;;
        inv <- add_row f n i j tmp inv ;;
        Ok (mat, inv)) mv) mv.

(** [invert], invert_matrix.cc 9-127. [inl k] is the returned index of a
    failure; [inr] is success, with both matrices. The dimensions are equal:
    the assertion 13 compares [n] with itself here. *)
Definition invert (f : field) (n : nat) (mat inv : list N)
  : outcome (nat + list N * list N) :=
  inv <- set_identity n inv ;;
  r <- triangulate f n (seq 0 n) (mat, inv) ;;
  match r with
  | inl k => Ok (inl k)
  | inr mv => mv <- back_substitute f n mv ;; Ok (inr mv)
  end.
