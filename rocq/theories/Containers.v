(** * Models of the sorted containers of the code

    boost::container::flat_set and boost::container::map are modelled by lists
    sorted by key. Iterators are modelled by keys. *)
From Coq Require Import NArith List Bool.
Import ListNotations.
Open Scope N_scope.

(** ** Sorted sets: source_id_list.hh 16, decoder.hh 48-49 *)

(** [flat_set::insert]. *)
Fixpoint sinsert (x : N) (l : list N) : list N :=
  match l with
  | [] => [x]
  | y :: l' =>
      if x <? y then x :: l
      else if x =? y then l
      else y :: sinsert x l'
  end.

(** [flat_set::erase(key)]. *)
Fixpoint serase (x : N) (l : list N) : list N :=
  match l with
  | [] => []
  | y :: l' => if x =? y then l' else y :: serase x l'
  end.

(** [flat_set::count] / [find != end]. *)
Fixpoint smem (x : N) (l : list N) : bool :=
  match l with
  | [] => false
  | y :: l' => (x =? y) || smem x l'
  end.

(** ** Sorted maps: decoder.hh 26-29, 53, 157 *)

Section Maps.
Context {V : Type}.

(** [map::find]. *)
Fixpoint mfind (k : N) (m : list (N * V)) : option V :=
  match m with
  | [] => None
  | (k', v) :: m' => if k =? k' then Some v else mfind k m'
  end.

(** [operator[](k) = v]; [emplace] and [insert] when the key is absent. *)
Fixpoint mset (k : N) (v : V) (m : list (N * V)) : list (N * V) :=
  match m with
  | [] => [(k, v)]
  | (k', v') :: m' =>
      if k <? k' then (k, v) :: m
      else if k =? k' then (k, v) :: m'
      else (k', v') :: mset k v m'
  end.

(** [map::erase(key)] and [erase(iterator)]. *)
Fixpoint merase (k : N) (m : list (N * V)) : list (N * V) :=
  match m with
  | [] => []
  | (k', v') :: m' => if k =? k' then m' else (k', v') :: merase k m'
  end.

(** [emplace] / [insert]: an existing element is kept. *)
Definition mput (k : N) (v : V) (m : list (N * V)) : list (N * V) :=
  match mfind k m with
  | Some _ => m
  | None => mset k v m
  end.

Definition mmem (k : N) (m : list (N * V)) : bool :=
  match mfind k m with Some _ => true | None => false end.

(** The keys, in increasing order. *)
Definition mkeys (m : list (N * V)) : list N := map fst m.

End Maps.
