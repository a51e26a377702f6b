(** Python containers used by every model: strings as names, lists, and
    insertion-ordered dictionaries (CPython >= 3.7 [dict]).  This file models
    the Python language runtime, not /repo code. *)
From Coq Require Export String Ascii ZArith Bool Lia Arith List.
From Coq Require Export ZifyBool.
Export ListNotations.

(** Python dict: insertion-ordered, first binding of a key is the only one read. *)
Definition dict (A : Type) := list (string * A).

(** [x in l] for a list of strings. *)
Fixpoint memb (x : string) (l : list string) : bool :=
  match l with
  | [] => false
  | y :: r => if String.eqb x y then true else memb x r
  end.

(** [d.get(k)] *)
Fixpoint dget {A} (d : dict A) (k : string) : option A :=
  match d with
  | [] => None
  | (k', v) :: r => if String.eqb k k' then Some v else dget r k
  end.

(** [k in d] *)
Definition dhas {A} (d : dict A) (k : string) : bool :=
  match dget d k with Some _ => true | None => false end.

(** [d[k] = v]: an existing key keeps its position, a new one goes last. *)
Fixpoint dset {A} (d : dict A) (k : string) (v : A) : dict A :=
  match d with
  | [] => [(k, v)]
  | (k', v') :: r => if String.eqb k k' then (k', v) :: r else (k', v') :: dset r k v
  end.

(** [d.pop(k)] (the caller knows that the key is present). *)
Fixpoint ddel {A} (d : dict A) (k : string) : dict A :=
  match d with
  | [] => []
  | (k', v') :: r => if String.eqb k k' then r else (k', v') :: ddel r k
  end.

(** [list(d.keys())] *)
Definition dkeys {A} (d : dict A) : list string := map fst d.

(** [l.remove(x)]: first occurrence only (ValueError when absent is left to the caller). *)
Fixpoint remove1 (x : string) (l : list string) : list string :=
  match l with
  | [] => []
  | y :: r => if String.eqb x y then r else y :: remove1 x r
  end.

(** number of occurrences of [x] in [l] ([l.count(x)]). *)
Fixpoint count (x : string) (l : list string) : nat :=
  match l with
  | [] => 0
  | y :: r => if String.eqb x y then S (count x r) else count x r
  end.
