(** onnx_tool/utils.py:78-158 [Registry] and node.py:3375-3382 [create_node]. *)
From Verif Require Import PyBase ShapeModel.
Open Scope string_scope. Open Scope list_scope.

Section REG.
Context {A : Type}.
(** a class or function with its [__name__]; an object given to [R[name] = obj] *)
Inductive reg_op :=
| RSet (name : string) (obj : A)            (* R[name] = obj *)
| RCall (obj : option (string * A))         (* R.register(obj); [None] is Python's None: returns a decorator *)
| RDeco (name : string) (obj : A).          (* @R.register() class name *)
Definition registry := dict A.
(** utils.py:107-114 [__setitem__]: second component: a warning is emitted *)
Definition setitem (r : registry) (name : string) (obj : A) : registry * bool := (dset r name obj, dhas r name).
(** utils.py:116-135 [register] *)
Definition reg_step (r : registry) (o : reg_op) : registry * bool :=
  match o with
  | RSet n x => setitem r n x
  | RCall None => (r, false)
  | RCall (Some (n, x)) => setitem r n x
  | RDeco n x => setitem r n x
  end.
(** utils.py:99-105 [__init__], then a history of registrations *)
Fixpoint reg_run (r : registry) (h : list reg_op) : registry :=
  match h with [] => r | o :: t => reg_run (fst (reg_step r o)) t end.
(** utils.py:137-141 [get]; [None] is Python's None *)
Definition reg_get (r : registry) (name : string) : option A := dget r name.
(** utils.py:143-146 [__getitem__] *)
Definition reg_getitem (r : registry) (name : string) : sres A :=
  if dhas r name then match dget r name with Some x => SOk x | None => SRaise KeyErr end else SRaise KeyErr.
(** utils.py:148-149 *)
Definition reg_contains (r : registry) (name : string) : bool := dhas r name.
(** utils.py:151-155 *)
Definition reg_iter (r : registry) : list (string * A) := r.
Definition reg_keys (r : registry) : list string := dkeys r.
(** node.py:3375-3382: the class instantiated for an operator type, and whether a warning is emitted.
    Simplification: a registered object equal to None is not considered. *)
Definition create_node_class (r : registry) (base : A) (op : string) : A * bool :=
  match reg_get r (op ++ "Node")%string with Some c => (c, false) | None => (base, true) end.
End REG.
Arguments reg_op : clear implicits.
Arguments registry : clear implicits.
