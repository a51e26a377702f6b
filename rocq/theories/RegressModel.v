(** graph.py:59-160 [ValueExpr], [ShapeEngine] and 1082-1181 [Graph.shape_regress].
    What the regression needs from the graph is a function [infer] from the values of the shape
    variables to the shapes of the dynamic tensors (it stands for generate_input, shape_infer and
    get_dynamic_tensors, which deep-copies, graph.py:1008-1013), and for each tensor the inputs of
    its producer.  Warnings are not modelled. *)
From Coq Require Import DecimalString Reals.
From Verif Require Import PyBase GraphModel FloatPy ShapeModel SerialModel.
Open Scope Z_scope.

(** [l[len(l)-1]] and [l[0]]; an empty range is an IndexError. *)
Definition zlast (l : list Z) : sres Z := py_index l (zlen l - 1).

(** graph.py:100-104 *)
Definition truncate_int (mode y : Z) : Z := y. (* math.ceil / math.floor of an int *)
Definition truncate_float (mode : Z) (y : R) : Z := if mode =? 0 then py_ceil y else py_floor y.
(** graph.py:94-99 [ValueExpr.__call__]; factor 0: integer arithmetic; factor 1: [x / alpha + beta] in floats. *)
Definition expr_call (e : expr) (x : Z) : sres Z :=
  if e_factor e =? 0 then SOk (truncate_int (e_trunc e) (e_alpha e * x + e_beta e))
  else if e_alpha e =? 0 then SRaise ZeroDivErr
  else SOk (truncate_float (e_trunc e) (fadd (fdiv_int x (e_alpha e)) (rnd (IZR (e_beta e))))).
(** graph.py:73-92 [ValueExpr.build_expr] *)
Definition sum_diff (test dst : list Z) : Z := fold_left Z.add (map (fun p => fst p - snd p) (combine test dst)) 0.
Definition build_expr (src dst : list Z) : sres expr :=
  let lastidx := zlen src - 1 in
  let* sl := py_index src lastidx in
  let* s0 := py_index src 0 in
  let srclen := sl - s0 in
  let* dl := py_index dst lastidx in
  let* d0 := py_index dst 0 in
  let dstlen := dl - d0 in
  let* e :=
    (if srclen <=? dstlen then
       if srclen =? 0 then SRaise ZeroDivErr
       else
         let alpha := py_round (fdiv_int dstlen srclen) in
         SOk {| e_alpha := alpha; e_beta := dl - sl * alpha; e_factor := 0; e_trunc := 0 |}
     else
       if dstlen =? 0 then SRaise ZeroDivErr
       else
         let alpha := py_round (fdiv_int srclen dstlen) in
         if alpha =? 0 then SRaise ZeroDivErr
         else SOk {| e_alpha := alpha; e_beta := py_round (fsub (rnd (IZR dl)) (fdiv_int sl alpha)); e_factor := 1; e_trunc := 0 |}) in
  let* test := smap (expr_call e) src in
  SOk (if sum_diff test dst =? 0 then e
       else {| e_alpha := e_alpha e; e_beta := e_beta e; e_factor := e_factor e; e_trunc := 1 |}).

(** ** ShapeEngine *)
(** an entry of a tensor descriptor: an int or a variable name *)
Inductive delem := DI (z : Z) | DV (v : string).
Record sengine := { se_vars : dict Z; se_desc : dict (list delem); se_expr : dict (string * expr) }.
(** graph.py:108-115: the constructor copies the input descriptors. *)
Definition new_engine (input_desc : dict (list delem)) : sengine :=
  {| se_vars := []; se_desc := fold_left (fun d p => dset d (fst p) (snd p)) input_desc []; se_expr := [] |}.
(** graph.py:117-118 *)
Definition update_variable (en : sengine) (k : string) (v : Z) : sengine :=
  {| se_vars := dset (se_vars en) k v; se_desc := se_desc en; se_expr := se_expr en |}.
(** graph.py:120-127 *)
Fixpoint desc_shape (vars : dict Z) (d : list delem) : sres (list Z) :=
  match d with
  | [] => SOk []
  | e :: r =>
      let* v := match e with DI z => SOk z | DV k => match dget vars k with Some v => SOk v | None => SRaise KeyErr end end in
      let* t := desc_shape vars r in SOk (v :: t)
  end.
(** graph.py:128-129 *)
Definition add_tensor_desc (en : sengine) (t : string) (d : list delem) : sengine :=
  {| se_vars := se_vars en; se_desc := dset (se_desc en) t d; se_expr := se_expr en |}.
(** graph.py:131-134 *)
Definition update_tensor_desc (en : sengine) (t : string) (axis : nat) (vkey : string) : sres sengine :=
  match dget (se_desc en) t with
  | None => SRaise KeyErr
  | Some d =>
      match nth_error d axis with
      | None => SRaise IndexErr
      | Some (DI _) => SRaise AssertErr
      | Some (DV _) => SOk (add_tensor_desc en t (set_nth d axis (DV vkey)))
      end
  end.
(** graph.py:141-143 *)
Definition add_expr (en : sengine) (var src : string) (e : expr) : sengine :=
  {| se_vars := dset (se_vars en) var 0; se_desc := se_desc en; se_expr := dset (se_expr en) var (src, e) |}.
(** graph.py:145-148 *)
Fixpoint run_exprs (ex : dict (string * expr)) (vars : dict Z) : sres (dict Z) :=
  match ex with
  | [] => SOk vars
  | (k, (src, e)) :: r =>
      match dget vars src with
      | None => SRaise KeyErr
      | Some x => let* y := expr_call e x in run_exprs r (dset vars k y)
      end
  end.
Definition update_variables (en : sengine) : sres sengine :=
  let* v := run_exprs (se_expr en) (se_vars en) in
  SOk {| se_vars := v; se_desc := se_desc en; se_expr := se_expr en |}.
(** graph.py:150-153 *)
Definition get_tensorshape (en : sengine) (t : string) : sres (list Z) :=
  match dget (se_desc en) t with None => SRaise KeyErr | Some d => desc_shape (se_vars en) d end.

(** ** shape_regress *)
(** [str(n)], [s.isnumeric()] and [int(s)] for ASCII digits (other Unicode numerals are not modelled). *)
Definition dec (n : nat) : string := NilZero.string_of_uint (Nat.to_uint n).
Definition numeric_value (s : string) : option nat :=
  match s with EmptyString => None | _ => option_map Nat.of_uint (NilEmpty.uint_of_string s) end.

Record rgraph := { rg_infer : dict Z -> sres (dict (list Z)); rg_producer : string -> option (list string) }.

(** graph.py:1123-1132 [range_in_rangelist] *)
Definition same_range (a b : list Z) : bool := forallb (fun p => fst p =? snd p) (combine a b).
Fixpoint find_range (r : list Z) (l : list (list Z)) (i : nat) : option nat :=
  match l with [] => None | x :: t => if same_range r x then Some i else find_range r t (S i) end.
(** graph.py:1143-1151: numeric variable names in the descriptors of the producer's inputs. *)
Definition source_keys (en : sengine) (vcount : nat) (inputs : list string) : list string :=
  flat_map (fun i => match dget (se_desc en) i with
                     | None => []
                     | Some d => flat_map (fun e => match e with
                                                    | DI _ => []
                                                    | DV v => match numeric_value v with
                                                              | Some n => if (vcount <=? n)%nat then [v] else []
                                                              | None => [] end
                                                    end) d
                     end) inputs.

(** the inner loop's state: engine, dstranges, tensor_range_map *)
Definition rstate := (sengine * list (list Z) * dict (list Z))%type.
(** graph.py:1138-1179: one dimension [i] of tensor [vkey] with its samples [nr]. *)
Definition regress_dim (g : rgraph) (key : string) (src : list Z) (vcount : nat) (vkey : string) (i : nat) (nr : list Z)
    (st : rstate) : sres rstate :=
  let '(en, dst, trm) := st in
  match find_range nr dst 0 with
  | None =>
      match rg_producer g vkey with
      | None => SRaise KeyErr
      | Some inputs =>
          let vidx := dec (vcount + length dst) in
          let* e_src :=
            match source_keys en vcount inputs with
            | [] => let* e := build_expr src nr in SOk (e, key)
            | k :: _ => match dget trm k with
                        | None => SRaise KeyErr
                        | Some r => let* e := build_expr r nr in SOk (e, k)
                        end
            end in
          let en := add_expr en vidx (snd e_src) (fst e_src) in
          let* en := update_tensor_desc en vkey i vidx in
          SOk (en, dst ++ [nr], dset trm vidx nr)
      end
  | Some O => let* en := update_tensor_desc en vkey i key in SOk (en, dst, trm)
  | Some j => let* en := update_tensor_desc en vkey i (dec (vcount + j)) in SOk (en, dst, trm)
  end.
(** graph.py:1136-1138: the dimensions of one tensor. *)
Fixpoint regress_dims (g : rgraph) (key : string) (src : list Z) (vcount : nat) (vkey : string) (s0 s1 s2 : list Z)
    (is : list nat) (st : rstate) : sres rstate :=
  match is with
  | [] => SOk st
  | i :: r =>
      let* a := py_index s0 (Z.of_nat i) in
      let* b := py_index s1 (Z.of_nat i) in
      let* st' :=
        (if negb (a =? b) then
           let* c := py_index s2 (Z.of_nat i) in regress_dim g key src vcount vkey i [a; b; c] st
         else
           let* c := py_index s2 (Z.of_nat i) in
           if negb (a =? c) then regress_dim g key src vcount vkey i [a; b; c] st else SOk st) in
      regress_dims g key src vcount vkey s0 s1 s2 r st'
  end.
(** graph.py:1133-1136 *)
Fixpoint regress_tensors (g : rgraph) (input_desc : dict (list delem)) (key : string) (src : list Z) (vcount : nat)
    (m0 m1 m2 : dict (list Z)) (ts : dict (list Z)) (st : rstate) : sres rstate :=
  match ts with
  | [] => SOk st
  | (t, s0) :: r =>
      if dhas input_desc t then regress_tensors g input_desc key src vcount m0 m1 m2 r st
      else
        match dget m1 t, dget m2 t with
        | Some s1, Some s2 =>
            let* st' := regress_dims g key src vcount t s0 s1 s2 (seq 0 (length s0)) st in
            regress_tensors g input_desc key src vcount m0 m1 m2 r st'
        | _, _ => SRaise KeyErr
        end
  end.
(** graph.py:1107-1180: one variable. *)
Fixpoint regress_vars (g : rgraph) (input_desc : dict (list delem)) (m0 : dict (list Z)) (ranges : dict (Z * Z)) (vcount : nat)
    (en : sengine) : sres sengine :=
  match ranges with
  | [] => SOk en
  | (key, (mn, mx)) :: r =>
      let mid := (mn + mx) / 2 in
      let en := update_variable en key mid in
      let* m1 := rg_infer g (se_vars en) in
      let en := update_variable en key mx in
      let* m2 := rg_infer g (se_vars en) in
      let en := update_variable en key mn in
      let src := [mn; mid; mx] in
      let* st := regress_tensors g input_desc key src vcount m0 m1 m2 m0 (en, [src], []) in
      let '(en, dst, _) := st in
      regress_vars g input_desc m0 r (vcount + length dst) en
  end.
(** graph.py:1095-1106: the descriptors of the tensors that are not inputs. *)
Fixpoint min_max_desc (a b : list Z) : list delem :=
  match a, b with x :: r, y :: t => (if x =? y then DI x else DV "") :: min_max_desc r t | _, _ => [] end.
Fixpoint init_desc (input_desc : dict (list delem)) (mins maxs : dict (list Z)) (ts : dict (list Z)) (en : sengine) : sres sengine :=
  match ts with
  | [] => SOk en
  | (t, s) :: r =>
      if dhas input_desc t then init_desc input_desc mins maxs r en
      else match dget maxs t with
           | None => SRaise KeyErr
           | Some m => init_desc input_desc mins maxs r (add_tensor_desc en t (min_max_desc s m))
           end
  end.
Definition shape_regress (g : rgraph) (input_desc : dict (list delem)) (ranges : dict (Z * Z)) : sres sengine :=
  let en := new_engine input_desc in
  let en := fold_left (fun en p => update_variable en (fst p) (snd (snd p))) ranges en in
  let* maxs := rg_infer g (se_vars en) in
  let en := fold_left (fun en p => update_variable en (fst p) (fst (snd p))) ranges en in
  let* mins := rg_infer g (se_vars en) in
  let* en := init_desc input_desc mins maxs mins en in
  regress_vars g input_desc mins ranges 0 en.
