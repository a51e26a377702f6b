(** onnx_tool/fusion.py: pattern descriptions and pattern search. *)
From Verif Require Import PyBase GraphModel ShapeModel.
Open Scope string_scope. Open Scope Z_scope.

(** Attribute values a pattern can test.  Simplification: numbers are integers; [AvOther] is any
    value that is neither a number nor a list of numbers. *)
Inductive aval := AvInt (z : Z) | AvList (l : list Z) | AvOther.
(** A graph and the attributes of its nodes ([hasattr]/[__getattribute__]), by node name.
    Simplification: Python attributes that are not ONNX attributes (name, input, ...) are left out. *)
Record fgraph := { fg : graph; fattr : string -> string -> option aval }.

(** fusion.py:220-229: [raw = [name, expr, (idx,) num]]; [idx] is -1 when absent. *)
Record attrexpr := { x_name : string; x_op : string; x_idx : Z; x_num : Z }.
(** fusion.py:239-249: comparing a list or another object with a number: [==] is False, the order
    relations raise TypeError; an unknown operator returns None, and [flag &= None] raises TypeError. *)
Definition logical (op : string) (v : aval) (num : Z) : sres bool :=
  match v with
  | AvInt z =>
      if String.eqb op "<=" then SOk (z <=? num) else
      if String.eqb op "<" then SOk (z <? num) else
      if String.eqb op ">=" then SOk (num <=? z) else
      if String.eqb op ">" then SOk (num <? z) else
      if String.eqb op "==" then SOk (z =? num) else SRaise TypeErr
  | _ => if String.eqb op "==" then SOk false else SRaise TypeErr
  end.
(** fusion.py:231-237 *)
Definition attr_call (G : fgraph) (x : attrexpr) (n : node) : sres bool :=
  match fattr G (n_name n) (x_name x) with
  | None => SOk false
  | Some v =>
      if x_idx x =? -1 then logical (x_op x) v (x_num x)
      else match v with
           | AvList l => let* z := py_index l (x_idx x) in logical (x_op x) (AvInt z) (x_num x)
           | _ => SRaise TypeErr
           end
  end.

(** fusion.py:252-261.  An edge is [idx, descriptor name, idx on the other side]. *)
Inductive opcond := OneOp (s : string) | OpList (l : list string).
Record edge := { e_idx : Z; e_desc : string; e_other : Z }.
Record desc := { d_name : string; d_op : opcond; d_attrs : list attrexpr; d_in : list edge; d_out : list edge }.
(** fusion.py:263-272: every attribute expression is evaluated, also when the operator differs. *)
Definition op_ok (c : opcond) (op : string) : bool :=
  match c with
  | OpList l => memb op l
  | OneOp s => if String.eqb s "Any" then true else String.eqb op s
  end.
Fixpoint attrs_ok (G : fgraph) (xs : list attrexpr) (n : node) (flag : bool) : sres bool :=
  match xs with
  | [] => SOk flag
  | x :: r => let* b := attr_call G x n in attrs_ok G r n (flag && b)
  end.
Definition is_node (G : fgraph) (d : desc) (n : node) : sres bool :=
  attrs_ok G (d_attrs d) n (op_ok (d_op d) (n_op n)).

(** fusion.py:304-311 *)
Record pattern := { p_desc : dict desc; p_first : string; p_append : bool }.
Definition mk_pattern (ds : list desc) (inplace : bool) : pattern :=
  {| p_desc := fold_left (fun m d => dset m (d_name d) d) ds [];
     p_first := match ds with d :: _ => d_name d | [] => "" end; p_append := inplace |}.

(** [d[k]] *)
Definition dlook {A} (d : dict A) (k : string) : sres A := match dget d k with Some v => SOk v | None => SRaise KeyErr end.
(** [l.index(x)] *)
Fixpoint index_of (x : string) (l : list string) : sres Z :=
  match l with
  | [] => SRaise ValueErr
  | y :: r => if String.eqb x y then SOk 0 else let* i := index_of x r in SOk (i + 1)
  end.
(** [other == -1 or l.index(t) == other] *)
Definition port_ok (other : Z) (l : list string) (t : string) : sres bool :=
  if other =? -1 then SOk true else let* i := index_of t l in SOk (i =? other).

Definition path := list (string * string).
(** the mutable variables of [search_node]: the flag, the collected paths (concatenated, fusion.py
    376-380 and 428-431) and [searched] *)
Definition st := (bool * path * list string)%type.
(** the recursive call: (descriptor, node) and [searched] -> (valid, path) and [searched] *)
Definition rec_t := (string * string) -> list string -> sres st.

Section SEARCH.
Context (G : fgraph) (P : pattern) (rec : rec_t).

(** fusion.py:337-351 (and 355-369): the producers of one input tensor *)
Fixpoint up_producers (dk : string) (nd : desc) (other : Z) (t : string) (prods : list string) (s : st) : sres st :=
  match prods with
  | [] => SOk s
  | k :: r =>
      let '(inv, ups, searched) := s in
      let* obj := dlook (nodemap (fg G)) k in
      let* ok := port_ok other (n_out obj) t in
      if ok then
        let* isn := is_node G nd obj in
        if isn then
          if negb (memb k searched) then
            let* q := rec (dk, k) searched in
            let '(v, p, searched') := q in
            if v then SOk (true, ups ++ p, searched')%list
            else up_producers dk nd other t r (false, ups, searched')
          else up_producers dk nd other t r (true, ups, searched)
        else up_producers dk nd other t r (false, ups, searched)
      else up_producers dk nd other t r (false, ups, searched)
  end.
(** fusion.py:333-351: index -1, all inputs; tensors without producer are skipped *)
Fixpoint up_all (dk : string) (nd : desc) (other : Z) (ins : list string) (s : st) : sres st :=
  match ins with
  | [] => SOk s
  | t :: r =>
      match dget (producedby (fg G)) t with
      | None => up_all dk nd other r s
      | Some l => let* s' := up_producers dk nd other t l s in up_all dk nd other r s'
      end
  end.
(** fusion.py:327-369: one in-edge after the other *)
Fixpoint up_edges (n : node) (es : list edge) (s : st) : sres st :=
  match es with
  | [] => SOk s
  | e :: r =>
      let* nd := dlook (p_desc P) (e_desc e) in
      let* s' :=
        if e_idx e =? -1 then up_all (e_desc e) nd (e_other e) (n_in n) s
        else if e_idx e <? zlen (n_in n) then
          let* t := py_index (n_in n) (e_idx e) in
          let* l := dlook (producedby (fg G)) t in
          up_producers (e_desc e) nd (e_other e) t l s
        else SOk s in
      up_edges n r s'
  end.

(** fusion.py:398-408: the consumers of one output, index -1 (no break at an already used node);
    421-431 with [brk]: break there *)
Fixpoint down_consumers (brk : bool) (dk : string) (nd : desc) (other : Z) (t : string) (cons : list string) (s : st) : sres st :=
  match cons with
  | [] => SOk s
  | k :: r =>
      let '(v0, downs, searched) := s in
      let* obj := dlook (nodemap (fg G)) k in
      let* ok := port_ok other (n_in obj) t in
      if ok then
        let* isn := is_node G nd obj in
        if isn then
          if negb (memb k searched) then
            let* q := rec (dk, k) searched in
            let '(v, p, searched') := q in
            if v then SOk (true, downs ++ p, searched')%list
            else down_consumers brk dk nd other t r (false, downs, searched')
          else if brk then SOk (true, downs, searched)
               else down_consumers brk dk nd other t r (true, downs, searched)
        else down_consumers brk dk nd other t r s
      else down_consumers brk dk nd other t r s
  end.
Definition too_many (l : list string) : bool := p_append P && Nat.ltb 1 (length l).
(** fusion.py:389-408: all outputs until one was valid *)
Fixpoint down_all (dk : string) (nd : desc) (other : Z) (outs : list string) (s : st) : sres st :=
  match outs with
  | [] => SOk s
  | t :: r =>
      if fst (fst s) then SOk s else
      match dget (consumedby (fg G)) t with
      | None => down_all dk nd other r s
      | Some l => if too_many l then down_all dk nd other r s
                  else let* s' := down_consumers false dk nd other t l s in down_all dk nd other r s'
      end
  end.
(** fusion.py:384-431 *)
Fixpoint down_edges (n : node) (es : list edge) (s : st) : sres st :=
  match es with
  | [] => SOk s
  | e :: r =>
      let* nd := dlook (p_desc P) (e_desc e) in
      let* s' :=
        if e_idx e =? -1 then down_all (e_desc e) nd (e_other e) (n_out n) s
        else if e_idx e <? zlen (n_out n) then
          let* t := py_index (n_out n) (e_idx e) in
          match dget (consumedby (fg G)) t with
          | None => SOk s
          | Some l => if too_many l then SOk s else down_consumers true (e_desc e) nd (e_other e) t l s
          end
        else SOk s in
      down_edges n r s'
  end.

(** fusion.py:314-438 without the recursion.  A failed call returns (False, None): the empty path. *)
Definition search_body (dn : string * string) (searched : list string) : sres st :=
  let* d := dlook (p_desc P) (fst dn) in
  let* n := dlook (nodemap (fg G)) (snd dn) in
  let searched1 := (searched ++ [snd dn])%list in
  let* u := up_edges n (d_in d) (match d_in d with [] => true | _ => false end, [], searched1) in
  let '(invalid, ups, searched2) := u in
  if negb invalid then SOk (false, [], remove1 (snd dn) searched2) else
  let* w := down_edges n (d_out d) (match d_out d with [] => true | _ => false end, [], searched2) in
  let '(outvalid, downs, searched3) := w in
  if outvalid then SOk (true, ups ++ [dn] ++ downs, searched3)%list
  else SOk (false, [], remove1 (snd dn) searched3).
End SEARCH.

(** The recursion of fusion.py:314; running out of fuel is RecursionError ([RuntimeErr]), which the
    theorems exclude for [fuel] above the number of nodes. *)
Fixpoint search_node (fuel : nat) (G : fgraph) (P : pattern) : rec_t :=
  match fuel with
  | O => fun _ _ => SRaise RuntimeErr
  | S f => search_body G P (search_node f G P)
  end.

(** fusion.py:452-455: later entries of the path overwrite earlier ones; unmatched descriptors keep 'a' *)
Fixpoint set_nth {A} (i : nat) (x : A) (l : list A) : list A :=
  match l, i with
  | [], _ => []
  | _ :: r, O => x :: r
  | y :: r, S i' => y :: set_nth i' x r
  end.
Fixpoint place (keys : list string) (p : path) (nodes : list string) : sres (list string) :=
  match p with
  | [] => SOk nodes
  | (dk, nk) :: r => let* i := index_of dk keys in place keys r (set_nth (Z.to_nat i) nk nodes)
  end.
(** fusion.py:440-459.  [found_node_names] stays empty, so its test never skips a node. *)
Fixpoint search_from (fuel : nat) (G : fgraph) (P : pattern) (first : desc) (names : list string) : sres (list (list string)) :=
  match names with
  | [] => SOk []
  | k :: r =>
      let* n := dlook (nodemap (fg G)) k in
      let* isn := is_node G first n in
      let* here :=
        if isn then
          let* q := search_node fuel G P (p_first P, k) [] in
          let '(v, p, _) := q in
          if v then let keys := dkeys (p_desc P) in
                    let* ns := place keys p (repeat "a" (length keys)) in SOk [ns]
          else SOk []
        else SOk [] in
      let* rest := search_from fuel G P first r in
      SOk (here ++ rest)%list
  end.
Definition search_pattern (G : fgraph) (P : pattern) : sres (list (list string)) :=
  let* first := dlook (p_desc P) (p_first P) in
  search_from (S (length (nodemap (fg G)))) G P first (dkeys (nodemap (fg G))).

(** fusion.py:199-212 [createSerialOpChain] (descriptor i is named str(i); here by a list of names) *)
Fixpoint serial_from (prev : option string) (names : list string) (ops : list string) : list desc :=
  match names, ops with
  | k :: ns, o :: os =>
      {| d_name := k; d_op := OneOp o; d_attrs := [];
         d_in := match prev with Some p => [{| e_idx := -1; e_desc := p; e_other := -1 |}] | None => [] end;
         d_out := match ns, os with k' :: _, _ :: _ => [{| e_idx := -1; e_desc := k'; e_other := -1 |}] | _, _ => [] end |}
      :: serial_from (Some k) ns os
  | _, _ => []
  end.

(** fusion.py:8-29 *)
Definition ConvBN : list desc :=
  [ {| d_name := "conv_0"; d_op := OneOp "Conv";
       d_attrs := [ {| x_name := "kernel_shape"; x_op := "<="; x_idx := 0; x_num := 7 |};
                    {| x_name := "kernel_shape"; x_op := ">="; x_idx := 0; x_num := 1 |};
                    {| x_name := "kernel_shape"; x_op := "<="; x_idx := 1; x_num := 7 |};
                    {| x_name := "kernel_shape"; x_op := ">="; x_idx := 1; x_num := 1 |} ];
       d_in := []; d_out := [ {| e_idx := 0; e_desc := "bn_0"; e_other := 0 |} ] |};
    {| d_name := "bn_0"; d_op := OneOp "BatchNormalization"; d_attrs := [];
       d_in := [ {| e_idx := 0; e_desc := "conv_0"; e_other := 0 |} ]; d_out := [] |} ].
