(** onnx_tool/quantization.py:124-187 [graph_quantize]: replacing a weight of a graph by its codes, scales and zero
    points, and the loop over the weights shown in benchmark/examples.py:52-74.
    Simplified: of an array only two-dimensional floating point weights (already converted to float32, with at least
    one row) are represented by their values, every other array is [TOther]; of a node only what the function reads
    or writes; an exception carries no partially changed graph. *)
From Flocq Require Import Core IEEE754.Binary IEEE754.Bits.
From Verif Require Import PyBase GraphModel FloatPy ShapeModel QuantModel.
Open Scope Z_scope.

(** an array of parameters, laid out as [quantize] returns it *)
Inductive parr (A : Type) := AOne (a : A) | ARow (l : list A) | ABlock (m : list (list A)).
Arguments AOne {A} a. Arguments ARow {A} l. Arguments ABlock {A} m.
Definition pmap {B} (f : f32 * Z -> B) (p : params) : parr B :=
  match p with PTensor x => AOne (f x) | PRow l => ARow (map f l) | PBlock m => ABlock (map (map f) m) end.

(** numpy.float16 *)
Definition f16 := binary_float 11 16.
(** [astype(numpy.float16)] of a float32: rounded to nearest, ties to even; a NaN stays a NaN *)
Definition to_f16 (x : f32) : f16 :=
  match x with
  | B754_zero _ _ s => B754_zero 11 16 s
  | B754_infinity _ _ s => B754_infinity 11 16 s
  | B754_nan _ _ s pl _ => B754_nan 11 16 false 1 eq_refl
  | B754_finite _ _ s m e _ => binary_normalize 11 16 eq_refl eq_refl BinarySingleNaN.mode_NE (cond_Zopp s (Zpos m)) e s
  end.

(** what the tensor map holds for a name *)
Inductive tdata :=
  | TFloat (rows : list (list f32))   (* float weights, two dimensions *)
  | TOther                            (* any other array *)
  | TCodes (q : list (list Z))        (* int8 / uint8 codes, or packed bytes *)
  | TScale (s : parr f32)
  | TScale16 (s : parr f16)
  | TZero (z : parr Z).

(** what [consumedby] holds for a name: a list of node names, or (quantization.py:178-180) a bare string *)
Inductive readers := RList (l : list string) | RName (s : string).

Record qnode := mkQN { qn_op : string; qn_in : list string; qn_transB : Z; qn_attrs : option (Z * qtype * Z) }.
Record qgraph := mkQG { q_nodes : dict qnode; q_tensors : dict tdata; q_consumed : dict readers; q_initials : list string }.

(** [isinstance(node, GemmNode)]: node.py:857, 936, 2547, 2554 *)
Definition is_gemm (op : string) : bool := memb op ["Gemm"; "MatMul"; "MatMulInteger"; "QLinearMatMul"]%string.
(** [ndarray.transpose()] of a two-dimensional array *)
Definition transpose (rows : list (list f32)) : list (list f32) :=
  map (fun j => map (fun r => nth j r fz) rows) (seq 0 (length (hd [] rows))).

(** [s.endswith(suf)] *)
Fixpoint ends_with (suf s : string) : bool :=
  if String.eqb s suf then true else match s with EmptyString => false | String _ r => ends_with suf r end.
Definition suf_q : string := "_ot_q".
Definition suf_s : string := "_ot_s".
Definition suf_z : string := "_ot_z".
Definition suffixed (t : string) : bool := ends_with suf_q t || ends_with suf_s t || ends_with suf_z t.

(** iterating over [consumedby[t]]: a bare string yields its characters *)
Fixpoint chars (s : string) : list string := match s with EmptyString => [] | String c r => String c EmptyString :: chars r end.
Definition reader_list (r : readers) : list string := match r with RList l => l | RName s => chars s end.

(** [idx = l.index(x); l.remove(x); l.insert(idx, ...)], the inserted elements being [ys] in order; ValueError when absent *)
Fixpoint replace_by (x : string) (ys l : list string) : option (list string) :=
  match l with
  | [] => None
  | y :: r => if String.eqb x y then Some (ys ++ r) else match replace_by x ys r with Some r' => Some (y :: r') | None => None end
  end.

(** [g.consumedby[k].append(n)] *)
Definition append_reader (d : dict readers) (k n : string) : sres (dict readers) :=
  match dget d k with
  | None => SRaise KeyErr
  | Some (RName _) => SRaise AttributeErr
  | Some (RList l) => SOk (dset d k (RList (l ++ [n])))
  end.

(** quantization.py:169-184: one iteration of the loop over the readers *)
Definition rewire_reader (t : string) (ty : qtype) (st : dict qnode * dict readers) (n : string) : sres (dict qnode * dict readers) :=
  let (nodes, cns) := st in
  match dget nodes n with
  | None => SRaise KeyErr
  | Some nd =>
      let ys := [(t ++ suf_q)%string; (t ++ suf_s)%string] ++ (match ty with Asym => [(t ++ suf_z)%string] | Sym => [] end) in
      match replace_by t ys (qn_in nd) with
      | None => SRaise ValueErr
      | Some l =>
          let nodes := dset nodes n (mkQN (qn_op nd) l (qn_transB nd) (qn_attrs nd)) in
          if dhas cns (t ++ suf_q) then
            let* c1 := append_reader cns (t ++ suf_q) n in
            let* c2 := append_reader c1 (t ++ suf_s) n in
            let* c3 := append_reader c2 (t ++ suf_z) n in SOk (nodes, c3)
          else SOk (nodes, dset (dset (dset cns (t ++ suf_q) (RName n)) (t ++ suf_s) (RName n)) (t ++ suf_z) (RName n))
      end
  end.
Fixpoint rewire_readers (t : string) (ty : qtype) (l : list string) (st : dict qnode * dict readers) : sres (dict qnode * dict readers) :=
  match l with
  | [] => SOk st
  | n :: r => let* st' := rewire_reader t ty st n in rewire_readers t ty r st'
  end.

(** [astype(numpy.int8)], [astype(numpy.uint8)] of an integer *)
Definition to_int8 (v : Z) : Z := (v + 128) mod 256 - 128.
Definition to_uint8 (v : Z) : Z := v mod 256.

(** quantization.py:150-163: the arrays stored for codes, scales and zero points *)
Definition stored_codes (ty : qtype) (bits : Z) (Q : list (list Z)) : tdata :=
  if bits =? 8 then TCodes (map (map (match ty with Asym => to_uint8 | Sym => to_int8 end)) Q)
  else if bits =? 4 then TCodes (pack_4bits Q)
  else TCodes Q.
Definition stored_scale (bits : Z) (ps : params) : tdata :=
  if bits =? 4 then TScale16 (pmap (fun p => to_f16 (fst p)) ps) else TScale (pmap fst ps).
Definition stored_zero (bits : Z) (ps : params) : tdata :=
  if (bits =? 8) || (bits =? 4) then TZero (pmap (fun p => to_uint8 (snd p)) ps) else TZero (pmap snd ps).

(** quantization.py:124-187 [graph_quantize] *)
Definition graph_quantize (g : qgraph) (t : string) (block : Z) (ty : qtype) (bits : Z) : sres qgraph :=
  if negb (memb t (q_initials g)) then SOk g
  else if suffixed t then SOk g
  else match dget (q_tensors g) t with
  | None => SRaise KeyErr
  | Some (TFloat rows) =>
      match dget (q_consumed g) t with
      | None => SRaise KeyErr
      | Some rs =>
          match reader_list rs with
          | [] => SRaise IndexErr
          | n :: _ =>
              match dget (q_nodes g) n with
              | None => SRaise KeyErr
              | Some nd =>
                  let arr := if is_gemm (qn_op nd) && (qn_transB nd =? 0) then transpose rows else rows in
                  let nodes := dset (q_nodes g) n (mkQN (qn_op nd) (qn_in nd) (qn_transB nd) (Some (block, ty, bits))) in
                  let* qp := quantize arr block ty bits in let (Q, ps) := qp in
                  let ini1 := q_initials g ++ [(t ++ suf_q)%string; (t ++ suf_s)%string] ++ (match ty with Asym => [(t ++ suf_z)%string] | Sym => [] end) in
                  let tm1 := dset (dset (q_tensors g) (t ++ suf_q) (stored_codes ty bits Q)) (t ++ suf_s) (stored_scale bits ps) in
                  let tm2 := match ty with Asym => dset tm1 (t ++ suf_z) (stored_zero bits ps) | Sym => tm1 end in
                  let* nc := rewire_readers t ty (reader_list rs) (nodes, q_consumed g) in let (nodes', cns) := nc in
                  SOk (mkQG nodes' (ddel tm2 t) (ddel cns t) (remove1 t ini1))
              end
          end
      end
  | Some _ => SOk g
  end.

(** benchmark/examples.py:55-56 [for key in g.initials: graph_quantize(g, key, ...)]: a for loop over a list reads the
    list by position each time, while [graph_quantize] removes and appends elements.  [fuel] bounds the iterations. *)
Fixpoint quantize_loop (fuel : nat) (i : nat) (g : qgraph) (block : Z) (ty : qtype) (bits : Z) : option (sres qgraph) :=
  match nth_error (q_initials g) i with
  | None => Some (SOk g)
  | Some key =>
      match fuel with
      | O => None
      | S f =>
          match graph_quantize g key block ty bits with
          | SRaise e => Some (SRaise e)
          | SOk g' => quantize_loop f (S i) g' block ty bits
          end
      end
  end.
