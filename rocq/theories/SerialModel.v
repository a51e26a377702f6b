(** onnx_tool/serialization.py: the three binary writers.
    A file's content is a list of bytes ([ascii]).  A Python [str] is represented by the Coq
    string of its UTF-8 encoding (simplification: the encoding step [bytes(s, 'utf-8')] itself is
    not modelled; UTF-8 maps only U+0000 to a NUL byte, so the test ['\0' in string] is the same
    on both).  The file write is not modelled: the result is the buffer handed to [binfile.write]. *)
From Coq Require Import Reals.
From Flocq Require Import Core IEEE754.Binary IEEE754.Bits.
From Flocq Require IEEE754.BinarySingleNaN.
Notation mode_NE := BinarySingleNaN.mode_NE.
From Verif Require Import PyBase GraphModel FloatPy ShapeModel.
Open Scope Z_scope.

Definition bytes := list ascii.

(** ** Python runtime: int.to_bytes and struct.pack *)
(** little-endian two's complement digits of [z] on [k] bytes *)
Fixpoint le_bytes (k : nat) (z : Z) : bytes :=
  match k with
  | O => []
  | S k' => ascii_of_N (Z.to_N (z mod 256)) :: le_bytes k' (z / 256)
  end.
(** [z.to_bytes(k, 'little', signed=True)]: OverflowError outside the signed range. *)
Definition to_bytes (k : nat) (z : Z) : sres bytes :=
  if (- 2 ^ (8 * Z.of_nat k - 1) <=? z) && (z <? 2 ^ (8 * Z.of_nat k - 1)) then SOk (le_bytes k z) else SRaise OverflowErr.

(** A Python float is an IEEE binary64 datum; [struct.pack('f', x)] rounds it to binary32 (nearest,
    ties to even), raises OverflowError when a finite value overflows, and writes the 4 bytes of the
    result.  Simplification: a NaN is written as the default quiet NaN. *)
Definition to_f32 (x : binary64) : binary32 :=
  match x with
  | B754_zero _ _ s => B754_zero 24 128 s
  | B754_infinity _ _ s => B754_infinity 24 128 s
  | B754_nan _ _ _ _ _ => proj1_sig default_nan_pl32
  | B754_finite _ _ s m e _ => binary_normalize 24 128 eq_refl eq_refl mode_NE (cond_Zopp s (Zpos m)) e s
  end.
Definition overflows_f32 (x : binary64) : bool :=
  match x with B754_finite _ _ _ _ _ _ => negb (is_finite 24 128 (to_f32 x)) | _ => false end.
Definition pack_f (x : binary64) : sres bytes :=
  if overflows_f32 x then SRaise OverflowErr else SOk (le_bytes 4 (bits_of_b32 (to_f32 x))).
(** [float(z)] of a Python int: OverflowError beyond the binary64 range. *)
Definition float_of_int (z : Z) : sres binary64 :=
  let r := binary_normalize 53 1024 eq_refl eq_refl mode_NE z 0 false in
  if is_finite 53 1024 r then SOk r else SRaise OverflowErr.

(** ** The writers: each returns the bytes appended to the buffer *)
Definition wcat (a b : sres bytes) : sres bytes := let* x := a in let* y := b in SOk (x ++ y).
Infix "+++" := wcat (at level 60, right associativity).
Definition wnil : sres bytes := SOk [].
(** a [for] loop that appends one chunk per element *)
Fixpoint wall {A} (f : A -> sres bytes) (l : list A) : sres bytes :=
  match l with [] => wnil | x :: r => f x +++ wall f r end.

(** serialization.py:8-11 *)
Definition write_float (f : binary64) : sres bytes := pack_f f.
(** serialization.py:14-17 *)
Definition write_int (i : Z) (k : nat) : sres bytes := to_bytes k i.
(** serialization.py:20-23 *)
Definition write_len {A} (l : list A) (k : nat) : sres bytes := to_bytes k (Z.of_nat (length l)).
Definition NUL : ascii := "000"%char.
(** ['\0' in string] *)
Definition has_nul (s : string) : bool := existsb (Ascii.eqb NUL) (list_ascii_of_string s).
(** serialization.py:26-31 *)
Definition write_str (s : string) : sres bytes :=
  SOk (if negb (has_nul s) then list_ascii_of_string s ++ [NUL] else list_ascii_of_string s).

(** serialization.py:34-43 *)
Definition DTYPE_INT := 0.
Definition DTYPE_FLOAT := 1.
Definition DTYPE_STR := 2.
Definition DTYPE_FP16 := 3.
Definition DTYPE_INT8 := 5.
Definition DTYPE_UINT8 := 6.
Definition DTYPE_INT64 := 9.

(** A Python value of an attribute or shape descriptor.  [PyOther n] is any object that is none of
    str, bytes, int, float (an onnx tensor, a graph, a numpy array); [n] only tells objects apart. *)
Inductive pyval := PyStr (s : string) | PyBytes (b : bytes) | PyInt (z : Z) | PyFloat (f : binary64) | PyOther (n : nat).
(** serialization.py:46-53 *)
Definition write_data_type (v : pyval) : sres bytes :=
  match v with
  | PyStr _ | PyBytes _ => write_int DTYPE_STR 4
  | PyInt _ => write_int DTYPE_INT 4
  | PyFloat _ => write_int DTYPE_FLOAT 4
  | PyOther _ => wnil
  end.
(** serialization.py:56-64: bytes get a type tag but no value. *)
Definition write_data (v : pyval) : sres bytes :=
  write_data_type v +++
  match v with
  | PyStr s => write_str s
  | PyInt z => write_int z 4
  | PyFloat f => write_float f
  | PyBytes _ | PyOther _ => wnil
  end.

(** A numpy array: its dtype, shape and [tobytes()]. *)
Inductive npdtype := F32 | F16 | I32 | I8 | U8 | I64 | F64 | NpBool | I16 | U16 | NpOther (n : nat).
Record ndarray := { nd_dtype : npdtype; nd_shape : list Z; nd_data : bytes }.
(** serialization.py:67-89 *)
Definition write_npdtype (t : npdtype) : sres bytes :=
  match t with
  | F32 => write_int DTYPE_FLOAT 4
  | F16 => write_int DTYPE_FP16 4
  | I32 => write_int DTYPE_INT 4
  | I8 => write_int DTYPE_INT8 4
  | U8 => write_int DTYPE_UINT8 4
  | I64 => write_int DTYPE_INT64 4
  | _ => SRaise ValueErr
  end.
Definition write_ndarray (a : ndarray) : sres bytes :=
  write_npdtype (nd_dtype a) +++ write_len (nd_shape a) 4 +++ wall (fun d => write_int d 4) (nd_shape a) +++ SOk (nd_data a).

(** ** serialize_shape_engine (serialization.py:92-127) *)
(** The fields of [ValueExpr] (graph.py:59-65); alpha and beta are Python ints (results of [round]). *)
Record expr := { e_alpha : Z; e_beta : Z; e_factor : Z; e_trunc : Z }.
Record engine := { en_vars : dict Z; en_desc : dict (list pyval); en_expr : dict (string * expr) }.
(** serialization.py:111-116 *)
Definition write_expr (e : expr) : sres bytes :=
  (let* a := float_of_int (e_alpha e) in write_float a) +++
  (let* b := float_of_int (e_beta e) in write_float b) +++
  write_int (e_factor e) 4 +++ write_int (e_trunc e) 4.
Definition serialize_engine (en : engine) : sres bytes :=
  write_len (en_vars en) 4 +++ wall (fun p => write_str (fst p)) (en_vars en) +++
  write_len (en_desc en) 4 +++
  wall (fun p => write_str (fst p) +++ write_len (snd p) 4 +++ wall write_data (snd p)) (en_desc en) +++
  write_len (en_expr en) 4 +++
  wall (fun p => write_str (fst p) +++ write_str (fst (snd p)) +++ write_expr (snd (snd p))) (en_expr en).

(** ** serialize_graph (serialization.py:130-184) *)
(** An attribute value is a list or a single object. *)
Inductive attrval := AScalar (v : pyval) | AList (l : list pyval).
Record snode := { sn_op : string; sn_in : list string; sn_out : list string; sn_attr : dict attrval }.
(** nodemap, initials and the numpy values of [tensormap] (None: the tensor holds no array). *)
Record sgraph := { sg_nodes : dict snode; sg_initials : list string; sg_values : dict (option ndarray) }.
(** serialization.py:148-157 *)
Definition write_value (v : pyval) : sres bytes :=
  match v with
  | PyStr s => write_str s
  | PyBytes b => SOk (b ++ [NUL])
  | PyInt z => write_int z 4
  | PyFloat f => write_float f
  | PyOther _ => wnil
  end.
(** serialization.py:147-165; [attrval[0]] of an empty list is an IndexError. *)
Definition write_attribute (a : attrval) : sres bytes :=
  let l := match a with AScalar v => [v] | AList l => l end in
  write_len l 4 +++
  match l with
  | [] => SRaise IndexErr
  | v :: _ => write_data_type v +++ wall write_value l
  end.
Definition write_node (p : string * snode) : sres bytes :=
  let n := snd p in
  write_str (fst p) +++ write_str (sn_op n) +++
  write_len (sn_in n) 4 +++ wall write_str (sn_in n) +++
  write_len (sn_out n) 4 +++ wall write_str (sn_out n) +++
  write_len (sn_attr n) 4 +++ wall (fun a => write_str (fst a) +++ write_attribute (snd a)) (sn_attr n).
Definition write_initial (vals : dict (option ndarray)) (name : string) : sres bytes :=
  write_str name +++
  match dget vals name with
  | None => SRaise KeyErr
  | Some None => SRaise AttributeErr
  | Some (Some a) => write_ndarray a
  end.
Definition serialize_graph (g : sgraph) : sres bytes :=
  write_len (sg_nodes g) 4 +++ wall write_node (sg_nodes g) +++
  write_len (sg_initials g) 4 +++ wall (write_initial (sg_values g)) (sg_initials g).

(** ** serialize_memory_compression (serialization.py:187-205) *)
Record planfile := { pf_total : Z; pf_blocks : dict (Z * Z); pf_max : dict Z }.
Definition serialize_plan (p : planfile) : sres bytes :=
  write_int (pf_total p) 8 +++
  write_len (pf_blocks p) 8 +++
  wall (fun b => write_str (fst b) +++ write_int (fst (snd b)) 8 +++ write_int (snd (snd b)) 8) (pf_blocks p) +++
  write_len (pf_max p) 8 +++
  wall (fun m => write_str (fst m) +++ write_int (snd m) 8) (pf_max p).
