(** onnx_tool/tensor.py: numpy/onnx data types and the TensorProto reader and writer.
    An array element is an integer: its value for an integer type (0 or 1 for bool), its IEEE bit
    pattern for a float type; an element of a string array is a byte string.
    Simplifications: a float passes through protobuf's float_data, double_data and through
    [ndarray.item()] unchanged (true of every value but signalling NaNs); little-endian machine. *)
From Verif Require Import PyBase GraphModel FloatPy ShapeModel SerialModel.
Open Scope Z_scope.

(** numpy dtypes.  [DBytes w] is the byte-string type of width [w]; [numpy.bytes_] is width 0
    (dtype('S5') == numpy.bytes_ is False).  [DOther n]: any other dtype. *)
Inductive dt := DF32 | DF64 | DF16 | DI32 | DI16 | DI64 | DI8 | DU8 | DU16 | DBool | DBytes (w : nat) | DOther (n : nat).

(** onnx.TensorProto.DataType codes (onnx.proto) *)
Definition FLOAT := 1. Definition UINT8 := 2. Definition INT8 := 3. Definition UINT16 := 4.
Definition INT16 := 5. Definition INT32 := 6. Definition INT64 := 7. Definition STRING := 8.
Definition BOOL := 9. Definition FLOAT16 := 10. Definition DOUBLE := 11. Definition UINT32 := 12.
Definition UINT64 := 13. Definition COMPLEX64 := 14. Definition COMPLEX128 := 15. Definition BFLOAT16 := 16.

(** tensor.py:37-59; falling off the end returns None *)
Definition onnxdtype2npdtype (c : Z) : option dt :=
  if c =? FLOAT then Some DF32 else if c =? DOUBLE then Some DF64 else if c =? FLOAT16 then Some DF16
  else if c =? INT32 then Some DI32 else if c =? INT16 then Some DI16 else if c =? INT64 then Some DI64
  else if c =? INT8 then Some DI8 else if c =? UINT8 then Some DU8 else if c =? UINT16 then Some DU16
  else if c =? BOOL then Some DBool else if c =? STRING then Some (DBytes 0) else None.
(** tensor.py:66-90 *)
Definition npdtype2onnxdtype (t : dt) : option Z :=
  match t with
  | DF32 => Some FLOAT | DF64 => Some DOUBLE | DF16 => Some FLOAT16 | DI32 => Some INT32 | DI16 => Some INT16
  | DI64 => Some INT64 | DI8 => Some INT8 | DU8 => Some UINT8 | DU16 => Some UINT16 | DBool => Some BOOL
  | DBytes 0 => Some STRING
  | _ => None
  end.

Inductive elem := EN (z : Z) | ES (b : bytes).
Record arr := { a_dt : dt; a_shape : list Z; a_elems : list elem }.

(** itemsize in bytes and signedness of a fixed-size type *)
Definition itemsize (t : dt) : nat :=
  match t with
  | DF32 | DI32 => 4 | DF64 | DI64 => 8 | DF16 | DI16 | DU16 => 2 | DI8 | DU8 | DBool => 1 | DBytes w => w | DOther _ => 8
  end%nat.
Definition is_signed (t : dt) : bool := match t with DI32 | DI16 | DI64 | DI8 => true | _ => false end.

(** little-endian unsigned value of a byte list *)
Fixpoint le_val (b : bytes) : Z :=
  match b with [] => 0 | c :: r => Z.of_N (N_of_ascii c) + 256 * le_val r end.
(** the value numpy reads from the bytes of one element *)
Definition decode (t : dt) (b : bytes) : Z :=
  let u := le_val b in
  let w := 8 * Z.of_nat (length b) in
  if is_signed t then (if u <? 2 ^ (w - 1) then u else u - 2 ^ w)
  else match t with DBool => if u =? 0 then 0 else 1 | _ => u end.

(** [ndarray.tobytes()] of a fixed-size array *)
Definition enc_elem (t : dt) (e : elem) : bytes :=
  match e with EN z => le_bytes (itemsize t) z | ES b => b end.
Definition tobytes (a : arr) : bytes := flat_map (enc_elem (a_dt a)) (a_elems a).

(** [numpy.frombuffer]: the buffer is cut into items; a partial item is a ValueError.
    [dtype=None] means float64. *)
Fixpoint chunks (fuel : nat) (k : nat) (b : bytes) : list bytes :=
  match fuel, b with
  | O, _ | _, [] => []
  | S f, _ => firstn k b :: chunks f k (skipn k b)
  end.
Definition or_f64 (t : option dt) : dt := match t with Some t => t | None => DF64 end.
Definition frombuffer (t : dt) (b : bytes) : sres (list elem) :=
  match itemsize t with
  | O => SRaise ValueErr
  | k => if Z.of_nat (length b) mod Z.of_nat k =? 0
         then SOk (map (fun c => EN (decode t c)) (chunks (length b) k b)) else SRaise ValueErr
  end.

Definition prod (l : list Z) : Z := fold_right Z.mul 1 l.
(** [arr.reshape(shape)]: ValueError unless the element counts agree.  Simplification: a negative
    dimension is an error (numpy would infer a single -1). *)
Definition reshape (es : list elem) (t : dt) (shape : list Z) : sres arr :=
  if forallb (fun d => 0 <=? d) shape && (Z.of_nat (length es) =? prod shape)
  then SOk {| a_dt := t; a_shape := shape; a_elems := es |} else SRaise ValueErr.

(** onnx.TensorProto, as far as the code uses it *)
Record tproto := { t_dims : list Z; t_type : Z; t_raw : bytes; t_float : list Z; t_int32 : list Z;
                   t_int64 : list Z; t_double : list Z; t_string : list bytes }.

(** numpy byte-string arrays drop trailing NULs *)
Fixpoint rstrip_nul (b : bytes) : bytes :=
  match b with
  | [] => []
  | c :: r => match rstrip_nul r with [] => if Ascii.eqb c NUL then [] else [c] | r' => c :: r' end
  end.
(** [numpy.fromiter(int32_data, dtype=uint16)]: OverflowError outside the range.  Simplification:
    numpy 2's behaviour. *)
Fixpoint as_uint16 (l : list Z) : sres (list Z) :=
  match l with
  | [] => SOk []
  | z :: r => if (0 <=? z) && (z <? 65536) then let* r' := as_uint16 r in SOk (z :: r') else SRaise OverflowErr
  end.

(** tensor.py:93-121.  [numpy.zeros(shape)] raises ValueError on a negative dimension. *)
Definition tensorproto2ndarray (p : tproto) : sres arr :=
  let shape := t_dims p in
  let nt := onnxdtype2npdtype (t_type p) in
  let t := or_f64 nt in
  let* es :=
    match t_raw p with
    | [] =>
      if negb (forallb (fun d => 0 <=? d) shape) then SRaise ValueErr else
      match nt with
      | Some DF32 => SOk (map EN (t_float p))
      | Some DI32 => SOk (map EN (t_int32 p))
      | Some DF16 => let* u := as_uint16 (t_int32 p) in SOk (map EN u)
      | Some DI64 => SOk (map EN (t_int64 p))
      | Some DF64 => SOk (map EN (t_double p))
      | Some (DBytes _) => SOk (map (fun b => ES (rstrip_nul b)) (t_string p))
      | _ => SOk (repeat (EN 0) (Z.to_nat (prod shape)))
      end
    | raw => frombuffer t raw
    end in
  reshape es t shape.

(** onnx.helper.make_tensor: sizes are checked; a data type of None is a TypeError; raw strings are a
    TypeError.  Typed data go to the field the ONNX format assigns to the type. *)
Definition empty_proto (shape : list Z) (c : Z) : tproto :=
  {| t_dims := shape; t_type := c; t_raw := []; t_float := []; t_int32 := []; t_int64 := []; t_double := []; t_string := [] |}.
Definition nums (es : list elem) : list Z := map (fun e => match e with EN z => z | ES _ => 0 end) es.
Definition make_tensor_raw (t : dt) (shape : list Z) (raw : bytes) : sres tproto :=
  match npdtype2onnxdtype t with
  | None => SRaise TypeErr
  | Some c =>
    if c =? STRING then SRaise TypeErr else
    if Z.of_nat (length raw) =? Z.of_nat (itemsize t) * prod shape
    then SOk {| t_dims := shape; t_type := c; t_raw := raw; t_float := []; t_int32 := []; t_int64 := []; t_double := []; t_string := [] |}
    else SRaise ValueErr
  end.
Definition make_tensor_vals (t : dt) (shape : list Z) (es : list elem) : sres tproto :=
  match npdtype2onnxdtype t with
  | None => SRaise TypeErr
  | Some c =>
    if Z.of_nat (length es) =? prod shape then
      let p := empty_proto shape c in
      SOk match t with
          | DF32 => {| t_dims := shape; t_type := c; t_raw := []; t_float := nums es; t_int32 := []; t_int64 := []; t_double := []; t_string := [] |}
          | DI64 => {| t_dims := shape; t_type := c; t_raw := []; t_float := []; t_int32 := []; t_int64 := nums es; t_double := []; t_string := [] |}
          | DF64 => {| t_dims := shape; t_type := c; t_raw := []; t_float := []; t_int32 := []; t_int64 := []; t_double := nums es; t_string := [] |}
          | DBytes _ => {| t_dims := shape; t_type := c; t_raw := []; t_float := []; t_int32 := []; t_int64 := []; t_double := [];
                           t_string := map (fun e => match e with ES b => b | EN _ => [] end) es |}
          | _ => {| t_dims := shape; t_type := c; t_raw := []; t_float := []; t_int32 := nums es; t_int64 := []; t_double := []; t_string := [] |}
          end
    else SRaise ValueErr
  end.

(** tensor.py:489-504 for a tensor that holds an array *)
Definition make_tensor_proto (a : arr) : sres tproto :=
  match a_shape a with
  | [] => make_tensor_vals (a_dt a) [] (firstn 1 (a_elems a))
  | _ =>
    match a_dt a with
    | DF32 | DI32 => make_tensor_vals (a_dt a) (a_shape a) (a_elems a)
    | _ => make_tensor_raw (a_dt a) (a_shape a) (tobytes a)
    end
  end.
