(** Specification of arrays and of the ONNX tensor format, independent of tensor.py. *)
From Verif Require Import PyBase GraphModel FloatPy ShapeModel SerialModel ProtoModel.
Open Scope Z_scope.

(** [lo, hi) range of the elements of a fixed-size type (bit patterns for floats) *)
Definition elem_ok (t : dt) (e : elem) : Prop :=
  match t, e with
  | DI8, EN z => -128 <= z < 128
  | DI16, EN z => -32768 <= z < 32768
  | DI32, EN z => -2147483648 <= z < 2147483648
  | DI64, EN z => -9223372036854775808 <= z < 9223372036854775808
  | DU8, EN z => 0 <= z < 256
  | (DU16 | DF16), EN z => 0 <= z < 65536
  | DF32, EN z => 0 <= z < 4294967296
  | DF64, EN z => 0 <= z < 18446744073709551616
  | DBool, EN z => z = 0 \/ z = 1
  | DBytes _, ES _ => True
  | _, _ => False
  end.
(** a numpy array: as many elements as its shape says, each in the range of its type *)
Definition wf_arr (a : arr) : Prop :=
  Forall (fun d => 0 <= d) (a_shape a) /\ Z.of_nat (length (a_elems a)) = fold_right Z.mul 1 (a_shape a) /\
  Forall (elem_ok (a_dt a)) (a_elems a).

(** the ten fixed-size types both tables list *)
Definition numeric (t : dt) : Prop :=
  match t with DBytes _ | DOther _ => False | _ => True end.
(** the types whose scalars are written to int32_data but not read from it *)
Definition narrow (t : dt) : Prop := match t with DI8 | DU8 | DI16 | DU16 | DBool => True | _ => False end.

(** The ONNX format (onnx.proto): which field holds the elements when raw_data is absent. *)
Inductive onnx_typed : tproto -> list elem -> Prop :=
| ot_float p : t_type p = 1 -> onnx_typed p (map EN (t_float p))
| ot_int32 p : In (t_type p) [2; 3; 4; 5; 6; 9; 10] -> onnx_typed p (map EN (t_int32 p))
| ot_int64 p : t_type p = 7 -> onnx_typed p (map EN (t_int64 p))
| ot_double p : t_type p = 11 -> onnx_typed p (map EN (t_double p)).
