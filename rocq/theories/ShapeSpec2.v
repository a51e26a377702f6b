(** ONNX result shapes of the operators of ShapeModel2.v, from the operator documentation. *)
From Coq Require Import ZArith List Reals.
From Flocq Require Import Core.
Import ListNotations.
Open Scope Z_scope.

(** LSTM / GRU: all hidden states and the last ones. With [layout] = 0 the input is (sequence, batch, features), with [layout] = 1
    (batch, sequence, features). *)
Definition rnn_input (layout seq batch feat : Z) : list Z := if layout =? 0 then [seq; batch; feat] else [batch; seq; feat].
Definition rnn_all (layout seq batch dirs hidden : Z) : list Z := if layout =? 0 then [seq; dirs; batch; hidden] else [batch; seq; dirs; hidden].
Definition rnn_last (layout batch dirs hidden : Z) : list Z := if layout =? 0 then [dirs; batch; hidden] else [batch; dirs; hidden].

(** NonMaxSuppression selects at most [m] of the [n] boxes for each of [b] images and [c] classes *)
Definition nms_possible (b c n m k : Z) : Prop := 0 <= k <= b * c * Z.min (Z.max m 0) n.

(** the numbers a NumPy float32 or float64 product is rounded to *)
Definition binary32 (x : R) : R := round radix2 (FLT_exp (-149) 24) ZnearestE x.
Definition binary64 (x : R) : R := round radix2 (FLT_exp (-1074) 53) ZnearestE x.
Definition numpy_rounding (r : R -> R) (bits : Z) : Prop := (r = binary32 /\ bits = 24) \/ (r = binary64 /\ bits = 53).
(** Resize by scales: floor of the exact product *)
Definition resized (x : list Z) (scales : list R) (out : list Z) : Prop :=
  length out = length x /\ forall i, (i < length x)%nat -> nth i out 0 = Zfloor (IZR (nth i x 0%Z) * nth i scales 0%R).
