(** onnx_tool/quantization.py:14-128: block quantization of two-dimensional float32 weights and 4-bit packing.
    Weights, scales and the arithmetic on them are IEEE binary32 data (numpy.float32: an operation of a float32
    with a Python int is done in float32); NaN and infinities are represented.  Arrays are lists of rows.
    Not modelled: arrays that are not two-dimensional and bit widths below 1 (a float power of two). *)
From Coq Require Import Reals.
From Flocq Require Import Core IEEE754.Binary IEEE754.Bits.
From Verif Require Import PyBase GraphModel FloatPy ShapeModel.
Open Scope Z_scope.

Definition f32 := binary32.
Definition fz : f32 := B754_zero 24 128 false.
(** a Python int used as a float32 operand *)
Definition f_of_int (z : Z) : f32 := binary_normalize 24 128 eq_refl eq_refl BinarySingleNaN.mode_NE z 0 false.
Definition f_div (x y : f32) : f32 := b32_div BinarySingleNaN.mode_NE x y.
Definition f_sub (x y : f32) : f32 := b32_minus BinarySingleNaN.mode_NE x y.
Definition f_mul (x y : f32) : f32 := b32_mult BinarySingleNaN.mode_NE x y.
Definition f_abs (x : f32) : f32 := b32_abs x.
Definition f_opp (x : f32) : f32 := b32_opp x.
(** [x < y] *)
Definition f_lt (x y : f32) : bool := match b32_compare x y with Some Lt => true | _ => false end.
Definition f_nan (x : f32) : bool := is_nan 24 128 x.

(** Python's [max(a, b)], [min(a, b)]: the first argument unless the second is strictly larger (smaller). *)
Definition py_max (a b : f32) : f32 := if f_lt a b then b else a.
Definition py_min (a b : f32) : f32 := if f_lt b a then b else a.
(** [ndarray.min], [ndarray.max]: NaN if there is one; an empty array is a ValueError. *)
Definition np_min2 (a b : f32) : f32 := if f_nan a then a else if f_nan b then b else if f_lt b a then b else a.
Definition np_max2 (a b : f32) : f32 := if f_nan a then a else if f_nan b then b else if f_lt a b then b else a.
Definition np_min (l : list f32) : sres f32 := match l with [] => SRaise ValueErr | x :: r => SOk (fold_left np_min2 r x) end.
Definition np_max (l : list f32) : sres f32 := match l with [] => SRaise ValueErr | x :: r => SOk (fold_left np_max2 r x) end.

(** [round(x)] of a float32: to the nearest integer, ties to even; NaN is a ValueError, an infinity an OverflowError. *)
Definition round_scaled (m e : Z) : Z :=
  if 0 <=? e then m * 2 ^ e
  else let d := 2 ^ (- e) in let q := m / d in let r := m mod d in
       if 2 * r <? d then q else if d <? 2 * r then q + 1 else if Z.even q then q else q + 1.
Definition f_round (x : f32) : sres Z :=
  match x with
  | B754_zero _ _ _ => SOk 0
  | B754_infinity _ _ _ => SRaise OverflowErr
  | B754_nan _ _ _ _ _ => SRaise ValueErr
  | B754_finite _ _ s m e _ => SOk (cond_Zopp s (round_scaled (Zpos m) e))
  end.
(** [numpy.clip(z, lo, hi)] of an int *)
Definition clip (z lo hi : Z) : Z := Z.max lo (Z.min z hi).

Inductive qtype := Sym | Asym.
(** quantization.py:41-44 [get_symmetric_parameter] *)
Definition sym_param (fmin fmax : f32) (bits : Z) : sres (f32 * Z) :=
  let alpha := py_max (f_abs fmin) (f_abs fmax) in
  SOk (f_div alpha (f_of_int (2 ^ (bits - 1) - 1)), 0).
(** quantization.py:47-53 [get_asymmetric_u8_parameter]; the int 0 that min/max may return behaves as +0.0 *)
Definition asym_param (fmin fmax : f32) (bits : Z) : sres (f32 * Z) :=
  let fmin := py_min fmin fz in
  let fmax := py_max fmax fz in
  let scale := f_div (f_sub fmax fmin) (f_of_int (2 ^ bits - 1)) in
  let* zp := f_round (f_div (f_opp fmin) scale) in
  SOk (scale, zp).
Definition get_param (ty : qtype) := match ty with Sym => sym_param | Asym => asym_param end.
(** quantization.py:56-61 *)
Definition sym_quant (v scale : f32) (zp : Z) : sres Z := let* r := f_round (f_div v scale) in SOk (clip r (-128) 127).
Definition asym_quant (v scale : f32) (zp : Z) : sres Z := let* r := f_round (f_div v scale) in SOk (clip (r + zp) 0 255).
Definition quant_val (ty : qtype) := match ty with Sym => sym_quant | Asym => asym_quant end.
(** quantization.py:64-69: the value a code stands for, as a real number *)
Definition dequant (q : Z) (scale : f32) (zp : Z) : R := (IZR (q - zp) * B2R 24 128 scale)%R.

(** quantization.py:26-34: the blocks [j:j+block] of a row, [fuel] bounding their number by the row length. *)
Fixpoint blocks_of (fuel : nat) (block : nat) (row : list f32) : list (list f32) :=
  match fuel, row with
  | S n, _ :: _ => firstn block row :: blocks_of n block (skipn block row)
  | _, _ => []
  end.
Definition row_blocks (block : nat) (row : list f32) : list (list f32) := blocks_of (length row) block row.
(** quantization.py:17-38 [find_min_max] followed by the parameter loops of [quantize]: parameters of one group. *)
Definition group_param (ty : qtype) (bits : Z) (mm : f32 * f32) : sres (f32 * Z) := get_param ty (fst mm) (snd mm) bits.
Definition min_max (l : list f32) : sres (f32 * f32) := let* a := np_min l in let* b := np_max l in SOk (a, b).

(** quantization.py:72-103 [quantize].  The result: the codes, and the (scale, zero point) of each group, laid out as
    one cell (block 0), one per row (block -1), or one per row and block of columns (block > 0). *)
Inductive params := PTensor (p : f32 * Z) | PRow (ps : list (f32 * Z)) | PBlock (ps : list (list (f32 * Z))).
(** codes of one row with the parameter selected for each column *)
Fixpoint quant_row (ty : qtype) (row : list f32) (par : nat -> sres (f32 * Z)) (j : nat) : sres (list Z) :=
  match row with
  | [] => SOk []
  | v :: r =>
      let* p := par j in
      let* q := quant_val ty v (fst p) (snd p) in
      let* t := quant_row ty r par (S j) in SOk (q :: t)
  end.
Fixpoint quant_rows (ty : qtype) (rows : list (list f32)) (par : nat -> nat -> sres (f32 * Z)) (i : nat) : sres (list (list Z)) :=
  match rows with
  | [] => SOk []
  | row :: r => let* q := quant_row ty row (par i) 0 in let* t := quant_rows ty r par (S i) in SOk (q :: t)
  end.
Definition at_nth {A} (l : list A) (i : nat) : sres A := match nth_error l i with Some x => SOk x | None => SRaise IndexErr end.
Definition quantize (rows : list (list f32)) (block : Z) (ty : qtype) (bits : Z) : sres (list (list Z) * params) :=
  if block =? 0 then
    let* mm := min_max (concat rows) in
    let* p := group_param ty bits mm in
    let* q := quant_rows ty rows (fun _ _ => SOk p) 0 in
    SOk (q, PTensor p)
  else if block =? -1 then
    let* mms := smap min_max rows in
    let* ps := smap (group_param ty bits) mms in
    let* q := quant_rows ty rows (fun i _ => at_nth ps i) 0 in
    SOk (q, PRow ps)
  else if 0 <? block then
    let b := Z.to_nat block in
    let* mms := smap (fun row => smap min_max (row_blocks b row)) rows in
    let* ps := smap (smap (group_param ty bits)) mms in
    let* q := quant_rows ty rows (fun i j => let* row := at_nth ps i in at_nth row (j / b)%nat) 0 in
    SOk (q, PBlock ps)
  else SRaise TypeErr (* find_min_max returns None, which cannot be unpacked *).

(** ** pack_4bits, quantization.py:105-128 *)
(** [ctypes.c_uint8(v).value] *)
Definition c_uint8 (v : Z) : Z := v mod 256.
Definition s8_to_s4 (v8 : Z) : Z := Z.lor (Z.land v8 7) (Z.shiftr (Z.land v8 128) 4).
(** one row of the last axis; an odd last column is dropped *)
Fixpoint pack_row (row : list Z) : list Z :=
  match row with
  | a :: b :: r => Z.lor (s8_to_s4 (c_uint8 a)) (Z.shiftl (s8_to_s4 (c_uint8 b)) 4) :: pack_row r
  | _ => []
  end.
Definition pack_4bits (Q : list (list Z)) : list (list Z) := map pack_row Q.
