(** C115: the quantised operators record what their float counterparts would, typed as the ONNX operator says. *)
From Coq Require Import String.
From Verif Require Import PyBase PyBaseFacts GraphModel ShapeModel ShapeSpec BcastProofs WindowProofs Props_Shape QOpsModel.
Open Scope Z_scope.

(** ONNX: the operands, in order, of the operators *)
Definition qlinear_conv_operands : list string := ["x"; "x_scale"; "x_zero_point"; "w"; "w_scale"; "w_zero_point"; "y_scale"; "y_zero_point"; "B"]%string.
Definition qlinear_matmul_operands : list string := ["a"; "a_scale"; "a_zero_point"; "b"; "b_scale"; "b_zero_point"; "y_scale"; "y_zero_point"]%string.
Definition quantize_operands : list string := ["x"; "y_scale"; "y_zero_point"]%string.
Definition dequantize_operands : list string := ["x"; "x_scale"; "x_zero_point"]%string.
(** operand [name] of a node whose operands [ins] are the first ones of [names] *)
Definition operand_is {A} (names : list string) (ins : list A) (name : string) (x : A) : Prop := In (name, x) (combine names ins).

Section QOPS.
Context {T : Type} (int32 : T).
Notation tt := (@typed_tensor T).
Implicit Types ins : list tt.

Lemma qconv_like wd x w : w_autopad wd = Explicit \/ w_autopad wd = SameLower \/ w_autopad wd = SameUpper ->
  (length x = 3 \/ length x = 4)%nat -> qconv_shape wd x w = conv_shape wd x w.
Proof. intros A L; unfold qconv_shape, conv_shape. destruct A as [-> | [-> | ->]]; destruct L as [-> | ->]; reflexivity. Qed.
Lemma operand_nth names ins k name x : nth_error names k = Some name -> NoDup names -> operand_is names ins name x -> nth_error ins k = Some x.
Proof.
  unfold operand_is. revert ins k. induction names as [|a names IH]; intros ins k N D H; [destruct k; discriminate|].
  destruct ins as [|b ins]; [destruct H|]. inversion D as [|? ? D1 D2]; subst. cbn [combine In] in H. destruct k as [|k]; cbn [nth_error] in N |- *.
  - injection N as ->. destruct H as [H|H]; [congruence|]. apply in_combine_l in H. contradiction.
  - destruct H as [H|H]; [injection H as -> ->; apply nth_error_In in N; contradiction|]. exact (IH ins k N D2 H).
Qed.
Lemma at_pos (ins : list tt) k x : nth_error ins k = Some x -> py_index ins (Z.of_nat k) = SOk x.
Proof. intros H. unfold py_index. destruct (Z.ltb_spec (Z.of_nat k) 0); [lia|]. cbv zeta. destruct (Z.ltb_spec (Z.of_nat k) 0); [lia|]. rewrite Nat2Z.id, H. reflexivity. Qed.
Lemma from_end (ins : list tt) k j x : nth_error ins k = Some x -> Z.of_nat k = j + Z.of_nat (length ins) -> j < 0 -> py_index ins j = SOk x.
Proof. intros H E N. unfold py_index. destruct (Z.ltb_spec j 0); [|lia]. cbv zeta. rewrite <- E. destruct (Z.ltb_spec (Z.of_nat k) 0); [lia|]. rewrite Nat2Z.id, H. reflexivity. Qed.
Ltac nodup := repeat constructor; cbn; intuition discriminate.
Ltac find H k := eapply (operand_nth _ _ k) in H; [|reflexivity|nodup].

(** Explicit padding, one or two spatial axes, and a bias (9 operands): the windows are counted as for Conv, and the result
    has the element type of y_zero_point. The kernel may exceed the padded input by less than two strides, sizes are below 2^50. *)
Definition conv_sizes (wd : window) (x w : list Z) (n : nat) : Prop :=
  w_autopad wd = Explicit /\ length x = (2 + n)%nat /\ length w = (2 + n)%nat /\
  (2 * n <= length (w_pads wd))%nat /\ (n <= length (w_strides wd))%nat /\ (n <= length (w_dilations wd))%nat /\
  forall i, (i < n)%nat ->
     let len := nth (2 + i) x 0 + nth i (w_pads wd) 0 + nth (i + n) (w_pads wd) 0 in
     let span := nth i (w_dilations wd) 0 * (nth (2 + i) w 0 - 1) + 1 in
     0 < nth i (w_strides wd) 0 /\ - 2 * nth i (w_strides wd) 0 < len - span /\
     Z.abs (len - span) + nth i (w_strides wd) 0 < 2 ^ 50.
Theorem C115_qlinear_conv : forall wd ins (x w z : tt) n, operand_is qlinear_conv_operands ins "x" x -> operand_is qlinear_conv_operands ins "w" w ->
  operand_is qlinear_conv_operands ins "y_zero_point" z -> length ins = 9%nat -> (1 <= n <= 2)%nat -> conv_sizes wd (fst x) (fst w) n ->
  exists out, qlinear_conv wd ins = SOk (out, snd z) /\
    windowed (fst x) (nth 0 (fst w) 0) (skipn 2 (fst w)) (w_pads wd) (w_strides wd) (w_dilations wd) out.
Proof.
  intros wd ins x w z n X W Zp L N (A & Lx & Lw & P & St & Dl & F).
  destruct (C22_conv_counts_windows_partial wd (fst x) (fst w) n A ltac:(lia) Lx Lw P St Dl F) as (out & E & Win).
  exists out. split; [|exact Win]. find X 0%nat. find W 3%nat. find Zp 7%nat. unfold qlinear_conv.
  rewrite (at_pos ins 0 x X : py_index ins 0 = SOk x). cbn [sbind]. rewrite (at_pos ins 3 w W : py_index ins 3 = SOk w). cbn [sbind].
  rewrite qconv_like by (auto; lia). rewrite E. cbn [sbind]. rewrite (from_end ins 7 (-2) z Zp) by (rewrite ?L; lia || reflexivity). reflexivity.
Qed.
(** Without a bias (8 operands) the shape is right, but the result gets the element type of y_scale, a float. *)
Theorem C115_no_bias_refuted : forall wd ins (x w s : tt) n, operand_is qlinear_conv_operands ins "x" x -> operand_is qlinear_conv_operands ins "w" w ->
  operand_is qlinear_conv_operands ins "y_scale" s -> length ins = 8%nat -> (1 <= n <= 2)%nat -> conv_sizes wd (fst x) (fst w) n ->
  exists out, qlinear_conv wd ins = SOk (out, snd s).
Proof.
  intros wd ins x w z n X W Zp L N (A & Lx & Lw & P & St & Dl & F).
  destruct (C22_conv_counts_windows_partial wd (fst x) (fst w) n A ltac:(lia) Lx Lw P St Dl F) as (out & E & Win).
  exists out. find X 0%nat. find W 3%nat. find Zp 6%nat. unfold qlinear_conv.
  rewrite (at_pos ins 0 x X : py_index ins 0 = SOk x). cbn [sbind]. rewrite (at_pos ins 3 w W : py_index ins 3 = SOk w). cbn [sbind].
  rewrite qconv_like by (auto; lia). rewrite E. cbn [sbind]. rewrite (from_end ins 6 (-2) z Zp) by (rewrite ?L; lia || reflexivity). reflexivity.
Qed.
(** ConvInteger: operands x and w, with or without zero points; the result holds int32. *)
Theorem C115_conv_integer : forall wd (x w : tt) (rest : list tt) n, (1 <= n <= 2)%nat -> conv_sizes wd (fst x) (fst w) n ->
  exists out, conv_integer int32 wd (x :: w :: rest) = SOk (out, int32) /\
    windowed (fst x) (nth 0 (fst w) 0) (skipn 2 (fst w)) (w_pads wd) (w_strides wd) (w_dilations wd) out.
Proof.
  intros wd x w rest n N (A & Lx & Lw & P & St & Dl & F).
  destruct (C22_conv_counts_windows_partial wd (fst x) (fst w) n A ltac:(lia) Lx Lw P St Dl F) as (out & E & Win).
  exists out. split; [|exact Win]. unfold conv_integer.
  rewrite (at_pos (x :: w :: rest) 0 x eq_refl : py_index (x :: w :: rest) 0 = SOk x). cbn [sbind].
  rewrite (at_pos (x :: w :: rest) 1 w eq_refl : py_index (x :: w :: rest) 1 = SOk w). cbn [sbind].
  rewrite qconv_like by (auto; lia). rewrite E. reflexivity.
Qed.
(** SAME padding: as Conv, each size is divided by its stride and rounded up. *)
Theorem C115_same : forall wd (x w : tt) (rest : list tt) n, w_autopad wd = SameUpper \/ w_autopad wd = SameLower -> (1 <= n <= 2)%nat ->
  length (fst x) = (2 + n)%nat -> (1 <= length (fst w))%nat -> (n <= length (w_strides wd))%nat ->
  (forall i, (i < n)%nat -> 0 < nth i (w_strides wd) 0 < 2 ^ 53 /\ Z.abs (nth (2 + i) (fst x) 0) < 2 ^ 53) ->
  exists out, conv_integer int32 wd (x :: w :: rest) = SOk (out, int32) /\ same_padded (fst x) (nth 0 (fst w) 0) (w_strides wd) out.
Proof.
  intros wd x w rest n A N Lx Lw St F.
  destruct (C23_conv_same_partial wd (fst x) (fst w) n A N Lx Lw St F) as (out & E & Win).
  exists out. split; [|exact Win]. unfold conv_integer.
  rewrite (at_pos (x :: w :: rest) 0 x eq_refl : py_index (x :: w :: rest) 0 = SOk x). cbn [sbind].
  rewrite (at_pos (x :: w :: rest) 1 w eq_refl : py_index (x :: w :: rest) 1 = SOk w). cbn [sbind].
  rewrite qconv_like by (destruct A; auto; lia). rewrite E. reflexivity.
Qed.
(** VALID padding, which Conv handles, and three spatial axes leave a scalar. *)
Theorem C115_valid_refuted : forall wd (x w : tt) (rest : list tt), w_autopad wd = Valid \/ w_autopad wd = OtherPad \/ (w_autopad wd = Explicit /\ length (fst x) = 5%nat) ->
  conv_integer int32 wd (x :: w :: rest) = SOk ([], int32) /\
  (forall a b c d y z, qlinear_conv wd [x; a; b; w; c; d; y; z] = SOk ([], snd y)).
Proof.
  intros wd x w rest H. assert (Q : qconv_shape wd (fst x) (fst w) = SOk []).
  { unfold qconv_shape. destruct H as [-> | [-> | [-> ->]]]; reflexivity. }
  split; [unfold conv_integer|intros a b c d y z; unfold qlinear_conv].
  - rewrite (at_pos (x :: w :: rest) 0 x eq_refl : py_index (x :: w :: rest) 0 = SOk x). cbn [sbind].
    rewrite (at_pos (x :: w :: rest) 1 w eq_refl : py_index (x :: w :: rest) 1 = SOk w). cbn [sbind]. rewrite Q. reflexivity.
  - change ((let* s := qconv_shape wd (fst x) (fst w) in @SOk tt (s, snd y)) = SOk ([], snd y)). rewrite Q. reflexivity.
Qed.

(** QLinearMatMul: the code keeps the batch dimensions of [a]; that is right exactly when they already are the broadcast batch. *)
Theorem C115_qlinear_matmul : forall ins ba bb m k n ta tb (z : tt) o, operand_is qlinear_matmul_operands ins "a" ((ba ++ [m; k])%list, ta) ->
  operand_is qlinear_matmul_operands ins "b" ((bb ++ [k; n])%list, tb) -> operand_is qlinear_matmul_operands ins "y_zero_point" z -> length ins = 8%nat ->
  matmul_of (ba ++ [m; k]) (bb ++ [k; n]) o ->
  exists out, qlinear_matmul ins = SOk (out, snd z) /\ (out = o <-> broadcast_of [ba; bb] ba).
Proof.
  intros ins ba bb m k n ta tb z o A B Zp L M. find A 0%nat. find B 3%nat. find Zp 7%nat.
  exists (ba ++ [m; n])%list. split.
  - unfold qlinear_matmul. rewrite (at_pos ins 0 _ A : py_index ins 0 = SOk _). cbn [sbind]. rewrite (at_pos ins 3 _ B : py_index ins 3 = SOk _). cbn [sbind fst].
    rewrite (py_index_neg_lit (bb ++ [k; n]) (-1) 0 eq_refl) by (rewrite app_length; simpl; lia). rewrite rev_app_distr. cbn [rev app nth sbind].
    rewrite (from_end ins 7 (-1) z Zp) by (rewrite ?L; lia || reflexivity). cbn [sbind].
    change (ba ++ [m; k])%list with (ba ++ [m] ++ [k])%list. rewrite app_assoc, removelast_last, <- app_assoc. reflexivity.
  - destruct (matmul_of_batch ba bb m k n o M) as (batch & Br & ->). split; intros H.
    + change (ba ++ [m; n])%list with (ba ++ [m] ++ [n])%list in H. change (batch ++ [m; n])%list with (batch ++ [m] ++ [n])%list in H.
      rewrite !app_assoc in H. apply app_inj_tail in H. destruct H as [H _]. apply app_inj_tail in H. destruct H as [-> _]. exact Br.
    + rewrite (broadcast_unique _ _ _ Br H). reflexivity.
Qed.
(** so an inner mismatch passes unnoticed *)
Theorem C115_inner_mismatch_refuted : forall ba m k k' n ta tb (r s t u v z : tt), 
  qlinear_matmul [((ba ++ [m; k])%list, ta); r; s; ([k'; n], tb); t; u; v; z] = SOk ((ba ++ [m; n])%list, snd z).
Proof.
  intros. change (@SOk tt ((removelast (ba ++ [m; k]) ++ [n])%list, snd z) = SOk ((ba ++ [m; n])%list, snd z)).
  change (ba ++ [m; k])%list with (ba ++ [m] ++ [k])%list. rewrite app_assoc, removelast_last, <- app_assoc. reflexivity.
Qed.
(** MatMulInteger: MatMul's shape (C21), int32. *)
Theorem C115_matmul_integer : forall ba bb m k n batch (ta tb : T) (rest : list tt), positive batch -> broadcast_of [ba; bb] batch ->
  batch = ba \/ (batch = bb /\ volume ba <> volume bb) ->
  matmul_integer int32 (((ba ++ [m; k])%list, ta) :: ((bb ++ [k; n])%list, tb) :: rest) = SOk ((batch ++ [m; n])%list, int32) /\
  matmul_of (ba ++ [m; k]) (bb ++ [k; n]) (batch ++ [m; n]).
Proof.
  intros ba bb m k n batch ta tb rest P B C. destruct (C21_matmul_partial ba bb m k n batch P B C) as [E M]. split; [|exact M].
  change ((let* s := matmul_shape (ba ++ [m; k]) (bb ++ [k; n]) in @SOk tt (s, int32)) = SOk ((batch ++ [m; n])%list, int32)). rewrite E. reflexivity.
Qed.
(** QuantizeLinear takes the type of the zero point, DequantizeLinear that of the scale; both keep the shape, so one undoes the other. *)
Theorem C115_quantize : forall ins (x z : tt), operand_is quantize_operands ins "x" x -> operand_is quantize_operands ins "y_zero_point" z ->
  quantize_linear ins = SOk (fst x, snd z).
Proof.
  intros ins x z X Zp. find X 0%nat. find Zp 2%nat. unfold quantize_linear.
  rewrite (at_pos ins 0 _ X : py_index ins 0 = SOk _). cbn [sbind]. rewrite (at_pos ins 2 _ Zp : py_index ins 2 = SOk _). reflexivity.
Qed.
Theorem C115_dequantize : forall ins (x s : tt), operand_is dequantize_operands ins "x" x -> operand_is dequantize_operands ins "x_scale" s ->
  dequantize_linear ins = SOk (fst x, snd s).
Proof.
  intros ins x z X Zp. find X 0%nat. find Zp 1%nat. unfold dequantize_linear.
  rewrite (at_pos ins 0 _ X : py_index ins 0 = SOk _). cbn [sbind]. rewrite (at_pos ins 1 _ Zp : py_index ins 1 = SOk _). reflexivity.
Qed.
(** y_zero_point is optional in ONNX (the result is then uint8); the code needs it. *)
Theorem C115_quantize_optional_refuted : forall x s : tt, quantize_linear [x; s] = SRaise IndexErr.
Proof. reflexivity. Qed.
End QOPS.
Example C115_applies : exists out, let ins := [([1; 3; 8], "u8"); ([], "f32"); ([], "u8"); ([4; 3; 3], "i8"); ([], "f32"); ([], "i8"); ([], "f32"); ([], "u8"); ([4], "i32")]%string in
  let wd := {| w_autopad := Explicit; w_pads := [1; 1]; w_strides := [2]; w_dilations := [1] |} in
  operand_is qlinear_conv_operands ins "y_zero_point" ([], "u8")%string /\ conv_sizes wd [1; 3; 8] [4; 3; 3] 1 /\
  qlinear_conv wd ins = SOk (out, "u8"%string).
Proof.
  assert (S1 : conv_sizes {| w_autopad := Explicit; w_pads := [1; 1]; w_strides := [2]; w_dilations := [1] |} [1; 3; 8] [4; 3; 3] 1).
  { repeat split; cbn; try lia; destruct i; try lia; cbn; lia. }
  destruct (C115_qlinear_conv {| w_autopad := Explicit; w_pads := [1; 1]; w_strides := [2]; w_dilations := [1] |}
    [([1; 3; 8], "u8"); ([], "f32"); ([], "u8"); ([4; 3; 3], "i8"); ([], "f32"); ([], "i8"); ([], "f32"); ([], "u8"); ([4], "i32")]%string ([1; 3; 8], "u8"%string) ([4; 3; 3], "i8"%string) ([], "u8"%string) 1) as (out & E & _).
  all: try exact S1; try reflexivity; try lia; try (unfold operand_is; cbn; tauto).
  exists out. cbv zeta. split; [unfold operand_is; cbn; tauto|]. split; [exact S1|exact E].
Qed.
