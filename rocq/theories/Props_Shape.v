(** Properties C19-C31 and C59: shape inference of individual operators (node.py). *)
From Coq Require Import Permutation.
From Verif Require Import PyBase GraphModel FloatPy ShapeModel ShapeSpec BcastProofs WindowProofs SliceProofs LayoutProofs.
Open Scope Z_scope.

(** C19: broadcasting operators report exactly the multidirectional broadcast, in any operand
    order, and raise ValueError exactly when there is none *)
Theorem C19_broadcast_exact : forall ss out, Forall nonneg ss ->
  (npmath_shape ss = SOk out <-> broadcast_of ss out).
Proof. exact broadcast_shape_ok. Qed.
Print Assumptions C19_broadcast_exact.
Theorem C19_incompatible_rejected : forall ss, Forall nonneg ss ->
  (npmath_shape ss = SRaise ValueErr <-> ~ exists out, broadcast_of ss out).
Proof.
  intros ss H. split.
  - intros E (out & B). apply broadcast_shape_ok in B; auto. unfold npmath_shape in E. congruence.
  - intros N. unfold npmath_shape. destruct (broadcast_shape ss) as [o|e] eqn:E.
    + exfalso. apply N. exists o. apply broadcast_shape_ok; auto.
    + apply broadcast_shape_raise in E as R. congruence.
Qed.
Theorem C19_order_independent : forall ss ss', Forall nonneg ss -> Permutation ss ss' ->
  npmath_shape ss = npmath_shape ss'.
Proof.
  intros ss ss' H P.
  assert (H' : Forall nonneg ss') by (rewrite Forall_forall in *; intros; apply H; eapply Permutation_in; [apply Permutation_sym; exact P|auto]).
  destruct (npmath_shape ss) as [o|e] eqn:E.
  - symmetry. apply broadcast_shape_ok; auto. eapply broadcast_of_perm; [exact P|]. apply broadcast_shape_ok; auto.
  - pose proof (broadcast_shape_raise _ _ E) as ->. symmetry. apply C19_incompatible_rejected; auto.
    intros (o & B). apply C19_incompatible_rejected in E; auto. apply E. exists o.
    eapply broadcast_of_perm; [apply Permutation_sym; exact P|exact B].
Qed.
Example C19_case : npmath_shape [[2; 1; 5]; [3; 1]] = SOk [2; 3; 5] /\ npmath_shape [[2; 3]; [4]] = SRaise ValueErr
  /\ npmath_shape [[0; 3]; [1]] = SOk [0; 3].
Proof. vm_compute. auto. Qed.

(** C20: element-wise operators of the PWNode family (Sum, PRelu, Clip, unary functions) report the broadcast shape
    when one operand already has it (this covers every unary operator) *)
Theorem C20_elementwise_partial : forall ss s, In s ss -> positive s -> broadcast_of ss s -> pw_shape ss = SOk s.
Proof. exact max_shape_broadcast. Qed.
Theorem C20_unary : forall s, pw_shape [s] = SOk s.
Proof.
  intros s. unfold pw_shape, max_shape. simpl. f_equal. destruct (step_cases s s) as [->| ->]; reflexivity.
Qed.
Example C20_case : In [4; 3] [[3]; [4; 3]; [1; 1]] /\ positive [4; 3] /\ broadcast_of [[3]; [4; 3]; [1; 1]] [4; 3].
Proof.
  split; [simpl; auto|]. split; [repeat constructor; lia|]. apply broadcast_shape_ok; [|vm_compute; reflexivity].
  repeat constructor; unfold nonneg; repeat constructor; lia.
Qed.
(** what is missing: two operands that broadcast each other, and empty dimensions *)
Theorem C20_mutual_broadcast_refuted : exists ss out, Forall positive ss /\ broadcast_of ss out /\ pw_shape ss <> SOk out.
Proof.
  exists [[2; 1]; [1; 3]], [2; 3]. split; [unfold positive; repeat constructor; lia|]. split.
  - apply broadcast_shape_ok; [unfold nonneg; repeat constructor; lia|vm_compute; reflexivity].
  - vm_compute. discriminate.
Qed.
Theorem C20_empty_dimension_refuted : exists ss s, In s ss /\ Forall nonneg ss /\ broadcast_of ss s /\ pw_shape ss <> SOk s.
Proof.
  exists [[1; 3]; [0; 3]], [0; 3]. split; [simpl; auto|]. split; [unfold nonneg; repeat constructor; lia|]. split.
  - apply broadcast_shape_ok; [unfold nonneg; repeat constructor; lia|vm_compute; reflexivity].
  - vm_compute. discriminate.
Qed.

Lemma py_index_neg_lit : forall (l : list Z) z i, z = - Z.of_nat (S i) -> (i < length l)%nat -> py_index l z = SOk (nth i (rev l) 1).
Proof. intros l z i -> H. apply py_index_neg; auto. Qed.
(** C21: MatMul's inferred shape is right when the batch dimensions of one operand already are the broadcast batch
    (with different element counts when it is the second operand's) *)
Theorem C21_matmul_partial : forall ba bb m k n batch, positive batch -> broadcast_of [ba; bb] batch ->
  batch = ba \/ (batch = bb /\ volume ba <> volume bb) ->
  matmul_shape (ba ++ [m; k]) (bb ++ [k; n]) = SOk (batch ++ [m; n]) /\
  matmul_of (ba ++ [m; k]) (bb ++ [k; n]) (batch ++ [m; n]).
Proof.
  intros ba bb m k n batch P B C. split; [|exists ba, bb, m, k, n, batch; auto].
  assert (D : forall l x y, drop_last2 (l ++ [x; y]) = l).
  { intros l x y. unfold drop_last2. rewrite app_length. simpl.
    replace (length l + 2 - 2)%nat with (length l) by lia. rewrite firstn_app, firstn_all, Nat.sub_diag. simpl. apply app_nil_r. }
  unfold matmul_shape. rewrite !app_length. simpl length.
  destruct (Nat.ltb_spec (length ba + 2) 2); [lia|]. destruct (Nat.ltb_spec (length bb + 2) 2); [lia|]. cbn [orb].
  rewrite (py_index_neg_lit (ba ++ [m; k]) (-2) 1 eq_refl) by (rewrite app_length; simpl; lia).
  rewrite (py_index_neg_lit (bb ++ [k; n]) (-1) 0 eq_refl) by (rewrite app_length; simpl; lia).
  rewrite !rev_app_distr. cbn [sbind rev app nth]. rewrite !D. rewrite (pick_batch_ok ba bb batch); auto.
Qed.
Example C21_case : broadcast_of [[1]; [4; 1]] [4; 1] /\ volume [1] <> volume [4; 1] /\
  matmul_shape [1; 2; 3] [4; 1; 3; 5] = SOk [4; 1; 2; 5].
Proof.
  split; [apply broadcast_shape_ok; [unfold nonneg; repeat constructor; lia|vm_compute; reflexivity]|].
  vm_compute. split; [discriminate|reflexivity].
Qed.
Theorem C21_gemm_checks_inner : forall a b out, gemm_shape 0 0 a b = SOk out ->
  (2 <= length a)%nat /\ (2 <= length b)%nat /\ dim_from_right a 0 = dim_from_right b 1.
Proof.
  intros a b out H. unfold gemm_shape in H.
  destruct (Nat.ltb_spec (length a) 2); [discriminate|]. destruct (Nat.ltb_spec (length b) 2); [discriminate|].
  cbn [orb] in H. repeat split; try lia.
  change (0 <? 0) with false in H. cbv iota in H.
  rewrite (py_index_neg_lit a (-2) 1 eq_refl) in H by lia. rewrite (py_index_neg_lit a (-1) 0 eq_refl) in H by lia.
  rewrite (py_index_neg_lit b (-2) 1 eq_refl) in H by lia. rewrite (py_index_neg_lit b (-1) 0 eq_refl) in H by lia.
  cbn [sbind] in H. unfold dim_from_right.
  destruct (Z.eqb_spec (nth 0 (rev a) 1) (nth 1 (rev b) 1)); [auto|discriminate].
Qed.
(** what is missing: MatMul does not check K, batches that broadcast each other, and the batch rank *)
Theorem C21_inner_mismatch_accepted_refuted : exists a b out, matmul_shape a b = SOk out /\ ~ exists o, matmul_of a b o.
Proof.
  exists [2; 3], [4; 5], [2; 5]. split; [vm_compute; reflexivity|].
  intros (o & ba & bb & m & k & n & batch & A & B & _).
  assert (L1 : length ba = 0%nat) by (apply (f_equal (@length Z)) in A; rewrite app_length in A; simpl in A; lia).
  assert (L2 : length bb = 0%nat) by (apply (f_equal (@length Z)) in B; rewrite app_length in B; simpl in B; lia).
  destruct ba; [|discriminate]. destruct bb; [|discriminate]. simpl in A, B. congruence.
Qed.
Lemma matmul_of_batch : forall ba bb m k n o, matmul_of (ba ++ [m; k]) (bb ++ [k; n]) o ->
  exists batch, broadcast_of [ba; bb] batch /\ o = batch ++ [m; n].
Proof.
  intros ba bb m k n o (ba' & bb' & m' & k' & n' & batch & A & B & Br & ->).
  assert (L : forall (l l' : list Z) x y x' y', l ++ [x; y] = l' ++ [x'; y'] -> l = l' /\ x = x' /\ y = y').
  { intros l l' x y x' y' E. change [x; y] with ([x] ++ [y]) in E. change [x'; y'] with ([x'] ++ [y']) in E.
    rewrite !app_assoc in E. apply app_inj_tail in E. destruct E as [E ->]. apply app_inj_tail in E. destruct E as [-> ->]. auto. }
  apply L in A. apply L in B. destruct A as (<- & <- & <-). destruct B as (<- & _ & <-). eauto.
Qed.
Theorem C21_mutual_batch_refuted : exists a b o, matmul_of a b o /\ matmul_shape a b <> SOk o.
Proof.
  exists ([2; 1] ++ [4; 5]), ([1; 3] ++ [5; 6]), ([2; 3] ++ [4; 6]). split; [|vm_compute; discriminate].
  exists [2; 1], [1; 3], 4, 5, 6, [2; 3]. split; [reflexivity|]. split; [reflexivity|]. split; [|reflexivity].
  apply broadcast_shape_ok; [unfold nonneg; repeat constructor; lia|vm_compute; reflexivity].
Qed.
Theorem C21_batch_rank_refuted : exists a b o, matmul_of a b o /\ matmul_shape a b <> SOk o.
Proof.
  exists ([1] ++ [4; 5]), ([1; 1] ++ [5; 6]), ([1; 1] ++ [4; 6]). split; [|vm_compute; discriminate].
  exists [1], [1; 1], 4, 5, 6, [1; 1]. split; [reflexivity|]. split; [reflexivity|]. split; [|reflexivity].
  apply broadcast_shape_ok; [unfold nonneg; repeat constructor; lia|vm_compute; reflexivity].
Qed.

(** C22: explicit pads: every spatial size counts the valid window positions.  The kernel may exceed the padded
    input by less than two strides (Conv) or at most one (Pool); sizes are below 2^50 so that the float division is exact. *)
Theorem C22_conv_counts_windows_partial : forall wd x w n,
  w_autopad wd = Explicit -> (1 <= n <= 3)%nat -> length x = (2 + n)%nat -> length w = (2 + n)%nat ->
  (2 * n <= length (w_pads wd))%nat -> (n <= length (w_strides wd))%nat -> (n <= length (w_dilations wd))%nat ->
  (forall i, (i < n)%nat ->
     let len := nth (2 + i) x 0 + nth i (w_pads wd) 0 + nth (i + n) (w_pads wd) 0 in
     let span := nth i (w_dilations wd) 0 * (nth (2 + i) w 0 - 1) + 1 in
     0 < nth i (w_strides wd) 0 /\ - 2 * nth i (w_strides wd) 0 < len - span /\
     Z.abs (len - span) + nth i (w_strides wd) 0 < 2 ^ 50) ->
  exists out, conv_shape wd x w = SOk out /\
    windowed x (nth 0 w 0) (skipn 2 w) (w_pads wd) (w_strides wd) (w_dilations wd) out.
Proof. exact conv_windows. Qed.
Print Assumptions C22_conv_counts_windows_partial.
Ltac axis_val := lazy -[fdiv1 fdiv_int py_int py_floor py_ceil].
Ltac small := vm_compute; intuition discriminate.
Example C22_conv_case : conv_shape {| w_autopad := Explicit; w_pads := [3;3;3;3]; w_strides := [2;2]; w_dilations := [1;1] |}
    [1; 3; 224; 224] [64; 3; 7; 7] = SOk [1; 64; 112; 112].
Proof.
  unfold conv_shape. axis_val. rewrite int_fdiv1 by small. reflexivity.
Qed.
Theorem C22_pool_counts_windows_partial : forall wd ks x n,
  w_autopad wd = Explicit -> (1 <= n <= 3)%nat -> length x = (2 + n)%nat -> length ks = n ->
  (2 * n <= length (w_pads wd))%nat -> (n <= length (w_strides wd))%nat -> (n <= length (w_dilations wd))%nat ->
  (n = 3%nat -> (forall i, (i < 3)%nat -> nth i (w_pads wd) 0 = nth (i + 3) (w_pads wd) 0) /\
                nth 1 (w_dilations wd) 0 = nth 2 (w_dilations wd) 0) ->
  (forall i, (i < n)%nat ->
     let len := nth (2 + i) x 0 + nth i (w_pads wd) 0 + nth (i + n) (w_pads wd) 0 in
     let span := nth i (w_dilations wd) 0 * (nth i ks 0 - 1) + 1 in
     0 < nth i (w_strides wd) 0 /\ - nth i (w_strides wd) 0 <= len - span /\
     Z.abs (len - span) + nth i (w_strides wd) 0 < 2 ^ 50) ->
  exists out, pool_shape wd ks false x = SOk out /\
    windowed x (nth 1 x 0) ks (w_pads wd) (w_strides wd) (w_dilations wd) out.
Proof. exact pool_windows. Qed.
Theorem C22_valid_counts_windows_partial : forall wd x w n,
  w_autopad wd = Valid -> (1 <= n <= 2)%nat -> length x = (2 + n)%nat -> length w = (2 + n)%nat ->
  (n <= length (w_strides wd))%nat ->
  (forall i, (i < n)%nat -> 0 < nth i (w_strides wd) 0 < 2 ^ 53 /\
     Z.abs (nth (2 + i) x 0 - nth (2 + i) w 0 + 1) < 2 ^ 53 /\ - nth i (w_strides wd) 0 < nth (2 + i) x 0 - nth (2 + i) w 0 + 1) ->
  exists out, conv_shape wd x w = SOk out /\
    windowed x (nth 0 w 0) (skipn 2 w) [] (w_strides wd) (repeat 1 n) out.
Proof. exact conv_valid. Qed.
(** what is missing: a kernel two strides too large gives a negative size; VALID ignores dilations;
    3-D pooling reads the wrong pads; 3-D (rank 5) auto_pad drops two axes *)
Theorem C22_oversized_kernel_refuted : exists wd x w n out, w_autopad wd = Explicit /\
  conv_shape wd x w = SOk out /\ In n out /\ n < 0.
Proof.
  exists conv_default, [1; 1; 2], [1; 1; 5], (-2), [1; 1; -2]. split; [reflexivity|]. split; [|split; [simpl; auto|lia]].
  unfold conv_shape. axis_val.
  assert (E : py_int (fdiv1 (-3) 1) = -2); [|rewrite E; reflexivity].
  unfold py_int. rewrite Flocq.Core.Raux.Ztrunc_ceil.
  - fold (py_ceil (fdiv1 (-3) 1)). rewrite ceil_fdiv1 by small. reflexivity.
  - pose proof (fdiv1_le (-3) 1 (-1) ltac:(lia) ltac:(lia) ltac:(lia)) as H. exact H.
Qed.
Theorem C22_valid_ignores_dilation_refuted : exists wd x w out, w_autopad wd = Valid /\ conv_shape wd x w = SOk out /\
  ~ windowed x (nth 0 w 0) (skipn 2 w) [] (w_strides wd) (w_dilations wd) out.
Proof.
  exists {| w_autopad := Valid; w_pads := []; w_strides := [1]; w_dilations := [2] |}, [1; 1; 5], [1; 1; 3], [1; 1; 3].
  split; [reflexivity|]. split.
  - unfold conv_shape. axis_val. rewrite ceil_fdiv by small. reflexivity.
  - intros (sp & E & _ & _ & W). injection E as <-. specialize (W 0%nat ltac:(simpl; lia)). simpl in W.
    destruct W as [_ W]. specialize (W 2 ltac:(lia)). lia.
Qed.
Theorem C22_pool3d_pads_refuted : exists wd ks x out, w_autopad wd = Explicit /\ pool_shape wd ks false x = SOk out /\
  ~ windowed x (nth 1 x 0) ks (w_pads wd) (w_strides wd) (w_dilations wd) out.
Proof.
  exists {| w_autopad := Explicit; w_pads := [0;0;0;1;0;0]; w_strides := [1;1;1]; w_dilations := [1;1;1] |}, [2;2;2], [1;1;4;4;4], [1;1;3;3;3].
  split; [reflexivity|]. split.
  - unfold pool_shape. axis_val. rewrite floor_fdiv1 by small. reflexivity.
  - intros (sp & E & _ & _ & W). injection E as <-. specialize (W 0%nat ltac:(simpl; lia)). simpl in W.
    destruct W as [_ W]. specialize (W 3 ltac:(lia)). lia.
Qed.
Theorem C22_valid_rank5_refuted : forall wd x w out, w_autopad wd = Valid -> length x = 5%nat -> conv_shape wd x w = SOk out ->
  length out = 3%nat.
Proof.
  intros wd x w out A L H. unfold conv_shape in H. rewrite A, L in H. cbn [Nat.eqb] in H.
  repeat match goal with H : sbind ?r _ = SOk _ |- _ => destruct r; [cbn [sbind] in H|discriminate] end.
  injection H as <-. reflexivity.
Qed.
(** ceil-mode pooling: the number of windows that start inside the (padded) input, by the code's rule *)
Theorem C22_pool_ceil_mode : forall x pad k s d,
  0 < s -> Z.abs (x + pad - d * (k - 1) - 1) + s < 2 ^ 50 -> 0 <= x + pad - d * (k - 1) - 1 ->
  exists n, pooling_shape_calc x pad k d s true = SOk n /\
    forall p, 0 <= p -> (p < n <-> p = 0 \/ (p - 1) * s + d * (k - 1) + 1 < x + pad).
Proof. exact pool_axis_ceil. Qed.

(** C23: SAME padding (the ranks the code handles: one or two spatial axes) *)
Theorem C23_conv_same_partial : forall wd x w n,
  w_autopad wd = SameUpper \/ w_autopad wd = SameLower -> (1 <= n <= 2)%nat -> length x = (2 + n)%nat -> (1 <= length w)%nat ->
  (n <= length (w_strides wd))%nat ->
  (forall i, (i < n)%nat -> 0 < nth i (w_strides wd) 0 < 2 ^ 53 /\ Z.abs (nth (2 + i) x 0) < 2 ^ 53) ->
  exists out, conv_shape wd x w = SOk out /\ same_padded x (nth 0 w 0) (w_strides wd) out.
Proof. exact conv_same. Qed.
Theorem C23_pool_same_partial : forall wd ks c x n,
  w_autopad wd = SameUpper \/ w_autopad wd = SameLower -> (1 <= n <= 2)%nat -> length x = (2 + n)%nat ->
  length (w_strides wd) = n ->
  (forall i, (i < n)%nat -> 0 < nth i (w_strides wd) 0 < 2 ^ 53 /\ Z.abs (nth (2 + i) x 0) < 2 ^ 53) ->
  exists out, pool_shape wd ks c x = SOk out /\ same_padded x (nth 1 x 0) (w_strides wd) out.
Proof. exact pool_same. Qed.
Print Assumptions C23_pool_same_partial.
Theorem C23_rank5_refuted : forall wd x w out, w_autopad wd = SameUpper \/ w_autopad wd = SameLower -> length x = 5%nat ->
  conv_shape wd x w = SOk out -> length out = 3%nat.
Proof.
  intros wd x w out A L H. unfold conv_shape in H. rewrite L in H. cbn [Nat.eqb] in H.
  destruct A as [A|A]; rewrite A in H;
  repeat match goal with H : sbind ?r _ = SOk _ |- _ => destruct r; [cbn [sbind] in H|discriminate] end;
  injection H as <-; reflexivity.
Qed.
Example C23_case : conv_shape {| w_autopad := SameUpper; w_pads := []; w_strides := [2;2]; w_dilations := [1;1] |} [1;3;7;8] [4;3;3;3] = SOk [1;4;4;4]
  /\ exists out, conv_shape {| w_autopad := SameUpper; w_pads := []; w_strides := [1;1;1]; w_dilations := [1;1;1] |} [1;3;7;8;9] [4;3;3;3;3] = SOk out.
Proof. split; [|eexists]; unfold conv_shape; axis_val; rewrite ?ceil_fdiv by small; reflexivity. Qed.

(** C24: Slice *)
Theorem C24_slice_counts_partial : forall x starts ends axes steps,
  valid_axes (length x) axes ->
  length starts = length axes -> length ends = length axes -> length steps = length axes ->
  nonneg x -> (forall d, In d x -> d < 2 ^ 53 - 1) ->
  (forall j, (j < length axes)%nat -> let st := nth j steps 0 in
     st <> 0 /\ Z.abs st < 2 ^ 53 /\
     (st < 0 -> 0 < nth (Z.to_nat (axis_pos (length x) (nth j axes 0))) x 0)) ->
  exists out, slice_shape x starts ends (Some axes) (Some steps) = SOk out /\ sliced x axes starts ends steps out.
Proof. exact slice_node. Qed.
Theorem C24_axis_counts_partial : forall dim s e st,
  0 <= dim < 2 ^ 53 - 1 -> st <> 0 -> Z.abs st < 2 ^ 53 -> (st < 0 -> 0 < dim) ->
  exists n, slice_size (eff_slice dim s e st) = SOk n /\ slice_count dim s e st n.
Proof. exact slice_axis_count. Qed.
Example C24_case : exists out, slice_shape [10; 5] [-1; 0] [-11; 100] (Some [0; -1]) (Some [-3; 2]) = SOk out /\ out = [4; 3].
Proof.
  eexists. split; [|reflexivity]. axis_val. rewrite !ceil_fdiv by small. reflexivity.
Qed.
Theorem C24_empty_reversed_refuted : exists dim s e st n, 0 <= dim /\ st <> 0 /\
  slice_size (eff_slice dim s e st) = SOk n /\ ~ slice_count dim s e st n.
Proof.
  exists 0, (-1), (-2), (-1), 1. split; [lia|]. split; [lia|]. split.
  - axis_val. rewrite ceil_fdiv by small. reflexivity.
  - intros (l & _ & I & L). destruct l as [|i r]; [discriminate|]. destruct (proj1 (I i) (or_introl eq_refl)) as [H _]. lia.
Qed.

(** C25: Reshape *)
Theorem C25_reshape_exact_partial : forall src req out, positive src -> src <> [] -> req <> [] -> valid_request src req ->
  (reshape_shape src req = SOk out <-> reshape_of src req out).
Proof. exact reshape_iff. Qed.
Example C25_case : positive [4; 6] /\ valid_request [4; 6] [0; -1; 3] /\ reshape_shape [4; 6] [0; -1; 3] = SOk [4; 2; 3]
  /\ reshape_shape [4; 6] [5; -1] = SRaise AssertErr.
Proof.
  split; [repeat constructor; lia|]. split; [|vm_compute; auto]. split; [|split].
  - simpl; intuition lia.
  - vm_compute; lia.
  - intros [|[|[|i]]]; simpl; intros H; try discriminate; try lia. destruct i; discriminate.
Qed.
(** every reported shape has the input's element count, as the code counts elements (0 for a rank-0 shape) *)
Theorem C25_volume_preserved : forall src req out, req <> [] -> reshape_shape src req = SOk out -> volume out = volume src.
Proof.
  intros src req out N H. unfold reshape_shape in H. destruct req as [|r0 req]; [congruence|].
  destruct (reshape_fill src (r0 :: req) 0) as [nw|e]; [cbn [sbind] in H|discriminate].
  destruct (Z.eqb_spec (volume src) (volume (if volume nw <? 0 then replace_m1 nw (volume src / - volume nw) else nw))); [|discriminate].
  injection H as <-. auto.
Qed.
Theorem C25_two_unknowns_refuted : exists src req out, positive src /\ reshape_shape src req = SOk out /\ In (-1) out.
Proof. exists [6], [-1; -1; 6], [-1; -1; 6]. split; [repeat constructor; lia|]. vm_compute. auto. Qed.
Theorem C25_empty_input_refuted : exists src req out, nonneg src /\ valid_request src req /\ reshape_shape src req = SOk out /\ In (-1) out.
Proof.
  exists [0; 3], [0; -1], [0; -1]. split; [repeat constructor; lia|]. split; [|vm_compute; auto]. split; [simpl; intuition lia|]. split; [vm_compute; lia|].
  intros [|[|i]]; simpl; intros H; try discriminate; try lia. destruct i; discriminate.
Qed.
Theorem C25_scalar_refuted : exists req out, reshape_of [] req out /\ reshape_shape [] req = SRaise AssertErr.
Proof.
  exists [1], [1]. split; [|reflexivity]. split; [auto|]. split; [|reflexivity]. intros [|i] H; simpl in *; [reflexivity|lia].
Qed.

(** C26: Split *)
Theorem C26_explicit_sizes : forall x axis a sp nout (attr : bool),
  axis_pos (length x) axis = Z.of_nat a -> (a < length x)%nat ->
  Forall (fun v => 0 <= v) sp -> fold_right Z.add 0 sp = nth a x 0 ->
  exists outs, split_shape (Some axis) (if attr then Some sp else None) (if attr then None else Some sp) nout x = SOk outs /\
    outs = map (with_dim x a) sp /\ split_of x a outs.
Proof. exact split_explicit. Qed.
Theorem C26_default_sizes_partial : forall x axis a nout,
  axis_pos (length x) axis = Z.of_nat a -> (a < length x)%nat -> (0 < nout)%nat -> 0 <= nth a x 0 ->
  (nth a x 0 mod Z.of_nat nout = 0 \/ (Z.of_nat nout - 1) * (nth a x 0 / Z.of_nat nout + 1) <= nth a x 0) ->
  exists outs, split_shape (Some axis) None None nout x = SOk outs /\ length outs = nout /\ split_of x a outs.
Proof. exact split_default. Qed.
Example C26_case : split_shape (Some (-1)) None None 3 [2; 7] = SOk [[2; 3]; [2; 3]; [2; 1]] /\
  (Z.of_nat 3 - 1) * (nth 1 [2; 7] 0 / Z.of_nat 3 + 1) <= nth 1 [2; 7] 0.
Proof. vm_compute. split; [reflexivity|discriminate]. Qed.
Theorem C26_negative_size_refuted : exists x nout outs o, nonneg x /\ split_shape (Some 0) None None nout x = SOk outs /\ In o outs /\ In (-1) o.
Proof.
  exists [5], 4%nat, [[2]; [2]; [1]; [-1]], [-1]. split; [repeat constructor; lia|]. vm_compute. auto 10.
Qed.
Theorem C26_default_axis_refuted : forall split split_in nout x, split_shape None split split_in nout x = SRaise TypeErr.
Proof. reflexivity. Qed.

(** C27: Transpose *)
Theorem C27_permutes : forall x p, axes_perm (length x) p ->
  exists y, transpose_shape (Some p) x = SOk y /\ length y = length x /\
    (forall i, (i < length x)%nat -> nth i y 0 = nth (Z.to_nat (nth i p 0)) x 0) /\ elements y = elements x.
Proof. exact transpose_perm. Qed.
Theorem C27_inverse : forall x p q, axes_perm (length x) p -> axes_perm (length x) q -> inverse_perm (length x) p q ->
  exists y, transpose_shape (Some p) x = SOk y /\ transpose_shape (Some q) y = SOk x.
Proof. exact transpose_inverse. Qed.
Theorem C27_default_reverses : forall x, exists y, transpose_shape None x = SOk y /\ transpose_shape None y = SOk x /\
  elements y = elements x.
Proof.
  intros x. exists (rev x). simpl. rewrite rev_involutive. repeat split; auto.
  unfold elements. assert (P : Permutation (rev x) x) by (apply Permutation_sym, Permutation_rev).
  induction P; simpl; lia.
Qed.
Example C27_case : axes_perm 3 [2; 0; 1] /\ axes_perm 3 [1; 2; 0] /\ inverse_perm 3 [2; 0; 1] [1; 2; 0] /\
  transpose_shape (Some [2; 0; 1]) [5; 6; 7] = SOk [7; 5; 6].
Proof.
  split; [|split; [|split; [|reflexivity]]].
  - apply (Permutation_cons_app [0; 1] [] 2). simpl. reflexivity.
  - apply Permutation_sym. apply (Permutation_cons_app [1; 2] [] 0). simpl. reflexivity.
  - intros [|[|[|i]]] H; [exists 1%nat|exists 2%nat|exists 0%nat|lia]; split; reflexivity.
Qed.

(** C28: Unsqueeze then Squeeze *)
Theorem C28_roundtrip : forall x axes, valid_axes (length x + length axes) axes ->
  exists y, unsqueeze_shape axes x = SOk y /\ length y = (length x + length axes)%nat /\
    (forall a, In a axes -> nth (Z.to_nat (axis_pos (length y) a)) y 0 = 1) /\
    elements y = elements x /\ squeeze_shape axes y = x.
Proof. exact unsqueeze_squeeze. Qed.
Example C28_case : valid_axes (2 + 2) [-1; 0] /\ unsqueeze_shape [-1; 0] [5; 7] = SOk [1; 5; 7; 1].
Proof.
  split; [|reflexivity]. split.
  - intros a [<-|[<-|[]]]; vm_compute; intuition discriminate.
  - vm_compute. repeat constructor; simpl; intuition discriminate.
Qed.

(** C29: Concat *)
Theorem C29_concat : forall axis a s rest,
  (a < length s)%nat -> axis_pos (length s) axis = Z.of_nat a -> (forall t, In t rest -> length t = length s) ->
  exists out, concat_shape axis (s :: rest) = SOk out /\
    out = with_dim s a (fold_right Z.add 0 (map (fun t => nth a t 0) (s :: rest))) /\
    ((forall t, In t rest -> without_dim t a = without_dim s a) ->
       elements out = fold_right Z.add 0 (map elements (s :: rest))).
Proof. exact concat_ok. Qed.
Example C29_case : concat_shape (-1) [[2; 3]; [2; 4]; [2; 0]] = SOk [2; 7] /\ axis_pos 2 (-1) = Z.of_nat 1 /\
  without_dim [2; 4] 1 = without_dim [2; 3] 1.
Proof. vm_compute. auto. Qed.

(** C30: Expand *)
Theorem C30_expand_partial : forall x e o, positive x -> positive e -> broadcast_of [x; e] o -> expand_shape x e = o.
Proof. exact expand_ok. Qed.
Example C30_case : broadcast_of [[3; 1]; [2; 1; 4]] [2; 3; 4].
Proof. apply broadcast_shape_ok; [unfold nonneg; repeat constructor; lia|vm_compute; reflexivity]. Qed.
Theorem C30_incompatible_accepted_refuted : exists x e, positive x /\ positive e /\ (~ exists o, broadcast_of [x; e] o) /\ expand_shape x e = [3].
Proof.
  exists [2], [3]. split; [repeat constructor; lia|]. split; [repeat constructor; lia|]. split; [|reflexivity].
  intros (o & B). apply broadcast_shape_ok in B; [vm_compute in B; discriminate|unfold nonneg; repeat constructor; lia].
Qed.
Theorem C30_empty_dimension_refuted : exists x e o, nonneg x /\ nonneg e /\ broadcast_of [x; e] o /\ expand_shape x e <> o.
Proof.
  exists [1], [0], [0]. split; [repeat constructor; lia|]. split; [repeat constructor; lia|]. split; [|vm_compute; discriminate].
  apply broadcast_shape_ok; [unfold nonneg; repeat constructor; lia|vm_compute; reflexivity].
Qed.

(** C31: Gather, Pad, Reduce, Flatten, TopK, DepthToSpace, OneHot *)
Theorem C31_gather : forall axis a x idx, axis_pos (length x) axis = Z.of_nat a -> (a < length x)%nat ->
  gather_shape axis x idx = firstn a x ++ idx ++ skipn (S a) x /\
  length (gather_shape axis x idx) = (length x + length idx - 1)%nat.
Proof. exact gather_ok. Qed.
Theorem C31_pad : forall pads x, (2 * length x <= length pads)%nat ->
  exists out, pad_shape (Some pads) x = SOk out /\ length out = length x /\
    forall i, (i < length x)%nat -> nth i out 0 = nth i x 0 + nth i pads 0 + nth (i + length x) pads 0.
Proof. intros pads x H. apply (pad_loop_ok pads (length x) x 0); simpl; lia. Qed.
Theorem C31_reduce_removes : forall axes x, reduce_shape (Some axes) false x = Some (dims_outside (map (axis_pos (length x)) axes) x).
Proof.
  intros. unfold reduce_shape. rewrite reduce_drop, (keep_axes_spec _ x 0). unfold dims_outside.
  replace (axes_neg2pos (zlen x) axes) with (map (axis_pos (length x)) axes); [reflexivity|].
  unfold axes_neg2pos, zlen. apply map_ext. intros a. unfold axis_pos. destruct (a <? 0); lia.
Qed.
Theorem C31_reduce_keeps : forall axes x, exists out, reduce_shape (Some axes) true x = Some out /\ length out = length x /\
  forall i, (i < length x)%nat ->
    (In (Z.of_nat i) (map (axis_pos (length x)) axes) -> nth i out 0 = 1) /\
    (~ In (Z.of_nat i) (map (axis_pos (length x)) axes) -> nth i out 0 = nth i x 0).
Proof.
  intros. eexists. split; [reflexivity|].
  replace (axes_neg2pos (zlen x) axes) with (map (axis_pos (length x)) axes)
    by (unfold axes_neg2pos, zlen; apply map_ext; intros a; unfold axis_pos; destruct (a <? 0); lia).
  destruct (reduce_keep (map (axis_pos (length x)) axes) x 0) as [L N]. split; [exact L|].
  intros i Hi. change (Z.of_nat 0) with 0 in N. rewrite (N i Hi). simpl (0 + i)%nat. unfold zmem.
  destruct (existsb (Z.eqb (Z.of_nat i)) (map (axis_pos (length x)) axes)) eqn:E; split; auto.
  - intros X. exfalso. apply X. apply existsb_exists in E. destruct E as (y & Y & Q). apply Z.eqb_eq in Q. subst. auto.
  - intros X. exfalso. assert (existsb (Z.eqb (Z.of_nat i)) (map (axis_pos (length x)) axes) = true); [|congruence].
    apply existsb_exists. exists (Z.of_nat i). split; auto. apply Z.eqb_refl.
Qed.
Theorem C31_flatten : forall x a, positive x -> (a <= length x)%nat ->
  flatten_shape (Some (Z.of_nat a)) x = SOk [elements (firstn a x); elements (skipn a x)] /\
  elements [elements (firstn a x); elements (skipn a x)] = elements x.
Proof. exact flatten_ok. Qed.
Theorem C31_flatten_default : forall d x, positive (d :: x) -> flatten_shape None (d :: x) = SOk [d; elements x].
Proof. exact flatten_default_ok. Qed.
Theorem C31_topk : forall axis a k x, axis_pos (length x) axis = Z.of_nat a -> (a < length x)%nat ->
  topk_shape axis k x = with_dim x a k.
Proof. exact topk_ok. Qed.
Theorem C31_depth_to_space : forall b n c h w, 0 < b -> (b * b | c) ->
  exists y, depth_to_space_shape b [n; c; h; w] = SOk y /\ elements y = elements [n; c; h; w].
Proof. exact depth_to_space_ok. Qed.
Theorem C31_onehot : forall axis depth x a, axis_pos (S (length x)) axis = Z.of_nat a -> (a <= length x)%nat ->
  onehot_shape axis depth x = firstn a x ++ depth :: skipn a x.
Proof. exact onehot_ok. Qed.
Example C31_case : gather_shape (-1) [5; 6] [2; 3] = [5; 2; 3] /\ pad_shape (Some [1; 0; 2; 3]) [4; 4] = SOk [7; 7] /\
  reduce_shape (Some [-1]) false [4; 5] = Some [4] /\ reduce_shape (Some [0]) true [4; 5] = Some [1; 5] /\
  flatten_shape (Some 1) [2; 3; 4] = SOk [2; 12] /\ topk_shape (-1) 3 [2; 9] = [2; 3] /\ onehot_shape (-1) 10 [4] = [4; 10].
Proof. vm_compute. auto 10. Qed.
(** what is missing: Reduce over all axes (no axes attribute) sets no output shape; Flatten ignores negative axes *)
Theorem C31_reduce_all_refuted : forall keepdims x, reduce_shape None keepdims x = None.
Proof. reflexivity. Qed.
Theorem C31_flatten_negative_axis_refuted : exists x axis out, positive x /\ 0 <= axis_pos (length x) axis < Z.of_nat (length x) /\
  flatten_shape (Some axis) x = SOk out /\
  out <> [elements (firstn (Z.to_nat (axis_pos (length x) axis)) x); elements (skipn (Z.to_nat (axis_pos (length x) axis)) x)].
Proof.
  exists [2; 3], (-1), [1; 6]. split; [repeat constructor; lia|]. vm_compute. intuition discriminate.
Qed.

(** C59: ConvTranspose followed by Conv with the same parameters: the Conv window count of the inferred
    transposed-convolution size is the original size, on every spatial axis *)
Theorem C59_transpose_inverts : forall x op pad k s d,
  0 < s -> 0 <= op < s -> 1 <= x ->
  window_count (convtranspose_output_shape x op pad k s d + pad) k s d x.
Proof. exact convtranspose_inverse. Qed.
Example C59_case : convtranspose_output_shape 7 1 2 3 2 1 = 14.
Proof. reflexivity. Qed.
