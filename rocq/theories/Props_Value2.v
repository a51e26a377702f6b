(** C98: values of the operators that read or write at computed indices; C99: values of Pad, Reshape, reductions,
    ConstantOfShape and Shape. *)
From Verif Require Import PyBase GraphModel FloatPy ShapeModel ShapeSpec BcastProofs LayoutProofs CostSpec CostProofs ValueModel ValueModel2 ValueModel3 ValueSpec ValueSpec3 ValueProofs ValueProofs2 ValueProofs3 ValueProofs4 ValueProofs5 ValueProofs6 ValueProofs7.
From Coq Require Import Lia Bool.
Open Scope list_scope. Open Scope Z_scope.

Definition listed (sh l : list Z) : arr Z := {| shp := sh; el := fun i => nth (Z.to_nat (ravel sh i)) l 0 |}.

(** ** GatherND *)
(** whatever the attribute batch_dims says, the result is that of batch_dims = 0 ... *)
Theorem C98_gather_nd_partial : forall (T : Type) (x : arr T) ind outer k batch_dims,
  shp ind = outer ++ [Z.of_nat k] -> (1 <= k <= length (shp x))%nat ->
  (forall i, in_range outer i = true -> inside_all (shp x) (tuple_at ind k i)) ->
  gather_nd_value batch_dims x ind = SOk (outer ++ skipn k (shp x), map (onnx_gather_nd x ind outer k) (indices (outer ++ skipn k (shp x))))
  /\ gather_nd_shape (shp x) (shp ind) = SOk (outer ++ skipn k (shp x)).
Proof. intros T x ind outer k bd H (H1 & H2) H3. split; [apply gather_nd_ok; assumption|apply gather_nd_shape_ok; assumption]. Qed.
(** every source index is inside the data *)
Theorem C98_gather_nd_inside : forall (T : Type) (x : arr T) ind outer k o,
  (k <= length (shp x))%nat -> (forall i, in_range outer i = true -> inside_all (shp x) (tuple_at ind k i)) ->
  in_range (outer ++ skipn k (shp x)) o = true ->
  in_range (shp x) (from_end_all (shp x) (tuple_at ind k (firstn (length outer) o)) ++ skipn (length outer) o) = true.
Proof.
  intros T x ind outer k o Hk H Ho. destruct (range_prefix _ _ _ Ho) as (R1 & R2). destruct (np_index_inside _ _ (H _ R1)) as (_ & R). rewrite tuple_at_length in R.
  rewrite <- (firstn_skipn k (shp x)) at 1. apply in_range_app; assumption.
Qed.
(** an index outside the data is an error, never a wrong element *)
Theorem C98_gather_nd_bounds : forall (T : Type) (x : arr T) ind outer k batch_dims,
  shp ind = outer ++ [Z.of_nat k] -> (1 <= k <= length (shp x))%nat ->
  (exists i, in_range outer i = true /\ ~ inside_all (shp x) (tuple_at ind k i)) -> gather_nd_value batch_dims x ind = SRaise IndexErr.
Proof. intros T x ind outer k bd H (H1 & H2) H3. eapply gather_nd_bounds; eassumption. Qed.
Theorem C98_gather_nd_too_long : forall (T : Type) (x : arr T) ind outer k batch_dims,
  shp ind = outer ++ [Z.of_nat k] -> (length (shp x) < k)%nat -> gather_nd_value batch_dims x ind = SRaise AssertErr /\ gather_nd_shape (shp x) (shp ind) = SRaise AssertErr.
Proof. intros T x ind outer k bd H Hk. unfold gather_nd_value, gather_nd_shape, zlen. rewrite H, py_index_last. cbn [sbind]. rewrite (proj2 (Z.ltb_lt _ _)) by lia. split; reflexivity. Qed.
Example C98_gather_nd_case : gather_nd_value 0 (listed [2; 2; 2] [0; 1; 2; 3; 4; 5; 6; 7]) (listed [2; 1; 2] [0; 1; -1; 0]) = SOk ([2; 1; 2], [2; 3; 4; 5])
  /\ gather_nd_value 0 (listed [2; 2] [0; 1; 2; 3]) (listed [1; 2] [0; 2]) = SRaise IndexErr.
Proof. split; reflexivity. Qed.
(** ... so with batch_dims = 1 both the shape and the values are wrong *)
Theorem C98_gather_nd_batch_dims_refuted : exists (x ind : arr Z) sh vals, gather_nd_value 1 x ind = SOk (sh, vals) /\ gather_nd_shape (shp x) (shp ind) = SOk sh
  /\ shp x = [2; 2] /\ shp ind = [2; 1] /\ sh <> [2] /\ map (onnx_gather_nd_batch1 x ind [2] 1) (indices [2]) = [20; 30] /\ vals <> [20; 30].
Proof. exists (listed [2; 2] [10; 20; 30; 40]), (listed [2; 1] [1; 0]). do 2 eexists. split; [reflexivity|]. split; [reflexivity|]. split; [reflexivity|]. split; [reflexivity|]. split; [discriminate|]. split; [reflexivity|discriminate]. Qed.

(** ** ScatterND *)
Theorem C98_scatter_nd_partial : forall (x ind upd : arr Z) outer k reduction,
  shp ind = outer ++ [Z.of_nat k] -> (k <= length (shp x))%nat -> shp upd = outer ++ skipn k (shp x) ->
  (forall i, in_range outer i = true -> inside_all (shp x) (tuple_at ind k i)) ->
  exists y, scatter_nd_value reduction x ind upd = SOk y /\ onnx_scatter x ind upd outer k y.
Proof.
  intros x ind upd outer k red H1 H2 H3 H4. destruct (scatter_impl_ok (reduction_of "none") x upd ind outer k H1 H2 H3 H4) as (y & E & Sy & V).
  exists y. split; [exact E|]. split; [exact Sy|]. intros o Ho. rewrite V. exact (scatter_overwrite x upd ind outer k o).
Qed.
(** with repeated targets, which ONNX leaves open, the last update wins; and the helper's reductions, which the node never asks
    for, fold every update in *)
Theorem C98_scatter_nd_impl : forall (T : Type) (op : T -> T -> T) (x upd : arr T) ind outer k,
  shp ind = outer ++ [Z.of_nat k] -> (k <= length (shp x))%nat -> shp upd = outer ++ skipn k (shp x) ->
  (forall i, in_range outer i = true -> inside_all (shp x) (tuple_at ind k i)) ->
  exists y, scatter_nd_impl op x ind upd = SOk y /\ shp y = shp x /\ forall o, el y o = onnx_scatter_reduce op x ind upd outer k o.
Proof. intros. apply scatter_impl_ok; assumption. Qed.
Theorem C98_scatter_nd_bounds : forall (x ind upd : arr Z) outer k reduction,
  shp ind = outer ++ [Z.of_nat k] -> (k <= length (shp x))%nat -> shp upd = outer ++ skipn k (shp x) ->
  (exists i, in_range outer i = true /\ ~ inside_all (shp x) (tuple_at ind k i)) -> scatter_nd_value reduction x ind upd = SRaise IndexErr.
Proof. intros. eapply scatter_impl_bounds; eassumption. Qed.
Theorem C98_scatter_nd_shapes : forall (x ind upd : arr Z) outer k reduction, shp ind = outer ++ [Z.of_nat k] ->
  (length (shp x) < k)%nat \/ shp upd <> outer ++ skipn k (shp x) -> scatter_nd_value reduction x ind upd = SRaise AssertErr.
Proof.
  intros x ind upd outer k red H1 H2. unfold scatter_nd_value, scatter_nd_impl, zlen. rewrite H1, py_index_last. cbn [sbind]. rewrite but_last_app, Nat2Z.id.
  destruct (Z.ltb_spec (Z.of_nat (length (shp x))) (Z.of_nat k)) as [L|L]; [reflexivity|]. destruct H2 as [H2|H2]; [lia|]. unfold shape_eqb. destruct (list_eq_dec Z.eq_dec _ _); [contradiction|reflexivity].
Qed.
Example C98_scatter_nd_case : exists y, scatter_nd_value "none" (listed [2; 2] [1; 2; 3; 4]) (listed [1; 1] [-1]) (listed [1; 2] [30; 40]) = SOk y /\ flat y = [1; 2; 30; 40].
Proof. eexists. split; reflexivity. Qed.
Theorem C98_scatter_nd_reduction_refuted : exists (x ind upd : arr Z) y, scatter_nd_value "add" x ind upd = SOk y
  /\ flat y = [5] /\ map (onnx_scatter_reduce Z.add x ind upd [1] 1) (indices (shp x)) = [15].
Proof. exists (listed [1] [10]), (listed [1; 1] [0]), (listed [1] [5]). eexists. split; [reflexivity|]. split; reflexivity. Qed.

(** ** OneHot: right if the on/off values are 1 and 0 and every index is in [-depth, depth-1] *)
Theorem C98_one_hot_partial : forall axis a (ind : arr Z) depth values,
  axis_pos (S (length (shp ind))) axis = Z.of_nat a -> (a <= length (shp ind))%nat -> 0 < depth ->
  exists y, one_hot_value axis ind depth values = SOk y /\ shp y = firstn a (shp ind) ++ depth :: skipn a (shp ind) /\ onehot_shape axis depth (shp ind) = shp y /\
  forall o, - depth <= el ind (remove_at o a) < depth -> el y o = onnx_one_hot a ind depth 0 1 o.
Proof.
  intros axis a ind depth vals H1 H2 H3. destruct (one_hot_ok axis a ind depth vals H1 H2 H3) as (y & E & Sy & V). exists y. split; [exact E|]. split; [exact Sy|]. split; [rewrite Sy; apply onehot_ok; assumption|exact V].
Qed.
Example C98_one_hot_case : exists y, one_hot_value (-1) (listed [2] [1; -1]) 3 (0, 1) = SOk y /\ shp y = [2; 3] /\ flat y = [0; 1; 0; 0; 0; 1].
Proof. eexists. split; [reflexivity|]. split; reflexivity. Qed.
Theorem C98_one_hot_values_refuted : exists ind y, one_hot_value (-1) ind 2 (5, 7) = SOk y /\ flat y = [1; 0] /\ map (onnx_one_hot 1 ind 2 5 7) (indices (shp y)) = [7; 5].
Proof. exists (listed [1] [0]). eexists. split; [reflexivity|]. split; reflexivity. Qed.
(** an index out of range lights a position instead of none *)
Theorem C98_one_hot_range_refuted : forall (ind : arr Z) depth values, 0 < depth -> shp ind = [1] -> ~ (- depth <= el ind [0] < depth) ->
  exists y, one_hot_value (-1) ind depth values = SOk y /\ fold_right Z.add 0 (flat y) = 1
    /\ forall p, onnx_one_hot 1 ind depth 0 1 [0; p] = 0.
Proof.
  intros ind depth vals Hd Hs Hv. destruct (one_hot_ok (-1) 1 ind depth vals) as (y & E & Sy & _); [rewrite Hs; reflexivity|rewrite Hs; cbn; lia|exact Hd|]. exists y. split; [exact E|]. rewrite Hs in Sy. cbn [firstn skipn List.app] in Sy. split.
  - assert (IX : indices [1; depth] = map (fun p => [0; p]) (upto depth)).
    { change (indices [1; depth]) with (map (cons 0) (flat_map (fun i => [[i]]) (upto depth)) ++ []). rewrite app_nil_r, flat_map_concat_map. generalize (upto depth). intro l. induction l as [|j r IH]; [reflexivity|]. cbn [map concat List.app]. f_equal. exact IH. }
    unfold flat. rewrite Sy, IX, map_map. unfold one_hot_value in E. cbv zeta in E. injection E as <-. cbn [el]. unfold zlen. rewrite Hs. 
    rewrite (map_ext _ (fun p => if p =? el ind [0] mod depth then 1 else 0)) by (intro p; rewrite (proj2 (Z.eqb_neq depth 0)) by lia; reflexivity).
    pose proof (Z.mod_pos_bound (el ind [0]) depth Hd) as M.
    set (v := el ind [0] mod depth) in *.
    assert (G : forall m b, 0 <= b -> fold_right Z.add 0 (map (fun i => if i =? v then 1 else 0) (map Z.of_nat (seq (Z.to_nat b) m))) = if (b <=? v) && (v <? b + Z.of_nat m) then 1 else 0).
    { induction m as [|m IH]; intros b Hb; cbn [seq map fold_right]; [destruct (Z.leb_spec b v), (Z.ltb_spec v (b + Z.of_nat 0)); cbn; lia|].
      replace (S (Z.to_nat b)) with (Z.to_nat (b + 1)) by lia. rewrite IH by lia.
      destruct (Z.eqb_spec (Z.of_nat (Z.to_nat b)) v), (Z.leb_spec (b + 1) v), (Z.ltb_spec v (b + 1 + Z.of_nat m)), (Z.leb_spec b v), (Z.ltb_spec v (b + Z.of_nat (S m))); cbn [andb]; lia. }
    specialize (G (Z.to_nat depth) 0 ltac:(lia)). cbn [Z.to_nat] in G. rewrite (proj2 (Z.leb_le 0 v)), (proj2 (Z.ltb_lt v (0 + Z.of_nat (Z.to_nat depth)))) in G by lia. cbn [andb] in G. exact G.
  - intro p. unfold onnx_one_hot. cbv zeta. replace (el ind (remove_at [0; p] 1)) with (el ind [0]) by reflexivity.
    destruct (Z.leb_spec (- depth) (el ind [0])), (Z.ltb_spec (el ind [0]) depth); cbn [andb]; try reflexivity. lia.
Qed.

(** ** ArgMax: the first maximum, for every axis and keepdims *)
Theorem C98_argmax_partial : forall axis a keepdims sl (x : arr Z), axis_pos (length (shp x)) axis = Z.of_nat a -> (a < length (shp x))%nat -> 0 < nth a (shp x) 0 ->
  exists y, argmax_value axis keepdims sl x = SOk y /\ shp y = (if keepdims =? 1 then with_dim (shp x) a 1 else dims_outside [Z.of_nat a] (shp x)) /\
  forall i, in_range (shp x) i = true ->
    first_max (nth a (shp x) 0) (fun v => el x (with_dim i a v)) (el y (if keepdims =? 1 then with_dim i a 0 else dims_outside [Z.of_nat a] i)).
Proof. exact argmax_ok. Qed.
Example C98_argmax_case : exists y, argmax_value (-1) 1 0 (listed [2; 3] [3; 9; 9; 5; 1; 0]) = SOk y /\ shp y = [2; 1] /\ flat y = [1; 0].
Proof. eexists. split; [reflexivity|]. split; reflexivity. Qed.
Theorem C98_argmax_last_refuted : exists (x : arr Z) y, argmax_value 0 0 1 x = SOk y /\ forall p, last_max 3 (fun v => el x [v]) p -> el y [] <> p.
Proof.
  exists (listed [3] [9; 9; 1]). eexists. split; [reflexivity|]. intros p (H1 & H2 & H3). cbn [el]. intro E.
  assert (X : p = 0) by (rewrite <- E; reflexivity). subst p. specialize (H3 1 ltac:(lia)). vm_compute in H3. discriminate.
Qed.

(** ** C99: Pad *)
(** right when the pads are an input, non-negative and given for every axis, and the mode attribute is present and "constant" *)
Theorem C99_pad_partial : forall (T : Type) (zero : T) value_attr (x : arr T) before after value_in,
  shp x <> [] -> length before = length (shp x) -> length after = length (shp x) -> nonneg before -> nonneg after ->
  exists y, pad_value zero None value_attr (Some "constant"%string) x (Some (before ++ after)) value_in = SOk y
    /\ onnx_pad x before after (match value_in, value_attr with Some v, _ => v | None, Some v => v | None, None => zero end) y
    /\ pad_shape (Some (before ++ after)) (shp x) = SOk (shp y).
Proof.
  intros T zero va x before after vi Hx Lb La Nb Na. unfold pad_value. rewrite app_length. replace (length before + length after)%nat with (length before * 2)%nat by lia. rewrite Nat.div_mul by discriminate.
  destruct (pad_widths before after) as (F & K); [lia|]. rewrite F, K. rewrite La, <- Lb, Nat.eqb_refl. cbn [negb].
  destruct (np_pad_ok x before after (match vi with Some v => v | None => match va with Some v => v | None => zero end end) Hx Lb La Nb Na) as (y & E & O).
  exists y. split; [exact E|]. split; [destruct vi, va; exact O|].
  destruct O as (L & V & _). destruct (pad_loop_ok (before ++ after) (length (shp x)) (shp x) 0) as (out & Eo & Lo & Vo); [lia|rewrite app_length; lia|]. change (Z.of_nat 0) with 0 in Eo. unfold pad_shape, zlen. rewrite Eo. f_equal.
  apply nth_ext with (d := 0) (d' := 0); [lia|]. intros i Hi. rewrite Vo, V by lia. rewrite Nat.add_0_l. rewrite app_nth1 by lia. rewrite app_nth2 by lia. repeat f_equal. lia.
Qed.
Example C99_pad_case : exists y, pad_value 0 None None (Some "constant"%string) (listed [2; 2] [1; 2; 3; 4]) (Some [0; 1; 1; 0]) (Some 7) = SOk y
  /\ shp y = [3; 3] /\ flat y = [7; 1; 2; 7; 3; 4; 7; 7; 7].
Proof. eexists. split; [reflexivity|]. split; reflexivity. Qed.
(** no mode attribute (the ONNX default is "constant"), or pads as an attribute (opset < 11): AttributeError *)
Theorem C99_pad_default_mode_refuted : forall (T : Type) (zero : T) va (x : arr T) before after vi, length before = length after ->
  pad_value zero None va None x (Some (before ++ after)) vi = SRaise AttributeErr.
Proof.
  intros T zero va x before after vi H. unfold pad_value. rewrite app_length. replace (length before + length after)%nat with (length before * 2)%nat by lia. rewrite Nat.div_mul by discriminate.
  destruct (pad_widths before after H) as (F & K). rewrite K, <- H, Nat.eqb_refl. reflexivity.
Qed.
Theorem C99_pad_attribute_refuted : forall (T : Type) (zero : T) pads va mode (x : arr T) pi vi, pad_value zero (Some pads) va mode x pi vi = SRaise AttributeErr.
Proof. reflexivity. Qed.
(** the other modes of ONNX: no padding specification whatever succeeds *)
Theorem C99_pad_mode_refuted : forall (T : Type) (zero : T) pa va mode (x y : arr T) pi vi, mode <> "constant"%string -> pad_value zero pa va (Some mode) x pi vi <> SOk y.
Proof.
  intros T zero pa va mode x y pi vi N H. unfold pad_value in H. destruct pa; [discriminate|]. destruct pi as [pads|]; [|discriminate]. destruct (negb _) in H; [discriminate|].
  unfold np_pad in H. rewrite (proj2 (String.eqb_neq mode "constant") N) in H. cbn [negb] in H. destruct (_ || _) in H; [discriminate|].
  match type of H with sbind ?m _ = _ => destruct m; discriminate end.
Qed.
(** pads for one axis only (the axes input, opset 18) are applied to all axes; shape inference raises *)
Theorem C99_pad_axes_refuted : exists (x y : arr Z) , pad_value 0 None None (Some "constant"%string) x (Some [1; 0]) None = SOk y /\ shp x = [2; 2] /\ shp y = [3; 3]
  /\ pad_shape (Some [1; 0]) (shp x) = SRaise IndexErr.
Proof. exists (listed [2; 2] [1; 2; 3; 4]). eexists. split; [reflexivity|]. split; [reflexivity|]. split; reflexivity. Qed.
Theorem C99_pad_crop_refuted : pad_value 0 None None (Some "constant"%string) (listed [3] [1; 2; 3]) (Some [-1; 0]) None = SRaise ValueErr
  /\ pad_shape (Some [-1; 0]) [3] = SOk [2].
Proof. split; reflexivity. Qed.

(** ** Reshape: the target of C25, the elements in the same order, and success exactly when a target exists *)
Theorem C99_reshape_partial : forall (T : Type) (dflt : T) (x : arr T) req, positive (shp x) -> valid_request (shp x) req ->
  (forall out, reshape_of (shp x) req out -> exists y, reshape_value dflt x req = SOk y /\ shp y = out /\ flat y = flat x) /\
  (forall y, reshape_value dflt x req = SOk y -> reshape_of (shp x) req (shp y) /\ flat y = flat x).
Proof. intros. apply reshape_value_ok; assumption. Qed.
Lemma fill_holes src : forall req k sh i, reshape_fill src req k = SOk sh -> nth_error req i = Some (-1) -> nth_error sh i = Some (-1).
Proof.
  induction req as [|v r IH]; intros k sh i H E; [destruct i; discriminate|]. cbn [reshape_fill] in H. destruct (v =? 0) eqn:V.
  - destruct (py_index src k) as [d|]; [|discriminate]. cbn [sbind] in H. destruct (reshape_fill src r (k + 1)) as [t|] eqn:F; [|discriminate]. injection H as <-.
    destruct i; [|cbn in *; eauto]. injection E as ->. discriminate.
  - cbn [sbind] in H. destruct (reshape_fill src r (k + 1)) as [t|] eqn:F; [|discriminate]. injection H as <-. destruct i; cbn in *; eauto.
Qed.
Lemma two_holes : forall l i j, (i < j)%nat -> nth_error l i = Some (-1) -> nth_error l j = Some (-1) -> Nat.ltb 1 (length (filter (Z.eqb (-1)) l)) = true.
Proof.
  intros l i j L A B. apply Nat.ltb_lt. apply nth_error_split in A as (p & q & -> & <-). rewrite filter_app, app_length. cbn [filter]. change (-1 =? -1) with true. cbn [length].
  rewrite nth_error_app2 in B by lia. replace (j - length p)%nat with (S (j - length p - 1)) in B by lia. cbn [nth_error] in B. apply nth_error_In in B.
  assert (In (-1) (filter (Z.eqb (-1)) q)) as I by (apply filter_In; auto). destruct (filter (Z.eqb (-1)) q); [destruct I|cbn [length]; lia].
Qed.
(** A request that leaves two sizes open is rejected. *)
Theorem C99_reshape_two_open : forall (T : Type) (dflt : T) (x y : arr T) req i j, (i < j)%nat -> nth_error req i = Some (-1) -> nth_error req j = Some (-1) ->
  reshape_value dflt x req <> SOk y.
Proof.
  intros T d x y req i j L A B H. unfold reshape_value in H. destruct (reshape_fill (shp x) req 0) as [sh|] eqn:F; [|discriminate]. cbn [sbind] in H.
  pose proof (two_holes sh i j L (fill_holes _ _ _ _ _ F A) (fill_holes _ _ _ _ _ F B)) as W. unfold np_reshape in H. rewrite W, orb_true_r in H. discriminate.
Qed.
Theorem C99_reshape_agrees_partial : forall (T : Type) (dflt : T) (x : arr T) req, positive (shp x) -> shp x <> [] -> req <> [] -> valid_request (shp x) req ->
  forall out, (exists y, reshape_value dflt x req = SOk y /\ shp y = out) <-> reshape_shape (shp x) req = SOk out.
Proof.
  intros T d x req P Nx Nr V out. destruct (reshape_value_ok d x req P V) as (A & B). rewrite (reshape_iff (shp x) req out P Nx Nr V). split.
  - intros (y & E & <-). apply B, E.
  - intro R. destruct (A out R) as (y & E & S & _). eauto.
Qed.
Example C99_reshape_case : exists y, reshape_value 0 (listed [2; 6] [0; 1; 2; 3; 4; 5; 6; 7; 8; 9; 10; 11]) [0; -1; 3] = SOk y /\ shp y = [2; 2; 3] /\ flat y = [0; 1; 2; 3; 4; 5; 6; 7; 8; 9; 10; 11] /\ el y [1; 0; 2] = 8.
Proof. eexists. split; [reflexivity|]. split; [reflexivity|]. split; reflexivity. Qed.

(** ** Reductions *)
(** ReduceSum with the axes as an input (or with no axes at all): every element is counted once, in the right place, and the
    shape is the inferred one *)
Theorem C99_reduce_sum_partial : forall (x : arr Z) axes axes_attr keepdims noop, valid_axes (length (shp x)) axes ->
  exists y, reduce_sum_value axes_attr keepdims noop x (Some axes) = SOk y /\ reduce_shape (Some axes) (keepdims =? 1) (shp x) = Some (shp y) /\
  forall o, el y o = onnx_sum x axes (if keepdims =? 1 then dims_outside (map (axis_pos (length (shp x))) axes) o else o).
Proof. intros x axes aa keep noop H. apply np_sum_ok. left. auto. Qed.
Theorem C99_reduce_sum_all : forall (x : arr Z) keepdims noop,
  exists y, reduce_sum_value None keepdims noop x None = SOk y /\ shp y = (if keepdims =? 1 then repeat 1 (length (shp x)) else []) /\
  forall o, length o = length (shp y) -> el y o = fold_right Z.add 0 (flat x).
Proof.
  intros x keep noop. destruct (np_sum_ok x ANone (zrange (length (shp x))) (keep =? 1)) as (y & E & Sy & V); [right; auto|]. exists y. split; [exact E|].
  assert (ID : map (axis_pos (length (shp x))) (zrange (length (shp x))) = zrange (length (shp x))) by (apply axis_pos_id; intros a Ha; unfold zrange in Ha; apply in_map_iff in Ha as (k & <- & _); lia).
  assert (NO : forall l : list Z, length l = length (shp x) -> dims_outside (zrange (length (shp x))) l = []).
  { intros l L. unfold dims_outside. rewrite (filter_none); [reflexivity|]. intros (k, v) Hk. apply in_combine_l, in_seq in Hk. cbn [fst]. apply negb_false_iff. apply existsb_exists. exists (Z.of_nat k). split; [|apply Z.eqb_refl]. unfold zrange. apply in_map. apply in_seq. lia. }
  assert (SS : shp y = if keep =? 1 then repeat 1 (length (shp x)) else []).
  { unfold reduce_shape in Sy. injection Sy as <-. unfold zlen. rewrite axes_pos_neg2pos, ID. destruct (keep =? 1); [|rewrite drop_outside; apply NO; reflexivity].
    destruct (reduce_keep (zrange (length (shp x))) (shp x) 0) as (L & N). cbn [Z.of_nat Nat.add] in *. apply nth_ext with (d := 0) (d' := 0); [rewrite L, repeat_length; reflexivity|]. intros i Hi. rewrite L in Hi. rewrite N by exact Hi.
    assert (M : zmem (Z.of_nat i) (zrange (length (shp x))) = true) by (apply existsb_exists; exists (Z.of_nat i); split; [apply in_map, in_seq; lia|apply Z.eqb_refl]). rewrite M. rewrite (nth_indep _ 0 1) by (rewrite repeat_length; exact Hi). symmetry. apply nth_repeat. }
  split; [exact SS|]. intros o Lo. rewrite V, ID. unfold onnx_sum. rewrite ID. unfold flat. f_equal. f_equal. apply filter_all. intros i Hi. apply indices_in, in_range_length in Hi. rewrite NO by exact Hi.
  assert (X : (if keep =? 1 then dims_outside (zrange (length (shp x))) o else o) = []).
  { rewrite SS in Lo. destruct (keep =? 1); [apply NO; rewrite repeat_length in Lo; exact Lo|]. destruct o; [reflexivity|discriminate]. }
  rewrite X. reflexivity.
Qed.
Example C99_reduce_sum_case : exists y, reduce_sum_value None 1 0 (listed [2; 3] [1; 2; 3; 4; 5; 6]) (Some [-1]) = SOk y /\ shp y = [2; 1] /\ flat y = [6; 15].
Proof. eexists. split; [reflexivity|]. split; reflexivity. Qed.
(** the axes attribute (opset < 13) makes every ReduceSum raise, and either form every other reduction *)
Theorem C99_reduce_axes_refuted : (forall (x : arr Z) axes keepdims noop, reduce_sum_value (Some axes) keepdims noop x None = SRaise TypeErr)
  /\ (forall A (np : axes_arg -> bool -> sres A), (forall l b, np (AList l) b = SRaise TypeErr) -> (forall l b, np (AArray l) b = SRaise TypeErr) ->
      forall axes keepdims, reduce_other_value np (Some axes) keepdims None = SRaise TypeErr /\ forall attr, reduce_other_value np attr keepdims (Some axes) = SRaise TypeErr).
Proof. split; [reflexivity|]. intros A np H1 H2 axes keep. unfold reduce_other_value. split; [apply H1|intros; apply H2]. Qed.
(** an empty axes input means "all axes" in ONNX (unless noop_with_empty_axes); here nothing is summed *)
Theorem C99_reduce_sum_empty_axes_refuted : exists (x y : arr Z), reduce_sum_value None 0 0 x (Some []) = SOk y /\ flat y = [1; 2] /\ fold_right Z.add 0 (flat x) = 3.
Proof. exists (listed [2] [1; 2]). eexists. split; [reflexivity|]. split; reflexivity. Qed.

(** ** ConstantOfShape, Shape *)
Theorem C99_constant_of_shape_partial : forall v req, nonneg req ->
  exists y, constant_of_shape_value (Some [v]) req = SOk y /\ shp y = req /\ forall i, el y i = v.
Proof.
  intros v req H. unfold constant_of_shape_value. assert (X : existsb (fun d => d <? 0) req = false).
  { destruct (existsb _ _) eqn:X; [|reflexivity]. apply existsb_exists in X as (d & I & X). apply Z.ltb_lt in X. unfold nonneg in H. rewrite Forall_forall in H. specialize (H d I). lia. }
  rewrite X. eexists. split; [reflexivity|]. split; reflexivity.
Qed.
Theorem C99_constant_of_shape_default_refuted : forall req, constant_of_shape_value None req = SRaise AttributeErr.
Proof. reflexivity. Qed.
(** a value tensor of several elements, which ONNX does not allow, is not used at all: the result is zeros *)
Theorem C99_constant_of_shape_long_value_refuted : forall a b l req, nonneg req ->
  exists y, constant_of_shape_value (Some (a :: b :: l)) req = SOk y /\ shp y = req /\ forall i, el y i = 0.
Proof.
  intros a b l req H. unfold constant_of_shape_value. assert (X : existsb (fun d => d <? 0) req = false).
  { destruct (existsb _ _) eqn:X; [|reflexivity]. apply existsb_exists in X as (d & I & X). apply Z.ltb_lt in X. unfold nonneg in H. rewrite Forall_forall in H. specialize (H d I). lia. }
  rewrite X. eexists. split; [reflexivity|]. split; reflexivity.
Qed.
(** Without start and end, Shape gives the dimensions, in order. *)
Theorem C99_shape : forall (T : Type) (x : arr T), shape_value None None x = shp x.
Proof. reflexivity. Qed.
Theorem C99_shape_start_refuted : exists (x : arr Z), shape_value (Some 1) None x <> skipn 1 (shp x).
Proof. exists (listed [2; 3] []). discriminate. Qed.
