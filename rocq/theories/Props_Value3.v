(** C107: values of Gather, Expand, Where, Tile, Trilu, CumSum, Compress and Range. *)
From Coq Require Import Reals.
From Verif Require Import PyBase GraphModel FloatPy ShapeModel RegressModel ShapeSpec BcastProofs LayoutProofs CostSpec ValueModel ValueModel2 ValueModel3 ValueModel4 ValueSpec ValueSpec3 ValueSpec4 ValueProofs ValueProofs2 ValueProofs3 ValueProofs4 ValueProofs5 ValueProofs6 ValueProofs7 ValueProofs8 Props_Shape Props_Value2.
From Coq Require Import Lia Bool Sorted Lra.
From Flocq Require Import Core.
Open Scope list_scope. Open Scope Z_scope.

(** ** Gather: the value is ONNX's, its shape is the one shape inference reports; an index outside is an error, never a wrong element *)
Theorem C107_gather : forall (T : Type) (x : arr T) ind axis a, axis_pos (length (shp x)) axis = Z.of_nat a -> (a < length (shp x))%nat ->
  indices_valid ind (nth a (shp x) 0) -> exists y, gather_value axis x ind = SOk y /\ onnx_gather x ind a y /\ shp y = gather_shape axis (shp x) (shp ind).
Proof.
  intros T x ind axis a A L V. destruct (take_in x ind axis a A L) as (P & _). destruct (P V) as (y & E & G). exists y. split; [exact E|]. split; [exact G|].
  destruct (C31_gather axis a (shp x) (shp ind) A L) as (-> & _). exact (proj1 G).
Qed.
Theorem C107_gather_bounds : forall (T : Type) (x : arr T) ind axis a, axis_pos (length (shp x)) axis = Z.of_nat a -> (a < length (shp x))%nat ->
  ~ indices_valid ind (nth a (shp x) 0) -> gather_value axis x ind = SRaise IndexErr.
Proof. intros T x ind axis a A L V. exact (proj2 (take_in x ind axis a A L) V). Qed.
Example C107_gather_case : exists y, gather_value 1 (listed [2; 3] [1; 2; 3; 4; 5; 6]) (listed [2; 2] [0; -1; 2; 1]) = SOk y /\ shp y = [2; 2; 2] /\ flat y = [1; 3; 3; 2; 4; 6; 6; 5]
  /\ gather_value 0 (listed [2; 3] [1; 2; 3; 4; 5; 6]) (listed [] [2]) = SRaise IndexErr.
Proof. eexists. split; [reflexivity|]. split; [reflexivity|]. split; reflexivity. Qed.

(** ** Expand and Where: the value is ONNX's at the broadcast shape; shapes that do not broadcast are errors *)
Theorem C107_expand : forall (T : Type) (mul : T -> T -> T) one (x : arr T) e os, (forall v, mul v one = v) -> nonneg (shp x) -> nonneg e ->
  broadcast_of [shp x; e] os -> exists y, expand_value mul one x e = SOk y /\ shp y = os /\ onnx_expand x e y.
Proof. intros T mul one x e os M Nx Ne. apply expand_ok_value; assumption. Qed.
Theorem C107_expand_rejects : forall (T : Type) (mul : T -> T -> T) one (x : arr T) e, (forall v, mul v one = v) -> nonneg (shp x) -> nonneg e ->
  (~ exists os, broadcast_of [shp x; e] os) -> expand_value mul one x e = SRaise ValueErr.
Proof. intros T mul one x e M Nx Ne. apply expand_ok_value; assumption. Qed.
(** shape and value of Expand agree on positive sizes that broadcast *)
Theorem C107_expand_shape : forall (T : Type) (mul : T -> T -> T) one (x y : arr T) e, (forall v, mul v one = v) -> positive (shp x) -> positive e ->
  expand_value mul one x e = SOk y -> expand_shape (shp x) e = shp y.
Proof.
  intros T mul one x y e M Px Pe E. assert (Nx : nonneg (shp x)) by (eapply Forall_impl; [|exact Px]; cbn; intros; lia). assert (Ne : nonneg e) by (eapply Forall_impl; [|exact Pe]; cbn; intros; lia).
  destruct (broadcast_shape [shp x; e]) as [os|er] eqn:B.
  - apply broadcast_shape_ok in B; [|repeat constructor; assumption]. destruct (C107_expand T mul one x e os M Nx Ne B) as (z & Ez & Sz & _). rewrite Ez in E. injection E as <-. rewrite Sz. apply C30_expand_partial; assumption.
  - rewrite (C107_expand_rejects T mul one x e M Nx Ne) in E; [discriminate|]. intros (os & H). apply broadcast_shape_ok in H; [|repeat constructor; assumption]. congruence.
Qed.
(** but shape inference gives a shape where there is no value *)
Theorem C107_expand_disagrees_refuted : exists (x : arr Z) e, positive (shp x) /\ positive e /\ expand_shape (shp x) e = [3] /\ expand_value Z.mul 1 x e = SRaise ValueErr.
Proof. exists (listed [2] [7; 8]), [3]. split; [repeat constructor; lia|]. split; [repeat constructor; lia|]. split; reflexivity. Qed.
Example C107_expand_case : exists y, expand_value Z.mul 1 (listed [3; 1] [1; 2; 3]) [2; 1; 2] = SOk y /\ shp y = [2; 3; 2] /\ flat y = [1; 1; 2; 2; 3; 3; 1; 1; 2; 2; 3; 3].
Proof. eexists. split; [reflexivity|]. split; reflexivity. Qed.
Theorem C107_where : forall (T : Type) (c : arr bool) (x y : arr T), nonneg (shp c) -> nonneg (shp x) -> nonneg (shp y) ->
  (forall os, broadcast_of [shp c; shp x; shp y] os -> exists z, where_value c x y = SOk z /\ shp z = os /\ onnx_where c x y z /\ npmath_shape [shp c; shp x; shp y] = SOk (shp z)) /\
  ((~ exists os, broadcast_of [shp c; shp x; shp y] os) -> where_value c x y = SRaise ValueErr /\ npmath_shape [shp c; shp x; shp y] = SRaise ValueErr).
Proof.
  intros T c x y Nc Nx Ny. destruct (where_ok c x y Nc Nx Ny) as (P & Q). assert (NN : Forall nonneg [shp c; shp x; shp y]) by (repeat constructor; assumption). split.
  - intros os B. destruct (P os B) as (z & E & S0 & O). exists z. split; [exact E|]. split; [exact S0|]. split; [exact O|]. rewrite S0. apply broadcast_shape_ok; assumption.
  - intros H. split; [exact (Q H)|]. apply C19_incompatible_rejected; assumption.
Qed.
Example C107_where_case : exists z, where_value {| shp := [2; 1]; el := fun i => nth 0 i 0 =? 0 |} (listed [3] [1; 2; 3]) (listed [] [9]) = SOk z /\ shp z = [2; 3] /\ flat z = [1; 2; 3; 9; 9; 9].
Proof. eexists. split; [reflexivity|]. split; reflexivity. Qed.

(** ** Tile *)
Theorem C107_tile : forall (T : Type) (x : arr T) reps, nonneg (shp x) -> nonneg reps -> length reps = length (shp x) -> exists y, tile_value x reps = SOk y /\ onnx_tile x reps y.
Proof. intros T x reps. apply tile_ok. Qed.
Example C107_tile_case : exists y, tile_value (listed [2; 2] [1; 2; 3; 4]) [1; 2] = SOk y /\ shp y = [2; 4] /\ flat y = [1; 2; 1; 2; 3; 4; 3; 4].
Proof. eexists. split; [reflexivity|]. split; reflexivity. Qed.

(** ** Trilu: any upper flag but 0 keeps the upper triangle; no second input means k = 0 *)
Theorem C107_trilu : forall (T : Type) (zero : T) (x : arr T) k upper, (2 <= length (shp x))%nat -> upper <> 0 ->
  (exists y, trilu_value zero upper (Some k) x = SOk y /\ onnx_trilu zero true k x y) /\ (exists y, trilu_value zero 0 (Some k) x = SOk y /\ onnx_trilu zero false k x y) /\
  trilu_value zero upper None x = trilu_value zero upper (Some 0) x /\ trilu_value zero 0 None x = trilu_value zero 0 (Some 0) x.
Proof.
  intros T zero x k upper L U. split; [|split; [|split; reflexivity]].
  - destruct (trilu_ok zero upper (Some k) x L) as (y & E & O). exists y. split; [exact E|]. apply Z.eqb_neq in U. rewrite U in O. exact O.
  - destruct (trilu_ok zero 0 (Some k) x L) as (y & E & O). exists y. split; [exact E|]. exact O.
Qed.
Example C107_trilu_case : exists y z, trilu_value 0 1 (Some 1) (listed [1; 2; 3] [1; 2; 3; 4; 5; 6]) = SOk y /\ flat y = [0; 2; 3; 0; 0; 6] /\ trilu_value 0 0 None (listed [2; 3] [1; 2; 3; 4; 5; 6]) = SOk z /\ flat z = [1; 0; 0; 4; 5; 0].
Proof. do 2 eexists. split; [reflexivity|]. split; [reflexivity|]. split; reflexivity. Qed.

(** ** CumSum: without the flags the value is ONNX's; with either flag there is no value, although the shape is still reported *)
Theorem C107_cumsum_partial : forall (x : arr Z) axis a, axis_pos (length (shp x)) axis = Z.of_nat a -> (a < length (shp x))%nat ->
  exists y, cumsum_value 0 0 axis x = SOk y /\ onnx_cumsum x a y.
Proof. intros x axis a. apply cumsum_ok. Qed.
Theorem C107_cumsum_flags_refuted : forall exclusive reverse axis x, exclusive <> 0 \/ reverse <> 0 -> cumsum_value exclusive reverse axis x = SRaise NotImplErr.
Proof. intros e r axis x H. unfold cumsum_value. destruct (Z.eqb_spec e 0), (Z.eqb_spec r 0); try reflexivity. exfalso. destruct H; contradiction. Qed.
Example C107_cumsum_case : exists y, cumsum_value 0 0 (-1) (listed [2; 3] [1; 2; 3; 4; 5; 6]) = SOk y /\ flat y = [1; 3; 6; 4; 9; 15] /\ pw_shape [[2; 3]; []] = SOk [2; 3].
Proof. eexists. split; [reflexivity|]. split; reflexivity. Qed.

(** ** Compress *)
Theorem C107_compress : forall (T : Type) (dflt : T) (x : arr T) axis a cond, axis_pos (length (shp x)) axis = Z.of_nat a -> (a < length (shp x))%nat ->
  (forall k, nth (Z.to_nat k) cond 0 <> 0 -> 0 <= k < Z.of_nat (length cond) -> k < nth a (shp x) 0) -> exists y, compress_value dflt (Some axis) x cond = SOk y /\ onnx_compress x a cond y.
Proof.
  intros T dflt x axis a cond A L H. apply (proj1 (take_compress x axis a cond A L)). intros v Iv. apply in_cond in Iv as (B & N). exact (H v N B).
Qed.
Theorem C107_compress_flat : forall (T : Type) (dflt : T) (x : arr T) cond, nonneg (shp x) ->
  (forall k, nth (Z.to_nat k) cond 0 <> 0 -> 0 <= k < Z.of_nat (length cond) -> k < Z.of_nat (length (flat x))) -> exists y, compress_value dflt None x cond = SOk y /\ onnx_compress (flattened dflt x) 0 cond y.
Proof.
  intros T dflt x cond N H. unfold compress_value, np_compress. rewrite flattened_arr by exact N. apply (proj1 (take_compress (flattened dflt x) 0 0%nat cond eq_refl ltac:(cbn; lia))).
  intros v Iv. apply in_cond in Iv as (B & C). exact (H v C B).
Qed.
Theorem C107_compress_bounds : forall (T : Type) (dflt : T) (x : arr T) axis a cond k, axis_pos (length (shp x)) axis = Z.of_nat a -> (a < length (shp x))%nat ->
  nth a (shp x) 0 <= k < Z.of_nat (length cond) -> 0 <= k -> nth (Z.to_nat k) cond 0 <> 0 -> compress_value dflt (Some axis) x cond = SRaise IndexErr.
Proof.
  intros T dflt x axis a cond k A L B P N. apply (proj2 (take_compress x axis a cond A L)). exists k. split; [|lia]. apply in_cond. split; [lia|exact N].
Qed.
Example C107_compress_case : exists y z, compress_value 0 (Some 1) (listed [2; 3] [1; 2; 3; 4; 5; 6]) [0; 1; 1] = SOk y /\ flat y = [2; 3; 5; 6] /\ compress_value 0 None (listed [2; 3] [1; 2; 3; 4; 5; 6]) [0; 0; 1; 0; 1] = SOk z /\ flat z = [3; 5].
Proof. do 2 eexists. split; [reflexivity|]. split; [reflexivity|]. split; reflexivity. Qed.

(** ** Range *)
Theorem C107_range_partial : forall start limit delta, delta <> 0 -> Z.abs (limit - start) < 2 ^ 53 -> Z.abs delta < 2 ^ 53 ->
  exists l, range_value start limit delta = SOk l /\ onnx_range start limit delta l.
Proof. exact range_ok. Qed.
Theorem C107_range_zero_step : forall start limit, range_value start limit 0 = SRaise ValueErr.
Proof. reflexivity. Qed.
(** int64 ranges whose ends are further apart than 2^53 can lose elements *)
Theorem C107_range_large_refuted : exists start limit delta l, delta <> 0 /\ limit < 2 ^ 63 /\ range_value start limit delta = SOk l /\ l = [start] /\ ~ onnx_range start limit delta l.
Proof.
  exists 0, (2 ^ 60 + 1), (2 ^ 60), [0]. split; [lia|]. split; [lia|]. split; [|split; [reflexivity|]].
  - unfold range_value. rewrite (proj2 (Z.eqb_neq (2 ^ 60) 0)) by lia. unfold arange_length. rewrite Z.sub_0_r, rnd_2_60_1, rnd_2_60. unfold fdiv.
    replace (IZR (2 ^ 60) / IZR (2 ^ 60))%R with 1%R by (field; apply not_0_IZR; lia). rewrite rnd_int by lia. unfold py_ceil. rewrite Zceil_IZR. reflexivity.
  - intros H. specialize (H 1%nat). discriminate H.
Qed.
Theorem C107_range_case : exists l, range_value 10 3 (-3) = SOk l /\ l = [10; 7; 4].
Proof.
  destruct (C107_range_partial 10 3 (-3)) as (l & E & H); [lia|lia|lia|]. exists l. split; [exact E|].
  pose proof (H 0%nat) as H0. pose proof (H 1%nat) as H1. pose proof (H 2%nat) as H2. pose proof (H 3%nat) as H3. destruct l as [|a [|b [|c [|d l]]]]; try discriminate. cbn in H0, H1, H2. congruence.
Qed.
