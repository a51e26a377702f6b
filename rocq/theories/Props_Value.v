(** C87-C90: the values the tool computes for constant folding and for [value_infer] of a whole graph. *)
From Verif Require Import PyBase GraphModel FloatPy ShapeModel ShapeSpec BcastProofs LayoutProofs SliceProofs CostSpec CostProofs ValueModel ValueModel2 ValueSpec ValueProofs ValueProofs2 ValueProofs3 ValueProofs4 ValueProofs5 Props_Shape.
From Coq Require Import Lia Bool Sorted QArith.
Open Scope list_scope. Open Scope Z_scope.

(** an array with its elements in row-major order, for the examples *)
Definition of_list (sh : list Z) (l : list Z) : arr Z :=
  {| shp := sh; el := fun i => nth (Z.to_nat (fold_left (fun s p => s * fst p + snd p) (combine sh i) 0)) l 0 |}.
Definition to_list {T} (x : arr T) : list Z * list T := (shp x, map (el x) (indices (shp x))).

(** ** C87: operators that move data *)
Theorem C87_slice_partial : forall (T : Type) (x : arr T) axes starts ends steps,
  nonneg (shp x) -> valid_axes (length (shp x)) axes -> (forall a, In a axes -> 0 <= a <= 4) ->
  length starts = length axes -> length ends = length axes -> length steps = length axes ->
  (forall j, (j < length axes)%nat -> nth j steps 0 <> 0 /\
     (nth j steps 0 < 0 -> - nth (Z.to_nat (nth j axes 0)) (shp x) 0 <= nth j starts 0)) ->
  exists y, slice_value x starts ends (Some axes) (Some steps) = SOk y /\ onnx_slice x axes starts ends steps y.
Proof. intros. apply slice_value_ok; assumption. Qed.
Example C87_slice_case : exists y, slice_value (of_list [2; 4] [10; 11; 12; 13; 20; 21; 22; 23]) [3; 0] [-10; 1] (Some [1; 0]) (Some [-2; 1]) = SOk y
  /\ to_list y = ([1; 2], [13; 11]) /\ valid_axes 2 [1; 0].
Proof. eexists. split; [reflexivity|]. split; [reflexivity|]. split; [intros a [<-|[<-|[]]]; cbv; intuition congruence|]. repeat constructor; simpl; intuition discriminate. Qed.
(** axes outside 0..4 are passed over: the data come back unsliced *)
Theorem C87_slice_ignored_axes_refuted : (forall (T : Type) (x : arr T) axes starts ends steps, (forall a, In a axes -> a < 0 \/ 4 < a) ->
    slice_value x starts ends (Some axes) steps = SOk x)
  /\ exists x : arr Z, nonneg (shp x) /\ valid_axes (length (shp x)) [-1] /\ slice_value x [0] [1] (Some [-1]) (Some [1]) = SOk x /\ ~ onnx_slice x [-1] [0] [1] [1] x.
Proof.
  split.
  - intros T x axes starts ends steps H. unfold slice_value. generalize 0 at 1. revert H. induction axes as [|a r IH]; intros H z; [reflexivity|]. cbn [slice_values].
    destruct (H a (or_introl eq_refl)) as [Ha|Ha].
    + destruct (Z.leb_spec 0 a); [lia|]. cbn [andb sbind]. apply IH. intros; apply H; right; assumption.
    + destruct (Z.leb_spec a 4); [lia|]. rewrite andb_false_r. cbn [sbind]. apply IH. intros; apply H; right; assumption.
  - exists (of_list [2; 3] [1; 2; 3; 4; 5; 6]). split; [repeat constructor; discriminate|]. split.
    { split; [intros a [<-|[]]; cbv; intuition congruence|repeat constructor; intros []]. }
    split; [reflexivity|]. intros ((_ & H & _) & _). specialize (H O 1%nat). destruct H as (l & N & I & E); [cbn; lia|reflexivity|].
    cbn in E. assert (C : (length l <= 1)%nat); [|lia]. change 1%nat with (length [0]). apply NoDup_incl_length; [exact N|]. intros i Hi. apply I in Hi as (H1 & _ & H2).
    cbv [nth shp of_list Z.ltb Z.compare from_end] in H1, H2. cbn in H1, H2. left. lia.
Qed.
(** starts and ends without axes address every axis in ONNX, only the first one here *)
Theorem C87_slice_without_axes_refuted : exists (x y : arr Z), slice_value x [0; 0] [1; 1] None None = SOk y /\ ~ sliced (shp x) [0; 1] [0; 0] [1; 1] [1; 1] (shp y).
Proof.
  exists (of_list [2; 3] [1; 2; 3; 4; 5; 6]). eexists. split; [reflexivity|]. intros (_ & H & _). specialize (H 1%nat 1%nat). destruct H as (l & N & I & E); [cbn; lia|reflexivity|].
  cbn in E. assert (C : (length l <= 1)%nat); [|lia]. change 1%nat with (length [0]). apply NoDup_incl_length; [exact N|]. intros i Hi. apply I in Hi as (H1 & _ & H2).
  cbv [nth shp of_list Z.ltb Z.compare from_end] in H1, H2. cbn in H1, H2. left. lia.
Qed.
(** ONNX clamps a start below the dimension to 0 also when stepping backwards *)
Theorem C87_slice_reversed_start_refuted : exists (x y : arr Z), nonneg (shp x) /\ slice_value x [-100] [-200] (Some [0]) (Some [-1]) = SOk y /\ ~ onnx_slice x [0] [-100] [-200] [-1] y.
Proof.
  exists (of_list [5] [1; 2; 3; 4; 5]). eexists. split; [repeat constructor; discriminate|]. split; [reflexivity|]. intros ((_ & H & _) & _). specialize (H O O). destruct H as (l & N & I & E); [cbn; lia|reflexivity|].
  cbn in E. destruct l; [|cbn in E; lia]. destruct (I 0) as (_ & B). apply B. unfold slice_selects. cbn. split; [lia|]. split; [exists 0; cbn; lia|lia].
Qed.

Theorem C87_unsqueeze_partial : forall (T : Type) (x : arr T) axes, plain_axes (length (shp x) + length axes) axes ->
  exists y, unsqueeze_value axes x = SOk y /\ onnx_unsqueeze x axes y.
Proof. intros. apply unsqueeze_plain; assumption. Qed.
Example C87_unsqueeze_case : exists y, unsqueeze_value [0; 2] (of_list [2; 2] [1; 2; 3; 4]) = SOk y /\ to_list y = ([1; 2; 1; 2], [1; 2; 3; 4]) /\ plain_axes 4 [0; 2].
Proof. eexists. split; [reflexivity|]. split; [reflexivity|]. left. split; [repeat constructor|intros a [<-|[<-|[]]]; lia]. Qed.
Theorem C87_unsqueeze_axes_refuted : exists (x : arr Z), (exists y, unsqueeze_value [-2; -1] x = SOk y /\ ~ onnx_unsqueeze x [-2; -1] y) /\ valid_axes (length (shp x) + 2) [-2; -1]
  /\ (exists y, unsqueeze_value [1; 0] x = SOk y /\ ~ onnx_unsqueeze x [1; 0] y) /\ valid_axes (length (shp x) + 2) [1; 0].
Proof.
  exists (of_list [3] [1; 2; 3]). split; [|split; [|split]].
  - eexists. split; [reflexivity|]. intros (_ & H & _). specialize (H (-2) (or_introl eq_refl)). discriminate.
  - split; [intros a [<-|[<-|[]]]; cbv; intuition congruence|]. repeat constructor; simpl; intuition discriminate.
  - eexists. split; [reflexivity|]. intros (_ & H & _). specialize (H 1 (or_introl eq_refl)). discriminate.
  - split; [intros a [<-|[<-|[]]]; cbv; intuition congruence|]. repeat constructor; simpl; intuition discriminate.
Qed.
Theorem C87_squeeze_partial : forall (T : Type) (x : arr T) axes, plain_axes (length (shp x)) axes ->
  (forall a, In a axes -> nth (Z.to_nat (axis_pos (length (shp x)) a)) (shp x) 0 = 1) ->
  exists y, squeeze_value (Some axes) x = SOk y /\ onnx_squeeze x axes y.
Proof. intros. apply squeeze_plain; assumption. Qed.
Example C87_squeeze_case : exists y, squeeze_value (Some [0; 2]) (of_list [1; 2; 1; 2] [1; 2; 3; 4]) = SOk y /\ to_list y = ([2; 2], [1; 2; 3; 4]) /\ plain_axes 4 [0; 2].
Proof. eexists. split; [reflexivity|]. split; [reflexivity|]. left. split; [repeat constructor|intros a [<-|[<-|[]]]; lia]. Qed.
(** two negative axes are refused although both have size 1; without axes ONNX drops every axis of size 1, the code only axis 0 *)
Theorem C87_squeeze_axes_refuted : (exists x : arr Z, valid_axes (length (shp x)) [-2; -1] /\ (forall a, In a [-2; -1] -> nth (Z.to_nat (axis_pos (length (shp x)) a)) (shp x) 0 = 1)
    /\ squeeze_value (Some [-2; -1]) x = SRaise ValueErr)
  /\ (exists x : arr Z, In 1 (shp x) /\ squeeze_value None x = SRaise ValueErr)
  /\ (exists x y : arr Z, In 1 (shp x) /\ squeeze_value None x = SOk y /\ In 1 (shp y)).
Proof.
  split; [|split].
  - exists (of_list [3; 1; 1] [1; 2; 3]). split.
    { split; [intros a [<-|[<-|[]]]; cbv; intuition congruence|]. repeat constructor; simpl; intuition discriminate. }
    split; [intros a [<-|[<-|[]]]; reflexivity|reflexivity].
  - exists (of_list [2; 1] [1; 2]). split; [right; left; reflexivity|reflexivity].
  - exists (of_list [1; 2; 1] [1; 2]). eexists. split; [left; reflexivity|]. split; [reflexivity|]. right. left. reflexivity.
Qed.

Theorem C87_split_partial : forall (T : Type) (x : arr T) axis a sizes nout (attr : bool),
  axis_pos (length (shp x)) axis = Z.of_nat a -> (a < length (shp x))%nat ->
  sizes <> [] -> Forall (fun v => 0 <= v) sizes -> 0 < last sizes 0 -> fold_right Z.add 0 sizes = nth a (shp x) 0 -> (length sizes <= nout)%nat ->
  exists ys, split_value (Some axis) (if attr then Some sizes else None) (if attr then None else Some sizes) nout x = SOk ys
    /\ onnx_split x a 0 sizes ys.
Proof. intros. apply split_value_ok; assumption. Qed.
Example C87_split_case : exists ys, split_value (Some (-1)) None (Some [1; 0; 2]) 3 (of_list [2; 3] [1; 2; 3; 4; 5; 6]) = SOk ys
  /\ map to_list ys = [([2; 1], [1; 4]); ([2; 0], []); ([2; 2], [2; 3; 5; 6])].
Proof. eexists. split; [reflexivity|]. reflexivity. Qed.
(** an empty last piece is not produced: the last output keeps whatever it held *)
Theorem C87_split_trailing_refuted : exists (x : arr Z) sizes ys, Forall (fun v => 0 <= v) sizes /\ fold_right Z.add 0 sizes = nth 0 (shp x) 0
  /\ split_value (Some 0) None (Some sizes) (length sizes) x = SOk ys /\ (length ys < length sizes)%nat.
Proof. exists (of_list [4] [1; 2; 3; 4]), [4; 0]. eexists. split; [repeat constructor; discriminate|]. split; [reflexivity|]. split; [reflexivity|]. cbn. lia. Qed.
Theorem C87_split_default_axis_refuted : forall (T : Type) (x : arr T) split split_in nout, split_value None split split_in nout x = SRaise TypeErr.
Proof. reflexivity. Qed.

Theorem C87_gather_elements_partial : forall (T : Type) (x : arr T) ind axis a,
  axis_pos (length (shp x)) axis = Z.of_nat a -> (a < length (shp x))%nat -> length (shp ind) = length (shp x) ->
  (forall b, (b < length (shp x))%nat -> b <> a -> nth b (shp ind) 0 <= nth b (shp x) 0) ->
  (forall i, in_range (shp ind) i = true -> - nth a (shp x) 0 <= el ind i < nth a (shp x) 0) ->
  gather_elements_value (fun v => v) axis x ind = SOk (shp ind, map (gathered x ind a) (indices (shp ind))).
Proof. intros. apply gather_elements_ok; assumption. Qed.
Example C87_gather_elements_case : gather_elements_value (fun v => v) 1 (of_list [2; 2] [1; 2; 3; 4]) (of_list [2; 2] [0; 0; -1; 0]) = SOk ([2; 2], [1; 1; 4; 3]).
Proof. reflexivity. Qed.
(** the result takes the dtype of the indices: a fraction is truncated *)
Definition truncated (q : Q) : Q := inject_Z (Z.quot (Qnum q) (Zpos (Qden q))).
Theorem C87_gather_elements_cast_refuted : exists (x : arr Q) ind v, gather_elements_value truncated 0 x ind = SOk (shp ind, [v]) /\ ~ (v == gathered x ind 0 [0%Z])%Q.
Proof. exists {| shp := [1]; el := fun _ => (1 # 2)%Q |}, (of_list [1] [0]). eexists. split; [reflexivity|]. intro H. vm_compute in H. discriminate H. Qed.

(** ** C88: operators that compute *)
Section Conv2D.
Context (T : Type) (zero : T) (add mul : T -> T -> T).
(** two-dimensional convolution, one group, the explicit paddings of the attributes *)
Definition conv_case (wd : window) (x w : arr T) (os : list Z) (a : conv_attrs) : Prop :=
  exists n cin xh xw cout kh kw oh ow s0 s1 d0 d1 p0 p1 sr dr pr,
    shp x = [n; cin; xh; xw] /\ shp w = [cout; cin; kh; kw] /\ os = [n; cout; oh; ow] /\
    w_strides wd = s0 :: s1 :: sr /\ w_dilations wd = d0 :: d1 :: dr /\ w_pads wd = p0 :: p1 :: pr /\
    a = {| groups := 1; strides := [s0; s1]; dilations := [d0; d1]; pads_begin := [p0; p1] |}.
Theorem C88_conv_partial : forall wd x w os a, conv_case wd x w os a -> conv_shape wd (shp x) (shp w) = SOk os ->
  conv_value zero add mul wd 1 None x w None = SOk (os, result (ref_conv zero add mul a (as_tens x) (as_tens w) None os)).
Proof.
  intros wd x w os a (n & cin & xh & xw & cout & kh & kw & oh & ow & s0 & s1 & d0 & d1 & p0 & p1 & sr & dr & pr & Hx & Hw & -> & Hs & Hd & Hp & ->) Ho.
  erewrite (conv_value_ok zero add mul wd x w n cin xh xw cout kh kw oh ow s0 s1 d0 d1 p0 p1 sr dr pr) by (eassumption || intros; discriminate).
  erewrite (ref_conv_result zero add mul x w n cin cout kh kw oh ow s0 s1 d0 d1 p0 p1) by eassumption. reflexivity.
Qed.
Definition monoid_laws : Prop := (forall a b c, add (add a b) c = add a (add b c)) /\ (forall a b, add a b = add b a) /\ (forall a, add zero a = a).
Theorem C88_conv_bias_partial : monoid_laws -> forall prev wd x w b os a, conv_case wd x w os a -> shp b = [hd 0 (shp w)] -> conv_shape wd (shp x) (shp w) = SOk os ->
  conv_value zero add mul wd 1 prev x w (Some b) = SOk (os, result (ref_conv zero add mul a (as_tens x) (as_tens w) (Some (fun oc => el b [oc])) os)).
Proof.
  intros (As & Co & Ze) prev wd x w b os a (n & cin & xh & xw & cout & kh & kw & oh & ow & s0 & s1 & d0 & d1 & p0 & p1 & sr & dr & pr & Hx & Hw & -> & Hs & Hd & Hp & ->) Hb Ho.
  erewrite (conv_value_ok zero add mul wd x w n cin xh xw cout kh kw oh ow s0 s1 d0 d1 p0 p1 sr dr pr); try eassumption; [|intros b0 E; injection E as <-; rewrite Hb, Hw; reflexivity].
  erewrite (ref_conv_result zero add mul x w n cin cout kh kw oh ow s0 s1 d0 d1 p0 p1) by eassumption. do 2 f_equal. apply map_ext. intro i. cbv zeta.
  unfold ref_step. rewrite (fold_step_plus zero add _ As Co Ze). reflexivity.
Qed.
(** without a bias a second run adds to what the output tensor held *)
Theorem C88_conv_rerun_refuted : monoid_laws -> forall prev wd x w os a, conv_case wd x w os a -> shp prev = os -> conv_shape wd (shp x) (shp w) = SOk os ->
  exists vals, conv_value zero add mul wd 1 (Some prev) x w None = SOk (os, vals)
    /\ vals = map (fun p => add (fst p) (snd p)) (combine (result (ref_conv zero add mul a (as_tens x) (as_tens w) None os)) (map (el prev) (indices os))).
Proof.
  intros (As & Co & Ze) prev wd x w os a (n & cin & xh & xw & cout & kh & kw & oh & ow & s0 & s1 & d0 & d1 & p0 & p1 & sr & dr & pr & Hx & Hw & -> & Hs & Hd & Hp & ->) Hb Ho.
  erewrite (conv_value_ok zero add mul wd x w n cin xh xw cout kh kw oh ow s0 s1 d0 d1 p0 p1 sr dr pr) by (eassumption || intros; discriminate).
  erewrite (ref_conv_result zero add mul x w n cin cout kh kw oh ow s0 s1 d0 d1 p0 p1) by eassumption. eexists. split; [reflexivity|].
  generalize (indices [n; cout; oh; ow]). intro l. induction l as [|i l IH]; [reflexivity|]. cbn [map combine fst snd]. f_equal; [|exact IH]. cbv zeta.
  unfold ref_step. rewrite (fold_step_plus zero add _ As Co Ze). f_equal. unfold out_numpy, shape_eqb. rewrite Hb. destruct (list_eq_dec Z.eq_dec _ _); [reflexivity|congruence].
Qed.
Theorem C88_conv_unsupported : forall wd prev x w b g, (g <> 1 -> conv_value zero add mul wd g prev x w b = SRaise NotImplErr)
  /\ (forall os, conv_shape wd (shp x) (shp w) = SOk os -> length (shp w) <> 4%nat -> conv_value zero add mul wd g prev x w b = SRaise NotImplErr).
Proof.
  intros wd prev x w b g. unfold conv_value. split.
  - intro H. destruct (Z.eqb_spec g 1); [contradiction|]. reflexivity.
  - intros os Ho H. destruct (g =? 1); [|reflexivity]. cbn [negb]. rewrite Ho. cbn [sbind]. destruct (Nat.eqb_spec (length (shp w)) 4); [contradiction|reflexivity].
Qed.
End Conv2D.
Lemma conv_run {T} (zero : T) add mul wd prev x w b os r : conv_shape wd (shp x) (shp w) = SOk os ->
  (if negb (Nat.eqb (length (shp w)) 4) then SRaise NotImplErr else
   let* vals := smap (fun i => match i with
      | [batch; ocn; oh; ow] =>
          let* t := (match b with Some b => np_at b [ocn] | None => SOk (out_numpy zero prev os i) end) in
          sfold (conv_step zero add mul wd x w batch ocn oh ow) (ndindex (tl (shp w))) t
      | _ => SRaise IndexErr end) (ndindex os) in SOk (os, vals)) = r ->
  conv_value zero add mul wd 1 prev x w b = r.
Proof. intros E <-. unfold conv_value. rewrite E. reflexivity. Qed.
Lemma pool_run wd ks ceil prev x os r : pool_shape wd ks ceil (shp x) = SOk os ->
  (let* vals := smap (fun i => match i with
      | [batch; ocn; oh; ow] => sfold (maxpool_step wd x batch ocn oh ow) (ndindex ks) (out_numpy 0 prev os i)
      | _ => SRaise IndexErr end) (ndindex os) in SOk (os, vals)) = r -> maxpool_value wd ks ceil prev x = r.
Proof. intros E <-. unfold maxpool_value. rewrite E. reflexivity. Qed.
Ltac conv_sh := unfold conv_shape; axis_val; rewrite ?int_fdiv1, ?ceil_fdiv by small; reflexivity.
Ltac pool_sh := unfold pool_shape; axis_val; rewrite ?floor_fdiv1 by small; reflexivity.
Definition wd_same : window := {| w_autopad := SameUpper; w_pads := [0; 0; 0; 0; 0; 0]; w_strides := [1; 1; 1]; w_dilations := [1; 1; 1] |}.
Example C88_conv_case : let x := of_list [1; 2; 2; 3] [1; 2; 3; 4; 5; 6; 7; 8; 9; 10; 11; 12] in let w := of_list [1; 2; 1; 2] [1; 10; 100; 1000] in
  let wd := {| w_autopad := Explicit; w_pads := [0; 1; 0; 1]; w_strides := [1; 2]; w_dilations := [1; 1] |} in
  conv_case Z wd x w [1; 1; 2; 2] {| groups := 1; strides := [1; 2]; dilations := [1; 1]; pads_begin := [0; 1] |}
  /\ conv_shape wd (shp x) (shp w) = SOk [1; 1; 2; 2]
  /\ conv_value 0 Z.add Z.mul wd 1 None x w None = SOk ([1; 1; 2; 2], [7010; 9832; 10040; 13165]) /\ monoid_laws Z 0 Z.add.
Proof.
  intros x w wd. assert (S0 : conv_shape wd (shp x) (shp w) = SOk [1; 1; 2; 2]) by conv_sh.
  split; [|split; [exact S0|split; [apply (conv_run _ _ _ _ _ _ _ _ _ _ S0); vm_compute; reflexivity|repeat split; intros; lia]]].
  exists 1, 2, 2, 3, 1, 1, 2, 2, 2, 1, 2, 1, 1, 0, 1, [], [], [0; 1]. repeat split.
Qed.
(** with auto_pad SAME_UPPER half of the padding goes in front; the loop reads the pads attribute *)
Theorem C88_conv_auto_pad_refuted : exists (x w : arr Z) vals, conv_value 0 Z.add Z.mul wd_same 1 None x w None = SOk ([1; 1; 1; 3], vals)
  /\ vals <> result (ref_conv 0 Z.add Z.mul {| groups := 1; strides := [1; 1]; dilations := [1; 1]; pads_begin := [0; 1] |} (as_tens x) (as_tens w) None [1; 1; 1; 3]).
Proof. exists (of_list [1; 1; 1; 3] [1; 1; 1]), (of_list [1; 1; 1; 3] [1; 1; 1]). eexists. split; [eapply conv_run; [conv_sh|vm_compute; reflexivity]|]. vm_compute. discriminate. Qed.

Theorem C88_maxpool_partial : forall wd (x : arr Z) n c xh xw oh ow k0 k1 s0 s1 p0 p1 sr pr ceil,
  shp x = [n; c; xh; xw] -> w_strides wd = s0 :: s1 :: sr -> w_pads wd = p0 :: p1 :: pr ->
  pool_shape wd [k0; k1] ceil (shp x) = SOk [n; c; oh; ow] ->
  (forall i, in_range (shp x) i = true -> 0 <= el x i) ->
  (forall o, in_range [n; c; oh; ow] o = true -> exists v, in_window x [s0; s1] [1; 1] [p0; p1] [k0; k1] o v) ->
  exists vals, maxpool_value wd [k0; k1] ceil None x = SOk ([n; c; oh; ow], vals)
    /\ Forall2 (fun o m => is_max (in_window x [s0; s1] [1; 1] [p0; p1] [k0; k1] o) m) (indices [n; c; oh; ow]) vals.
Proof. intros. eapply maxpool_ok; eassumption. Qed.
Definition wd_pool (dil : Z) (pads : list Z) : window := {| w_autopad := Explicit; w_pads := pads; w_strides := [1; 1]; w_dilations := [dil; dil] |}.
Example C88_maxpool_case : maxpool_value (wd_pool 1 [0; 0; 0; 0]) [2; 2] false None (of_list [1; 1; 3; 3] [1; 2; 3; 9; 5; 6; 7; 8; 4]) = SOk ([1; 1; 2; 2], [9; 6; 9; 8]).
Proof. eapply pool_run; [pool_sh|vm_compute; reflexivity]. Qed.
(** the running maximum starts from what the output holds, zero the first time *)
Theorem C88_maxpool_negative_refuted : exists (x : arr Z) m, maxpool_value (wd_pool 1 [0; 0; 0; 0]) [1; 1] false None x = SOk ([1; 1; 1; 1], [m])
  /\ ~ is_max (in_window x [1; 1] [1; 1] [0; 0] [1; 1] [0; 0; 0; 0]) m.
Proof.
  exists (of_list [1; 1; 1; 1] [-5]). eexists. split; [eapply pool_run; [pool_sh|vm_compute; reflexivity]|]. intros ((k & src & Hk & -> & R & E) & _).
  destruct k as [|a [|b [|]]]; cbn [in_range] in Hk; rewrite ?andb_true_iff, ?andb_false_iff, ?Z.leb_le, ?Z.ltb_lt in Hk; try (exfalso; intuition discriminate).
  assert (a = 0 /\ b = 0) as [-> ->] by lia. vm_compute in E. discriminate E.
Qed.
Theorem C88_maxpool_rerun_refuted : exists (x x' : arr Z) y m, shp x = shp x' /\ maxpool_value (wd_pool 1 [0; 0; 0; 0]) [1; 1] false None x = SOk ([1; 1; 1; 1], y)
  /\ maxpool_value (wd_pool 1 [0; 0; 0; 0]) [1; 1] false (Some (of_list [1; 1; 1; 1] y)) x' = SOk ([1; 1; 1; 1], [m]) /\ m <> el x' [0; 0; 0; 0] /\ 0 <= el x' [0; 0; 0; 0].
Proof. exists (of_list [1; 1; 1; 1] [5]), (of_list [1; 1; 1; 1] [3]). do 2 eexists. split; [reflexivity|]. split; [eapply pool_run; [pool_sh|vm_compute; reflexivity]|]. split; [eapply pool_run; [pool_sh|vm_compute; reflexivity]|]. split; vm_compute; discriminate. Qed.
Theorem C88_maxpool_dilation_refuted : exists (x : arr Z) m, maxpool_value (wd_pool 2 [0; 0; 0; 0]) [2; 2] false None x = SOk ([1; 1; 1; 1], [m])
  /\ ~ is_max (in_window x [1; 1] [2; 2] [0; 0] [2; 2] [0; 0; 0; 0]) m.
Proof.
  exists (of_list [1; 1; 3; 3] [1; 2; 3; 4; 5; 6; 7; 8; 9]). eexists. split; [eapply pool_run; [pool_sh|vm_compute; reflexivity]|]. intros (_ & H). specialize (H 9).
  assert (X : 9 <= 5); [|lia]. apply H. exists [1; 1], [0; 0; 2; 2]. repeat split; reflexivity.
Qed.

Theorem C88_gemm_partial : forall transA transB (a b : arr Z) c m k n,
  (transA = 0 \/ transA = 1) -> (transB = 0 \/ transB = 1) ->
  shp a = (if transA =? 0 then [m; k] else [k; m]) -> shp b = (if transB =? 0 then [k; n] else [n; k]) ->
  (forall cc, c = Some cc -> shp cc = [] \/ (exists d, (d = n \/ d = 1) /\ shp cc = [d]) \/ (exists e d, (e = m \/ e = 1) /\ (d = n \/ d = 1) /\ shp cc = [e; d])) ->
  exists y, gemm_value 0 Z.add Z.mul transA transB a b c = SOk y /\ shp y = [m; n] /\
    forall i j, el y [i; j] = onnx_gemm 1 1 transA transB a b (option_map broadcast_read c) i j k.
Proof. intros. eapply gemm_ok; eassumption. Qed.
Example C88_gemm_case : exists y, gemm_value 0 Z.add Z.mul 1 0 (of_list [2; 1] [3; 4]) (of_list [2; 2] [1; 2; 3; 4]) (Some (of_list [2] [100; 200])) = SOk y /\ to_list y = ([1; 2], [115; 222]).
Proof. eexists. split; reflexivity. Qed.
(** the factors alpha and beta are not read *)
Theorem C88_gemm_alpha_refuted : exists (a b y : arr Z), gemm_value 0 Z.add Z.mul 0 0 a b None = SOk y /\ el y [0; 0] <> onnx_gemm 2 1 0 0 a b None 0 0 1.
Proof. exists (of_list [1; 1] [1]), (of_list [1; 1] [1]). eexists. split; [reflexivity|]. vm_compute. discriminate. Qed.
Theorem C88_global_average_values : forall (T : Type) (zero : T) add div divc (x : arr T) n c h w, shp x = [n; c; h; w] -> h * w <> 0 ->
  exists y, global_average_value zero add div x = SOk y /\ shp y = [n; c]
    /\ map (el y) (indices (shp y)) = result (ref_global_average zero add divc div (as_tens x)).
Proof. intros. apply global_average_ok with (h := h) (w := w); assumption. Qed.
Example C88_global_average_case : exists y, global_average_value 0 Z.add Z.div (of_list [1; 2; 1; 2] [2; 4; 6; 8]) = SOk y /\ to_list y = ([1; 2], [3; 7]).
Proof. eexists. split; reflexivity. Qed.
(** ... but ONNX (and the tool's own shape inference) keep the spatial axes *)
Theorem C88_global_average_rank_refuted : forall (T : Type) (zero : T) add div (x y : arr T), global_average_value zero add div x = SOk y -> shp y <> global_pool_shape (shp x).
Proof.
  intros T zero add div x y. unfold global_average_value, global_pool_shape. destruct (shp x) as [|n [|c [|h [|w r]]]]; try discriminate. destruct (h * w =? 0); [discriminate|].
  intros E. injection E as <-. cbn. discriminate.
Qed.

(** ** C89: element-wise operators *)
(** ONNX integer division truncates *)
Theorem C89_div_partial : forall a b, b <> 0 -> 0 <= a * b \/ (b | a) -> div_value a b = Z.quot a b.
Proof.
  intros a b Hb [H|(q & ->)]; unfold div_value.
  - destruct (Z.le_gt_cases 0 a) as [Ha|Ha].
    + destruct (Z.eq_dec a 0) as [->|N]; [reflexivity|]. rewrite Z.quot_div_nonneg by nia. reflexivity.
    + assert (b < 0) by nia. rewrite <- (Z.opp_involutive a), <- (Z.opp_involutive b). rewrite Z.div_opp_opp by lia. rewrite Z.quot_opp_opp by lia. rewrite Z.quot_div_nonneg by lia. reflexivity.
  - rewrite Z.div_mul by exact Hb. rewrite Z.quot_mul by exact Hb. reflexivity.
Qed.
Theorem C89_div_refuted : exists a b, b <> 0 /\ div_value a b <> Z.quot a b.
Proof. exists (-7), 2. split; [lia|]. vm_compute. discriminate. Qed.
(** with fmod = 0 the result has the sign of the divisor *)
Theorem C89_mod_partial : forall a b, b <> 0 -> exists q, a = b * q + mod_value false a b /\ (0 <= mod_value false a b < b \/ b < mod_value false a b <= 0).
Proof.
  intros a b Hb. unfold mod_value. destruct (Z.eqb_spec b 0); [contradiction|]. exists (a / b). split; [apply Z.div_mod; exact Hb|].
  destruct (Z.lt_ge_cases 0 b); [left; apply Z.mod_pos_bound; lia|right; apply Z.mod_neg_bound; lia].
Qed.
Theorem C89_fmod_refuted : exists a b, b <> 0 /\ mod_value true a b <> Z.rem a b.
Proof. exists (-7), 3. split; [lia|]. vm_compute. discriminate. Qed.
Theorem C89_max_exact : forall ins, ins <> [] -> exists m, max_value ins = SOk m /\ In m ins /\ forall v, In v ins -> v <= m.
Proof. intros [|a r] H; [contradiction|]. eexists. split; [reflexivity|]. apply max_value_ok. reflexivity. Qed.
Theorem C89_sum_exact : forall ins, ins <> [] -> sum_value ins = SOk (fold_right Z.add 0 ins).
Proof. intros [|a r] H; [contradiction|]. rewrite <- (sum_value_ok a r _ eq_refl). reflexivity. Qed.
(** Min returns the negated truth value of the minimum, and refuses arrays *)
Theorem C89_min_refuted : (forall size a b r, 1 < size -> min_value size (a :: b :: r) = SRaise ValueErr)
  /\ (forall a b r, exists v, min_value 1 (a :: b :: r) = SOk v /\ (v = 0 \/ v = 1)) /\ min_value 1 [3; 5] = SOk 0.
Proof.
  split; [|split; [|reflexivity]].
  - intros size a b r H. cbn [min_value min_values]. destruct (Z.ltb_spec 1 size); [reflexivity|lia].
  - intros a b r. cbn [min_value min_values]. change (1 <? 1) with false. cbn iota. revert a b. induction r as [|c r IH]; intros a b; cbn [min_values].
    + eexists. split; [reflexivity|]. destruct (_ =? 0); auto.
    + change (1 <? 1) with false. cbn iota. apply IH.
Qed.
Theorem C89_clip_partial : forall nlo lo nhi hi r x, (nlo <> ""%string -> nhi <> ""%string -> lo <= hi) -> exists y, clip_value ((nlo, lo) :: (nhi, hi) :: r) x = SOk y
  /\ (nlo <> ""%string -> lo <= y) /\ (nhi <> ""%string -> y <= hi) /\ ((nlo = ""%string \/ lo <= x) -> (nhi = ""%string \/ x <= hi) -> y = x)
  /\ (y = x \/ (nlo <> ""%string /\ y = lo) \/ (nhi <> ""%string /\ y = hi)).
Proof.
  intros nlo lo nhi hi r x H. unfold clip_value. cbn [nth_error sbind].
  destruct (String.eqb_spec nlo ""%string) as [E|E]; destruct (String.eqb_spec nhi ""%string) as [F|F]; eexists; (split; [reflexivity|]).
  - split; [intro; contradiction|]. split; [intro; contradiction|]. split; [reflexivity|left; reflexivity].
  - split; [intro; contradiction|]. split; [intro; lia|]. split; [intros _ [X|X]; [contradiction|lia]|]. destruct (Z.min_spec x hi) as [[? ->]|[? ->]]; auto.
  - split; [intro; lia|]. split; [intro; contradiction|]. split; [intros [X|X] _; [contradiction|lia]|]. destruct (Z.max_spec x lo) as [[? ->]|[? ->]]; auto.
  - specialize (H E F). split; [intro; lia|]. split; [intro; lia|]. split; [intros [X|X] [Y|Y]; try contradiction; lia|].
    destruct (Z.max_spec x lo) as [[? ->]|[? ->]]; [destruct (Z.min_spec lo hi) as [[? ->]|[? ->]]|destruct (Z.min_spec x hi) as [[? ->]|[? ->]]]; auto.
Qed.
Theorem C89_clip_missing_refuted : forall x v, clip_value [] x = SRaise IndexErr /\ clip_value [("lo"%string, v)] x = SRaise IndexErr.
Proof. intros. split; reflexivity. Qed.
Theorem C89_leaky_relu_refuted : forall slope a b r, leaky_value slope (a :: b :: r) = SRaise IndexErr.
Proof. reflexivity. Qed.
Theorem C89_nonzero_partial : forall xs, (exists v, In v xs /\ v <> 0) ->
  StronglySorted Z.lt (nonzero_value xs) /\ forall p, In p (nonzero_value xs) <-> exists k, p = Z.of_nat k /\ (k < length xs)%nat /\ nth k xs 0 <> 0.
Proof.
  intros xs (v & Hv & N). assert (E : nonzero_value xs = positions (fun v => negb (v =? 0)) xs).
  { unfold nonzero_value. destruct (positions (fun v => negb (v =? 0)) xs) eqn:P; [|reflexivity]. exfalso. apply (In_nth _ _ 0) in Hv as (k & Hk & Ev).
    assert (X : In (Z.of_nat k) (positions (fun v => negb (v =? 0)) xs)); [|rewrite P in X; destruct X]. apply in_positions. exists k. split; [reflexivity|]. split; [exact Hk|]. rewrite Ev. destruct (Z.eqb_spec v 0); [contradiction|reflexivity]. }
  rewrite E. split; [apply positions_ascending|]. intro p. rewrite in_positions. split; intros (k & H1 & H2 & H3); exists k; (split; [exact H1|]; split; [exact H2|]).
  - destruct (Z.eqb_spec (nth k xs 0) 0); [discriminate|assumption].
  - destruct (Z.eqb_spec (nth k xs 0) 0); [contradiction|reflexivity].
Qed.
Theorem C89_nonzero_of_zeros_refuted : forall n, nonzero_value (repeat 0 (S n)) = map Z.of_nat (seq 0 (S n)).
Proof.
  intro n. unfold nonzero_value. assert (E : forall m s, filter (fun q : nat * Z => negb (snd q =? 0)) (combine (seq s m) (repeat 0 m)) = []) by (induction m as [|m IH]; intro s; [reflexivity|]; cbn; apply IH).
  unfold positions at 1. rewrite repeat_length, E. cbn [map]. unfold positions. rewrite map_length, repeat_length.
  assert (F : forall m s, map (fun q : nat * Z => Z.of_nat (fst q)) (filter (fun q => negb (snd q =? 0)) (combine (seq s m) (map (fun _ => 1) (repeat 0 m)))) = map Z.of_nat (seq s m)) by (induction m as [|m IH]; intro s; [reflexivity|]; cbn; f_equal; apply IH).
  apply F.
Qed.

(** ** C90: shape inference and value inference agree *)
Theorem C90_slice_partial : forall (T : Type) (x : arr T) axes starts ends steps,
  nonneg (shp x) -> (forall d, In d (shp x) -> d < 2 ^ 53 - 1) -> valid_axes (length (shp x)) axes -> (forall a, In a axes -> 0 <= a <= 4) ->
  length starts = length axes -> length ends = length axes -> length steps = length axes ->
  (forall j, (j < length axes)%nat -> nth j steps 0 <> 0 /\ Z.abs (nth j steps 0) < 2 ^ 53 /\
     (nth j steps 0 < 0 -> 0 < nth (Z.to_nat (nth j axes 0)) (shp x) 0 /\ - nth (Z.to_nat (nth j axes 0)) (shp x) 0 <= nth j starts 0)) ->
  exists y, slice_value x starts ends (Some axes) (Some steps) = SOk y /\ slice_shape (shp x) starts ends (Some axes) (Some steps) = SOk (shp y).
Proof.
  intros T x axes starts ends steps Hn Hb Hv Ha Ls Le Lt Hj.
  destruct (slice_value_ok x axes starts ends steps Hn Hv Ha Ls Le Lt) as (y & E & (Sy & _)).
  { intros j H. destruct (Hj j H) as (H1 & H2 & H3). split; [exact H1|]. intro. apply H3. assumption. }
  destruct (C24_slice_counts_partial (shp x) starts ends axes steps Hv Ls Le Lt Hn Hb) as (out & F & So).
  { intros j H. cbv zeta. destruct (Hj j H) as (H1 & H2 & H3). split; [exact H1|]. split; [exact H2|]. intro. rewrite axis_pos_nonneg by (apply Ha; apply nth_In; exact H). apply H3. assumption. }
  exists y. split; [exact E|]. rewrite F. f_equal. eapply sliced_unique; eassumption.
Qed.
Theorem C90_unsqueeze_partial : forall (T : Type) (x : arr T) axes, plain_axes (length (shp x) + length axes) axes ->
  exists y, unsqueeze_value axes x = SOk y /\ unsqueeze_shape axes (shp x) = SOk (shp y).
Proof.
  intros T x axes H. destruct (unsqueeze_plain axes x H) as (y & E & (L & O & D & _)). exists y. split; [exact E|].
  destruct (C28_roundtrip (shp x) axes (plain_valid _ _ H)) as (z & F & Lz & Oz & _ & Sz). rewrite F. f_equal. rewrite squeeze_shape_outside, Lz in Sz. rewrite Lz in Oz.
  apply (dout_determines (map (axis_pos (length (shp x) + length axes)) axes) z (shp y) 0); [rewrite Lz; symmetry; exact L| |etransitivity; [exact Sz|symmetry; exact D]].
  intros i Hi Hin. apply in_map_iff in Hin as (a & Ea & Hin). specialize (O a Hin). specialize (Oz a Hin). rewrite Ea in O, Oz. rewrite Nat.add_0_l, Nat2Z.id in O, Oz. congruence.
Qed.
Theorem C90_squeeze_partial : forall (T : Type) (x : arr T) axes, plain_axes (length (shp x)) axes ->
  (forall a, In a axes -> nth (Z.to_nat (axis_pos (length (shp x)) a)) (shp x) 0 = 1) ->
  exists y, squeeze_value (Some axes) x = SOk y /\ squeeze_shape axes (shp x) = shp y.
Proof.
  intros T x axes H H1. destruct (squeeze_plain axes x H H1) as (y & E & (_ & D & _)). exists y. split; [exact E|]. rewrite D. apply squeeze_shape_outside.
Qed.
Theorem C90_split_partial : forall (T : Type) (x : arr T) axis a sizes nout (attr : bool),
  axis_pos (length (shp x)) axis = Z.of_nat a -> (a < length (shp x))%nat ->
  sizes <> [] -> Forall (fun v => 0 <= v) sizes -> 0 < last sizes 0 -> fold_right Z.add 0 sizes = nth a (shp x) 0 -> (length sizes <= nout)%nat ->
  exists ys, split_value (Some axis) (if attr then Some sizes else None) (if attr then None else Some sizes) nout x = SOk ys
    /\ split_shape (Some axis) (if attr then Some sizes else None) (if attr then None else Some sizes) nout (shp x) = SOk (map shp ys).
Proof.
  intros T x axis a sizes nout attr Hax Ha Hne Hn Hl Hs Hout. destruct (split_value_ok x axis a sizes nout attr Hax Ha Hne Hn Hl Hs Hout) as (ys & E & O). exists ys. split; [exact E|].
  destruct (C26_explicit_sizes (shp x) axis a sizes nout attr Hax Ha Hn Hs) as (outs & F & -> & _). rewrite F. f_equal.
  clear - O. revert ys O. generalize 0. induction sizes as [|v r IH]; intros z [|y ys] O; cbn [onnx_split map] in *; try contradiction; [reflexivity|]. destruct O as (<- & _ & O). f_equal. eapply IH; exact O.
Qed.
Theorem C90_disagreements_refuted :
  (exists (x y : arr Z) s, slice_value x [0] [1] (Some [-1]) (Some [1]) = SOk y /\ slice_shape (shp x) [0] [1] (Some [-1]) (Some [1]) = SOk s /\ s <> shp y)
  /\ (exists (x y : arr Z) s, slice_value x [0; 0] [1; 1] None None = SOk y /\ slice_shape (shp x) [0; 0] [1; 1] None None = SOk s /\ s <> shp y)
  /\ (exists (x y : arr Z) s, unsqueeze_value [-2; -1] x = SOk y /\ unsqueeze_shape [-2; -1] (shp x) = SOk s /\ s <> shp y)
  /\ (exists (x : arr Z), squeeze_value (Some [-2; -1]) x = SRaise ValueErr /\ squeeze_shape [-2; -1] (shp x) = [3])
  /\ (exists (x y : arr Z), global_average_value 0 Z.add Z.div x = SOk y /\ global_pool_shape (shp x) <> shp y).
Proof.
  split; [|split; [|split; [|split]]].
  - exists (of_list [2; 3] [1; 2; 3; 4; 5; 6]). do 2 eexists. split; [reflexivity|]. split; [axis_val; rewrite ?ceil_fdiv by small; reflexivity|]. vm_compute. discriminate.
  - exists (of_list [2; 3] [1; 2; 3; 4; 5; 6]). do 2 eexists. split; [reflexivity|]. split; [axis_val; rewrite ?ceil_fdiv by small; reflexivity|]. vm_compute. discriminate.
  - exists (of_list [3] [1; 2; 3]). do 2 eexists. split; [reflexivity|]. split; [reflexivity|]. vm_compute. discriminate.
  - exists (of_list [3; 1; 1] [1; 2; 3]). split; reflexivity.
  - exists (of_list [1; 1; 1; 1] [1]). eexists. split; [reflexivity|]. vm_compute. discriminate.
Qed.
