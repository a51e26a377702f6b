(** C116, C117: activations and normalisations compute their definition, over exact real numbers. *)
From Coq Require Import Reals.
From Verif Require Import PyBase GraphModel ShapeModel RegressModel ShapeSpec BcastProofs LayoutProofs CostSpec ValueModel ValueModel2 ValueModel3 ValueModel4 ValueSpec ValueSpec3 ValueSpec4 ValueProofs ValueProofs2 ValueProofs3 ValueProofs4 ValueProofs5 ValueProofs6 ValueProofs7 ValueProofs8 Props_Value2 ActModel.
From Coq Require Import Lia Lra Bool.
Open Scope list_scope. Open Scope Z_scope.

(** ** Specifications *)
(** the sum of [f j], [j] = 0, ..., [n - 1] *)
Definition total (n : Z) (f : Z -> R) : R := fold_right Rplus 0%R (map f (upto n)).
(** [y] is Softmax of [x] along axis [a] *)
Definition onnx_softmax (x : arr R) (a : nat) (y : arr R) : Prop :=
  shp y = shp x /\ forall o, in_range (shp x) o = true ->
    el y o = (exp (el x o) / total (nth a (shp x) 0%Z) (fun j => exp (el x (with_dim o a j))))%R.
(** [y] is [f] of every element *)
Definition everywhere (f : R -> R -> Prop) (x y : arr R) : Prop := shp y = shp x /\ forall o, in_range (shp x) o = true -> f (el x o) (el y o).
Definition sum_over (x : arr R) (axes : list Z) (o : list Z) : R :=
  fold_right Rplus 0%R (map (el x) (filter (fun i => if list_eq_dec Z.eq_dec (dims_outside (map (axis_pos (length (shp x))) axes) i) o then true else false) (indices (shp x)))).

(** ** Sums *)
Lemma fold_total {A} (f : A -> R) l : forall s, fold_left (fun s j => (s + f j)%R) l s = (s + fold_right Rplus 0 (map f l))%R.
Proof. induction l as [|a r IH]; intro s; cbn [fold_left map fold_right]; [lra|]. rewrite IH. lra. Qed.
Lemma sum_nonneg {A} (f : A -> R) l : (forall j, In j l -> 0 <= f j)%R -> (0 <= fold_right Rplus 0 (map f l))%R.
Proof. induction l as [|a r IH]; intro H; cbn [map fold_right]; [lra|]. pose proof (H a (or_introl eq_refl)). specialize (IH (fun j I => H j (or_intror I))). lra. Qed.
Lemma sum_member {A} (f : A -> R) l j : (forall j, In j l -> 0 <= f j)%R -> In j l -> (f j <= fold_right Rplus 0 (map f l))%R.
Proof.
  induction l as [|a r IH]; intros H I; [destruct I|]. cbn [map fold_right]. pose proof (H a (or_introl eq_refl)). pose proof (sum_nonneg f r (fun j K => H j (or_intror K))).
  destruct I as [->|I]; [lra|]. specialize (IH (fun j K => H j (or_intror K)) I). lra.
Qed.
Lemma sum_scale {A} (f : A -> R) c l : fold_right Rplus 0%R (map (fun j => (f j * c)%R) l) = (fold_right Rplus 0 (map f l) * c)%R.
Proof. induction l as [|a r IH]; cbn [map fold_right]; [lra|]. rewrite IH. lra. Qed.
Lemma in_upto n j : In j (upto n) <-> 0 <= j < n.
Proof. unfold upto. rewrite in_map_iff. split; [intros (k & <- & I); apply in_seq in I; lia|intros H; exists (Z.to_nat j); split; [lia|apply in_seq; lia]]. Qed.
Lemma range_dim sh o a : in_range sh o = true -> (a < length sh)%nat -> 0 <= nth a o 0 < nth a sh 0 /\ length o = length sh.
Proof. intros H L. apply in_range_spec in H as (E & F). split; [apply F; exact L|exact E]. Qed.
Lemma nth_with_dim (o : list Z) a b v : (a < length o)%nat -> nth b (with_dim o a v) 0 = if Nat.eqb b a then v else nth b o 0.
Proof.
  intros L. unfold with_dim. destruct (Nat.eqb_spec b a) as [->|N].
  - rewrite app_nth2; rewrite firstn_length; [|lia]. replace (a - Nat.min a (length o))%nat with 0%nat by lia. reflexivity.
  - destruct (Nat.lt_ge_cases b a).
    + rewrite app_nth1 by (rewrite firstn_length; lia). rewrite <- (firstn_skipn a o) at 2. rewrite app_nth1 by (rewrite firstn_length; lia). reflexivity.
    + rewrite app_nth2; rewrite firstn_length; [|lia]. replace (b - Nat.min a (length o))%nat with (S (b - a - 1)) by lia. cbn [nth].
      rewrite <- (firstn_skipn (S a) o) at 2. rewrite app_nth2; rewrite firstn_length; [|lia]. f_equal. lia.
Qed.
Lemma range_with sh o a j : in_range sh o = true -> (a < length sh)%nat -> 0 <= j < nth a sh 0 -> in_range sh (with_dim o a j) = true.
Proof.
  intros H L J. apply in_range_spec in H as (E & F). apply in_range_spec. split; [rewrite with_dim_length by lia; exact E|].
  intros b Hb. rewrite nth_with_dim by lia. destruct (Nat.eqb_spec b a) as [->|]; [exact J|apply F; exact Hb].
Qed.
Lemma with_self (o : list Z) a : (a < length o)%nat -> with_dim o a (nth a o 0) = o.
Proof. intros L. unfold with_dim. rewrite <- (firstn_skipn a o) at 4. f_equal. revert a L. induction o as [|x o IH]; intros a L; [cbn in L; lia|]. destruct a; [reflexivity|]. cbn [nth skipn]. apply IH. cbn in L. lia. Qed.

(** ** C116 *)
Theorem C116_softmax : forall axis a (x : arr R), axis_pos (length (shp x)) axis = Z.of_nat a -> (a < length (shp x))%nat ->
  exists y, softmax_value (Some axis) x = SOk y /\ onnx_softmax x a y.
Proof.
  intros axis a x A L. unfold softmax_value. change (zlen (shp x)) with (Z.of_nat (length (shp x))). rewrite np_axis_pos by (rewrite A; lia). rewrite A, np_axis_ok by exact L. cbn [sbind].
  eexists. split; [reflexivity|]. split; [reflexivity|]. cbn [shp el]. intros o Ho. destruct (range_dim _ _ a Ho L) as [B E]. f_equal. f_equal.
  rewrite fold_total, Rplus_0_l. unfold total. f_equal. apply map_ext_in. intros j _. rewrite set_nth_with by lia. reflexivity.
Qed.
(** Probabilities: each line along the axis sums to 1, and every entry is positive. *)
Theorem C116_softmax_probabilities : forall x a y o, onnx_softmax x a y -> (a < length (shp x))%nat -> in_range (shp x) o = true ->
  total (nth a (shp x) 0) (fun j => el y (with_dim o a j)) = 1%R /\ (0 < el y o <= 1)%R.
Proof.
  intros x a y o (S & H) L Ho. destruct (range_dim _ _ a Ho L) as [B E]. set (n := nth a (shp x) 0) in *.
  assert (P : (0 < total n (fun j => exp (el x (with_dim o a j))))%R).
  { pose proof (sum_member (fun j => exp (el x (with_dim o a j))) (upto n) (nth a o 0) (fun j _ => Rlt_le _ _ (exp_pos _)) (proj2 (in_upto _ _) B)). cbv beta in H0.
    pose proof (exp_pos (el x (with_dim o a (nth a o 0)))). unfold total. lra. }
  split.
  - unfold total at 1. rewrite (map_ext_in _ (fun j => (exp (el x (with_dim o a j)) * / total n (fun j => exp (el x (with_dim o a j))))%R)).
    + rewrite sum_scale. apply Rinv_r. apply Rgt_not_eq. exact P.
    + intros j J. apply in_upto in J. rewrite H by (apply range_with; assumption). unfold Rdiv. f_equal. f_equal. unfold total. f_equal. apply map_ext. intros k. rewrite with_dim_twice by lia. reflexivity.
  - rewrite H by exact Ho. fold n. pose proof (exp_pos (el x o)) as Q. split; [apply Rdiv_lt_0_compat; assumption|].
    apply (Rmult_le_reg_r (total n (fun j => exp (el x (with_dim o a j))))); [exact P|]. unfold Rdiv. rewrite Rmult_assoc, Rinv_l, Rmult_1_r, Rmult_1_l by lra.
    pose proof (sum_member (fun j => exp (el x (with_dim o a j))) (upto n) (nth a o 0) (fun j _ => Rlt_le _ _ (exp_pos _)) (proj2 (in_upto _ _) B)) as M. cbv beta in M.
    rewrite with_self in M by lia. exact M.
Qed.
(** Along the axis, larger inputs get larger outputs. *)
Theorem C116_softmax_order : forall x a y o j k, onnx_softmax x a y -> (a < length (shp x))%nat -> in_range (shp x) o = true -> 0 <= j < nth a (shp x) 0 -> 0 <= k < nth a (shp x) 0 ->
  (el y (with_dim o a j) < el y (with_dim o a k) <-> el x (with_dim o a j) < el x (with_dim o a k))%R.
Proof.
  intros x a y o j k (S & H) L Ho J K. destruct (range_dim _ _ a Ho L) as [B E]. rewrite !H by (apply range_with; assumption). set (n := nth a (shp x) 0) in *.
  assert (T : forall i, total n (fun q => exp (el x (with_dim (with_dim o a i) a q))) = total n (fun q => exp (el x (with_dim o a q)))).
  { intros i. unfold total. f_equal. apply map_ext. intros q. rewrite with_dim_twice by lia. reflexivity. }
  rewrite !T. assert (P : (0 < total n (fun j => exp (el x (with_dim o a j))))%R).
  { pose proof (sum_member (fun j => exp (el x (with_dim o a j))) (upto n) (nth a o 0) (fun j _ => Rlt_le _ _ (exp_pos _)) (proj2 (in_upto _ _) B)). cbv beta in H0.
    pose proof (exp_pos (el x (with_dim o a (nth a o 0)))). unfold total. lra. }
  unfold Rdiv. split; intros Q.
  - apply exp_lt_inv. apply Rmult_lt_reg_r in Q; [exact Q|apply Rinv_0_lt_compat; exact P].
  - apply Rmult_lt_compat_r; [apply Rinv_0_lt_compat; exact P|apply exp_increasing; exact Q].
Qed.
(** Adding a number to a whole line does not change the result (so the missing subtraction of the maximum costs no exactness). *)
Theorem C116_softmax_shift : forall x x' a y y' o c, onnx_softmax x a y -> onnx_softmax x' a y' -> shp x' = shp x -> (a < length (shp x))%nat -> in_range (shp x) o = true ->
  (forall j, 0 <= j < nth a (shp x) 0 -> el x' (with_dim o a j) = (el x (with_dim o a j) + c)%R) -> el y' o = el y o.
Proof.
  intros x x' a y y' o c (S & H) (S' & H') Sx L Ho C. destruct (range_dim _ _ a Ho L) as [B E]. rewrite H by exact Ho. rewrite H' by (rewrite Sx; exact Ho). rewrite Sx. set (n := nth a (shp x) 0) in *.
  assert (X : el x' o = (el x o + c)%R). { pose proof (C (nth a o 0) B) as Q. rewrite with_self in Q by lia. exact Q. }
  assert (T : total n (fun j => exp (el x' (with_dim o a j))) = (total n (fun j => exp (el x (with_dim o a j))) * exp c)%R).
  { unfold total. rewrite <- sum_scale. f_equal. apply map_ext_in. intros j J. apply in_upto in J. rewrite C by exact J. apply exp_plus. }
  assert (P : (0 < total n (fun j => exp (el x (with_dim o a j))))%R).
  { pose proof (sum_member (fun j => exp (el x (with_dim o a j))) (upto n) (nth a o 0) (fun j _ => Rlt_le _ _ (exp_pos _)) (proj2 (in_upto _ _) B)). cbv beta in H0.
    pose proof (exp_pos (el x (with_dim o a (nth a o 0)))). unfold total. lra. }
  rewrite T, X, exp_plus. pose proof (exp_pos c). field. split; lra.
Qed.
(** A node without the attribute (ONNX: the last axis) fails. *)
Theorem C116_softmax_default_refuted : forall x : arr R, softmax_value None x = SRaise AttributeErr.
Proof. reflexivity. Qed.
(** Before opset 13 Softmax normalised all axes from [axis] on together: there the code's result is another. *)
Theorem C116_softmax_coerced_refuted : exists x y, softmax_value (Some 1) x = SOk y /\ shp x = [1; 2; 2] /\ sum_over y [1; 2] [0] = 2%R.
Proof.
  exists {| shp := [1; 2; 2]; el := fun _ => 0%R |}. eexists. split; [reflexivity|]. split; [reflexivity|]. unfold sum_over. cbn [shp el].
  repeat match goal with |- context [filter ?f ?l] => let v := eval vm_compute in (filter f l) in change (filter f l) with v end.
  cbn [map fold_right].
  repeat match goal with |- context [pyrange ?n] => let v := eval vm_compute in (pyrange n) in change (pyrange n) with v end.
  cbn [fold_left]. rewrite exp_0. lra.
Qed.
Theorem C116_sigmoid : forall x, everywhere (fun v y => (y = exp v / (1 + exp v) /\ 0 < y < 1)%R) x (sigmoid_value x).
Proof.
  intros x. split; [reflexivity|]. intros o _. unfold sigmoid_value, map_value. cbn [el]. set (v := el x o). pose proof (exp_pos v). pose proof (exp_pos (- v)). rewrite exp_Ropp.
  assert (E : (1 / (1 + / exp v) = exp v / (1 + exp v))%R) by (field; split; lra). rewrite E. split; [reflexivity|]. split; [apply Rdiv_lt_0_compat; lra|].
  apply (Rmult_lt_reg_r (1 + exp v)); [lra|]. unfold Rdiv. rewrite Rmult_assoc, Rinv_l by lra. lra.
Qed.
Theorem C116_softplus : forall x, everywhere (fun v y => (exp y = 1 + exp v /\ 0 < y /\ v < y)%R) x (softplus_value x).
Proof.
  intros x. split; [reflexivity|]. intros o _. unfold softplus_value, map_value. cbn [el]. set (v := el x o). pose proof (exp_pos v). assert (E : exp (ln (1 + exp v)) = (1 + exp v)%R) by (apply exp_ln; lra).
  split; [exact E|]. split; apply exp_lt_inv; rewrite E; [rewrite exp_0|]; lra.
Qed.
Theorem C116_elu : forall alpha x, everywhere (fun v y => (0 <= v -> y = v) /\ (v < 0 -> y = match alpha with Some a => a | None => 1 end * (exp v - 1)))%R x (elu_value alpha x).
Proof.
  intros alpha x. split; [reflexivity|]. intros o _. unfold elu_value, map_value. cbn [el]. destruct (Rle_dec 0 (el x o)); split; intros; try reflexivity; lra.
Qed.
Theorem C116_relu : forall x, everywhere (fun v y => (0 <= v -> y = v) /\ (v < 0 -> y = 0))%R x (relu_value x).
Proof. intros x. split; [reflexivity|]. intros o _. unfold relu_value, map_value. cbn [el]. split; intros; [apply Rmax_left|apply Rmax_right]; lra. Qed.
Theorem C116_relu6 : forall x, everywhere (fun v y => (v < 0 -> y = 0) /\ (0 <= v <= 6 -> y = v) /\ (6 < v -> y = 6))%R x (relu6_value x).
Proof. intros x. split; [reflexivity|]. intros o _. unfold relu6_value, map_value. cbn [el]. unfold Rmin, Rmax. destruct (Rle_dec (el x o) 0); [destruct (Rle_dec 0 6)|destruct (Rle_dec (el x o) 6)]; repeat split; intros; lra. Qed.

(** HardSigmoid y = max (0, min (1, alpha x + beta)) and HardSwish y = x * that *)
Definition hard_sigmoid_of (a b v y : R) : Prop := (a * v + b <= 0 -> y = 0)%R /\ (0 <= a * v + b <= 1 -> y = a * v + b)%R /\ (1 <= a * v + b -> y = 1)%R.
Definition hard_swish_of (a b v y : R) : Prop := exists s, hard_sigmoid_of a b v s /\ y = (v * s)%R.
(** Python's [max] and [min] take one truth value of the whole array: the code works on arrays of one element only ... *)
Theorem C116_hard_refuted : forall alpha beta (x : arr R), elements (shp x) <> 1 ->
  hard_sigmoid_value alpha beta x = SRaise ValueErr /\ hard_swish_value alpha beta x = SRaise ValueErr.
Proof.
  intros alpha beta x H. unfold hard_sigmoid_value, hard_swish_value, clamp01, py_min1, only, map_value. cbn [shp]. change (numel (shp x)) with (elements (shp x)).
  rewrite (proj2 (Z.eqb_neq _ _) H). split; reflexivity.
Qed.
Lemma clamp_one (a b : R) (x : arr R) : elements (shp x) = 1 -> exists p, clamp01 (map_value (fun v => a * v + b)%R x) = SOk p /\
  let v := el x (repeat 0 (length (shp x))) in
  (shp (as_array p) = if Rlt_dec 0 (a * v + b) then if Rlt_dec (a * v + b) 1 then shp x else [] else []) /\
  hard_sigmoid_of a b v (el (as_array p) (repeat 0 (length (shp (as_array p))))) /\
  el (as_array p) (repeat 0 (length (shp (as_array p)))) = match p with PyNum s => s | PyArr q => el q (repeat 0 (length (shp x))) end.
Proof.
  intros H. unfold clamp01, py_min1, only, map_value. cbn [shp]. change (numel (shp x)) with (elements (shp x)). rewrite H. cbn [Z.eqb Pos.eqb sbind el].
  set (v := el x (repeat 0 (length (shp x)))). unfold hard_sigmoid_of. destruct (Rlt_dec (a * v + b) 1) as [L|L].
  - cbn [py_max0]. unfold only. cbn [shp]. change (numel (shp x)) with (elements (shp x)). rewrite H. cbn [Z.eqb Pos.eqb sbind el]. fold v.
    destruct (Rlt_dec 0 (a * v + b)) as [M|M]; eexists; (split; [reflexivity|]); cbn [as_array shp el]; fold v; repeat split; intros; lra.
  - cbn [py_max0]. destruct (Rlt_dec 0 1) as [_|N]; [|lra]. eexists. split; [reflexivity|]. cbn [as_array shp el]. destruct (Rlt_dec 0 (a * v + b)); repeat split; intros; lra.
Qed.
(** ... there the value is right, but a clipped HardSigmoid loses its shape. *)
Definition given (o : option R) (d : R) : R := match o with Some v => v | None => d end.
Theorem C116_hard_sigmoid_partial : forall alpha beta (x : arr R), elements (shp x) = 1 ->
  let v := el x (repeat 0 (length (shp x))) in let s := (given alpha (2 / 10) * v + given beta (1 / 2))%R in
  exists y, hard_sigmoid_value alpha beta x = SOk y /\ hard_sigmoid_of (given alpha (2 / 10)) (given beta (1 / 2)) v (el y (repeat 0 (length (shp y)))) /\
    ((0 < s < 1)%R -> shp y = shp x) /\ (~ (0 < s < 1)%R -> shp y = []).
Proof.
  intros alpha beta x H. destruct (clamp_one (given alpha (2 / 10)) (given beta (1 / 2)) x H) as (p & E & Sh & V & _). cbv zeta in *.
  exists (as_array p). split; [unfold hard_sigmoid_value; change (match alpha with Some a => a | None => (2 / 10)%R end) with (given alpha (2 / 10)); change (match beta with Some b => b | None => (1 / 2)%R end) with (given beta (1 / 2)); rewrite E; reflexivity|].
  split; [exact V|]. rewrite Sh. destruct (Rlt_dec 0 _); [destruct (Rlt_dec _ 1)|]; split; intros; try reflexivity; try (exfalso; lra).
Qed.
Theorem C116_hard_swish_partial : forall alpha beta (x : arr R), elements (shp x) = 1 ->
  let z := repeat 0 (length (shp x)) in
  exists y, hard_swish_value alpha beta x = SOk y /\ shp y = shp x /\ hard_swish_of (given alpha (1 / 6)) (given beta (1 / 2)) (el x z) (el y z).
Proof.
  intros alpha beta x H. destruct (clamp_one (given alpha (1 / 6)) (given beta (1 / 2)) x H) as (p & E & Sh & V & W). cbv zeta in *. eexists.
  split; [unfold hard_swish_value; change (match alpha with Some a => a | None => (1 / 6)%R end) with (given alpha (1 / 6)); change (match beta with Some b => b | None => (1 / 2)%R end) with (given beta (1 / 2)); rewrite E; reflexivity|].
  split; [reflexivity|]. cbn [el]. eexists. split; [exact V|]. rewrite W. reflexivity.
Qed.
Example C116_applies : axis_pos 2 (-1) = 1 /\ (exists y, softmax_value (Some (-1)) {| shp := [1; 2]; el := fun i => IZR (nth 1 i 0) |} = SOk y /\ shp y = [1; 2]) /\
  elements [1; 1] = 1 /\ (exists x y, shp x = [1; 1] /\ hard_sigmoid_value None None x = SOk y /\ shp y = []).
Proof.
  split; [reflexivity|]. split; [eexists; split; reflexivity|]. split; [reflexivity|]. set (x := {| shp := [1; 1]; el := fun _ => 100%R |}). exists x.
  destruct (C116_hard_sigmoid_partial None None x eq_refl) as (y & E & _ & _ & S). exists y. split; [reflexivity|]. split; [exact E|]. apply S. unfold x, given. cbn [el]. lra.
Qed.

(** ** C117 *)
(** y = scale (x - mean) / sqrt (var + epsilon) + bias with the channel's parameters, for every element in row-major order *)
Definition onnx_batch_norm (eps : R) (x scale b mean var : arr R) (i : list Z) (y : R) : Prop :=
  let c := [nth 1 i 0] in y = (el scale c * (el x i - el mean c) / sqrt (el var c + eps) + el b c)%R.
Lemma smap_rel {A B} (f : A -> sres B) (P : A -> B -> Prop) l : (forall a, In a l -> exists b, f a = SOk b /\ P a b) -> exists r, smap f l = SOk r /\ Forall2 P l r.
Proof.
  induction l as [|a l IH]; intros H; [exists []; split; [reflexivity|constructor]|]. destruct (H a (or_introl eq_refl)) as (b & E & Pb). destruct (IH (fun a I => H a (or_intror I))) as (r & Er & F).
  exists (b :: r). cbn [smap]. rewrite E. cbn [sbind]. rewrite Er. split; [reflexivity|constructor; assumption].
Qed.
Lemma at_channel (p : arr R) c j : shp p = [c] -> 0 <= j < c -> np_at p [j] = SOk (el p [j]).
Proof. intros S H. apply np_at_in. rewrite S. apply in_range_spec. split; [reflexivity|]. intros a L. cbn in L. destruct a; [exact H|lia]. Qed.
Theorem C117_batch_norm : forall eps x scale b mean var n c rest, shp x = n :: c :: rest -> shp scale = [c] -> shp b = [c] -> shp mean = [c] -> shp var = [c] ->
  (forall j, 0 <= j < c -> (0 < el var [j] + given eps (1 / 100000))%R) ->
  exists l, batch_norm_value eps x scale b mean var = SOk (shp x, l) /\ Forall2 (onnx_batch_norm (given eps (1 / 100000)) x scale b mean var) (indices (shp x)) l.
Proof.
  intros eps x scale b mean var n c rest Sx Ss Sb Sm Sv V. unfold batch_norm_value. change (match eps with Some e => e | None => (1 / 100000)%R end) with (given eps (1 / 100000)). set (e := given eps (1 / 100000)) in *.
  destruct (smap_rel (bn_element e x scale b mean var) (onnx_batch_norm e x scale b mean var) (ndindex (shp x))) as (l & E & F).
  - intros i Hi. change (ndindex (shp x)) with (indices (shp x)) in Hi. apply indices_in in Hi. rewrite Sx in Hi. destruct i as [|i0 [|i1 i]]; [discriminate|cbn in Hi; rewrite andb_false_r in Hi; discriminate|].
    assert (C : 0 <= i1 < c). { apply in_range_spec in Hi as (_ & F). apply (F 1%nat). cbn. lia. }
    unfold bn_element. change (py_index (i0 :: i1 :: i) 1) with (SOk i1). cbn [sbind]. rewrite (at_channel var c i1 Sv C). cbn [sbind]. specialize (V i1 C).
    destruct (Rlt_dec (el var [i1] + e) 0) as [N|_]; [exfalso; lra|]. rewrite (at_channel scale c i1 Ss C), (at_channel b c i1 Sb C), (at_channel mean c i1 Sm C). cbn [sbind].
    eexists. split; [reflexivity|]. unfold onnx_batch_norm. cbn [nth]. unfold Rdiv. ring.
  - exists l. rewrite E. split; [reflexivity|exact F].
Qed.
(** If [mean] and [var] are the statistics of a channel, the result has mean [b] there and the variance scale^2 var / (var + epsilon). *)
Theorem C117_batch_norm_statistics : forall eps x scale b mean var is ys ch, Forall2 (onnx_batch_norm eps x scale b mean var) is ys ->
  (forall i, In i is -> nth 1 i 0 = ch) -> (0 < el var [ch] + eps)%R ->
  let n := INR (length is) in
  fold_right Rplus 0%R (map (el x) is) = (n * el mean [ch])%R ->
  fold_right Rplus 0%R (map (fun i => (el x i - el mean [ch]) * (el x i - el mean [ch]))%R is) = (n * el var [ch])%R ->
  fold_right Rplus 0%R ys = (n * el b [ch])%R /\
  fold_right Rplus 0%R (map (fun y => (y - el b [ch]) * (y - el b [ch]))%R ys) = (n * (el scale [ch] * el scale [ch] * el var [ch] / (el var [ch] + eps)))%R.
Proof.
  intros eps x scale b mean var is ys ch F C P n M V. set (k := (el scale [ch] / sqrt (el var [ch] + eps))%R).
  assert (Q : (k * k * (el var [ch] + eps) = el scale [ch] * el scale [ch])%R).
  { unfold k. pose proof (sqrt_lt_R0 _ P) as S0. rewrite <- (sqrt_sqrt (el var [ch] + eps)) at 3 by lra. field. lra. }
  assert (A : fold_right Rplus 0%R ys = (k * (fold_right Rplus 0 (map (el x) is) - n * el mean [ch]) + n * el b [ch])%R /\
    fold_right Rplus 0%R (map (fun y => (y - el b [ch]) * (y - el b [ch]))%R ys) = (k * k * fold_right Rplus 0 (map (fun i => (el x i - el mean [ch]) * (el x i - el mean [ch]))%R is))%R).
  { clear M V. unfold n. clear n. induction F as [|i y is ys H F IH]; [cbn; split; ring|]. specialize (IH (fun i I => C i (or_intror I))). destruct IH as [I1 I2].
    assert (Y : y = (k * (el x i - el mean [ch]) + el b [ch])%R). { rewrite H. unfold onnx_batch_norm. rewrite (C i (or_introl eq_refl)). unfold k, Rdiv. ring. }
    cbn [map fold_right length]. rewrite I1, I2, S_INR, Y. split; ring. }
  destruct A as [-> ->]. rewrite M, V. split; [ring|]. assert (K : (k * k = el scale [ch] * el scale [ch] / (el var [ch] + eps))%R) by (apply (Rmult_eq_reg_r (el var [ch] + eps)); [rewrite Q; field; lra|lra]).
  rewrite K. field. lra.
Qed.
(** ONNX also accepts a vector of N numbers with one channel; the code does not. *)
Theorem C117_batch_norm_vector_refuted : forall eps x scale b mean var n, shp x = [n] -> 0 < n -> batch_norm_value eps x scale b mean var = SRaise IndexErr.
Proof.
  intros eps x scale b mean var n S H. unfold batch_norm_value. rewrite S. unfold ndindex, pyrange. destruct (Z.to_nat n) as [|m] eqn:E; [lia|]. cbn [seq map flat_map app smap]. reflexivity.
Qed.
(** ReduceL2: every element is the Euclidean norm of the elements it stands for. *)
Lemma sum_filter_R {A} (p : A -> bool) (f : A -> R) l : forall s, fold_left (fun s i => if p i then (s + f i)%R else s) l s = (s + fold_right Rplus 0 (map f (filter p l)))%R.
Proof. induction l as [|a r IH]; intro s; cbn [fold_left filter map fold_right]; [lra|]. rewrite IH. destruct (p a); cbn [map fold_right]; lra. Qed.
Lemma sum_R_ok (x : arr R) arg axes keep : (arg = ATuple axes /\ valid_axes (length (shp x)) axes) \/ (arg = ANone /\ axes = zrange (length (shp x))) ->
  exists y, np_sum_R x arg keep = SOk y /\ reduce_shape (Some axes) keep (shp x) = Some (shp y) /\ forall o, el y o = sum_over x axes (if keep then dims_outside (map (axis_pos (length (shp x))) axes) o else o).
Proof.
  intro H. assert (E : exists l, (match arg with ANone => SOk (zrange (length (shp x))) | ATuple l => np_axes (zlen (shp x)) l | AList _ | AArray _ => SRaise TypeErr end) = SOk l /\ l = map (axis_pos (length (shp x))) axes).
  { destruct H as [(-> & Hv)|(-> & ->)].
    - unfold zlen. rewrite np_axes_ok by exact Hv. eauto.
    - eexists. split; [reflexivity|]. symmetry. apply axis_pos_id. intros a Ha. unfold zrange in Ha. apply in_map_iff in Ha as (k & <- & _). lia. }
  destruct E as (l & E & El). unfold np_sum_R. rewrite E. cbn [sbind]. eexists. split; [reflexivity|]. cbn [shp el]. split.
  - unfold reduce_shape. unfold zlen. rewrite axes_pos_neg2pos, <- El. reflexivity.
  - intro o. rewrite <- El. cbv zeta. rewrite (sum_filter_R _ (el x)). unfold sum_over. rewrite <- El, Rplus_0_l. f_equal. f_equal. apply filter_ext. intro i. unfold shape_eqb. rewrite drop_outside.
    replace (if keep then reduce_loop l false o 0 else o) with (if keep then dims_outside l o else o) by (destruct keep; [rewrite drop_outside|]; reflexivity). reflexivity.
Qed.
(** [y o] is the norm of the elements of [x] whose index, without the reduced axes, is [o] *)
Definition onnx_norm (x : arr R) (axes : list Z) (o : list Z) (y : R) : Prop := (0 <= y)%R /\ (y * y = sum_over {| shp := shp x; el := fun i => el x i * el x i |} axes o)%R.
Lemma norm_of (x : arr R) axes o : onnx_norm x axes o (sqrt (sum_over (map_value (fun v => v * v)%R x) axes o)).
Proof. split; [apply sqrt_pos|]. apply sqrt_sqrt. apply sum_nonneg. intros j _. unfold map_value. cbn [el]. apply Rle_0_sqr. Qed.
Theorem C117_reduce_l2 : forall axes keepdims x axes_in, valid_axes (length (shp x)) axes ->
  exists y, reduce_l2_value (Some axes) keepdims x axes_in = SOk y /\ reduce_shape (Some axes) (keepdims =? 1) (shp x) = Some (shp y) /\
    forall o, onnx_norm x axes (if keepdims =? 1 then dims_outside (map (axis_pos (length (shp x))) axes) o else o) (el y o).
Proof.
  intros axes keep x ai V. destruct (sum_R_ok (map_value (fun v => v * v)%R x) (ATuple axes) axes (keep =? 1)) as (y & E & S & F); [left; auto|].
  unfold reduce_l2_value. rewrite E. cbn [sbind]. exists (map_value sqrt y). split; [reflexivity|]. split; [exact S|]. intros o. change (el (map_value sqrt y) o) with (sqrt (el y o)). rewrite F. apply norm_of.
Qed.
(** Without the attribute all axes are reduced, ... *)
Theorem C117_reduce_l2_all : forall keepdims x axes_in,
  exists y, reduce_l2_value None keepdims x axes_in = SOk y /\ shp y = (if keepdims =? 1 then repeat 1 (length (shp x)) else []) /\
    forall o, length o = length (shp y) -> (0 <= el y o /\ el y o * el y o = fold_right Rplus 0 (map (fun v => v * v) (flat x)))%R.
Proof.
  intros keep x ai. destruct (sum_R_ok (map_value (fun v => v * v)%R x) ANone (zrange (length (shp x))) (keep =? 1)) as (y & E & Sy & V); [right; auto|].
  change (shp (map_value (fun v => (v * v)%R) x)) with (shp x) in Sy, V. unfold reduce_l2_value. rewrite E. cbn [sbind]. exists (map_value sqrt y). split; [reflexivity|].
  change (shp (map_value sqrt y)) with (shp y).
  assert (ID : map (axis_pos (length (shp x))) (zrange (length (shp x))) = zrange (length (shp x))) by (apply axis_pos_id; intros a Ha; unfold zrange in Ha; apply in_map_iff in Ha as (k & <- & _); lia).
  assert (NO : forall l : list Z, length l = length (shp x) -> dims_outside (zrange (length (shp x))) l = []).
  { intros l L. unfold dims_outside. rewrite (filter_none); [reflexivity|]. intros (k, v) Hk. apply in_combine_l, in_seq in Hk. cbn [fst]. apply negb_false_iff. apply existsb_exists. exists (Z.of_nat k). split; [|apply Z.eqb_refl]. unfold zrange. apply in_map. apply in_seq. lia. }
  assert (SS : shp y = if keep =? 1 then repeat 1 (length (shp x)) else []).
  { unfold reduce_shape in Sy. injection Sy as <-. unfold zlen. rewrite axes_pos_neg2pos, ID. destruct (keep =? 1); [|rewrite drop_outside; apply NO; reflexivity].
    destruct (reduce_keep (zrange (length (shp x))) (shp x) 0) as (L & N). cbn [Z.of_nat Nat.add] in *. apply nth_ext with (d := 0) (d' := 0); [rewrite L, repeat_length; reflexivity|]. intros i Hi. rewrite L in Hi. rewrite N by exact Hi.
    assert (M : zmem (Z.of_nat i) (zrange (length (shp x))) = true) by (apply existsb_exists; exists (Z.of_nat i); split; [apply in_map, in_seq; lia|apply Z.eqb_refl]). rewrite M. rewrite (nth_indep _ 0 1) by (rewrite repeat_length; exact Hi). symmetry. apply nth_repeat. }
  split; [exact SS|]. intros o Lo.
  assert (T : sum_over (map_value (fun v => (v * v)%R) x) (zrange (length (shp x))) (if keep =? 1 then dims_outside (map (axis_pos (length (shp x))) (zrange (length (shp x)))) o else o) = fold_right Rplus 0%R (map (fun v => (v * v)%R) (flat x))).
  { unfold sum_over. change (shp (map_value (fun v => (v * v)%R) x)) with (shp x). rewrite ID. unfold flat. rewrite map_map. f_equal. rewrite filter_all; [reflexivity|]. intros i Hi. apply indices_in, in_range_length in Hi. rewrite NO by exact Hi.
    assert (X : (if keep =? 1 then dims_outside (zrange (length (shp x))) o else o) = []).
    { rewrite SS in Lo. destruct (keep =? 1); [apply NO; rewrite repeat_length in Lo; exact Lo|]. destruct o; [reflexivity|discriminate]. }
    rewrite X. reflexivity. }
  change (el (map_value sqrt y) o) with (sqrt (el y o)). rewrite V, T. split; [apply sqrt_pos|]. apply sqrt_sqrt. apply (sum_nonneg (fun v => (v * v)%R)). intros j _. apply Rle_0_sqr.
Qed.
(** ... even when the axes are given as the second input (ONNX from opset 18): one row norm per row is asked for, one number comes. *)
Theorem C117_reduce_l2_input_refuted : exists y (x : arr R), shp x = [2; 2] /\ reduce_l2_value None 1 x (Some [1]) = SOk y /\ shp y = [1; 1] /\ reduce_shape (Some [1]) true (shp x) = Some [2; 1].
Proof. eexists. exists {| shp := [2; 2]; el := fun _ => 0%R |}. split; [reflexivity|]. split; [reflexivity|]. split; reflexivity. Qed.
Example C117_applies : exists (x p : arr R), shp x = [2; 3; 4] /\ shp p = [3] /\ (forall j, 0 <= j < 3 -> (0 < el p [j] + given None (1 / 100000))%R) /\ valid_axes (length (shp x)) [-1; 0].
Proof.
  exists {| shp := [2; 3; 4]; el := fun _ => 1%R |}, {| shp := [3]; el := fun _ => 1%R |}. split; [reflexivity|]. split; [reflexivity|]. split; [intros; unfold given; cbn [el]; lra|].
  split; [intros z Hz; cbn in Hz |- *; unfold axis_pos; intuition (subst; cbn; lia)|]. repeat constructor; cbn; intuition discriminate.
Qed.
