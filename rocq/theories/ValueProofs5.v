(** Shape inference and value inference agree on the shape; averages; conditions on results of the element-wise operators. *)
From Verif Require Import PyBase GraphModel FloatPy ShapeModel ShapeSpec BcastProofs LayoutProofs SliceProofs CostSpec CostProofs ValueModel ValueModel2 ValueSpec ValueProofs ValueProofs2 ValueProofs3 ValueProofs4.
From Coq Require Import Lia Bool Sorted.
Open Scope list_scope. Open Scope Z_scope.

Lemma slice_count_unique d s e st n m : slice_count d s e st n -> slice_count d s e st m -> n = m.
Proof.
  intros (l & Nl & Hl & ->) (l' & Nl' & Hl' & ->). f_equal. apply Nat.le_antisymm; apply NoDup_incl_length; try assumption; intros i Hi; [apply Hl', Hl|apply Hl, Hl']; exact Hi.
Qed.
Lemma sliced_unique x axes starts ends steps a b : sliced x axes starts ends steps a -> sliced x axes starts ends steps b -> a = b.
Proof.
  intros (La & Ha & Oa) (Lb & Hb & Ob). apply nth_ext with (d := 0) (d' := 0); [lia|]. intros n Hn.
  destruct (in_dec Z.eq_dec (Z.of_nat n) (map (axis_pos (length x)) axes)) as [I|N].
  - apply in_map_iff in I as (ax & E & I). apply (In_nth _ _ 0) in I as (j & Hj & <-). exact (slice_count_unique _ _ _ _ _ _ (Ha j n Hj E) (Hb j n Hj E)).
  - rewrite Oa, Ob by (assumption || lia). reflexivity.
Qed.
Lemma dout_determines axes : forall (y z : list Z) k, length y = length z ->
  (forall i, (i < length y)%nat -> In (Z.of_nat (k + i)) axes -> nth i y 0 = nth i z 0) ->
  dout k axes y = dout k axes z -> y = z.
Proof.
  induction y as [|a y IH]; intros [|b z] k Hl Hi E; try discriminate; [reflexivity|]. rewrite !dout_cons in E.
  assert (T : forall i, (i < length y)%nat -> In (Z.of_nat (S k + i)) axes -> nth i y 0 = nth i z 0).
  { intros i Hlt Hin. apply (Hi (S i)); [simpl; lia|]. replace (k + S i)%nat with (S k + i)%nat by lia. exact Hin. }
  destruct (existsb (Z.eqb (Z.of_nat k)) axes) eqn:X.
  - f_equal; [|apply (IH z (S k)); [simpl in Hl; lia|exact T|exact E]]. apply (Hi O); [simpl; lia|]. rewrite Nat.add_0_r. apply existsb_eqb. exact X.
  - cbn [List.app] in E. injection E as -> E. f_equal. apply (IH z (S k)); [simpl in Hl; lia|exact T|exact E].
Qed.
Lemma keep_axes_dout axes : forall (x : list Z) k, keep_axes axes x (Z.of_nat k) = dout k axes x.
Proof.
  induction x as [|d x IH]; intro k; [reflexivity|]. cbn [keep_axes]. rewrite dout_cons. replace (Z.of_nat k + 1) with (Z.of_nat (S k)) by lia. rewrite IH.
  unfold zmem. destruct (existsb _ _); reflexivity.
Qed.
Lemma axis_pos_id n axes : (forall a, In a axes -> 0 <= a) -> map (axis_pos n) axes = axes.
Proof. intro H. rewrite <- (map_id axes) at 2. apply map_ext_in. intros a Ha. unfold axis_pos. specialize (H a Ha). destruct (Z.ltb_spec a 0); [lia|reflexivity]. Qed.
Lemma axis_pos_nonneg n a : 0 <= a -> axis_pos n a = a.
Proof. unfold axis_pos. destruct (Z.ltb_spec a 0); lia. Qed.
Lemma np_axis_pos r a : 0 <= axis_pos r a < Z.of_nat r -> np_axis (Z.of_nat r) a = np_axis (Z.of_nat r) (axis_pos r a).
Proof.
  unfold np_axis, axis_pos. intro H. destruct (Z.ltb_spec a 0).
  - destruct (Z.ltb_spec a (- Z.of_nat r)); [lia|]. destruct (Z.leb_spec (Z.of_nat r) a); [lia|]. cbn [orb].
    destruct (Z.ltb_spec (a + Z.of_nat r) (- Z.of_nat r)); [lia|]. destruct (Z.leb_spec (Z.of_nat r) (a + Z.of_nat r)); [lia|]. cbn [orb].
    destruct (Z.ltb_spec (a + Z.of_nat r) 0); [lia|]. reflexivity.
  - destruct (Z.ltb_spec a (- Z.of_nat r)); [lia|]. destruct (Z.leb_spec (Z.of_nat r) a); [lia|]. cbn [orb]. destruct (Z.ltb_spec a 0); [lia|reflexivity].
Qed.

Section Moves.
Context {T : Type}.
(** ascending non-negative axes, or a single axis of either sign *)
Definition plain_axes (n : nat) (axes : list Z) : Prop :=
  (StronglySorted Z.lt axes /\ forall a, In a axes -> 0 <= a < Z.of_nat n) \/ exists a, axes = [a] /\ 0 <= axis_pos n a < Z.of_nat n.
Lemma in_range_length sh : forall i, in_range sh i = true -> length i = length sh.
Proof. induction sh as [|d s IH]; intros [|v i] H; cbn [in_range] in H; try discriminate; [reflexivity|]. rewrite andb_true_iff in H. simpl. f_equal. apply IH. intuition. Qed.
Lemma unsqueeze_plain axes (x : arr T) : plain_axes (length (shp x) + length axes) axes ->
  exists y, unsqueeze_value axes x = SOk y /\ onnx_unsqueeze x axes y.
Proof.
  intros [(Hs & Ha)|(a & -> & Ha)].
  - destruct (unsqueeze_ascending axes Hs x Ha) as (y & E & L & O & D & V). exists y. split; [exact E|]. unfold onnx_unsqueeze. cbv zeta.
    rewrite axis_pos_id by (intros a Hin; apply Ha; exact Hin). split; [exact L|]. split; [|split; [exact D|]].
    + intros a Hin. rewrite axis_pos_nonneg by (apply Ha; exact Hin). apply O; exact Hin.
    + intros i Hi. apply V. apply in_range_length. exact Hi.
  - cbn [length] in Ha. destruct (unsqueeze_ascending [axis_pos (length (shp x) + 1) a] (SSorted_cons _ (SSorted_nil _) (Forall_nil _)) x) as (y & E & L & O & D & V).
    { intros b [<-|[]]. exact Ha. }
    exists y. split.
    + rewrite <- E. cbn [unsqueeze_value]. unfold np_expand_dims. replace (S (length (shp x))) with (length (shp x) + 1)%nat by lia. rewrite <- np_axis_pos by exact Ha. reflexivity.
    + unfold onnx_unsqueeze. cbv zeta. cbn [map length]. split; [exact L|]. split; [|split; [exact D|]].
      * intros b [<-|[]]. apply O. left. reflexivity.
      * intros i Hi. apply V. apply in_range_length. exact Hi.
Qed.
Lemma squeeze_plain axes (x : arr T) : plain_axes (length (shp x)) axes ->
  (forall a, In a axes -> nth (Z.to_nat (axis_pos (length (shp x)) a)) (shp x) 0 = 1) ->
  exists y, squeeze_value (Some axes) x = SOk y /\ onnx_squeeze x axes y.
Proof.
  intros [(Hs & Ha)|(a & -> & Ha)] H1.
  - destruct (squeeze_ascending _ axes x eq_refl Hs) as (y & E & L & V).
    { intros a Hin. split; [apply Ha; exact Hin|]. rewrite <- (H1 a Hin). rewrite axis_pos_nonneg by (apply Ha; exact Hin). reflexivity. }
    exists y. split; [exact E|]. unfold onnx_squeeze. cbv zeta. rewrite axis_pos_id by (intros a Hin; apply Ha; exact Hin). split; [exact H1|]. split; [exact L|exact V].
  - destruct (squeeze_ascending _ [axis_pos (length (shp x)) a] x eq_refl (SSorted_cons _ (SSorted_nil _) (Forall_nil _))) as (y & E & L & V).
    { intros b [<-|[]]. split; [exact Ha|]. apply H1. left. reflexivity. }
    exists y. split.
    + rewrite <- E. unfold squeeze_value. cbn [squeeze_values]. unfold np_squeeze. rewrite !Z.sub_0_r, <- np_axis_pos by exact Ha. reflexivity.
    + unfold onnx_squeeze. cbv zeta. split; [exact H1|]. split; [exact L|exact V].
Qed.
End Moves.

(** the shapes *)
Lemma axes_pos_neg2pos n axes : axes_neg2pos (Z.of_nat n) axes = map (axis_pos n) axes.
Proof. apply map_ext. intro a. unfold axis_pos. destruct (a <? 0); lia. Qed.
Lemma squeeze_shape_outside axes x : squeeze_shape axes x = dims_outside (map (axis_pos (length x)) axes) x.
Proof. unfold squeeze_shape, zlen. rewrite axes_pos_neg2pos, dims_outside_dout. exact (keep_axes_dout _ x 0). Qed.
Lemma plain_valid n axes : plain_axes n axes -> valid_axes n axes.
Proof.
  intros [(Hs & Ha)|(a & -> & Ha)]; split.
  - intros a Hin. rewrite axis_pos_nonneg by (apply Ha; exact Hin). apply Ha; exact Hin.
  - rewrite axis_pos_id by (intros a Hin; apply Ha; exact Hin). clear Ha. induction Hs as [|a l Hs IH H]; constructor; [|exact IH]. intro I'. rewrite Forall_forall in H. specialize (H a I'). lia.
  - intros b [<-|[]]. exact Ha.
  - cbn [map]. constructor; [intros []|constructor].
Qed.

(** ** GlobalAveragePool *)
Lemma indices_app a b : indices (a ++ b) = flat_map (fun i => map (fun j => i ++ j) (indices b)) (indices a).
Proof.
  induction a as [|d a IH]; cbn [indices List.app flat_map].
  - rewrite app_nil_r. symmetry. apply map_id.
  - rewrite IH. clear. induction (upto d) as [|k l IHl]; [reflexivity|]. cbn [flat_map]. rewrite flat_map_app, IHl. f_equal.
    clear. induction (indices a) as [|i r IHr]; [reflexivity|]. cbn [flat_map map]. rewrite map_app, IHr, map_map. reflexivity.
Qed.
Lemma in_range_app a b i j : in_range a i = true -> in_range b j = true -> in_range (a ++ b) (i ++ j) = true.
Proof. revert i. induction a as [|d a IH]; intros [|v i] Hi Hj; cbn [in_range List.app] in *; try discriminate; [exact Hj|]. rewrite !andb_true_iff in *. destruct Hi as (H & Hi). split; [exact H|apply IH; assumption]. Qed.
Lemma fold_left_ext_in {A B} (f g : B -> A -> B) l : (forall b a, In a l -> f b a = g b a) -> forall b, fold_left f l b = fold_left g l b.
Proof. induction l as [|a l IH]; intros H b; [reflexivity|]. cbn [fold_left]. rewrite H by (left; reflexivity). apply IH. intros; apply H; right; assumption. Qed.
Lemma global_average_ok {T} (zero : T) (add : T -> T -> T) div divc (x : arr T) n c h w : shp x = [n; c; h; w] -> h * w <> 0 ->
  exists y, global_average_value zero add div x = SOk y /\ shp y = [n; c]
    /\ map (el y) (indices (shp y)) = result (ref_global_average zero add divc div (as_tens x)).
Proof.
  intros Hx Hn. unfold global_average_value. rewrite Hx. destruct (Z.eqb_spec (h * w) 0); [contradiction|]. eexists. split; [reflexivity|]. split; [reflexivity|].
  cbn [shp el]. unfold ref_global_average. rewrite result_for_each. cbn [as_tens fst]. rewrite Hx. cbn [firstn skipn].
  apply map_ext_in. intros i Hi. apply indices_in in Hi. rewrite result_andthen, result_accumulate. cbn [costs result fst fold_right]. unfold costs, result at 1. cbn [fst fold_right].
  rewrite Z.mul_1_r. f_equal. rewrite ndindex_indices. apply fold_left_ext_in. intros t j Hj. apply indices_in in Hj. unfold plus, costs, result. cbn [fst]. f_equal.
  unfold read. cbn [as_tens fst snd]. replace (in_range (shp x) (i ++ j)) with true; [reflexivity|]. symmetry. rewrite Hx. change [n; c; h; w] with ([n; c] ++ [h; w]). apply in_range_app; assumption.
Qed.

(** ** NonZero *)
Lemma in_positions p xs v : In v (positions p xs) <-> exists k, v = Z.of_nat k /\ (k < length xs)%nat /\ p (nth k xs 0) = true.
Proof.
  unfold positions. rewrite in_map_iff. split.
  - intros ((k & a) & <- & H). apply filter_In in H as (H & P). cbn [fst snd] in *. exists k.
    assert (G : forall xs s, In (k, a) (combine (seq s (length xs)) xs) -> (s <= k < s + length xs)%nat /\ nth (k - s) xs 0 = a).
    { clear. induction xs as [|b xs IH]; intros s H; [destruct H|]. cbn [length seq combine] in H. destruct H as [E|H].
      - injection E as -> ->. rewrite Nat.sub_diag. cbn [length nth]. split; [lia|reflexivity].
      - apply IH in H as (H & E). cbn [length]. split; [lia|]. destruct (k - s)%nat eqn:D; [lia|]. cbn [nth]. replace n with (k - S s)%nat by lia. exact E. }
    apply G in H as (H & E). rewrite Nat.sub_0_r in E. split; [reflexivity|]. split; [lia|]. rewrite E. exact P.
  - intros (k & -> & Hk & P). exists (k, nth k xs 0). split; [reflexivity|]. apply filter_In. split; [|exact P].
    assert (G : forall xs s k, (k < length xs)%nat -> In ((s + k)%nat, nth k xs 0) (combine (seq s (length xs)) xs)).
    { clear. induction xs as [|b xs IH]; intros s k H; [simpl in H; lia|]. cbn [length seq combine]. destruct k as [|k]; [left; rewrite Nat.add_0_r; reflexivity|].
      right. cbn [nth]. replace (s + S k)%nat with (S s + k)%nat by lia. apply IH. simpl in H. lia. }
    exact (G xs O k Hk).
Qed.
Lemma positions_ascending p xs : StronglySorted Z.lt (positions p xs).
Proof.
  unfold positions. generalize O. induction xs as [|b xs IH]; intro s; cbn [length seq combine filter map]; [constructor|].
  assert (G : forall v, In v (map (fun q => Z.of_nat (fst q)) (filter (fun q : nat * Z => p (snd q)) (combine (seq (S s) (length xs)) xs))) -> Z.of_nat s < v).
  { intros v Hv. apply in_map_iff in Hv as ((k & a) & <- & H). apply filter_In in H as (H & _). apply in_combine_l in H. apply in_seq in H. cbn [fst]. lia. }
  cbn [snd]. destruct (p b); [|apply IH]. cbn [map fst]. constructor; [apply IH|]. apply Forall_forall. exact G.
Qed.
