(** Values of the indexing operators: proofs. *)
From Verif Require Import PyBase GraphModel FloatPy ShapeModel ShapeSpec BcastProofs LayoutProofs CostSpec CostProofs ValueModel ValueModel2 ValueModel3 ValueSpec ValueSpec3 ValueProofs ValueProofs2 ValueProofs3 ValueProofs4 ValueProofs5.
From Coq Require Import Lia Bool.
Open Scope list_scope. Open Scope Z_scope.

Lemma py_index_last {A} (l : list A) v : py_index (l ++ [v]) (-1) = SOk v.
Proof.
  unfold py_index. cbn [Z.ltb Z.compare]. rewrite app_length. cbn [length]. rewrite (proj2 (Z.ltb_ge _ _)) by lia.
  replace (Z.to_nat (-1 + Z.of_nat (length l + 1))) with (length l) by lia. rewrite nth_error_app2, Nat.sub_diag by lia. reflexivity.
Qed.
Lemma but_last_app {A} (l : list A) v : but_last (l ++ [v]) = l.
Proof. unfold but_last. rewrite app_length. cbn [length]. rewrite firstn_app. replace (length l + 1 - 1)%nat with (length l) by lia. rewrite firstn_all, Nat.sub_diag. cbn. apply app_nil_r. Qed.
Lemma nd_row_tuple ind k i : nd_row ind (Z.of_nat k) i = tuple_at ind k i.
Proof. unfold nd_row, tuple_at, pyrange. rewrite Nat2Z.id, map_map. reflexivity. Qed.
Lemma tuple_at_length ind k i : length (tuple_at ind k i) = k.
Proof. unfold tuple_at. rewrite map_length, seq_length. reflexivity. Qed.

Lemma inside_cons d s i r : inside_all (d :: s) (i :: r) <-> (- d <= i < d) /\ inside_all s r.
Proof.
  unfold inside_all. cbn [length]. split.
  - intros (L & H). split; [exact (H 0%nat ltac:(lia))|]. split; [lia|]. intros j Hj. exact (H (S j) ltac:(lia)).
  - intros (H0 & L & H). split; [lia|]. intros [|j] Hj; [exact H0|]. apply (H j). lia.
Qed.
Lemma np_index_inside idx : forall sh, inside_all sh idx -> np_index (firstn (length idx) sh) idx = SOk (from_end_all sh idx) /\ in_range (firstn (length idx) sh) (from_end_all sh idx) = true.
Proof.
  induction idx as [|i r IH]; intros sh H; [destruct sh; split; reflexivity|].
  destruct sh as [|d s]; [destruct H as [H _]; cbn in H; lia|]. apply inside_cons in H as (H0 & H). destruct (IH s H) as (E & R).
  cbn [length firstn np_index from_end_all combine map fst snd in_range].
  replace ((i <? - d) || (d <=? i)) with false by (symmetry; apply orb_false_iff; split; [apply Z.ltb_ge|apply Z.leb_gt]; lia).
  unfold from_end_all in E, R. rewrite E. cbn [sbind]. split; [reflexivity|]. rewrite R, andb_true_r. destruct (Z.ltb_spec i 0); apply andb_true_iff; split; [apply Z.leb_le|apply Z.ltb_lt|apply Z.leb_le|apply Z.ltb_lt]; lia.
Qed.
Lemma np_index_outside idx : forall sh, length idx = length sh -> ~ inside_all sh idx -> np_index sh idx = SRaise IndexErr.
Proof.
  induction idx as [|i r IH]; intros [|d s] L H; cbn in L; try lia; [exfalso; apply H; split; cbn; lia|].
  cbn [np_index]. destruct ((i <? - d) || (d <=? i)) eqn:E; [reflexivity|]. apply orb_false_iff in E as (E1 & E2). apply Z.ltb_ge in E1. apply Z.leb_gt in E2.
  rewrite IH; [reflexivity|lia|]. intro X. apply H. apply inside_cons. split; [lia|exact X].
Qed.
Lemma inside_dec sh idx : {inside_all sh idx} + {~ inside_all sh idx}.
Proof.
  revert idx. induction sh as [|d s IH]; intros [|i r].
  - left. split; cbn; lia.
  - right. intros (L & _). cbn in L. lia.
  - left. split; cbn; lia.
  - destruct (Z_le_dec (- d) i) as [A|A]; [destruct (Z_lt_dec i d) as [B|B]; [destruct (IH r) as [C|C]|]|]; [left; apply inside_cons; auto|right..]; rewrite inside_cons; tauto.
Qed.
Lemma inside_firstn sh idx : (length idx <= length sh)%nat -> (inside_all (firstn (length idx) sh) idx <-> inside_all sh idx).
Proof.
  revert sh. induction idx as [|i r IH]; intros [|d s] L; cbn [length firstn] in *; try lia; try reflexivity.
  - split; intros _; split; cbn; lia.
  - rewrite !inside_cons, IH by lia. reflexivity.
Qed.
Lemma smap_raise {A B} (f : A -> sres B) e l : (forall a, In a l -> f a = SRaise e \/ exists b, f a = SOk b) -> (exists a, In a l /\ f a = SRaise e) -> smap f l = SRaise e.
Proof.
  induction l as [|a r IH]; intros H (b & Hb & E); [destruct Hb|]. cbn [smap]. destruct (H a (or_introl eq_refl)) as [X|(c & X)]; rewrite X; cbn [sbind]; [reflexivity|].
  destruct Hb as [->|Hb]; [congruence|]. rewrite IH; [reflexivity| |eauto]. intros; apply H; right; assumption.
Qed.
Lemma concat_map_flat {A B} (f : A -> list B) l : concat (map f l) = flat_map f l.
Proof. symmetry. apply flat_map_concat_map. Qed.
Lemma map_flat_map {A B C} (g : B -> C) (f : A -> list B) l : map g (flat_map f l) = flat_map (fun a => map g (f a)) l.
Proof. induction l as [|a r IH]; cbn; [reflexivity|]. rewrite map_app, IH. reflexivity. Qed.
Lemma flat_map_ext_in {A B} (f g : A -> list B) l : (forall a, In a l -> f a = g a) -> flat_map f l = flat_map g l.
Proof. induction l as [|a r IH]; intro H; cbn; [reflexivity|]. rewrite H, IH by (intros; try apply H; cbn; auto). reflexivity. Qed.
Lemma range_prefix a b : forall o, in_range (a ++ b) o = true -> in_range a (firstn (length a) o) = true /\ in_range b (skipn (length a) o) = true.
Proof.
  induction a as [|d s IH]; intros o H; [split; [reflexivity|exact H]|]. destruct o as [|i r]; [discriminate|]. cbn [List.app in_range length firstn skipn] in *.
  apply andb_true_iff in H as (H & R). destruct (IH r R) as (R1 & R2). rewrite H, R1. auto.
Qed.

Section GatherND.
Context {T : Type} (x : arr T) (ind : arr Z) (outer : list Z) (k : nat).
Hypothesis (Hi : shp ind = outer ++ [Z.of_nat k]) (Hk : (1 <= k)%nat).

Lemma gather_os : (if Z.of_nat k =? zlen (shp x) then but_last (shp ind) else but_last (shp ind) ++ skipn (Z.to_nat (Z.of_nat k)) (shp x)) = outer ++ skipn k (shp x).
Proof. rewrite Hi, but_last_app, Nat2Z.id. unfold zlen. destruct (Z.eqb_spec (Z.of_nat k) (Z.of_nat (length (shp x)))) as [E|E]; [|reflexivity]. rewrite skipn_all2 by lia. symmetry. apply app_nil_r. Qed.
Lemma gather_nd_ok bd : (k <= length (shp x))%nat ->
  (forall i, in_range outer i = true -> inside_all (shp x) (tuple_at ind k i)) ->
  gather_nd_value bd x ind = SOk (outer ++ skipn k (shp x), map (onnx_gather_nd x ind outer k) (indices (outer ++ skipn k (shp x)))).
Proof.
  intros Hr H. unfold gather_nd_value. rewrite Hi at 1. rewrite py_index_last. cbn [sbind]. cbv zeta. rewrite gather_os, Hi, but_last_app, Nat2Z.id. unfold zlen. rewrite (proj2 (Z.ltb_ge _ _)), (proj2 (Z.eqb_neq _ _)) by lia.
  rewrite (smap_pure _ (fun i => map (fun r => el x (from_end_all (shp x) (tuple_at ind k i) ++ r)) (ndindex (skipn k (shp x))))).
  - cbn [sbind]. f_equal. f_equal. rewrite concat_map_flat, !ndindex_indices, indices_app, map_flat_map. apply flat_map_ext_in. intros i Hin. apply indices_in in Hin. rewrite map_map. apply map_ext_in. intros r Hr'.
    unfold onnx_gather_nd. pose proof (in_range_length _ _ Hin) as L. rewrite <- L, firstn_app, firstn_all, Nat.sub_diag, skipn_app, skipn_all, Nat.sub_diag. cbn [firstn skipn List.app]. rewrite app_nil_r. reflexivity.
  - intros i Hin. apply indices_in in Hin. rewrite nd_row_tuple. destruct (np_index_inside _ _ (H i Hin)) as (E & _). rewrite tuple_at_length in E. rewrite E. reflexivity.
Qed.
Lemma gather_nd_bounds bd : (k <= length (shp x))%nat ->
  (exists i, in_range outer i = true /\ ~ inside_all (shp x) (tuple_at ind k i)) -> gather_nd_value bd x ind = SRaise IndexErr.
Proof.
  intros Hr (i & Hin & N). unfold gather_nd_value. rewrite Hi, py_index_last. cbn [sbind]. rewrite but_last_app, Nat2Z.id. unfold zlen. rewrite (proj2 (Z.ltb_ge _ _)), (proj2 (Z.eqb_neq _ _)) by lia. cbv zeta.
  assert (X : forall j, ~ inside_all (shp x) (tuple_at ind k j) -> np_index (firstn k (shp x)) (tuple_at ind k j) = SRaise IndexErr).
  { intros j Hj. apply np_index_outside; [rewrite tuple_at_length, firstn_length; lia|]. intro Y. apply Hj. apply inside_firstn; rewrite tuple_at_length; [exact Hr|exact Y]. }
  rewrite (smap_raise _ IndexErr); [reflexivity| |].
  - intros j _. rewrite nd_row_tuple. destruct (inside_dec (shp x) (tuple_at ind k j)) as [Y|Y].
    + right. destruct (np_index_inside _ _ Y) as (E & _). rewrite tuple_at_length in E. rewrite E. eexists. reflexivity.
    + left. rewrite X by exact Y. reflexivity.
  - exists i. split; [apply in_indices; exact Hin|]. rewrite nd_row_tuple, X by exact N. reflexivity.
Qed.
Lemma gather_nd_shape_ok : (k <= length (shp x))%nat -> gather_nd_shape (shp x) (shp ind) = SOk (outer ++ skipn k (shp x)).
Proof.
  intro Hr. unfold gather_nd_shape. rewrite Hi at 1. rewrite py_index_last. cbn [sbind]. unfold zlen at 1. rewrite (proj2 (Z.ltb_ge _ _)) by lia. rewrite gather_os. reflexivity.
Qed.
End GatherND.

Section ScatterND.
Context {T : Type} (op : T -> T -> T) (x upd : arr T) (ind : arr Z) (outer : list Z) (k : nat).
Hypothesis (Hi : shp ind = outer ++ [Z.of_nat k]) (Hk : (k <= length (shp x))%nat) (Hu : shp upd = outer ++ skipn k (shp x)).

Lemma scatter_fold l : forall out, (forall i, In i l -> inside_all (shp x) (tuple_at ind k i)) ->
  exists out', sfold (scatter_step op (shp x) ind upd (Z.of_nat k)) l out = SOk out' /\
  forall o, out' o = fold_left (fun v t => if list_eq_dec Z.eq_dec (fst t) (firstn k o) then op v (el upd (snd t ++ skipn k o)) else v) (map (fun i => (from_end_all (shp x) (tuple_at ind k i), i)) l) (out o).
Proof.
  induction l as [|i r IH]; intros out H; [exists out; split; reflexivity|]. cbn [sfold].
  destruct (np_index_inside _ _ (H i (or_introl eq_refl))) as (E & _). rewrite tuple_at_length in E.
  unfold scatter_step at 1. rewrite nd_row_tuple, Nat2Z.id, E. cbn [sbind].
  match goal with |- context [sfold _ r ?f] => destruct (IH f) as (out' & E' & V) end; [intros; apply H; right; assumption|].
  exists out'. split; [exact E'|]. intro o. rewrite V. cbn [map fold_left fst snd]. f_equal. unfold shape_eqb.
  destruct (list_eq_dec Z.eq_dec (firstn k o) _) as [A|A]; destruct (list_eq_dec Z.eq_dec _ (firstn k o)) as [B|B]; try reflexivity; [elim B; symmetry; exact A|elim A; symmetry; exact B].
Qed.
Lemma scatter_impl_ok : (forall i, in_range outer i = true -> inside_all (shp x) (tuple_at ind k i)) ->
  exists y, scatter_nd_impl op x ind upd = SOk y /\ shp y = shp x /\ forall o, el y o = onnx_scatter_reduce op x ind upd outer k o.
Proof.
  intro H. unfold scatter_nd_impl. rewrite Hi, py_index_last. cbn [sbind]. rewrite but_last_app, Nat2Z.id. unfold zlen. rewrite (proj2 (Z.ltb_ge _ _)) by lia. rewrite Hu. unfold shape_eqb. destruct (list_eq_dec Z.eq_dec _ _) as [_|N]; [|congruence]. cbn [negb].
  destruct (scatter_fold (ndindex outer) (el x)) as (out & E & V); [intros i Hin; apply H, indices_in, Hin|]. rewrite E. cbn [sbind]. eexists. split; [reflexivity|]. split; [reflexivity|]. cbn [el]. intro o. rewrite V. reflexivity.
Qed.
Lemma scatter_impl_bounds : (exists i, in_range outer i = true /\ ~ inside_all (shp x) (tuple_at ind k i)) -> scatter_nd_impl op x ind upd = SRaise IndexErr.
Proof.
  intros (i & Hin & N). unfold scatter_nd_impl. rewrite Hi, py_index_last. cbn [sbind]. rewrite but_last_app, Nat2Z.id. unfold zlen. rewrite (proj2 (Z.ltb_ge _ _)) by lia. rewrite Hu. unfold shape_eqb. destruct (list_eq_dec Z.eq_dec _ _) as [_|M]; [|congruence]. cbn [negb].
  apply in_indices in Hin. rewrite <- ndindex_indices in Hin. revert Hin. generalize (ndindex outer) as l. intro l.
  enough (G : In i l -> forall out, sfold (scatter_step op (shp x) ind upd (Z.of_nat k)) l out = SRaise IndexErr) by (intro Hin; rewrite G by exact Hin; reflexivity).
  induction l as [|j r IH]; intros Hin out; [destruct Hin|]. cbn [sfold]. unfold scatter_step at 1. rewrite nd_row_tuple, Nat2Z.id.
  destruct (inside_dec (shp x) (tuple_at ind k j)) as [Y|Y].
  - destruct (np_index_inside _ _ Y) as (E & _). rewrite tuple_at_length in E. rewrite E. cbn [sbind]. destruct Hin as [->|Hin]; [contradiction|]. apply IH, Hin.
  - rewrite np_index_outside; [reflexivity|rewrite tuple_at_length, firstn_length; lia|]. intro Z. apply Y. apply inside_firstn; rewrite tuple_at_length; [exact Hk|exact Z].
Qed.
End ScatterND.
Lemma scatter_overwrite {T} (x upd : arr T) (ind : arr Z) outer k o :
  (forall i, In (firstn k o, i) (targets (shp x) ind outer k) -> (forall i', In (firstn k o, i') (targets (shp x) ind outer k) -> i' = i) ->
     onnx_scatter_reduce (fun _ b => b) x ind upd outer k o = el upd (i ++ skipn k o)) /\
  ((forall i, ~ In (firstn k o, i) (targets (shp x) ind outer k)) -> onnx_scatter_reduce (fun _ b => b) x ind upd outer k o = el x o).
Proof.
  unfold onnx_scatter_reduce. generalize (el x o) as v. generalize (targets (shp x) ind outer k) as l. intro l.
  assert (NH : forall l v, (forall i, ~ In (firstn k o, i) l) -> fold_left (fun v t => if list_eq_dec Z.eq_dec (fst t) (firstn k o) then el upd (snd t ++ skipn k o) else v) l v = v).
  { clear. induction l as [|[p j] r IH]; intros v N; [reflexivity|]. cbn [fold_left fst snd]. destruct (list_eq_dec Z.eq_dec p (firstn k o)) as [->|_]; [elim (N j); left; reflexivity|]. apply IH. intros i Hi. apply (N i). right; exact Hi. }
  intro v. split; [|apply NH]. revert v. induction l as [|[p j] r IH]; intros v i Hin U; [destruct Hin|]. cbn [fold_left fst snd].
  destruct (list_eq_dec Z.eq_dec p (firstn k o)) as [->|Np].
  - assert (j = i) as -> by (apply U; left; reflexivity). destruct (in_dec (fun a b : list Z * list Z => ltac:(decide equality; apply (list_eq_dec Z.eq_dec))) (firstn k o, i) r) as [In'|Out].
    + apply IH; [exact In'|]. intros i' Hi'. apply U. right; exact Hi'.
    + apply NH. intros i' Hi'. assert (i' = i) as -> by (apply U; right; exact Hi'). contradiction.
  - destruct Hin as [E|Hin]; [congruence|]. apply IH; [exact Hin|]. intros i' Hi'. apply U. right; exact Hi'.
Qed.
