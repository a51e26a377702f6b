(** Slice: the inferred size counts the selected indices. *)
From Coq Require Import Permutation.
From Verif Require Import PyBase GraphModel FloatPy ShapeModel ShapeSpec BcastProofs WindowProofs.
Open Scope Z_scope.

Definition progression (s st : Z) (n : nat) : list Z := map (fun k => s + Z.of_nat k * st) (seq 0 n).
Lemma progression_NoDup : forall s st n, st <> 0 -> NoDup (progression s st n).
Proof.
  intros. unfold progression. apply FinFun.Injective_map_NoDup; [|apply seq_NoDup].
  intros a b E. nia.
Qed.
Lemma progression_In : forall s st n i, In i (progression s st n) <-> exists k, 0 <= k < Z.of_nat n /\ i = s + k * st.
Proof.
  intros. unfold progression. rewrite in_map_iff. split.
  - intros (k & <- & I). apply in_seq in I. exists (Z.of_nat k). lia.
  - intros (k & Hk & ->). exists (Z.to_nat k). split; [rewrite Z2Nat.id by lia; reflexivity|]. apply in_seq. lia.
Qed.

Theorem slice_axis_count : forall dim s e st,
  0 <= dim < 2 ^ 53 - 1 -> st <> 0 -> Z.abs st < 2 ^ 53 -> (st < 0 -> 0 < dim) ->
  exists n, slice_size (eff_slice dim s e st) = SOk n /\ slice_count dim s e st n.
Proof.
  intros dim s e st Hd Hs Ha Hn. unfold eff_slice.
  replace (if s <? 0 then dim + s else s) with (from_end dim s) by (unfold from_end; destruct (s <? 0); lia).
  replace (if e <? 0 then dim + e else e) with (from_end dim e) by (unfold from_end; destruct (e <? 0); lia).
  destruct (Z.ltb_spec st 0) as [Neg|Pos].
  - assert (F : slice_first dim s st = Z.max 0 (Z.min (from_end dim s) (dim - 1))).
    { unfold slice_first. destruct (Z.ltb_spec st 0); auto; lia. }
    set (s0 := Z.max 0 (Z.min (from_end dim s) (dim - 1))) in *.
    set (e0 := Z.max (-1) (Z.min (from_end dim e) (dim - 1))) in *.
    unfold slice_size. destruct (Z.ltb_spec 0 st); [lia|].
    assert (G : forall n, (forall k, 0 <= k -> (k < Z.of_nat n <-> k * Z.abs st < s0 - e0)) ->
      slice_count dim s e st (Z.of_nat n)).
    { intros n Hc. exists (progression s0 st n). split; [apply progression_NoDup; auto|]. split.
      - intros i. rewrite progression_In. unfold slice_selects. rewrite F.
        destruct (Z.ltb_spec st 0); [|lia]. split.
        + intros (k & Hk & ->). assert (X : k * Z.abs st < s0 - e0) by (apply Hc; lia).
          split; [nia|]. split; [exists k; split; [lia|auto]|]. nia.
        + intros (Hi & (k & Hk & E) & Hb). exists k. split; [|auto]. split; [lia|]. apply Hc; [lia|]. nia.
      - unfold progression. rewrite map_length, seq_length. reflexivity. }
    destruct (Z.leb_spec (s0 - e0) 0).
    + exists 0. split; auto. apply (G 0%nat). intros k Hk. nia.
    + destruct (Z.eqb_spec st 0); [lia|]. eexists. split; [reflexivity|].
      rewrite ceil_fdiv by lia.
      pose proof (count_ceil (s0 - e0) (Z.abs st) (-1) ltac:(lia)) as C.
      rewrite <- (Z2Nat.id (- (- (s0 - e0) / Z.abs st))) by lia. apply G.
      intros k Hk. rewrite Z2Nat.id by lia. apply count_ceil. lia.
  - assert (F : slice_first dim s st = Z.max 0 (Z.min (from_end dim s) dim)).
    { unfold slice_first. destruct (Z.ltb_spec st 0); auto; lia. }
    set (s0 := Z.max 0 (Z.min (from_end dim s) dim)) in *.
    set (e0 := Z.max 0 (Z.min (from_end dim e) dim)) in *.
    unfold slice_size. destruct (Z.ltb_spec 0 st); [|lia].
    assert (G : forall n, (forall k, 0 <= k -> (k < Z.of_nat n <-> k * st < e0 - s0)) ->
      slice_count dim s e st (Z.of_nat n)).
    { intros n Hc. exists (progression s0 st n). split; [apply progression_NoDup; auto|]. split.
      - intros i. rewrite progression_In. unfold slice_selects. rewrite F.
        destruct (Z.ltb_spec st 0); [lia|]. split.
        + intros (k & Hk & ->). assert (X : k * st < e0 - s0) by (apply Hc; lia).
          split; [nia|]. split; [exists k; split; [lia|auto]|]. nia.
        + intros (Hi & (k & Hk & E) & Hb). exists k. split; [|auto]. split; [lia|]. apply Hc; [lia|]. nia.
      - unfold progression. rewrite map_length, seq_length. reflexivity. }
    destruct (Z.leb_spec (e0 - s0) 0).
    + exists 0. split; auto. apply (G 0%nat). intros k Hk. nia.
    + eexists. split; [reflexivity|].
      rewrite ceil_fdiv by lia.
      pose proof (count_ceil (e0 - s0) st (-1) ltac:(lia)) as C.
      rewrite <- (Z2Nat.id (- (- (e0 - s0) / st))) by lia. apply G.
      intros k Hk. rewrite Z2Nat.id by lia. apply count_ceil. lia.
Qed.

(** The count is a function of its arguments. *)
Lemma slice_count_unique : forall dim s e st n m, slice_count dim s e st n -> slice_count dim s e st m -> n = m.
Proof.
  intros dim s e st n m (l & N & I & ->) (l' & N' & I' & ->). f_equal.
  apply Permutation_length. apply NoDup_Permutation; auto. intros x. rewrite I, I'. tauto.
Qed.

(** ** the loop over axes *)
Lemma set_nth_length : forall A (l : list A) i v, length (set_nth l i v) = length l.
Proof. induction l; destruct i; simpl; auto. Qed.
Lemma set_nth_same : forall A (l : list A) i v d, (i < length l)%nat -> nth i (set_nth l i v) d = v.
Proof. induction l; destruct i; simpl; intros; auto; try lia. apply IHl; lia. Qed.
Lemma set_nth_other : forall A (l : list A) i j v d, i <> j -> nth j (set_nth l i v) d = nth j l d.
Proof. induction l; destruct i, j; simpl; intros; auto; try congruence. Qed.

Lemma slice_loop_ok : forall x starts ends steps axes idx eff,
  length eff = length x ->
  (forall a, In a axes -> 0 <= a < zlen x) -> NoDup axes ->
  (idx + length axes <= length starts)%nat -> (idx + length axes <= length ends)%nat -> (idx + length axes <= length steps)%nat ->
  exists eff', slice_loop x axes starts ends steps (Z.of_nat idx) eff = SOk eff' /\ length eff' = length x /\
    (forall j a, (j < length axes)%nat -> nth j axes 0 = Z.of_nat a ->
       nth a eff' (0, 0, 0) = eff_slice (nth a x 0) (nth (idx + j) starts 0) (nth (idx + j) ends 0) (nth (idx + j) steps 0)) /\
    (forall a, ~ In (Z.of_nat a) axes -> nth a eff' (0, 0, 0) = nth a eff (0, 0, 0)).
Proof.
  intros x starts ends steps. induction axes as [|ax axes IH]; intros idx eff Le Hr Nd L1 L2 L3; simpl.
  - exists eff. repeat split; auto. intros; lia.
  - inversion Nd as [|? ? Ni Nd']; subst. simpl in L1, L2, L3.
    assert (R : 0 <= ax < zlen x) by (apply Hr; simpl; auto). unfold zlen in R.
    rewrite !py_index_nat by lia. cbn [sbind].
    rewrite <- (Z2Nat.id ax) by lia. rewrite py_index_nat by lia. cbn [sbind].
    unfold py_store. destruct (Z.ltb_spec (Z.of_nat (Z.to_nat ax)) 0); [lia|].
    unfold zlen. rewrite Le.
    destruct (Z.leb_spec (Z.of_nat (length x)) (Z.of_nat (Z.to_nat ax))); [lia|].
    destruct (Z.ltb_spec (Z.of_nat (Z.to_nat ax)) 0); [lia|]. cbn [orb sbind]. rewrite Nat2Z.id.
    set (v := eff_slice _ _ _ _).
    destruct (IH (S idx) (set_nth eff (Z.to_nat ax) v)) as (eff' & E & L & K1 & K2); try lia.
    + rewrite set_nth_length; auto.
    + intros a I. apply Hr. simpl; auto.
    + auto.
    + exists eff'. replace (Z.of_nat idx + 1) with (Z.of_nat (S idx)) by lia. split; auto. split; auto. split.
      * intros [|j] a Hj Ea; simpl in Ea.
        { rewrite Nat.add_0_r. assert (Eax : ax = Z.of_nat a) by lia. subst ax. rewrite K2 by auto. rewrite Nat2Z.id.
          rewrite set_nth_same by lia. unfold v. rewrite Nat2Z.id. reflexivity. }
        { rewrite (K1 j a) by (auto; lia). replace (S idx + j)%nat with (idx + S j)%nat by lia. reflexivity. }
      * intros a Ni'. rewrite K2 by tauto. apply set_nth_other.
        intros E'. apply Ni'. left. lia.
Qed.

Lemma axes_neg2pos_spec : forall n axes, axes_neg2pos (Z.of_nat n) axes = map (axis_pos n) axes.
Proof. intros. unfold axes_neg2pos. apply map_ext. intros a. unfold axis_pos. destruct (a <? 0); lia. Qed.

Lemma map_nth_in : forall A B (f : A -> B) l i d d', (i < length l)%nat -> nth i (map f l) d' = f (nth i l d).
Proof. induction l; destruct i; simpl; intros; auto; try lia. apply IHl; lia. Qed.

Lemma smap_nth : forall A (f : A -> sres Z) l (P : nat -> Z -> Prop) da,
  (forall i, (i < length l)%nat -> exists y, f (nth i l da) = SOk y /\ P i y) ->
  exists out, smap f l = SOk out /\ length out = length l /\ forall i, (i < length l)%nat -> P i (nth i out 0).
Proof.
  induction l as [|x r IH]; intros P da H; simpl.
  - exists []. repeat split; auto. simpl; intros; lia.
  - destruct (H 0%nat) as (y & E & Py); [simpl; lia|]. simpl in E. rewrite E. cbn [sbind].
    destruct (IH (fun i => P (S i)) da) as (t & Et & Lt & Pt).
    + intros i Hi. apply (H (S i)). simpl; lia.
    + rewrite Et. cbn [sbind]. exists (y :: t). repeat split; [simpl; lia|].
      intros [|i] Hi; simpl in *; auto. apply Pt. lia.
Qed.

Theorem slice_node : forall x starts ends axes steps,
  valid_axes (length x) axes ->
  length starts = length axes -> length ends = length axes -> length steps = length axes ->
  nonneg x -> (forall d, In d x -> d < 2 ^ 53 - 1) ->
  (forall j, (j < length axes)%nat -> let st := nth j steps 0 in
     st <> 0 /\ Z.abs st < 2 ^ 53 /\
     (st < 0 -> 0 < nth (Z.to_nat (axis_pos (length x) (nth j axes 0))) x 0)) ->
  exists out, slice_shape x starts ends (Some axes) (Some steps) = SOk out /\ sliced x axes starts ends steps out.
Proof.
  intros x starts ends axes steps [VR VN] L1 L2 L3 NN BD ST.
  unfold slice_shape. rewrite axes_neg2pos_spec. set (ax := map (axis_pos (length x)) axes) in *.
  assert (La : length ax = length axes) by (unfold ax; apply map_length).
  assert (AXR : forall a, In a ax -> 0 <= a < zlen x).
  { intros a I. unfold ax in I. apply in_map_iff in I. destruct I as (a0 & <- & I). apply VR. auto. }
  destruct (slice_loop_ok x starts ends steps ax 0 (map (fun d => (0, d, 1)) x)) as (eff & E & Le & H1 & H2);
    try rewrite map_length; auto; try lia.
  change (Z.of_nat 0) with 0 in E. rewrite E. cbn [sbind].
  destruct (smap_nth _ slice_size eff
     (fun a n => (forall j, (j < length ax)%nat -> nth j ax 0 = Z.of_nat a ->
                    slice_count (nth a x 0) (nth j starts 0) (nth j ends 0) (nth j steps 0) n) /\
                 (~ In (Z.of_nat a) ax -> n = nth a x 0)) (0, 0, 0)) as (out & Eo & Lo & Ho).
  { intros a Ha. rewrite Le in Ha.
    assert (Hx : 0 <= nth a x 0 < 2 ^ 53 - 1).
    { assert (I : In (nth a x 0) x) by (apply nth_In; auto). split; auto.
      unfold nonneg in NN. rewrite Forall_forall in NN. auto. }
    destruct (in_dec Z.eq_dec (Z.of_nat a) ax) as [I|NI].
    - destruct (In_nth ax _ 0 I) as (j & Hj & Ej).
      pose proof (H1 j a Hj Ej) as Q. rewrite Nat.add_0_l in Q. rewrite Q.
      destruct (ST j ltac:(lia)) as (S1 & S2 & S3).
      assert (EA : axis_pos (length x) (nth j axes 0) = Z.of_nat a).
      { rewrite <- Ej. unfold ax. symmetry. apply map_nth_in. lia. }
      rewrite EA, Nat2Z.id in S3.
      destruct (slice_axis_count (nth a x 0) (nth j starts 0) (nth j ends 0) (nth j steps 0) Hx S1 S2 S3) as (n & En & Cn).
      exists n. split; auto. split; [|tauto].
      intros j' Hj' Ej'. assert (j' = j); [|subst; auto].
      apply (proj1 (NoDup_nth ax 0) VN); auto. congruence.
    - rewrite H2 by auto. rewrite (map_nth_in _ _ (fun d => (0, d, 1)) x a 0) by auto.
      unfold slice_size. cbn [Z.ltb].
      exists (nth a x 0). split; [|split].
      + change (0 <? 1) with true. cbn iota beta. rewrite Z.sub_0_r.
        destruct (Z.leb_spec (nth a x 0) 0); [f_equal; lia|]. f_equal. rewrite ceil_fdiv by lia.
        rewrite Z.div_1_r. lia.
      + intros j Hj Ej. exfalso. apply NI. rewrite <- Ej. apply nth_In; auto.
      + auto. }
  exists out. split; auto. split; [congruence|]. rewrite Le in Ho. split.
  - intros j a Hj Ea.
    assert (Ra : (a < length x)%nat).
    { specialize (VR (nth j axes 0) (nth_In _ _ Hj)). lia. }
    apply (proj1 (Ho a Ra)); [lia|]. rewrite <- Ea. apply map_nth_in. auto.
  - intros a Ha NI. apply (proj2 (Ho a Ha)). exact NI.
Qed.
