(** Reshape, Split, Transpose, Squeeze/Unsqueeze, Concat, Gather, Pad, Reduce, Flatten. *)
From Coq Require Import Permutation.
From Verif Require Import PyBase GraphModel FloatPy ShapeModel ShapeSpec BcastProofs WindowProofs SliceProofs.
Open Scope Z_scope.

(** ** Reshape *)
Lemma F2_length : forall A B (P : A -> B -> Prop) l l', Forall2 P l l' -> length l = length l'.
Proof. induction 1; simpl; auto. Qed.
Definition realises (ns out : list Z) : Prop :=
  Forall2 (fun n o => if n =? -1 then 0 <= o else o = n) ns out.

Definition entries (src req out : list Z) (k : nat) : Prop :=
  forall i, (i < length req)%nat ->
  match nth_error req i with
  | Some r =>
      if r =? 0 then nth_error out i = nth_error src (k + i)
      else if r =? -1 then exists d, nth_error out i = Some d /\ 0 <= d
      else nth_error out i = Some r
  | None => False
  end.

Lemma reshape_fill_ok : forall src req k, positive src ->
  (forall r, In r req -> -1 <= r) ->
  (forall i, nth_error req i = Some 0 -> (k + i < length src)%nat) ->
  exists ns, reshape_fill src req (Z.of_nat k) = SOk ns /\ length ns = length req /\
    (forall n, In n ns -> n = -1 \/ 0 < n) /\
    count_occ Z.eq_dec ns (-1) = count_occ Z.eq_dec req (-1) /\
    (forall out, length out = length req -> (entries src req out k <-> realises ns out)).
Proof.
  intros src. induction req as [|r req IH]; intros k P R0 Rz.
  - exists []. split; [reflexivity|]. split; [reflexivity|]. split; [easy|]. split; [reflexivity|].
    intros out Lo. split.
    + intros _. destruct out; [constructor|discriminate].
    + intros _ i Hi. simpl in Hi. lia.
  - destruct (IH (S k) P) as (ns & E & L & V & C & H).
    { intros; apply R0; simpl; auto. }
    { intros i Hi. specialize (Rz (S i) Hi). lia. }
    replace (Z.of_nat (S k)) with (Z.of_nat k + 1) in E by lia.
    assert (HD : exists d, (if r =? 0 then py_index src (Z.of_nat k) else SOk r) = SOk d /\
              (d = -1 \/ 0 < d) /\ (d = -1 <-> r = -1) /\ (r = 0 -> nth_error src k = Some d) /\ (r <> 0 -> d = r)).
    { destruct (Z.eqb_spec r 0) as [->|N].
      - specialize (Rz 0%nat eq_refl). rewrite Nat.add_0_r in Rz.
        rewrite py_index_nat by auto. exists (nth k src 0).
        assert (0 < nth k src 0). { unfold positive in P. rewrite Forall_forall in P. apply P. apply nth_In; auto. }
        repeat split; auto; try lia. intros _. apply nth_error_nth'. auto.
      - specialize (R0 r ltac:(simpl; auto)). exists r. repeat split; auto; try lia. }
    destruct HD as (d & Ed & Dv & Dm & Dz & Dn).
    exists (d :: ns). simpl. rewrite Ed. cbn [sbind]. rewrite E. cbn [sbind].
    split; [reflexivity|]. split; [lia|]. split.
    { intros n [<-|I]; auto. } split.
    { destruct (Z.eq_dec d (-1)), (Z.eq_dec r (-1)); rewrite ?C; tauto. }
    intros [|o out] Lo; [discriminate|]. simpl in Lo.
    assert (Lo' : length out = length req) by lia. specialize (H out Lo').
    split.
    + intros En. constructor.
      * specialize (En 0%nat ltac:(simpl; lia)). simpl in En. rewrite Nat.add_0_r in En.
        destruct (Z.eqb_spec r 0) as [->|N0].
        { rewrite (Dz eq_refl) in En. injection En as ->. destruct (Z.eqb_spec d (-1)); [lia|auto]. }
        { rewrite (Dn N0). destruct (r =? -1); [|congruence].
          destruct En as (d' & Ed' & Hd'). congruence. }
      * apply H. intros i Hi. specialize (En (S i) ltac:(simpl; lia)). simpl in En.
        replace (S k + i)%nat with (k + S i)%nat by lia. exact En.
    + intros Re. inversion Re as [|? ? ? ? Ho Rt]; subst. apply H in Rt.
      intros [|i] Hi; simpl.
      * rewrite Nat.add_0_r. destruct (Z.eqb_spec r 0) as [->|N0].
        { rewrite (Dz eq_refl). destruct (Z.eqb_spec d (-1)); [lia|congruence]. }
        { rewrite (Dn N0) in Ho. destruct (r =? -1); [eauto|congruence]. }
      * specialize (Rt i ltac:(simpl in Hi; lia)). replace (k + S i)%nat with (S k + i)%nat by lia. exact Rt.
Qed.

Lemma realises_self : forall ns, (forall n, In n ns -> 0 < n) -> forall out, realises ns out <-> out = ns.
Proof.
  induction ns as [|n ns IH]; intros P out; split; intros H.
  - inversion H; auto.
  - subst; constructor.
  - inversion H as [|? o ? t Ho Ht]; subst. apply IH in Ht; [|intros; apply P; simpl; auto].
    specialize (P n ltac:(simpl; auto)). destruct (Z.eqb_spec n (-1)); [lia|]. subst. reflexivity.
  - subst. pose proof (P n ltac:(simpl; auto)). constructor; [destruct (Z.eqb_spec n (-1)); lia|].
    apply IH; auto. intros; apply P; simpl; auto.
Qed.

Lemma count_split : forall ns, count_occ Z.eq_dec ns (-1) = 1%nat ->
  exists l1 l2, ns = l1 ++ -1 :: l2 /\ ~ In (-1) l1 /\ ~ In (-1) l2.
Proof.
  induction ns as [|n ns IH]; simpl; intros H; [discriminate|].
  destruct (Z.eq_dec n (-1)) as [->|N].
  - exists [], ns. split; [reflexivity|]. split; [easy|].
    apply (count_occ_not_In Z.eq_dec). lia.
  - destruct (IH H) as (l1 & l2 & -> & A & B). exists (n :: l1), l2. repeat split; auto.
    intros [E|I]; auto.
Qed.

Lemma replace_m1_app : forall l1 l2 v, ~ In (-1) l1 -> replace_m1 (l1 ++ -1 :: l2) v = l1 ++ v :: l2.
Proof.
  induction l1 as [|x l1 IH]; intros l2 v H; simpl; auto.
  destruct (Z.eqb_spec x (-1)) as [->|N]; [exfalso; apply H; simpl; auto|].
  f_equal. apply IH. intros I. apply H; simpl; auto.
Qed.

Lemma pos_of : forall l, (forall n, In n l -> n = -1 \/ 0 < n) -> ~ In (-1) l -> positive l.
Proof.
  intros l V N. unfold positive. apply Forall_forall. intros x I. destruct (V x I) as [->|]; auto. easy.
Qed.

Theorem reshape_iff : forall src req out, positive src -> src <> [] -> req <> [] -> valid_request src req ->
  (reshape_shape src req = SOk out <-> reshape_of src req out).
Proof.
  intros src req out P Ns Nr (R1 & R2 & R3). unfold reshape_of.
  destruct (reshape_fill_ok src req 0 P R1 R3) as (ns & E & L & V & C & H).
  change (Z.of_nat 0) with 0 in E.
  assert (SH : reshape_shape src req =
     let newshape := if volume ns <? 0 then replace_m1 ns (volume src / (- volume ns)) else ns in
     if volume src =? volume newshape then SOk newshape else SRaise AssertErr).
  { unfold reshape_shape. destruct req as [|r0 req']; [easy|]. rewrite E. reflexivity. }
  rewrite SH. clear SH. cbv zeta.
  assert (Nn : ns <> []) by (destruct ns, req; simpl in L; try easy; lia).
  assert (EQ : (length out = length req /\ (forall i, (i < length req)%nat -> reshape_entry src req out i) /\ elements out = elements src)
               <-> realises ns out /\ elements out = elements src).
  { split.
    - intros (A & B & D). split; auto. apply H; auto.
    - intros (A & D). assert (LL : length out = length req) by (apply F2_length in A; lia).
      repeat split; auto. apply (proj2 (H out LL) A). }
  rewrite EQ. clear EQ H.
  rewrite (volume_elements src Ns), (volume_elements ns Nn).
  assert (CC : count_occ Z.eq_dec ns (-1) = 0%nat \/ count_occ Z.eq_dec ns (-1) = 1%nat) by lia.
  destruct CC as [C0|C1].
  - assert (NI : ~ In (-1) ns) by (apply (count_occ_not_In Z.eq_dec); auto).
    pose proof (pos_of ns V NI) as Pn. pose proof (elements_pos ns Pn).
    destruct (Z.ltb_spec (elements ns) 0); [lia|].
    rewrite (volume_elements ns Nn).
    assert (RS : realises ns out <-> out = ns).
    { apply realises_self. unfold positive in Pn. rewrite Forall_forall in Pn. auto. }
    rewrite RS. destruct (Z.eqb_spec (elements src) (elements ns)); split.
    + intros Q; injection Q as <-. auto.
    + intros [-> _]; auto.
    + discriminate.
    + intros [-> Q]. congruence.
  - destruct (count_split ns C1) as (l1 & l2 & -> & N1 & N2).
    assert (P1 : positive l1) by (apply pos_of; auto; intros; apply V; apply in_or_app; auto).
    assert (P2 : positive l2) by (apply pos_of; auto; intros; apply V; apply in_or_app; simpl; auto).
    assert (EL : forall v, elements (l1 ++ v :: l2) = elements l1 * (v * elements l2)).
    { intros v. rewrite elements_app. reflexivity. }
    pose proof (elements_pos _ P1). pose proof (elements_pos _ P2). pose proof (elements_pos _ P) as PS.
    set (Q := elements l1 * elements l2).
    assert (Qp : 0 < Q) by (unfold Q; nia).
    rewrite !EL. replace (elements l1 * (-1 * elements l2)) with (- Q) by (unfold Q; ring).
    destruct (Z.ltb_spec (- Q) 0); [|lia]. rewrite Z.opp_involutive.
    rewrite replace_m1_app by auto.
    rewrite volume_elements by (destruct l1; discriminate). rewrite EL.
    assert (RS : realises (l1 ++ -1 :: l2) out <-> exists d, 0 <= d /\ out = l1 ++ d :: l2).
    { unfold realises. split.
      - intros F. apply Forall2_app_inv_l in F. destruct F as (o1 & o2 & F1 & F2 & ->).
        inversion F2 as [|? d ? t Hd Ht]; subst. simpl in Hd.
        exists d. split; auto. f_equal.
        + apply (proj1 (realises_self l1 ltac:(unfold positive in P1; rewrite Forall_forall in P1; auto) o1) F1).
        + f_equal. apply (proj1 (realises_self l2 ltac:(unfold positive in P2; rewrite Forall_forall in P2; auto) t) Ht).
      - intros (d & Hd & ->). apply Forall2_app.
        + apply (realises_self l1); auto. unfold positive in P1; rewrite Forall_forall in P1; auto.
        + constructor; [simpl; auto|]. apply (realises_self l2); auto. unfold positive in P2; rewrite Forall_forall in P2; auto. }
    rewrite RS. clear RS.
    assert (EQ : elements l1 * (elements src / Q * elements l2) = Q * (elements src / Q)) by (unfold Q; ring).
    rewrite EQ. destruct (Z.eqb_spec (elements src) (Q * (elements src / Q))) as [D|D]; split.
    + intros X; injection X as <-. split; [exists (elements src / Q); split; auto; apply Z.div_pos; lia|].
      rewrite EL. lia.
    + intros [(d & Hd & ->) X]. rewrite EL in X. repeat f_equal.
      replace (elements src) with (d * Q) by (unfold Q; lia). apply Z.div_mul. lia.
    + discriminate.
    + intros [(d & Hd & ->) X]. rewrite EL in X. exfalso. apply D.
      replace (elements src) with (d * Q) by (unfold Q; lia). rewrite Z.div_mul by lia. ring.
Qed.

(** ** Split *)
Lemma split_map : forall (x : list Z) (a k : nat) v,
  map (fun p : nat * Z => let '(i, d) := p in if Z.of_nat i =? Z.of_nat (k + a) then v else d) (combine (seq k (length x)) x)
  = if Nat.ltb a (length x) then with_dim x a v else x.
Proof.
  induction x as [|d x IH]; intros a k v; simpl; auto.
  destruct a as [|a].
  - rewrite Nat.add_0_r, Z.eqb_refl. cbn. f_equal.
    replace (map _ _) with (map (fun p : nat * Z => snd p) (combine (seq (S k) (length x)) x)).
    + clear. generalize (S k). induction x; simpl; intros; auto. f_equal. apply IHx.
    + apply map_ext_in. intros (i, e) I. apply in_combine_l in I. apply in_seq in I.
      destruct (Z.eqb_spec (Z.of_nat i) (Z.of_nat k)); [lia|reflexivity].
  - destruct (Z.eqb_spec (Z.of_nat k) (Z.of_nat (k + S a))); [lia|].
    replace (k + S a)%nat with (S k + a)%nat by lia. rewrite IH.
    change (Nat.ltb (S a) (S (length x))) with (Nat.ltb a (length x)).
    destruct (Nat.ltb a (length x)); reflexivity.
Qed.

Lemma split_shapes_ok : forall x a sp end_, (a < length x)%nat ->
  Forall (fun v => 0 <= v) sp -> end_ + fold_right Z.add 0 sp = nth a x 0 ->
  split_shapes x (Z.of_nat a) (nth a x 0) sp end_ = map (with_dim x a) sp.
Proof.
  intros x a. induction sp as [|v sp IH]; intros end_ Ha Nn Hs; simpl; auto.
  inversion Nn as [|? ? Hv Nt]; subst. simpl in Hs.
  assert (0 <= fold_right Z.add 0 sp).
  { clear - Nt. induction Nt; simpl; lia. }
  f_equal; [|apply IH; auto; lia].
  pose proof (split_map x a 0 (if end_ + v <? nth a x 0 then v else nth a x 0 - end_)) as M.
  rewrite Nat.add_0_l in M. rewrite M.
  destruct (Nat.ltb_spec a (length x)); [|lia]. f_equal.
  destruct (Z.ltb_spec (end_ + v) (nth a x 0)); lia.
Qed.

Lemma fold_add : forall l a, fold_left Z.add l a = a + fold_right Z.add 0 l.
Proof. induction l; simpl; intros; [lia|]. rewrite IHl. lia. Qed.
Lemma sum_repeat : forall v n, fold_right Z.add 0 (repeat v n) = Z.of_nat n * v.
Proof. induction n; [reflexivity|]. cbn [repeat fold_right]. rewrite IHn, Nat2Z.inj_succ. ring. Qed.
Lemma sum_app : forall a b, fold_right Z.add 0 (a ++ b) = fold_right Z.add 0 a + fold_right Z.add 0 b.
Proof. induction a; intros; cbn [app fold_right]; [lia|]. rewrite IHa. lia. Qed.
Lemma firstn_repeat : forall (v : Z) n m, (m <= n)%nat -> firstn m (repeat v n) = repeat v m.
Proof. induction n; destruct m; simpl; intros; auto; try lia. f_equal. apply IHn. lia. Qed.

Lemma axis_index : forall (x : list Z) axis a, axis_pos (length x) axis = Z.of_nat a -> (a < length x)%nat ->
  py_index x axis = SOk (nth a x 0) /\ (if axis <? 0 then zlen x + axis else axis) = Z.of_nat a.
Proof.
  intros x axis a E H. unfold axis_pos in E. unfold py_index, zlen.
  destruct (Z.ltb_spec axis 0); rewrite E.
  - destruct (Z.ltb_spec (Z.of_nat a) 0); [lia|]. rewrite Nat2Z.id, nth_error_nth' with (d := 0) by auto. split; auto; lia.
  - subst axis. destruct (Z.ltb_spec (Z.of_nat a) 0); [lia|].
    rewrite Nat2Z.id, nth_error_nth' with (d := 0) by auto. split; auto.
Qed.

Theorem split_explicit : forall x axis a sp nout (attr : bool),
  axis_pos (length x) axis = Z.of_nat a -> (a < length x)%nat ->
  Forall (fun v => 0 <= v) sp -> fold_right Z.add 0 sp = nth a x 0 ->
  exists outs, split_shape (Some axis) (if attr then Some sp else None) (if attr then None else Some sp) nout x = SOk outs /\
    outs = map (with_dim x a) sp /\ split_of x a outs.
Proof.
  intros x axis a sp nout attr E H N S. destruct (axis_index x axis a E H) as [I1 I2].
  unfold split_shape. rewrite I1. cbn [sbind].
  assert (SS : split_sizes (if attr then Some sp else None) (if attr then None else Some sp) (nth a x 0) nout = SOk sp)
    by (destruct attr; reflexivity).
  rewrite SS. cbn [sbind]. rewrite I2. eexists. split; [reflexivity|].
  rewrite split_shapes_ok by (auto; lia). split; auto. exists sp. auto.
Qed.

Theorem split_default : forall x axis a nout,
  axis_pos (length x) axis = Z.of_nat a -> (a < length x)%nat -> (0 < nout)%nat -> 0 <= nth a x 0 ->
  (nth a x 0 mod Z.of_nat nout = 0 \/ (Z.of_nat nout - 1) * (nth a x 0 / Z.of_nat nout + 1) <= nth a x 0) ->
  exists outs, split_shape (Some axis) None None nout x = SOk outs /\ length outs = nout /\ split_of x a outs.
Proof.
  intros x axis a nout E H P D C. destruct (axis_index x axis a E H) as [I1 I2].
  unfold split_shape. rewrite I1. cbn [sbind]. unfold split_sizes.
  destruct (Nat.eqb_spec nout 0) as [Z0|_]; [lia|]. set (dim := nth a x 0) in *. set (n := Z.of_nat nout) in *.
  pose proof (Z.div_mod dim n ltac:(lia)) as DM. pose proof (Z.mod_pos_bound dim n ltac:(lia)) as MB.
  pose proof (Z.div_pos dim n D ltac:(lia)) as DP.
  destruct (Z.eqb_spec (dim mod n) 0) as [M|M].
  - cbn [sbind]. rewrite I2. eexists. split; [reflexivity|].
    assert (F : Forall (fun v => 0 <= v) (repeat (dim / n) nout)).
    { apply Forall_forall. intros v I. apply repeat_spec in I. subst. auto. }
    assert (SM : fold_right Z.add 0 (repeat (dim / n) nout) = dim) by (rewrite sum_repeat; fold n; lia).
    assert (SS : split_shapes x (Z.of_nat a) dim (repeat (dim / n) nout) 0 = map (with_dim x a) (repeat (dim / n) nout)) by (apply split_shapes_ok; auto).
    rewrite SS.
    split; [rewrite map_length, repeat_length; auto|]. exists (repeat (dim / n) nout). split; [exact F|]. split; [exact SM|reflexivity].
  - cbn [sbind]. rewrite I2. destruct C as [C|C]; [lia|].
    set (div := dim / n + 1) in *.
    rewrite firstn_repeat by lia. rewrite fold_add, sum_repeat. fold n.
    set (last := div + (dim - (0 + n * div))).
    assert (LV : last = dim - (n - 1) * div) by (unfold last; ring).
    eexists. split; [reflexivity|].
    assert (F : Forall (fun v => 0 <= v) (repeat div (nout - 1) ++ [last])).
    { apply Forall_app. split.
      - apply Forall_forall. intros v I. apply repeat_spec in I. subst. unfold div. lia.
      - constructor; [lia|constructor]. }
    assert (SM : fold_right Z.add 0 (repeat div (nout - 1) ++ [last]) = dim).
    { rewrite sum_app, sum_repeat. simpl. replace (Z.of_nat (nout - 1)) with (n - 1) by lia. lia. }
    assert (SS : split_shapes x (Z.of_nat a) dim (repeat div (nout - 1) ++ [last]) 0 = map (with_dim x a) (repeat div (nout - 1) ++ [last])) by (apply split_shapes_ok; auto).
    rewrite SS.
    split; [rewrite map_length, app_length, repeat_length; simpl; lia|].
    exists (repeat div (nout - 1) ++ [last]). split; [exact F|]. split; [exact SM|reflexivity].
Qed.

(** ** Transpose *)
Lemma smap_py_index : forall x p, (forall a, In a p -> 0 <= a < zlen x) ->
  smap (py_index x) p = SOk (map (fun a => nth (Z.to_nat a) x 0) p).
Proof.
  induction p as [|a p IH]; intros H; simpl; auto.
  pose proof (H a ltac:(simpl; auto)) as R. unfold zlen in R.
  rewrite (py_index_lit x a (Z.to_nat a)) by lia. cbn [sbind].
  rewrite IH by (intros; apply H; simpl; auto). reflexivity.
Qed.
Lemma perm_range : forall n p a, axes_perm n p -> In a p -> 0 <= a < Z.of_nat n.
Proof.
  intros n p a P I. eapply Permutation_in in I; [|exact P]. apply in_map_iff in I.
  destruct I as (i & <- & I). apply in_seq in I. lia.
Qed.
Lemma elements_perm : forall a b, Permutation a b -> elements a = elements b.
Proof. induction 1; unfold elements in *; cbn [fold_right]; lia. Qed.
Lemma map_nth_seq : forall (x : list Z), map (fun a => nth (Z.to_nat a) x 0) (map Z.of_nat (seq 0 (length x))) = x.
Proof.
  intros x. rewrite map_map. apply nth_ext with (d := 0) (d' := 0).
  - rewrite map_length, seq_length. reflexivity.
  - intros i Hi. rewrite map_length, seq_length in Hi.
    rewrite (map_nth_in _ _ _ _ _ 0%nat) by (rewrite seq_length; auto).
    rewrite seq_nth by auto. rewrite Nat2Z.id. reflexivity.
Qed.
Theorem transpose_perm : forall x p, axes_perm (length x) p ->
  exists y, transpose_shape (Some p) x = SOk y /\ length y = length x /\
    (forall i, (i < length x)%nat -> nth i y 0 = nth (Z.to_nat (nth i p 0)) x 0) /\ elements y = elements x.
Proof.
  intros x p P. pose proof (Permutation_length P) as L. rewrite map_length, seq_length in L.
  exists (map (fun a => nth (Z.to_nat a) x 0) p). split; [|split; [|split]].
  - apply smap_py_index. intros a I. unfold zlen. eapply perm_range; eauto.
  - rewrite map_length. auto.
  - intros i Hi. apply (map_nth_in _ _ (fun a => nth (Z.to_nat a) x 0)). lia.
  - transitivity (elements (map (fun a => nth (Z.to_nat a) x 0) (map Z.of_nat (seq 0 (length x))))).
    + apply elements_perm. apply Permutation_map. exact P.
    + rewrite map_nth_seq. reflexivity.
Qed.
Theorem transpose_inverse : forall x p q, axes_perm (length x) p -> axes_perm (length x) q -> inverse_perm (length x) p q ->
  exists y, transpose_shape (Some p) x = SOk y /\ transpose_shape (Some q) y = SOk x.
Proof.
  intros x p q P Q I. destruct (transpose_perm x p P) as (y & E & L & N & _). exists y. split; auto.
  rewrite <- L in Q. destruct (transpose_perm y q Q) as (z & E' & L' & N' & _). rewrite E'. f_equal.
  apply nth_ext with (d := 0) (d' := 0); [lia|]. intros i Hi.
  rewrite N' by lia. destruct (I i ltac:(lia)) as (j & Eq & Ep).
  rewrite (nth_error_nth q i 0 Eq). rewrite Nat2Z.id.
  assert (Hj : (j < length p)%nat) by (apply nth_error_Some; congruence).
  pose proof (Permutation_length P) as LP. rewrite map_length, seq_length in LP.
  rewrite N by lia. rewrite (nth_error_nth p j 0 Ep). rewrite Nat2Z.id. reflexivity.
Qed.

(** ** Unsqueeze and Squeeze *)
Lemma zseq_S : forall k m, map Z.of_nat (seq k (S m)) = Z.of_nat k :: map Z.of_nat (seq (S k) m).
Proof. reflexivity. Qed.
Lemma unsqueeze_loop_ok : forall axes x m k idx,
  (length (filter (fun i => negb (zmem i axes)) (map Z.of_nat (seq k m))) = length x - idx)%nat -> (idx <= length x)%nat ->
  exists y, unsqueeze_loop axes x (map Z.of_nat (seq k m)) (Z.of_nat idx) = SOk y /\ length y = m /\
    keep_axes axes y (Z.of_nat k) = skipn idx x /\ elements y = elements (skipn idx x) /\
    (forall i, (i < m)%nat -> In (Z.of_nat (k + i)) axes -> nth i y 0 = 1).
Proof.
  intros axes x. induction m as [|m IH]; intros k idx F B.
  - simpl in F. assert (idx = length x) by lia. subst. exists []. simpl. rewrite skipn_all. repeat split; auto; lia.
  - rewrite zseq_S in *. cbn [filter unsqueeze_loop] in *.
    destruct (zmem (Z.of_nat k) axes) eqn:M; cbn [negb] in F.
    + destruct (IH (S k) idx F B) as (y & E & L & K & V & O). rewrite E. cbn [sbind].
      exists (1 :: y). split; auto. split; [simpl; lia|]. cbn [keep_axes]. rewrite M.
      replace (Z.of_nat k + 1) with (Z.of_nat (S k)) by lia. repeat split; auto.
      * unfold elements in *. cbn [fold_right]. lia.
      * intros [|i] Hi I; auto. simpl. apply O; [lia|]. replace (S k + i)%nat with (k + S i)%nat by lia. auto.
    + cbn [length] in F. assert (idx < length x)%nat by lia.
      destruct (IH (S k) (S idx) ltac:(lia) ltac:(lia)) as (y & E & L & K & V & O).
      rewrite py_index_nat by auto. cbn [sbind]. replace (Z.of_nat idx + 1) with (Z.of_nat (S idx)) by lia.
      rewrite E. cbn [sbind].
      assert (SK : skipn idx x = nth idx x 0 :: skipn (S idx) x).
      { clear - H. revert idx H. induction x; destruct idx; simpl; intros; try lia; auto. apply IHx. lia. }
      eexists. split; [reflexivity|]. split; [simpl; lia|]. cbn [keep_axes]. rewrite M.
      replace (Z.of_nat k + 1) with (Z.of_nat (S k)) by lia. rewrite SK, K. repeat split; auto.
      * unfold elements in *. cbn [fold_right]. rewrite V. reflexivity.
      * intros [|i] Hi I.
        { rewrite Nat.add_0_r in I. apply zmem_nIn in M. easy. }
        { simpl. apply O; [lia|]. replace (S k + i)%nat with (k + S i)%nat by lia. auto. }
Qed.

Lemma filter_complement : forall A (f : A -> bool) l,
  (length (filter f l) + length (filter (fun x => negb (f x)) l) = length l)%nat.
Proof. induction l; simpl; auto. destruct (f a); simpl; lia. Qed.

Lemma count_axes : forall axes N, NoDup axes -> (forall a, In a axes -> 0 <= a < Z.of_nat N) ->
  length (filter (fun i => zmem i axes) (map Z.of_nat (seq 0 N))) = length axes.
Proof.
  intros axes N ND R. apply Permutation_length. apply NoDup_Permutation; auto.
  - apply NoDup_filter. apply FinFun.Injective_map_NoDup; [|apply seq_NoDup]. intros a b; lia.
  - intros a. rewrite filter_In, zmem_In, in_map_iff. split; [tauto|]. intros I. split; auto.
    specialize (R a I). exists (Z.to_nat a). split; [lia|]. apply in_seq. lia.
Qed.

Theorem unsqueeze_squeeze : forall x axes, valid_axes (length x + length axes) axes ->
  exists y, unsqueeze_shape axes x = SOk y /\ length y = (length x + length axes)%nat /\
    (forall a, In a axes -> nth (Z.to_nat (axis_pos (length y) a)) y 0 = 1) /\
    elements y = elements x /\ squeeze_shape axes y = x.
Proof.
  intros x axes [R ND]. set (N := (length x + length axes)%nat) in *.
  unfold unsqueeze_shape. fold N. rewrite axes_neg2pos_spec. set (ax := map (axis_pos N) axes) in *.
  assert (La : length ax = length axes) by apply map_length.
  assert (Rx : forall a, In a ax -> 0 <= a < Z.of_nat N).
  { intros a I. apply in_map_iff in I. destruct I as (a0 & <- & I). auto. }
  pose proof (count_axes ax N ND Rx) as C.
  pose proof (filter_complement _ (fun i => zmem i ax) (map Z.of_nat (seq 0 N))) as F.
  rewrite map_length, seq_length in F.
  destruct (unsqueeze_loop_ok ax x N 0 0 ltac:(lia) ltac:(lia)) as (y & E & L & K & V & O).
  exists y. split; [exact E|]. split; [auto|]. split; [|split; auto].
  - intros a I. rewrite L. pose proof (R a I). apply O; [lia|]. simpl.
    rewrite Z2Nat.id by lia. apply in_map; auto.
  - unfold squeeze_shape. unfold zlen. rewrite L, axes_neg2pos_spec. exact K.
Qed.

(** ** Concat *)
Lemma set_nth_with : forall (s : list Z) a v, (a < length s)%nat -> set_nth s a v = with_dim s a v.
Proof.
  induction s as [|y s IH]; intros [|a] v; simpl; intros; try lia; auto.
  unfold with_dim in *. simpl. f_equal. apply IH. lia.
Qed.
Lemma with_dim_length : forall (s : list Z) a v, (a < length s)%nat -> length (with_dim s a v) = length s.
Proof. intros. rewrite <- set_nth_with by auto. apply set_nth_length. Qed.
Lemma set_nth_twice : forall (s : list Z) a v v', set_nth (set_nth s a v) a v' = set_nth s a v'.
Proof. induction s as [|y s IH]; intros [|a] v v'; simpl; auto. f_equal. apply IH. Qed.
Lemma with_dim_twice : forall (s : list Z) a v v', (a < length s)%nat -> with_dim (with_dim s a v) a v' = with_dim s a v'.
Proof.
  intros. rewrite <- (set_nth_with s a v) by auto. rewrite <- set_nth_with by (rewrite set_nth_length; auto).
  rewrite <- set_nth_with by auto. apply set_nth_twice.
Qed.
Lemma py_store_ok : forall (s : list Z) axis a v, axis_pos (length s) axis = Z.of_nat a -> (a < length s)%nat ->
  py_store s axis v = SOk (with_dim s a v).
Proof.
  intros s axis a v E H. unfold py_store, zlen. unfold axis_pos in E.
  replace (if axis <? 0 then axis + Z.of_nat (length s) else axis) with (Z.of_nat a).
  destruct (Z.ltb_spec (Z.of_nat a) 0); [lia|]. destruct (Z.leb_spec (Z.of_nat (length s)) (Z.of_nat a)); [lia|].
  simpl. rewrite Nat2Z.id, set_nth_with by auto. reflexivity.
Qed.

Lemma concat_loop_ok : forall axis a rest s,
  (a < length s)%nat -> axis_pos (length s) axis = Z.of_nat a ->
  (forall t, In t rest -> length t = length s) ->
  concat_loop axis s rest = SOk (with_dim s a (nth a s 0 + fold_right Z.add 0 (map (fun t => nth a t 0) rest))).
Proof.
  intros axis a. induction rest as [|t rest IH]; intros s Ha E H; simpl.
  - rewrite Z.add_0_r. f_equal. rewrite <- set_nth_with by auto. clear - Ha.
    revert a Ha. induction s as [|y s IH]; intros [|a]; simpl; intros; auto; try lia. f_equal. apply IH. lia.
  - pose proof (H t ltac:(simpl; auto)) as Lt.
    destruct (axis_index t axis a) as [I1 _]; [rewrite Lt; auto|lia|].
    destruct (axis_index s axis a) as [I2 _]; auto.
    rewrite I1, I2. cbn [sbind]. rewrite (py_store_ok s axis a) by auto. cbn [sbind].
    rewrite IH; rewrite ?with_dim_length by auto; auto.
    + rewrite with_dim_twice by auto. do 2 f_equal.
      rewrite <- set_nth_with by auto. rewrite set_nth_same by auto. lia.
    + intros u I. apply H. simpl; auto.
Qed.

Lemma elements_with_dim : forall (s : list Z) a v, (a < length s)%nat -> elements (with_dim s a v) = v * elements (without_dim s a).
Proof. intros. unfold with_dim, without_dim. rewrite !elements_app. unfold elements. cbn [fold_right]. ring. Qed.
Lemma with_dim_self : forall (s : list Z) a, (a < length s)%nat -> with_dim s a (nth a s 0) = s.
Proof.
  intros s a H. rewrite <- set_nth_with by auto.
  revert a H. induction s as [|y s IH]; intros [|a]; simpl; intros; auto; try lia. f_equal. apply IH. lia.
Qed.

Theorem concat_ok : forall axis a s rest,
  (a < length s)%nat -> axis_pos (length s) axis = Z.of_nat a -> (forall t, In t rest -> length t = length s) ->
  exists out, concat_shape axis (s :: rest) = SOk out /\
    out = with_dim s a (fold_right Z.add 0 (map (fun t => nth a t 0) (s :: rest))) /\
    ((forall t, In t rest -> without_dim t a = without_dim s a) ->
       elements out = fold_right Z.add 0 (map elements (s :: rest))).
Proof.
  intros axis a s rest Ha E H. eexists. split; [apply (concat_loop_ok axis a); auto|]. split; [reflexivity|].
  intros W. rewrite elements_with_dim by auto. simpl.
  assert (X : forall u, (a < length u)%nat -> without_dim u a = without_dim s a ->
              elements u = nth a u 0 * elements (without_dim s a)).
  { intros u Hu Eu. rewrite <- Eu, <- elements_with_dim, with_dim_self by auto. reflexivity. }
  rewrite (X s Ha eq_refl). rewrite Z.mul_add_distr_r. f_equal.
  clear E. induction rest as [|t rest IH]; simpl; [lia|].
  rewrite Z.mul_add_distr_r. rewrite IH; [|intros; apply H; simpl; auto|intros; apply W; simpl; auto].
  rewrite (X t); [reflexivity| |apply W; simpl; auto]. rewrite (H t) by (simpl; auto). auto.
Qed.

(** ** Gather, TopK, Pad, Reduce, Flatten, DepthToSpace, OneHot *)
Lemma gather_from : forall (x idx : list Z) (a k : nat),
  flat_map (fun p : nat * Z => let '(i, d) := p in if Z.of_nat i =? Z.of_nat (k + a) then idx else [d]) (combine (seq k (length x)) x)
  = if Nat.ltb a (length x) then firstn a x ++ idx ++ skipn (S a) x else x.
Proof.
  induction x as [|d x IH]; intros idx a k; simpl; auto.
  destruct a as [|a].
  - rewrite Nat.add_0_r, Z.eqb_refl. cbn [Nat.ltb Nat.leb firstn skipn app]. f_equal.
    assert (G : forall m, (k < m)%nat ->
      flat_map (fun p : nat * Z => let '(i, d0) := p in if Z.of_nat i =? Z.of_nat k then idx else [d0]) (combine (seq m (length x)) x) = x).
    { clear. induction x as [|d x IH]; simpl; intros m Hm; auto.
      destruct (Z.eqb_spec (Z.of_nat m) (Z.of_nat k)); [lia|]. simpl. f_equal. apply IH. lia. }
    apply G. lia.
  - destruct (Z.eqb_spec (Z.of_nat k) (Z.of_nat (k + S a))); [lia|].
    replace (k + S a)%nat with (S k + a)%nat by lia. rewrite IH.
    change (Nat.ltb (S a) (S (length x))) with (Nat.ltb a (length x)).
    destruct (Nat.ltb a (length x)); reflexivity.
Qed.

Theorem gather_ok : forall axis a x idx, axis_pos (length x) axis = Z.of_nat a -> (a < length x)%nat ->
  gather_shape axis x idx = firstn a x ++ idx ++ skipn (S a) x /\
  length (gather_shape axis x idx) = (length x + length idx - 1)%nat.
Proof.
  intros axis a x idx E H. destruct (axis_index x axis a E H) as [_ I].
  assert (G : gather_shape axis x idx = firstn a x ++ idx ++ skipn (S a) x).
  { unfold gather_shape. rewrite I. pose proof (gather_from x idx a 0) as G. rewrite Nat.add_0_l in G. rewrite G.
    destruct (Nat.ltb_spec a (length x)); [reflexivity|lia]. }
  split; auto. rewrite G, !app_length, firstn_length, skipn_length. lia.
Qed.

Theorem topk_ok : forall axis a k x, axis_pos (length x) axis = Z.of_nat a -> (a < length x)%nat ->
  topk_shape axis k x = with_dim x a k.
Proof.
  intros axis a k x E H. destruct (axis_index x axis a E H) as [_ I]. unfold topk_shape. rewrite I.
  pose proof (split_map x a 0 k) as M. rewrite Nat.add_0_l in M. rewrite M.
  destruct (Nat.ltb_spec a (length x)); [reflexivity|lia].
Qed.

Lemma pad_loop_ok : forall pads n x k, (k + length x <= n)%nat -> (2 * n <= length pads)%nat ->
  exists out, pad_loop pads (Z.of_nat n) (Z.of_nat k) x = SOk out /\ length out = length x /\
    forall i, (i < length x)%nat -> nth i out 0 = nth i x 0 + nth (k + i) pads 0 + nth (k + i + n) pads 0.
Proof.
  intros pads n. induction x as [|v x IH]; intros k H L.
  - exists []. repeat split; auto. simpl; intros; lia.
  - simpl in H. destruct (IH (S k) ltac:(lia) L) as (out & E & Lo & Ho).
    cbn [pad_loop]. rewrite py_index_nat by lia. cbn [sbind].
    replace (Z.of_nat k + Z.of_nat n) with (Z.of_nat (k + n)) by lia. rewrite py_index_nat by lia. cbn [sbind].
    replace (Z.of_nat k + 1) with (Z.of_nat (S k)) by lia. rewrite E. cbn [sbind].
    eexists. split; [reflexivity|]. split; [simpl; lia|].
    intros [|i] Hi; cbn [nth].
    + rewrite Nat.add_0_r. reflexivity.
    + simpl in Hi. rewrite Ho by lia. replace (S k + i)%nat with (k + S i)%nat by lia. reflexivity.
Qed.

Lemma keep_axes_spec : forall axes x k,
  keep_axes axes x (Z.of_nat k) =
  map snd (filter (fun p => negb (existsb (Z.eqb (Z.of_nat (fst p))) axes)) (combine (seq k (length x)) x)).
Proof.
  intros axes. induction x as [|d x IH]; intros k; simpl; auto.
  replace (Z.of_nat k + 1) with (Z.of_nat (S k)) by lia. rewrite IH.
  unfold zmem. destruct (existsb (Z.eqb (Z.of_nat k)) axes); reflexivity.
Qed.
Lemma reduce_drop : forall axes x k, reduce_loop axes false x k = keep_axes axes x k.
Proof. intros axes. induction x; intros; simpl; auto. destruct (zmem k axes); rewrite IHx; auto. Qed.
Lemma reduce_keep : forall axes x k, length (reduce_loop axes true x (Z.of_nat k)) = length x /\
  forall i, (i < length x)%nat -> nth i (reduce_loop axes true x (Z.of_nat k)) 0 =
     if zmem (Z.of_nat (k + i)) axes then 1 else nth i x 0.
Proof.
  intros axes. induction x as [|d x IH]; intros k; cbn [reduce_loop length].
  - split; auto. intros; lia.
  - replace (Z.of_nat k + 1) with (Z.of_nat (S k)) by lia. destruct (IH (S k)) as [L H].
    destruct (zmem (Z.of_nat k) axes) eqn:M; cbn [length nth]; (split; [lia|]); intros [|i] Hi.
    + rewrite Nat.add_0_r, M. reflexivity.
    + rewrite H by lia. replace (S k + i)%nat with (k + S i)%nat by lia. reflexivity.
    + rewrite Nat.add_0_r, M. reflexivity.
    + rewrite H by lia. replace (S k + i)%nat with (k + S i)%nat by lia. reflexivity.
Qed.

Lemma prod_upto_ok : forall x m k acc, (k + m <= length x)%nat ->
  prod_upto x (map Z.of_nat (seq k m)) acc = SOk (acc * elements (firstn m (skipn k x))).
Proof.
  intros x. induction m as [|m IH]; intros k acc H; simpl.
  - unfold elements; simpl. f_equal. lia.
  - rewrite py_index_nat by lia. cbn [sbind]. rewrite IH by lia. f_equal.
    assert (SK : skipn k x = nth k x 0 :: skipn (S k) x).
    { clear - H. revert k H. induction x; destruct k; simpl; intros; try lia; auto. apply IHx. lia. }
    rewrite SK. cbn [firstn]. unfold elements. cbn [fold_right]. ring.
Qed.
Theorem flatten_ok : forall x a, positive x -> (a <= length x)%nat ->
  flatten_shape (Some (Z.of_nat a)) x = SOk [elements (firstn a x); elements (skipn a x)] /\
  elements [elements (firstn a x); elements (skipn a x)] = elements x.
Proof.
  intros x a P H.
  assert (E : elements x = elements (firstn a x) * elements (skipn a x)).
  { rewrite <- elements_app, firstn_skipn. reflexivity. }
  assert (P1 : positive (firstn a x)).
  { unfold positive in *. rewrite Forall_forall in *. intros d I. apply P. rewrite <- (firstn_skipn a x). apply in_or_app; auto. }
  pose proof (elements_pos _ P1). split.
  - unfold flatten_shape, zrange. rewrite Nat2Z.id, prod_upto_ok by lia. cbn [sbind skipn].
    rewrite Z.mul_1_l. unfold np_reshape_2d. change (numel x) with (elements x).
    destruct (Z.leb_spec (elements (firstn a x)) 0); [lia|].
    rewrite E, Z.mul_comm, Z.mod_mul, Z.div_mul by lia. reflexivity.
  - rewrite E. unfold elements at 1. cbn [fold_right]. ring.
Qed.
Theorem flatten_default_ok : forall d x, positive (d :: x) ->
  flatten_shape None (d :: x) = SOk [d; elements x].
Proof.
  intros d x P. unfold flatten_shape. rewrite (py_index_lit _ 0 0) by (simpl; lia). cbn [sbind nth].
  inversion P; subst. unfold np_reshape_2d. change (numel (d :: x)) with (d * elements x).
  destruct (Z.leb_spec d 0); [lia|]. rewrite Z.mul_comm, Z.mod_mul, Z.div_mul by lia. reflexivity.
Qed.

Theorem depth_to_space_ok : forall b n c h w, 0 < b -> (b * b | c) ->
  exists y, depth_to_space_shape b [n; c; h; w] = SOk y /\ elements y = elements [n; c; h; w].
Proof.
  intros b n c h w Hb [q ->]. unfold depth_to_space_shape. destruct (Z.eqb_spec (b * b) 0); [nia|].
  eexists. split; [reflexivity|]. rewrite Z.div_mul by auto. unfold elements. cbn [fold_right]. ring.
Qed.

Theorem onehot_ok : forall axis depth x a, axis_pos (S (length x)) axis = Z.of_nat a -> (a <= length x)%nat ->
  onehot_shape axis depth x = firstn a x ++ depth :: skipn a x.
Proof.
  intros axis depth x a E H. unfold onehot_shape, py_insert, zlen. unfold axis_pos in E.
  replace (if axis <? 0 then Z.of_nat (length x) + 1 + axis else axis) with (Z.of_nat a) by (destruct (Z.ltb_spec axis 0); lia).
  destruct (Z.ltb_spec (Z.of_nat a) 0); [lia|].
  replace (Z.to_nat (Z.min (Z.of_nat a) (Z.of_nat (length x)))) with a by lia. reflexivity.
Qed.
