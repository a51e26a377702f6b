(** Values of OneHot, ArgMax, Pad, Reshape, ReduceSum: proofs. *)
From Verif Require Import PyBase GraphModel FloatPy ShapeModel ShapeSpec BcastProofs LayoutProofs CostSpec CostProofs ValueModel ValueModel2 ValueModel3 ValueSpec ValueSpec3 ValueProofs ValueProofs2 ValueProofs3 ValueProofs4 ValueProofs5 ValueProofs6.
From Coq Require Import Lia Bool.
Open Scope list_scope. Open Scope Z_scope.

(** ** OneHot *)
Lemma one_hot_ok axis a (ind : arr Z) depth vals : axis_pos (S (length (shp ind))) axis = Z.of_nat a -> (a <= length (shp ind))%nat -> 0 < depth ->
  exists y, one_hot_value axis ind depth vals = SOk y /\ shp y = firstn a (shp ind) ++ depth :: skipn a (shp ind) /\
  forall o, - depth <= el ind (remove_at o a) < depth -> el y o = onnx_one_hot a ind depth 0 1 o.
Proof.
  intros Ha Hl Hd. unfold one_hot_value. cbv zeta. unfold zlen.
  assert (E : (if axis <? 0 then axis + (Z.of_nat (length (shp ind)) + 1) else axis) = Z.of_nat a) by (unfold axis_pos in Ha; destruct (axis <? 0); lia).
  rewrite E. rewrite (proj2 (Z.ltb_ge (Z.of_nat a) 0)) by lia. rewrite Z.min_l by lia. rewrite Nat2Z.id.
  eexists. split; [reflexivity|]. cbn [shp el]. rewrite Z.max_r by lia. split; [reflexivity|]. intros o Hv. rewrite (proj2 (Z.eqb_neq depth 0)) by lia.
  unfold onnx_one_hot. cbv zeta. set (v := el ind (remove_at o a)) in *.
  rewrite (proj2 (Z.leb_le (- depth) v)), (proj2 (Z.ltb_lt v depth)) by lia. cbn [andb].
  assert (M : v mod depth = if v <? 0 then v + depth else v).
  { destruct (Z.ltb_spec v 0); [|apply Z.mod_small; lia]. rewrite <- (Z.mod_add v 1 depth) by lia. rewrite Z.mul_1_l. apply Z.mod_small. lia. }
  rewrite M. reflexivity.
Qed.

(** ** ArgMax *)
Lemma argmax_from_ok f m : forall i best, first_max (Z.of_nat i) f best ->
  first_max (Z.of_nat (i + m)) f (argmax_from (map f (map Z.of_nat (seq i m))) (Z.of_nat i) best (f best)).
Proof.
  induction m as [|m IH]; intros i best (B1 & B2 & B3); cbn [seq map argmax_from]; [rewrite Nat.add_0_r; split; [exact B1|auto]|].
  replace (i + S m)%nat with (S i + m)%nat by lia. replace (Z.of_nat i + 1) with (Z.of_nat (S i)) by lia.
  destruct (Z.ltb_spec (f best) (f (Z.of_nat i))); apply IH; (split; [lia|split]); intros q Hq.
  - destruct (Z.eq_dec q (Z.of_nat i)) as [->|N]; [lia|]. specialize (B2 q ltac:(lia)). lia.
  - specialize (B2 q ltac:(lia)). lia.
  - destruct (Z.eq_dec q (Z.of_nat i)) as [->|N]; [lia|]. apply B2. lia.
  - apply B3. exact Hq.
Qed.
Lemma argmax_list_ok f n : 0 < n -> first_max n f (argmax_list (map f (pyrange n))).
Proof.
  intro H. unfold pyrange. destruct (Z.to_nat n) as [|m] eqn:E; [lia|]. cbn [seq map argmax_list].
  replace n with (Z.of_nat (1 + m)) by lia. apply (argmax_from_ok f m 1 0). split; [lia|]. split; intros q Hq; [replace q with 0 by lia; cbn; lia|lia].
Qed.
Lemma remove_at_dout (l : list Z) a : (a < length l)%nat -> remove_at l a = dims_outside [Z.of_nat a] l.
Proof.
  intro H. rewrite dims_outside_dout. destruct (dout_first l a [] H) as (E & _); [intros b []|]. rewrite E. rewrite (dout_id l 0 []); [reflexivity|intros b []].
Qed.
Lemma insert_remove_with (i : list Z) a v : (a < length i)%nat -> insert_at (remove_at i a) a v = with_dim i a v.
Proof.
  intro H. destruct (split_at_nth i a H) as (l1 & l2 & E & L). rewrite E. generalize (nth a i 0) as u. intro u. clear E. subst a. rewrite remove_mid, insert_mid. unfold with_dim.
  rewrite firstn_app, skipn_app, firstn_all, Nat.sub_diag, (skipn_all2 l1) by lia. replace (S (length l1) - length l1)%nat with 1%nat by lia. cbn [firstn skipn List.app]. rewrite app_nil_r. reflexivity.
Qed.
Lemma with_dim_twice (i : list Z) a v w : (a < length i)%nat -> with_dim (with_dim i a v) a w = with_dim i a w.
Proof.
  intro H. destruct (split_at_nth i a H) as (l1 & l2 & E & L). rewrite E. unfold with_dim.
  assert (X : forall u, firstn a (l1 ++ u :: l2) = l1) by (intro u; rewrite firstn_app, <- L, firstn_all, Nat.sub_diag; apply app_nil_r).
  assert (Y : forall u, skipn (S a) (l1 ++ u :: l2) = l2) by (intro u; rewrite skipn_app, <- L, (skipn_all2 l1) by lia; replace (S (length l1) - length l1)%nat with 1%nat by lia; reflexivity).
  repeat first [rewrite X|rewrite Y]. reflexivity.
Qed.
Lemma remove_with (i : list Z) a v : (a < length i)%nat -> remove_at (with_dim i a v) a = remove_at i a.
Proof.
  intro H. rewrite <- insert_remove_with by exact H. apply remove_insert. unfold remove_at. rewrite app_length, firstn_length, skipn_length. lia.
Qed.
Lemma argmax_ok axis a keep sl (x : arr Z) : axis_pos (length (shp x)) axis = Z.of_nat a -> (a < length (shp x))%nat -> 0 < nth a (shp x) 0 ->
  exists y, argmax_value axis keep sl x = SOk y /\ shp y = (if keep =? 1 then with_dim (shp x) a 1 else dims_outside [Z.of_nat a] (shp x)) /\
  forall i, in_range (shp x) i = true ->
    first_max (nth a (shp x) 0) (fun v => el x (with_dim i a v)) (el y (if keep =? 1 then with_dim i a 0 else dims_outside [Z.of_nat a] i)).
Proof.
  intros Ha Hl Hp. unfold argmax_value, np_argmax.
  assert (NA : np_axis (zlen (shp x)) axis = SOk a).
  { unfold zlen. rewrite np_axis_pos by lia. rewrite Ha. apply np_axis_ok. exact Hl. }
  rewrite NA. cbn [sbind]. rewrite (proj2 (Z.eqb_neq _ 0)) by lia. cbn [sbind].
  assert (V : forall i, in_range (shp x) i = true -> first_max (nth a (shp x) 0) (fun v => el x (with_dim i a v)) (argmax_list (map (fun v => el x (insert_at (remove_at i a) a v)) (pyrange (nth a (shp x) 0))))).
  { intros i Hi. apply in_range_length in Hi. rewrite (map_ext _ (fun v => el x (with_dim i a v))) by (intro v; rewrite insert_remove_with by lia; reflexivity). apply argmax_list_ok. exact Hp. }
  destruct (Z.eqb_spec keep 1) as [K|K].
  - unfold np_expand_dims. cbn [shp el]. replace (S (length (remove_at (shp x) a))) with (length (shp x)) by (unfold remove_at; rewrite app_length, firstn_length, skipn_length; lia).
    unfold zlen in NA. rewrite NA. cbn [sbind]. eexists. split; [reflexivity|]. cbn [shp el]. split; [apply insert_remove_with; exact Hl|].
    intros i Hi. pose proof (in_range_length _ _ Hi). rewrite remove_with by lia. apply V. exact Hi.
  - eexists. split; [reflexivity|]. cbn [shp el]. split; [apply remove_at_dout; exact Hl|]. intros i Hi. pose proof (in_range_length _ _ Hi). rewrite <- remove_at_dout by lia. apply V. exact Hi.
Qed.

(** ** Pad *)
Lemma pad_widths (before after : list Z) : length before = length after -> firstn (length before) (before ++ after) = before /\ skipn (length before) (before ++ after) = after.
Proof. intro H. rewrite firstn_app, firstn_all, Nat.sub_diag, skipn_app, skipn_all, Nat.sub_diag. cbn. rewrite app_nil_r. auto. Qed.
Lemma pad_inside : forall before after sh o, length before = length sh -> length after = length sh -> length o = length sh ->
  forallb (fun q : ((Z * Z) * Z) * Z => let '((p, d), i) := q in (fst p <=? i) && (i <? fst p + d)) (combine (combine (combine before after) sh) o) = in_range sh (shift_by before o).
Proof.
  induction before as [|b before IH]; intros [|a after] [|d sh] [|i o] H1 H2 H3; cbn in H1, H2, H3; try lia; [reflexivity|].
  cbn [combine forallb shift_by map fst snd in_range]. change (map (fun p => snd p - fst p) (combine before o)) with (shift_by before o). rewrite <- (IH after sh o) by lia.
  destruct (forallb _ _); [|rewrite !andb_false_r; reflexivity]. rewrite !andb_true_r. f_equal.
  - destruct (Z.leb_spec b i), (Z.leb_spec 0 (i - b)); reflexivity || lia.
  - destruct (Z.ltb_spec i (b + d)), (Z.ltb_spec (i - b) d); reflexivity || lia.
Qed.
Lemma pad_shift : forall before after o, length before = length after -> map (fun q : (Z * Z) * Z => snd q - fst (fst q)) (combine (combine before after) o) = shift_by before o.
Proof.
  induction before as [|b before IH]; intros [|a after] [|i o] H; cbn in H; try lia; try reflexivity. cbn. f_equal. apply IH. lia.
Qed.
Lemma pad_dims : forall before after sh, length before = length sh -> length after = length sh ->
  let out := map (fun q : (Z * Z) * Z => snd q + fst (fst q) + snd (fst q)) (combine (combine before after) sh) in
  length out = length sh /\ forall a, (a < length sh)%nat -> nth a out 0 = nth a sh 0 + nth a before 0 + nth a after 0.
Proof.
  induction before as [|b before IH]; intros [|a after] [|d sh] H1 H2; cbn in H1, H2; try lia; [split; [reflexivity|cbn; lia]|].
  destruct (IH after sh) as (L & V); [lia..|]. cbn [combine map length fst snd]. split; [cbn in L; lia|]. intros [|j] Hj; [reflexivity|]. cbn [nth]. apply V. lia.
Qed.
Lemma np_pad_ok {T} (x : arr T) before after c : shp x <> [] -> length before = length (shp x) -> length after = length (shp x) -> nonneg before -> nonneg after ->
  exists y, np_pad x (combine before after) "constant" c = SOk y /\ onnx_pad x before after c y.
Proof.
  intros Hx Lb La Nb Na. assert (LC : length (combine before after) = length (shp x)) by (rewrite combine_length; lia).
  unfold np_pad. rewrite LC. destruct (Nat.eqb_spec (length (shp x)) 0) as [E|E]; [destruct (shp x); [elim Hx; reflexivity|discriminate]|]. cbn [orb].
  assert (X : existsb (fun p : Z * Z => (fst p <? 0) || (snd p <? 0)) (combine before after) = false).
  { destruct (existsb _ _) eqn:X; [|reflexivity]. apply existsb_exists in X as ((b, a) & Hin & X). pose proof (in_combine_l _ _ _ _ Hin) as I1. pose proof (in_combine_r _ _ _ _ Hin) as I2.
    unfold nonneg in *. rewrite Forall_forall in Nb, Na. specialize (Nb _ I1). specialize (Na _ I2). cbn in X. apply orb_true_iff in X as [X|X]; apply Z.ltb_lt in X; lia. }
  rewrite X. assert (W : match combine before after with [p] => SOk (repeat p (length (shp x))) | _ => if Nat.eqb (length (shp x)) (length (shp x)) then SOk (combine before after) else SRaise ValueErr end = SOk (combine before after)).
  { rewrite Nat.eqb_refl. destruct (combine before after) as [|p [|q r]]; try reflexivity. cbn in LC. rewrite <- LC. reflexivity. }
  rewrite W. cbn [sbind]. rewrite String.eqb_refl. cbn [negb]. eexists. split; [reflexivity|]. unfold onnx_pad. cbn [shp el]. destruct (pad_dims before after (shp x) Lb La) as (L & V). split; [exact L|]. split; [exact V|].
  intros o Ho. apply in_range_length in Ho. rewrite L in Ho. rewrite pad_inside by lia. rewrite pad_shift by lia. reflexivity.
Qed.

(** ** Reshape *)
Lemma numel_nonneg sh : nonneg sh -> 0 <= numel sh.
Proof. induction 1; cbn; [lia|]. unfold numel in IHForall. nia. Qed.
Lemma seq_from0 b n : seq b n = map (Nat.add b) (seq 0 n).
Proof. revert b. induction n as [|n IH]; intro b; [reflexivity|]. cbn [seq map]. rewrite (IH (S b)), (IH 1%nat), map_map. f_equal; [lia|]. apply map_ext. intro. lia. Qed.
Lemma ravel_indices sh : nonneg sh -> map (ravel sh) (indices sh) = map Z.of_nat (seq 0 (Z.to_nat (numel sh))).
Proof.
  induction 1 as [|d s Hd Hs IH]; [reflexivity|]. pose proof (numel_nonneg s Hs) as Hn. cbn [indices]. rewrite map_flat_map. unfold upto.
  assert (R : numel (d :: s) = d * numel s) by reflexivity. rewrite R. rewrite Z2Nat.inj_mul by lia.
  assert (G : forall m b, flat_map (fun i => map (ravel (d :: s)) (map (cons i) (indices s))) (map Z.of_nat (seq b m)) = map Z.of_nat (seq (b * Z.to_nat (numel s)) (m * Z.to_nat (numel s)))).
  { induction m as [|m IHm]; intro b; [reflexivity|]. cbn [seq map flat_map]. rewrite (IHm (S b)). rewrite map_map. cbn [ravel].
    rewrite <- (map_map (ravel s) (fun r => Z.of_nat b * numel s + r)). rewrite IH, map_map. cbn [Nat.mul]. rewrite seq_app, map_app. f_equal.
    - rewrite (seq_from0 (b * Z.to_nat (numel s))), map_map. apply map_ext. intro j. lia.
    - f_equal. f_equal. lia. }
  rewrite (G (Z.to_nat d) 0%nat). reflexivity.
Qed.
Lemma map_nth_seq {A} (l : list A) d : map (fun j => nth j l d) (seq 0 (length l)) = l.
Proof. induction l as [|a r IH]; [reflexivity|]. cbn [length seq map nth]. f_equal. rewrite (seq_from0 1), map_map. exact IH. Qed.
Lemma indices_length sh : nonneg sh -> Z.of_nat (length (indices sh)) = numel sh.
Proof. intro H. rewrite <- (map_length (ravel sh)), (ravel_indices sh H), map_length, seq_length. pose proof (numel_nonneg sh H). lia. Qed.
Lemma reshape_flat {T} (dflt : T) (x : arr T) sh : nonneg sh -> nonneg (shp x) -> numel sh = numel (shp x) ->
  flat {| shp := sh; el := fun o => nth (Z.to_nat (ravel sh o)) (buffer x) dflt |} = flat x.
Proof.
  intros Hs Hx E. unfold flat at 1. cbn [shp el]. rewrite <- (map_map (ravel sh) (fun r => nth (Z.to_nat r) (buffer x) dflt)), (ravel_indices sh Hs), map_map.
  rewrite (map_ext _ (fun j => nth j (buffer x) dflt)) by (intro; rewrite Nat2Z.id; reflexivity).
  replace (Z.to_nat (numel sh)) with (length (buffer x)); [apply map_nth_seq|]. unfold buffer. rewrite map_length, ndindex_indices. rewrite E, <- (indices_length (shp x) Hx). lia.
Qed.
Lemma positive_nonneg l : positive l -> nonneg l.
Proof. unfold positive, nonneg. apply Forall_impl. intros; lia. Qed.
Lemma filter_all {A} (f : A -> bool) l : (forall a, In a l -> f a = true) -> filter f l = l.
Proof. induction l as [|a r IH]; intro H; [reflexivity|]. cbn. rewrite H by (left; reflexivity). f_equal. apply IH. intros; apply H; right; assumption. Qed.
Lemma filter_none {A} (f : A -> bool) l : (forall a, In a l -> f a = false) -> filter f l = [].
Proof. induction l as [|a r IH]; intro H; [reflexivity|]. cbn. rewrite H by (left; reflexivity). apply IH. intros; apply H; right; assumption. Qed.

Lemma reshape_value_ok {T} (dflt : T) (x : arr T) req : positive (shp x) -> valid_request (shp x) req ->
  (forall out, reshape_of (shp x) req out -> exists y, reshape_value dflt x req = SOk y /\ shp y = out /\ flat y = flat x) /\ (forall y, reshape_value dflt x req = SOk y -> reshape_of (shp x) req (shp y) /\ flat y = flat x).
Proof.
  intros P (R1 & R2 & R3). set (src := shp x) in *. unfold reshape_of.
  destruct (reshape_fill_ok src req 0 P R1 R3) as (ns & E & L & V & C & H). change (Z.of_nat 0) with 0 in E.
  assert (EQ : forall out, (length out = length req /\ (forall i, (i < length req)%nat -> reshape_entry src req out i) /\ elements out = elements src)
               <-> realises ns out /\ elements out = elements src).
  { intro out. split.
    - intros (A & B & D). split; auto. apply H; auto.
    - intros (A & D). assert (LL : length out = length req) by (apply F2_length in A; lia).
      repeat split; auto. apply (proj2 (H out LL) A). }
  unfold reshape_value. fold src. rewrite E. cbn [sbind]. unfold np_reshape.
  assert (X : existsb (fun v => v <? -1) ns = false).
  { destruct (existsb _ ns) eqn:X; [|reflexivity]. apply existsb_exists in X as (v & I & X). apply Z.ltb_lt in X. destruct (V v I); lia. }
  rewrite X. cbn [orb]. fold src. change numel with elements in *.
  assert (CC : count_occ Z.eq_dec ns (-1) = 0%nat \/ count_occ Z.eq_dec ns (-1) = 1%nat) by lia.
  destruct CC as [C0|C1].
  - assert (NI : ~ In (-1) ns) by (apply (count_occ_not_In Z.eq_dec); auto).
    pose proof (pos_of ns V NI) as Pn.
    rewrite (filter_none (Z.eqb (-1))) by (intros a Ia; destruct (Z.eqb_spec (-1) a); [congruence|reflexivity]). cbn [length Nat.ltb Nat.leb Nat.eqb sbind].
    assert (RS : forall out, realises ns out <-> out = ns) by (intro out; apply realises_self; unfold positive in Pn; rewrite Forall_forall in Pn; auto).
    split.
    + intros out HO. apply EQ in HO as (HO & D). apply RS in HO as ->. rewrite D, Z.eqb_refl. cbn [negb]. eexists. split; [reflexivity|]. split; [reflexivity|]. apply reshape_flat; [apply positive_nonneg; exact Pn|apply positive_nonneg; exact P|exact D].
    + intros y Hy. destruct (Z.eqb_spec (elements ns) (elements src)) as [D|D]; [|discriminate]. injection Hy as <-. cbn [shp]. split; [apply EQ; split; [apply RS; reflexivity|exact D]|]. apply reshape_flat; [apply positive_nonneg; exact Pn|apply positive_nonneg; exact P|exact D].
  - destruct (count_split ns C1) as (l1 & l2 & -> & N1 & N2).
    assert (P1 : positive l1) by (apply pos_of; auto; intros; apply V; apply in_or_app; auto).
    assert (P2 : positive l2) by (apply pos_of; auto; intros; apply V; apply in_or_app; simpl; auto).
    assert (EL : forall v, elements (l1 ++ v :: l2) = elements l1 * (v * elements l2)) by (intros v; rewrite elements_app; reflexivity).
    pose proof (elements_pos _ P1). pose proof (elements_pos _ P2). pose proof (elements_pos _ P) as PS.
    assert (K : fold_right Z.mul 1 (filter (fun v => negb (v =? -1)) (l1 ++ -1 :: l2)) = elements l1 * elements l2).
    { rewrite filter_app. cbn [filter Z.eqb Pos.eqb negb]. rewrite !filter_all by (intros a Ia; destruct (Z.eqb_spec a (-1)) as [->|]; [contradiction|reflexivity]). apply elements_app. }
    assert (K1 : length (filter (Z.eqb (-1)) (l1 ++ -1 :: l2)) = 1%nat).
    { rewrite filter_app. cbn [filter Z.eqb Pos.eqb]. rewrite !filter_none by (intros a Ia; destruct (Z.eqb_spec (-1) a) as [<-|]; [contradiction|reflexivity]). reflexivity. }
    rewrite K, K1. cbn [Nat.ltb Nat.leb Nat.eqb]. rewrite replace_m1_app by exact N1. set (Q := elements l1 * elements l2) in *.
    assert (Qp : 0 < Q) by (unfold Q; nia). rewrite (proj2 (Z.eqb_neq Q 0)) by lia.
    assert (RS : forall out, realises (l1 ++ -1 :: l2) out <-> exists d, 0 <= d /\ out = l1 ++ d :: l2).
    { unfold realises. split.
      - intros F. apply Forall2_app_inv_l in F. destruct F as (o1 & o2 & F1 & F2 & ->).
        inversion F2 as [|? d ? t Hd Ht]; subst. simpl in Hd.
        exists d. split; auto. f_equal.
        + apply (proj1 (realises_self l1 ltac:(unfold positive in P1; rewrite Forall_forall in P1; auto) o1) F1).
        + f_equal. apply (proj1 (realises_self l2 ltac:(unfold positive in P2; rewrite Forall_forall in P2; auto) t) Ht).
      - intros (d & Hd & ->). apply Forall2_app.
        + apply (realises_self l1); auto. unfold positive in P1; rewrite Forall_forall in P1; auto.
        + constructor; [simpl; auto|]. apply (realises_self l2); auto. unfold positive in P2; rewrite Forall_forall in P2; auto. }
    assert (NN : forall d, 0 <= d -> nonneg (l1 ++ d :: l2)).
    { intros d Hd. apply Forall_app. split; [apply positive_nonneg; exact P1|]. constructor; [exact Hd|apply positive_nonneg; exact P2]. }
    split.
    + intros out HO. apply EQ in HO as (HO & D). apply RS in HO as (d & Hd & ->). assert (DD : elements src = d * Q) by (rewrite <- D, EL; unfold Q; ring).
      rewrite DD, Z.mod_mul, Z.div_mul by lia. cbn [Z.eqb negb sbind]. rewrite <- DD, D, Z.eqb_refl. cbn [negb]. eexists. split; [reflexivity|]. split; [reflexivity|]. apply reshape_flat; [apply NN; exact Hd|apply positive_nonneg; exact P|exact D].
    + intros y Hy. destruct (elements src mod Q =? 0) eqn:M; [|discriminate]. cbn [negb sbind] in Hy.
      destruct (Z.eqb_spec (elements (l1 ++ elements src / Q :: l2)) (elements src)) as [D|D]; [|discriminate]. injection Hy as <-. cbn [shp].
      assert (0 <= elements src / Q) by (apply Z.div_pos; lia). split; [apply EQ; split; [apply RS; eauto|exact D]|]. apply reshape_flat; [apply NN; assumption|apply positive_nonneg; exact P|exact D].
Qed.

(** ** ReduceSum *)
Lemma np_axes_ok n axes : valid_axes n axes -> np_axes (Z.of_nat n) axes = SOk (map (axis_pos n) axes).
Proof.
  intros (R & D). induction axes as [|a r IH]; [reflexivity|]. cbn [np_axes map] in *. pose proof (R a (or_introl eq_refl)) as Ra.
  rewrite np_axis_pos by exact Ra. rewrite <- (Z2Nat.id (axis_pos n a)) at 1 by lia. rewrite np_axis_ok by lia. cbn [sbind]. inversion D as [|? ? Nin D']; subst.
  rewrite IH; [cbn [sbind]|intros; apply R; right; assumption|exact D']. rewrite Z2Nat.id by lia. unfold zmem. destruct (existsb _ _) eqn:X; [|reflexivity]. apply existsb_exists in X as (b & Ib & X). apply Z.eqb_eq in X. subst b. contradiction.
Qed.
Lemma drop_outside axes (x : list Z) : reduce_loop axes false x 0 = dims_outside axes x.
Proof. rewrite reduce_drop. change 0 with (Z.of_nat 0). rewrite keep_axes_spec. reflexivity. Qed.
Lemma sum_filter {A} (p : A -> bool) (f : A -> Z) l : forall s, fold_left (fun s i => if p i then s + f i else s) l s = s + fold_right Z.add 0 (map f (filter p l)).
Proof.
  induction l as [|a r IH]; intro s; cbn [fold_left filter map fold_right]; [lia|]. rewrite IH. destruct (p a); cbn [map fold_right]; lia.
Qed.
Lemma np_sum_ok (x : arr Z) arg axes keep : (arg = ATuple axes /\ valid_axes (length (shp x)) axes) \/ (arg = ANone /\ axes = zrange (length (shp x))) ->
  exists y, np_sum x arg keep = SOk y /\ reduce_shape (Some axes) keep (shp x) = Some (shp y) /\ forall o, el y o = onnx_sum x axes (if keep then dims_outside (map (axis_pos (length (shp x))) axes) o else o).
Proof.
  intro H. assert (E : exists l, (match arg with ANone => SOk (zrange (length (shp x))) | ATuple l => np_axes (zlen (shp x)) l | AList _ | AArray _ => SRaise TypeErr end) = SOk l /\ l = map (axis_pos (length (shp x))) axes).
  { destruct H as [(-> & Hv)|(-> & ->)].
    - unfold zlen. rewrite np_axes_ok by exact Hv. eauto.
    - eexists. split; [reflexivity|]. symmetry. apply axis_pos_id. intros a Ha. unfold zrange in Ha. apply in_map_iff in Ha as (k & <- & _). lia. }
  destruct E as (l & E & El). unfold np_sum. rewrite E. cbn [sbind]. eexists. split; [reflexivity|]. cbn [shp el]. split.
  - unfold reduce_shape. unfold zlen. rewrite axes_pos_neg2pos, <- El. reflexivity.
  - intro o. rewrite <- El. cbv zeta. rewrite (sum_filter _ (el x)). unfold onnx_sum. rewrite <- El, Z.add_0_l. f_equal. f_equal. apply filter_ext. intro i. unfold shape_eqb. rewrite drop_outside.
    replace (if keep then reduce_loop l false o 0 else o) with (if keep then dims_outside l o else o) by (destruct keep; [rewrite drop_outside|]; reflexivity). reflexivity.
Qed.
