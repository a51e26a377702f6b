(** Unsqueeze, Squeeze and Split. *)
From Verif Require Import PyBase GraphModel FloatPy ShapeModel ShapeSpec BcastProofs WindowProofs SliceProofs LayoutProofs CostSpec ValueModel ValueSpec ValueProofs.
From Coq Require Import Lia Sorted.
Open Scope list_scope. Open Scope Z_scope.

(** the entries of [l] (numbered from [k]) whose number is not one of [axes] *)
Definition dout (k : nat) (axes l : list Z) : list Z :=
  map snd (filter (fun p => negb (existsb (Z.eqb (Z.of_nat (fst p))) axes)) (combine (seq k (length l)) l)).
Lemma dims_outside_dout axes l : dims_outside axes l = dout 0 axes l. Proof. reflexivity. Qed.
Lemma dout_cons k axes v l : dout k axes (v :: l) = (if existsb (Z.eqb (Z.of_nat k)) axes then [] else [v]) ++ dout (S k) axes l.
Proof. unfold dout. simpl. destruct (existsb (Z.eqb (Z.of_nat k)) axes); reflexivity. Qed.
Lemma dout_app l1 : forall k axes l2, dout k axes (l1 ++ l2) = dout k axes l1 ++ dout (k + length l1) axes l2.
Proof.
  induction l1 as [|v l1 IH]; intros k axes l2; [simpl; rewrite Nat.add_0_r; reflexivity|].
  simpl app. rewrite !dout_cons, IH, app_assoc. simpl length. replace (S k + length l1)%nat with (k + S (length l1))%nat by lia. reflexivity.
Qed.
Lemma existsb_eqb k axes : existsb (Z.eqb k) axes = true <-> In k axes.
Proof. rewrite existsb_exists. split; [intros (y & I & E); apply Z.eqb_eq in E; subst; exact I|intro I; exists k; split; [exact I|apply Z.eqb_refl]]. Qed.
Lemma dout_id l : forall k axes, (forall a, In a axes -> a < Z.of_nat k \/ Z.of_nat (k + length l) <= a) -> dout k axes l = l.
Proof.
  induction l as [|v l IH]; intros k axes H; [reflexivity|]. rewrite dout_cons.
  destruct (existsb (Z.eqb (Z.of_nat k)) axes) eqn:E; [apply existsb_eqb in E; destruct (H _ E); simpl in *; lia|].
  simpl. f_equal. apply IH. intros a I. destruct (H a I); [left|right]; simpl in *; lia.
Qed.
Lemma dout_ext l : forall k axes axes', (forall i, (i < length l)%nat -> (In (Z.of_nat (k + i)) axes <-> In (Z.of_nat (k + i)) axes')) -> dout k axes l = dout k axes' l.
Proof.
  induction l as [|v l IH]; intros k axes axes' H; [reflexivity|]. rewrite !dout_cons. f_equal.
  - destruct (existsb (Z.eqb (Z.of_nat k)) axes) eqn:E, (existsb (Z.eqb (Z.of_nat k)) axes') eqn:E'; auto; exfalso.
    + apply existsb_eqb in E. specialize (H 0%nat ltac:(simpl; lia)). rewrite Nat.add_0_r in H. apply H in E. apply existsb_eqb in E. congruence.
    + apply existsb_eqb in E'. specialize (H 0%nat ltac:(simpl; lia)). rewrite Nat.add_0_r in H. apply H in E'. apply existsb_eqb in E'. congruence.
  - apply IH. intros i Hi. specialize (H (S i) ltac:(simpl; lia)). replace (S k + i)%nat with (k + S i)%nat by lia. exact H.
Qed.
Lemma dout_shift l : forall k axes, dout (S k) axes l = dout k (map (fun a => a - 1) axes) l.
Proof.
  induction l as [|v l IH]; intros k axes; [reflexivity|]. rewrite !dout_cons, IH. f_equal.
  assert (E : existsb (Z.eqb (Z.of_nat (S k))) axes = existsb (Z.eqb (Z.of_nat k)) (map (fun a => a - 1) axes)).
  { clear. induction axes as [|a r IH]; [reflexivity|]. cbn [existsb map]. rewrite IH. f_equal.
    destruct (Z.eqb_spec (Z.of_nat (S k)) a), (Z.eqb_spec (Z.of_nat k) (a - 1)); auto; lia. }
  rewrite E. reflexivity.
Qed.
Lemma split_at_nth (l : list Z) a : (a < length l)%nat -> exists l1 l2, l = l1 ++ nth a l 0 :: l2 /\ length l1 = a.
Proof. intro H. destruct (nth_split l 0 H) as (l1 & l2 & E & L). eauto. Qed.
Lemma dout_first (l : list Z) a rest : (a < length l)%nat -> (forall b, In b rest -> Z.of_nat a < b) ->
  dout 0 (Z.of_nat a :: rest) l = remove_at (dout 0 rest l) a /\ nth a (dout 0 rest l) 0 = nth a l 0 /\ (a < length (dout 0 rest l))%nat
  /\ dout 0 (Z.of_nat a :: rest) l = dout 0 (map (fun b => b - 1) rest) (remove_at l a).
Proof.
  intros H Hr. destruct (split_at_nth l a H) as (l1 & l2 & E & L). rewrite E. generalize (nth a l 0). intro v. clear E H.
  assert (A1 : forall ax, (forall b, In b ax -> Z.of_nat a <= b) -> dout 0 ax l1 = l1).
  { intros ax Hax. apply dout_id. intros b I. right. specialize (Hax b I). simpl. lia. }
  assert (A2 : dout 0 (Z.of_nat a :: rest) (l1 ++ v :: l2) = l1 ++ dout (S a) rest l2).
  { rewrite dout_app, A1 by (intros b [<-|I]; [lia|specialize (Hr b I); lia]). f_equal. rewrite dout_cons, L.
    cbn [Nat.add]. assert (X : existsb (Z.eqb (Z.of_nat a)) (Z.of_nat a :: rest) = true) by (apply existsb_eqb; left; reflexivity). rewrite X. simpl app.
    apply dout_ext. intros i Hi. split; [intros [X'|X']; [lia|exact X']|intro; right; assumption]. }
  assert (A3 : dout 0 rest (l1 ++ v :: l2) = l1 ++ v :: dout (S a) rest l2).
  { rewrite dout_app, A1 by (intros b I; specialize (Hr b I); lia). f_equal. rewrite dout_cons, L.
    cbn [Nat.add]. assert (X : existsb (Z.eqb (Z.of_nat a)) rest = false).
    { destruct (existsb (Z.eqb (Z.of_nat a)) rest) eqn:X; [|reflexivity]. apply existsb_eqb in X. specialize (Hr _ X). lia. }
    rewrite X. reflexivity. }
  rewrite A2, A3. split; [|split; [|split]].
  - unfold remove_at. rewrite firstn_app, <- L, Nat.sub_diag, firstn_all. simpl firstn. rewrite app_nil_r. f_equal.
    rewrite skipn_app. replace (S (length l1) - length l1)%nat with 1%nat by lia. rewrite (skipn_all2 l1) by lia. reflexivity.
  - rewrite !app_nth2 by lia. rewrite L, Nat.sub_diag. reflexivity.
  - rewrite app_length. simpl. lia.
  - unfold remove_at. rewrite firstn_app, <- L, Nat.sub_diag, firstn_all. simpl firstn. rewrite app_nil_r.
    rewrite skipn_app. replace (S (length l1) - length l1)%nat with 1%nat by lia. rewrite (skipn_all2 l1) by lia. simpl skipn. simpl app.
    rewrite dout_app, L. f_equal; [|simpl; apply dout_shift].
    symmetry. apply dout_id. intros b I. apply in_map_iff in I as (c & <- & I). specialize (Hr c I). right. simpl. lia.
Qed.

Lemma remove_mid (l1 l2 : list Z) v : remove_at (l1 ++ v :: l2) (length l1) = l1 ++ l2.
Proof.
  unfold remove_at. rewrite firstn_app, Nat.sub_diag, firstn_all. cbn [firstn]. rewrite app_nil_r. f_equal.
  rewrite skipn_app. replace (S (length l1) - length l1)%nat with 1%nat by lia. rewrite (skipn_all2 l1) by lia. reflexivity.
Qed.
Lemma insert_mid (l1 l2 : list Z) v : insert_at (l1 ++ l2) (length l1) v = l1 ++ v :: l2.
Proof.
  unfold insert_at. rewrite firstn_app, Nat.sub_diag, firstn_all. cbn [firstn]. rewrite app_nil_r. f_equal. f_equal.
  rewrite skipn_app, skipn_all, Nat.sub_diag. reflexivity.
Qed.
Lemma remove_insert (l : list Z) a v : (a <= length l)%nat -> remove_at (insert_at l a v) a = l.
Proof.
  intro H. rewrite <- (firstn_skipn a l). assert (L : length (firstn a l) = a) by (rewrite firstn_length; lia).
  generalize dependent (firstn a l). intros l1 L. rewrite <- L. rewrite insert_mid, remove_mid. reflexivity.
Qed.
Lemma insert_remove (l : list Z) a : (a < length l)%nat -> insert_at (remove_at l a) a (nth a l 0) = l.
Proof.
  intro H. destruct (split_at_nth l a H) as (l1 & l2 & E & L). revert E. generalize (nth a l 0). intros v E. rewrite E, <- L.
  rewrite remove_mid, insert_mid. reflexivity.
Qed.
Lemma insert_length (l : list Z) a v : (a <= length l)%nat -> length (insert_at l a v) = S (length l).
Proof. intro H. unfold insert_at. rewrite app_length. simpl. rewrite firstn_length, skipn_length. lia. Qed.
Lemma nth_insert (l : list Z) a v : (a <= length l)%nat -> nth a (insert_at l a v) 0 = v.
Proof. intro H. unfold insert_at. rewrite app_nth2; rewrite firstn_length; [|lia]. replace (a - Nat.min a (length l))%nat with 0%nat by lia. reflexivity. Qed.
Lemma np_axis_ok (r a : nat) : (a < r)%nat -> np_axis (Z.of_nat r) (Z.of_nat a) = SOk a.
Proof.
  intro H. unfold np_axis. destruct (Z.ltb_spec (Z.of_nat a) (- Z.of_nat r)); [lia|]. destruct (Z.leb_spec (Z.of_nat r) (Z.of_nat a)); [lia|].
  cbn [orb]. destruct (Z.ltb_spec (Z.of_nat a) 0); [lia|]. rewrite Nat2Z.id. reflexivity.
Qed.
Lemma ascending_above a r : StronglySorted Z.lt (a :: r) -> forall b, In b r -> a < b.
Proof. intros H b I. inversion H; subst. rewrite Forall_forall in *. auto. Qed.
(** strictly ascending axes below [n] leave room for the rest *)
Lemma ascending_room axes : StronglySorted Z.lt axes -> forall n, (forall a, In a axes -> a < n) -> forall a r, axes = a :: r -> a + Z.of_nat (length r) < n.
Proof.
  induction 1 as [|x l HS IH HF]; intros n Hn a r E; [discriminate|]. injection E as <- <-.
  destruct l as [|y l]; [simpl; specialize (Hn x (or_introl eq_refl)); lia|].
  specialize (IH n (fun b I => Hn b (or_intror I)) y l eq_refl). inversion HF; subst. simpl length in *. lia.
Qed.

Section Squeezing.
Context {T : Type}.
Lemma unsqueeze_ascending axes : StronglySorted Z.lt axes -> forall (x : arr T),
  (forall a, In a axes -> 0 <= a < Z.of_nat (length (shp x) + length axes)) ->
  exists y, unsqueeze_value axes x = SOk y /\ length (shp y) = (length (shp x) + length axes)%nat
    /\ (forall a, In a axes -> nth (Z.to_nat a) (shp y) 0 = 1) /\ dout 0 axes (shp y) = shp x
    /\ forall i, length i = length (shp y) -> el y i = el x (dout 0 axes i).
Proof.
  induction 1 as [|a axes HS IH HF]; intros x Ha.
  - exists x. simpl. split; [reflexivity|]. split; [lia|]. split; [intros a []|].
    assert (D : forall l, dout 0 [] l = l) by (intro l; apply dout_id; intros b []). split; [apply D|]. intros i _. rewrite D. reflexivity.
  - assert (Hs : StronglySorted Z.lt (a :: axes)) by (constructor; assumption). rewrite Forall_forall in HF.
    assert (H0 : 0 <= a) by (apply Ha; left; reflexivity).
    assert (Hr : a + Z.of_nat (length axes) < Z.of_nat (length (shp x) + S (length axes))).
    { apply (ascending_room (a :: axes) Hs _ (fun b I => proj2 (Ha b I)) a axes eq_refl). }
    set (k := Z.to_nat a). assert (Ek : a = Z.of_nat k) by (unfold k; lia). assert (Hk : (k <= length (shp x))%nat) by lia.
    set (x1 := {| shp := insert_at (shp x) k 1; el := fun i => el x (remove_at i k) |}).
    assert (E1 : np_expand_dims a x = SOk x1). { unfold np_expand_dims. rewrite Ek, np_axis_ok by lia. reflexivity. }
    assert (L1 : length (shp x1) = S (length (shp x))) by (apply insert_length; exact Hk).
    destruct (IH x1) as (y & Ey & Ly & Oy & Dy & Vy).
    { intros b I. specialize (Ha b (or_intror I)). simpl length in Ha. rewrite L1. lia. }
    exists y. simpl length. split; [cbn [unsqueeze_value]; rewrite E1; exact Ey|]. split; [lia|].
    assert (Hlt : forall b, In b axes -> Z.of_nat k < b) by (intros b I; rewrite <- Ek; apply HF; exact I).
    destruct (dout_first (shp y) k axes ltac:(lia) Hlt) as (R1 & R2 & _ & _). rewrite Ek. split; [|split].
    + intros b [<-|I]; [|apply Oy; exact I]. rewrite Nat2Z.id. rewrite <- R2, Dy. apply nth_insert. exact Hk.
    + rewrite R1, Dy. apply remove_insert. exact Hk.
    + intros i Hi. rewrite (Vy i Hi). destruct (dout_first i k axes ltac:(lia) Hlt) as (Q1 & _). rewrite Q1. reflexivity.
Qed.
Lemma squeeze_values_plus axes : forall k j (x : arr T), squeeze_values axes (k + j) x = squeeze_values (map (fun a => a - k) axes) j x.
Proof.
  induction axes as [|a r IH]; intros k j x; [reflexivity|]. cbn [squeeze_values map]. replace (a - (k + j)) with (a - k - j) by lia.
  destruct (np_squeeze (a - k - j) x); cbn [sbind]; [|reflexivity]. replace (k + j + 1) with (k + (j + 1)) by lia. apply IH.
Qed.
Lemma squeeze_values_shift axes k (x : arr T) : squeeze_values axes k x = squeeze_values (map (fun a => a - k) axes) 0 x.
Proof. rewrite <- squeeze_values_plus. f_equal. lia. Qed.
Lemma squeeze_ascending n : forall axes (x : arr T), length axes = n -> StronglySorted Z.lt axes ->
  (forall a, In a axes -> 0 <= a < Z.of_nat (length (shp x)) /\ nth (Z.to_nat a) (shp x) 0 = 1) ->
  exists y, squeeze_values axes 0 x = SOk y /\ shp y = dout 0 axes (shp x)
    /\ forall o, in_range (shp x) o = true -> el x o = el y (dout 0 axes o).
Proof.
  induction n as [|n IH]; intros axes x Hn Hs Ha; destruct axes as [|a axes]; try discriminate Hn.
  - exists x. assert (D : forall l, dout 0 [] l = l) by (intro l; apply dout_id; intros b []). split; [reflexivity|]. split; [rewrite D; reflexivity|].
    intros o _. rewrite D. reflexivity.
  - inversion Hs as [|? ? HS HF]; subst. rewrite Forall_forall in HF. destruct (Ha a (or_introl eq_refl)) as (Hra & H1).
    set (k := Z.to_nat a). assert (Ek : a = Z.of_nat k) by (unfold k; lia). assert (Hk : (k < length (shp x))%nat) by lia.
    set (x1 := {| shp := remove_at (shp x) k; el := fun i => el x (insert_at i k 0) |}).
    assert (E1 : np_squeeze a x = SOk x1). { unfold np_squeeze. rewrite Ek, np_axis_ok by lia. cbn [sbind]. fold k in H1. rewrite H1. reflexivity. }
    assert (Hlt : forall b, In b axes -> Z.of_nat k < b) by (intros b I; rewrite <- Ek; apply HF; exact I).
    assert (Lrem : forall l : list Z, (k < length l)%nat -> length (remove_at l k) = (length l - 1)%nat).
    { intros l Hl. unfold remove_at. rewrite app_length, firstn_length, skipn_length. lia. }
    assert (Nrem : forall l b, (k < length l)%nat -> Z.of_nat k < b -> nth (Z.to_nat (b - 1)) (remove_at l k) 0 = nth (Z.to_nat b) l 0).
    { intros l b Hl Hb. unfold remove_at. rewrite app_nth2; rewrite firstn_length; [|lia]. destruct (split_at_nth l k Hl) as (l1 & l2 & E & L).
      rewrite E. replace (S k) with (length l1 + 1)%nat by lia. rewrite skipn_app, (skipn_all2 l1) by lia. replace (length l1 + 1 - length l1)%nat with 1%nat by lia.
      simpl skipn. simpl app. rewrite app_nth2 by lia. rewrite app_length. simpl length.
      replace (Z.to_nat b - length l1)%nat with (S (Z.to_nat (b - 1) - Nat.min k (length l1 + S (length l2))))%nat by lia. reflexivity. }
    destruct (IH (map (fun b => b - 1) axes) x1) as (y & Ey & Sy & Vy).
    { rewrite map_length. simpl in Hn. lia. }
    { clear - HS. induction HS; simpl; constructor; auto. rewrite Forall_forall in *. intros b I. apply in_map_iff in I as (c & <- & I). specialize (H c I). lia. }
    { intros b I. apply in_map_iff in I as (c & <- & I). destruct (Ha c (or_intror I)) as (R & O). specialize (Hlt c I).
      unfold x1; cbn [shp]. rewrite Lrem by exact Hk. split; [lia|]. rewrite Nrem by (try exact Hk; lia). exact O. }
    exists y. split; [|split].
    + cbn [squeeze_values]. rewrite Z.sub_0_r, E1. cbn [sbind]. rewrite squeeze_values_shift. exact Ey.
    + rewrite Sy. unfold x1; cbn [shp]. rewrite Ek. symmetry. apply dout_first; assumption.
    + intros o Ho. apply in_range_spec in Ho as Ho'. destruct Ho' as (Lo & Ro).
      assert (Z0 : nth k o 0 = 0). { specialize (Ro k Hk). fold k in H1. lia. }
      assert (E : el x o = el x1 (remove_at o k)). { unfold x1; cbn [el]. rewrite <- Z0 at 1. rewrite insert_remove by lia. reflexivity. }
      rewrite E, Vy.
      * rewrite Ek. f_equal. symmetry. apply dout_first; [lia|exact Hlt].
      * apply in_range_spec. unfold x1; cbn [shp]. rewrite !Lrem by lia. split; [lia|]. intros b Hb.
        destruct (Nat.lt_ge_cases b k) as [Lt|Ge].
        -- unfold remove_at. rewrite !app_nth1 by (rewrite firstn_length; lia).
           assert (F : forall l : list Z, nth b (firstn k l) 0 = nth b l 0) by (intro l; rewrite <- (firstn_skipn k l) at 2; destruct (Nat.lt_ge_cases b (length l)); [rewrite app_nth1 by (rewrite firstn_length; lia); reflexivity|rewrite !nth_overflow; [reflexivity|rewrite firstn_skipn; lia|rewrite firstn_length; lia]]).
           rewrite !F. apply Ro. lia.
        -- specialize (Nrem o (Z.of_nat (S b)) ltac:(lia) ltac:(lia)) as No. specialize (Nrem (shp x) (Z.of_nat (S b)) ltac:(lia) ltac:(lia)) as Nx.
           replace (Z.to_nat (Z.of_nat (S b) - 1)) with b in No, Nx by lia. rewrite Nat2Z.id in No, Nx. rewrite No, Nx. apply Ro. lia.
Qed.
End Squeezing.

(** *** Split *)
Section Splitting.
Context {T : Type}.
Lemma np_slice_one (x : arr T) a from to : (a < length (shp x))%nat -> 0 <= from <= to -> to <= nth a (shp x) 0 ->
  exists y, np_slice a from to 1 x = SOk y /\ shp y = with_dim (shp x) a (to - from) /\
    forall i, in_range (shp y) i = true -> in_range (shp x) (shifted i a from) = true /\ el y i = el x (shifted i a from).
Proof.
  intros Ha Hf Ht. unfold np_slice. destruct (Nat.leb_spec (length (shp x)) a); [lia|]. change (1 =? 0) with false. cbn iota. eexists. split; [reflexivity|].
  set (n := nth a (shp x) 0) in *.
  assert (A : forall i, 0 <= i <= n -> adjust n 1 i = i). { intros i Hi. unfold adjust. destruct (Z.ltb_spec i 0); [lia|]. destruct (Z.leb_spec n i); simpl; lia. }
  assert (L : slice_len n from to 1 = to - from). { unfold slice_len. rewrite !A by lia. change (1 <? 0) with false. cbn iota. destruct (Z.ltb_spec from to); rewrite ?Z.div_1_r; lia. }
  cbn [shp el]. rewrite L. split; [apply set_nth_with; exact Ha|]. intros i Hi. apply in_range_spec in Hi as (Li & Ri). rewrite set_nth_length in Li, Ri.
  unfold slice_start. rewrite A by lia. unfold shifted. rewrite <- set_nth_with by lia. replace (from + nth a i 0 * 1) with (nth a i 0 + from) by lia. split; [|reflexivity].
  apply in_range_spec. rewrite set_nth_length. split; [exact Li|]. intros b Hb. specialize (Ri b Hb). destruct (Nat.eq_dec b a) as [->|D].
  - rewrite set_nth_same in * by lia. fold n. lia.
  - rewrite set_nth_other in * by congruence. exact Ri.
Qed.
Lemma split_pieces (x : arr T) a : (a < length (shp x))%nat -> forall sizes from,
  sizes <> [] -> Forall (fun v => 0 <= v) sizes -> 0 < last sizes 0 -> 0 <= from -> from + fold_right Z.add 0 sizes = nth a (shp x) 0 ->
  exists ys, smap (fun r => r) (np_split_from a from (split_positions (nth a (shp x) 0) sizes from) x) = SOk ys
    /\ onnx_split x a from sizes ys /\ length ys = length sizes.
Proof.
  intro Ha. induction sizes as [|v r IH]; intros from Hne Hp Hl Hf Hsum; [contradiction|]. inversion Hp as [|? ? Hv Hr]; subst.
  destruct r as [|w r].
  - cbn [fold_right last] in Hsum, Hl. cbn [split_positions]. destruct (Z.leb_spec (nth a (shp x) 0) (from + v)); [|lia]. cbn [np_split_from smap].
    destruct (np_slice_one x a from (nth a (shp x) 0) Ha) as (y & Ey & Sy & Vy); [lia|lia|]. rewrite Ey. cbn [sbind]. exists [y].
    split; [reflexivity|]. split; [|reflexivity]. cbn [onnx_split]. split; [rewrite Sy; f_equal; lia|]. split; [exact Vy|exact I].
  - assert (Pos : 0 < fold_right Z.add 0 (w :: r)).
    { assert (G : forall l, l <> [] -> Forall (fun v => 0 <= v) l -> 0 < last l 0 -> 0 < fold_right Z.add 0 l).
      { clear. induction l as [|z [|z' l] IH]; intros Hn Hp Hl; [contradiction|simpl in *; lia|]. inversion Hp; subst.
        specialize (IH ltac:(discriminate) ltac:(assumption) Hl). cbn [fold_right] in *. lia. }
      apply G; [discriminate|exact Hr|exact Hl]. }
    change (fold_right Z.add 0 (v :: w :: r)) with (v + fold_right Z.add 0 (w :: r)) in Hsum.
    destruct (IH (from + v)) as (ys & Ey & Sy & Ly); [discriminate|exact Hr|exact Hl|lia|lia|].
    assert (Sp : split_positions (nth a (shp x) 0) (v :: w :: r) from = (from + v) :: split_positions (nth a (shp x) 0) (w :: r) (from + v)).
    { cbn [split_positions]. destruct (Z.leb_spec (nth a (shp x) 0) (from + v)); [lia|reflexivity]. }
    rewrite Sp. cbn [np_split_from smap]. destruct (np_slice_one x a from (from + v) Ha) as (y & E1 & S1 & V1); [lia|lia|].
    rewrite E1. cbn [sbind]. rewrite Ey. cbn [sbind]. exists (y :: ys). split; [reflexivity|]. split; [|cbn [length] in *; lia].
    cbn [onnx_split]. split; [rewrite S1; f_equal; lia|]. split; [exact V1|exact Sy].
Qed.
Theorem split_value_ok (x : arr T) axis a sizes nout (attr : bool) :
  axis_pos (length (shp x)) axis = Z.of_nat a -> (a < length (shp x))%nat ->
  sizes <> [] -> Forall (fun v => 0 <= v) sizes -> 0 < last sizes 0 -> fold_right Z.add 0 sizes = nth a (shp x) 0 -> (length sizes <= nout)%nat ->
  exists ys, split_value (Some axis) (if attr then Some sizes else None) (if attr then None else Some sizes) nout x = SOk ys
    /\ onnx_split x a 0 sizes ys.
Proof.
  intros Hax Ha Hne Hp Hl Hsum Hn. destruct (split_pieces x a Ha sizes 0 Hne Hp Hl ltac:(lia) ltac:(lia)) as (ys & Ey & Sy & Ly).
  exists ys. split; [|exact Sy]. unfold split_value.
  assert (E0 : (if axis <? 0 then zlen (shp x) + axis else axis) = Z.of_nat a) by (unfold axis_pos in Hax; unfold zlen; destruct (axis <? 0); lia).
  assert (S : forall d, split_sizes (if attr then Some sizes else None) (if attr then None else Some sizes) d nout = SOk sizes) by (intro; destruct attr; reflexivity).
  destruct attr; cbn [sbind]; unfold split_sizes; cbn [sbind]; rewrite E0, (py_index_nth _ a 0) by exact Ha; cbn [sbind]; rewrite Nat2Z.id; unfold np_split;
    rewrite Ey; cbn [sbind]; rewrite Ly; (destruct (Nat.leb_spec (length sizes) nout); [reflexivity|lia]).
Qed.
End Splitting.
