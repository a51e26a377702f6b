From Coq Require Import Reals.
From Verif Require Import PyBase GraphModel FloatPy ShapeModel RegressModel ShapeSpec BcastProofs LayoutProofs CostSpec ValueModel ValueModel2 ValueModel3 ValueModel4 ValueSpec ValueSpec3 ValueSpec4 ValueProofs ValueProofs2 ValueProofs3 ValueProofs4 ValueProofs5 ValueProofs6 ValueProofs7.
From Coq Require Import Lia Bool Sorted Lra.
From Flocq Require Import Core.
Open Scope list_scope. Open Scope Z_scope.

Lemma first_exact {A} (l r : list A) : firstn (length l) (l ++ r) = l.
Proof. induction l as [|x l IH]; cbn; [destruct r; reflexivity|f_equal; exact IH]. Qed.
Lemma skip_exact {A} (l r : list A) : skipn (length l) (l ++ r) = r.
Proof. induction l as [|x l IH]; [reflexivity|exact IH]. Qed.
(** ** Gather *)
Lemma take_in {T} (x : arr T) ind axis a : axis_pos (length (shp x)) axis = Z.of_nat a -> (a < length (shp x))%nat ->
  (indices_valid ind (nth a (shp x) 0) -> exists y, np_take x ind axis = SOk y /\ onnx_gather x ind a y) /\
  (~ indices_valid ind (nth a (shp x) 0) -> np_take x ind axis = SRaise IndexErr).
Proof.
  intros A L. unfold np_take. change (zlen (shp x)) with (Z.of_nat (length (shp x))). rewrite np_axis_pos by (rewrite A; lia). rewrite A, np_axis_ok by exact L. cbn [sbind].
  assert (X : forallb (fun i => (- nth a (shp x) 0 <=? el ind i) && (el ind i <? nth a (shp x) 0)) (ndindex (shp ind)) = true <-> indices_valid ind (nth a (shp x) 0)).
  { rewrite forallb_forall. unfold indices_valid. rewrite ndindex_indices. split; intros H i Hi.
    - apply in_indices in Hi. apply H in Hi. apply andb_true_iff in Hi as [H1 H2]. apply Z.leb_le in H1. apply Z.ltb_lt in H2. lia.
    - apply indices_in in Hi. apply H in Hi. apply andb_true_iff. rewrite Z.leb_le, Z.ltb_lt. lia. }
  split; intros H.
  - rewrite (proj2 X H). eexists. split; [reflexivity|]. split; [reflexivity|]. cbn [el shp]. intros pre mid post R1 R2 R3.
    apply in_range_length in R1 as L1. rewrite firstn_length_le in L1 by lia. apply in_range_length in R2 as L2.
    rewrite <- L1, <- L2. rewrite (skip_exact pre), (first_exact pre), (first_exact mid). replace (skipn (length pre + length mid) (pre ++ mid ++ post)) with post; [reflexivity|].
    rewrite app_assoc, <- app_length, skip_exact. reflexivity.
  - destruct (forallb _ _) eqn:F; [|reflexivity]. exfalso. apply H, X. reflexivity.
Qed.

(** ** broadcasting *)
Lemma nth_from_right (l : list Z) j d : (j < length l)%nat -> nth j (rev l) d = nth (length l - S j) l d.
Proof. intros H. apply rev_nth. exact H. Qed.
Lemma nth_skip n : forall (l : list Z) k d, nth k (skipn n l) d = nth (n + k) l d.
Proof. induction n as [|n IH]; intros l k d; [reflexivity|]. destruct l as [|v l]; [destruct k; reflexivity|]. cbn [skipn Nat.add nth]. apply IH. Qed.
Lemma nth_map {A B} (f : A -> B) l k e d : (k < length l)%nat -> nth k (map f l) e = f (nth k l d).
Proof. revert k. induction l as [|v l IH]; intros k H; [cbn in H; lia|]. destruct k; [reflexivity|]. cbn [map nth]. apply IH. cbn in H. lia. Qed.
Lemma bc_index_source sh o : (length sh <= length o)%nat -> broadcast_source sh o (bc_index sh o).
Proof.
  intros L. unfold broadcast_source, bc_index. assert (LS : length (skipn (length o - length sh) o) = length sh) by (rewrite skipn_length; lia).
  assert (LC : length (combine sh (skipn (length o - length sh) o)) = length sh) by (rewrite combine_length; lia).
  split; [rewrite map_length; exact LC|]. intros j Hj. unfold dim_from_right.
  rewrite (nth_indep _ 1 0) by (rewrite rev_length, map_length; lia). rewrite nth_from_right by (rewrite map_length; lia). rewrite map_length, LC, (nth_from_right sh) by lia. rewrite (nth_from_right o) by lia.
  rewrite (nth_map _ _ _ _ (1, 1)) by lia. rewrite combine_nth by lia. cbn [fst snd]. rewrite nth_skip. replace (length o - length sh + (length sh - S j))%nat with (length o - S j)%nat by lia. reflexivity.
Qed.
Lemma source_in_range ss out sh o i : In sh ss -> broadcast_of ss out -> in_range out o = true -> broadcast_source sh o i -> in_range sh i = true.
Proof.
  intros I0 (B1 & _ & _ & B) R (L & S0). pose proof (B1 sh I0) as LL. apply in_range_spec in R as (Lo & Ro). apply in_range_spec. split; [exact L|]. intros a Ha.
  specialize (S0 (length sh - S a)%nat ltac:(lia)). unfold dim_from_right in S0. rewrite (nth_indep _ 1 0) in S0 by (rewrite rev_length; lia). rewrite !nth_from_right in S0 by lia. rewrite L in S0.
  replace (length sh - S (length sh - S a))%nat with a in S0 by lia. rewrite (nth_indep sh 1 0) in S0 by lia. rewrite (nth_indep o 1 0) in S0 by lia. rewrite S0.
  specialize (B (length sh - S a)%nat ltac:(lia)) as (B2 & _). specialize (B2 (dim_from_right sh (length sh - S a)) (in_map (fun s => dim_from_right s (length sh - S a)) ss sh I0)).
  unfold dim_from_right in B2. rewrite !nth_from_right in B2 by lia. replace (length sh - S (length sh - S a))%nat with a in B2 by lia. rewrite (nth_indep sh 1 0) in B2 by lia. rewrite (nth_indep out 1 0) in B2 by lia.
  rewrite <- Lo in B2. specialize (Ro (length out - S (length sh - S a))%nat ltac:(lia)). rewrite <- Lo in Ro.
  destruct (Z.eqb_spec (nth a sh 0) 1) as [->|N]; [lia|]. destruct B2 as [B2|B2]; [contradiction|]. rewrite B2. rewrite Lo. rewrite Lo in Ro. exact Ro.
Qed.
Lemma expand_ok_value {T} (mul : T -> T -> T) one (x : arr T) e : (forall v, mul v one = v) -> nonneg (shp x) -> nonneg e ->
  (forall os, broadcast_of [shp x; e] os -> exists y, expand_value mul one x e = SOk y /\ shp y = os /\ onnx_expand x e y) /\
  ((~ exists os, broadcast_of [shp x; e] os) -> expand_value mul one x e = SRaise ValueErr).
Proof.
  intros M Nx Ne. assert (NN : Forall nonneg [shp x; e]) by (repeat constructor; assumption).
  unfold expand_value. assert (existsb (fun d => d <? 0) e = false) as ->.
  { destruct (existsb _ _) eqn:X; [|reflexivity]. apply existsb_exists in X as (d & I & X). apply Z.ltb_lt in X. unfold nonneg in Ne. rewrite Forall_forall in Ne. specialize (Ne d I). lia. }
  unfold np_broadcast. split.
  - intros os B. pose proof (proj2 (broadcast_shape_ok _ os NN) B) as E. rewrite E. cbn [sbind]. eexists. split; [reflexivity|]. split; [reflexivity|]. split; [exact B|]. cbn [shp el]. intros o R.
    assert (L : (length (shp x) <= length o)%nat) by (apply in_range_length in R; rewrite R; apply B; left; reflexivity).
    exists (bc_index (shp x) o). pose proof (bc_index_source (shp x) o L) as S0. split; [exact S0|]. split; [|apply M]. eapply source_in_range; eauto. left; reflexivity.
  - intros H. destruct (broadcast_shape [shp x; e]) as [os|er] eqn:E; [exfalso; apply H; exists os; apply broadcast_shape_ok; assumption|]. cbn [sbind]. f_equal. exact (broadcast_shape_raise _ _ E).
Qed.
Lemma where_ok {T} (c : arr bool) (x y : arr T) : nonneg (shp c) -> nonneg (shp x) -> nonneg (shp y) ->
  (forall os, broadcast_of [shp c; shp x; shp y] os -> exists z, where_value c x y = SOk z /\ shp z = os /\ onnx_where c x y z) /\
  ((~ exists os, broadcast_of [shp c; shp x; shp y] os) -> where_value c x y = SRaise ValueErr).
Proof.
  intros Nc Nx Ny. assert (NN : Forall nonneg [shp c; shp x; shp y]) by (repeat constructor; assumption).
  unfold where_value, np_broadcast. split.
  - intros os B. pose proof (proj2 (broadcast_shape_ok _ os NN) B) as E. rewrite E. cbn [sbind]. eexists. split; [reflexivity|]. split; [reflexivity|]. split; [exact B|]. cbn [shp el]. intros o R.
    assert (L : forall s, In s [shp c; shp x; shp y] -> (length s <= length o)%nat) by (apply in_range_length in R; rewrite R; apply B).
    exists (bc_index (shp c) o), (bc_index (shp x) o), (bc_index (shp y) o).
    assert (S0 : forall s, In s [shp c; shp x; shp y] -> broadcast_source s o (bc_index s o) /\ in_range s (bc_index s o) = true).
    { intros s Hs. pose proof (bc_index_source s o (L s Hs)) as S0. split; [exact S0|]. eapply source_in_range; eauto. }
    pose proof (S0 (shp c) ltac:(cbn; auto)) as [? ?]. pose proof (S0 (shp x) ltac:(cbn; auto)) as [? ?]. pose proof (S0 (shp y) ltac:(cbn; auto)) as [? ?]. repeat split; assumption || auto; apply H || apply H1 || apply H3.
  - intros H. destruct (broadcast_shape [shp c; shp x; shp y]) as [os|er] eqn:E; [exfalso; apply H; exists os; apply broadcast_shape_ok; assumption|]. cbn [sbind]. f_equal. exact (broadcast_shape_raise _ _ E).
Qed.

(** ** Tile *)
Lemma tile_ok {T} (x : arr T) reps : nonneg (shp x) -> nonneg reps -> length reps = length (shp x) ->
  exists y, tile_value x reps = SOk y /\ onnx_tile x reps y.
Proof.
  intros Nx Nr L. unfold tile_value, np_tile. rewrite L, Nat.max_id. unfold pad_left. rewrite L, Nat.ltb_irrefl, Nat.sub_diag.
  assert (existsb (fun d => d <? 0) reps = false) as ->.
  { destruct (existsb _ _) eqn:X; [|reflexivity]. apply existsb_exists in X as (d & I & X). apply Z.ltb_lt in X. unfold nonneg in Nr. rewrite Forall_forall in Nr. specialize (Nr d I). lia. }
  eexists. split; [reflexivity|]. cbn [skipn]. split; [|split]; cbn [shp el].
  - rewrite map_length, combine_length. lia.
  - intros k Hk. rewrite (nth_map _ _ _ _ (0, 0)) by (rewrite combine_length; lia). rewrite combine_nth by lia. reflexivity.
  - intros o Ro. apply in_range_spec in Ro as (Lo & Ro). rewrite map_length, combine_length, L, Nat.min_id in Lo. eexists. split; [|split; [|reflexivity]].
    + apply in_range_spec. split; [rewrite map_length, combine_length; lia|]. intros k Hk. specialize (Ro k). rewrite map_length, combine_length in Ro. specialize (Ro ltac:(lia)).
      rewrite (nth_map _ _ _ _ (0, 0)) in Ro by (rewrite combine_length; lia). rewrite combine_nth in Ro by lia. cbn [fst snd] in Ro.
      rewrite (nth_map _ _ _ _ (0, 0)) by (rewrite combine_length; lia). rewrite combine_nth by lia. cbn [fst snd]. apply Z.mod_pos_bound.
      assert (0 <= nth k (shp x) 0) by (unfold nonneg in Nx; rewrite Forall_forall in Nx; apply Nx, nth_In; lia). assert (0 <= nth k reps 0) by (unfold nonneg in Nr; rewrite Forall_forall in Nr; apply Nr, nth_In; lia). nia.
    + intros k Hk. rewrite (nth_map _ _ _ _ (0, 0)) by (rewrite combine_length; lia). rewrite combine_nth by lia. cbn [fst snd]. specialize (Ro k). rewrite map_length, combine_length in Ro. specialize (Ro ltac:(lia)).
      rewrite (nth_map _ _ _ _ (0, 0)) in Ro by (rewrite combine_length; lia). rewrite combine_nth in Ro by lia. cbn [fst snd] in Ro. exists (nth k o 0 / nth k (shp x) 0). pose proof (Z_div_mod_eq_full (nth k o 0) (nth k (shp x) 0)). lia.
Qed.

(** ** Trilu *)
Lemma trilu_ok {T} (zero : T) upper k (x : arr T) : (2 <= length (shp x))%nat ->
  exists y, trilu_value zero upper k x = SOk y /\ onnx_trilu zero (negb (upper =? 0)) (match k with Some v => v | None => 0 end) x y.
Proof.
  intros L. unfold trilu_value, np_trilu. rewrite (proj2 (Nat.ltb_ge _ _) L). eexists. split; [reflexivity|]. split; [reflexivity|]. cbn [el]. intros pre r c R. apply in_range_length in R. rewrite <- R, app_length. cbn [length].
  replace (length pre + 2 - 2)%nat with (length pre + 0)%nat by lia. replace (length pre + 2 - 1)%nat with (length pre + 1)%nat by lia. rewrite !app_nth2_plus. cbn [nth]. unfold np_tri. set (v := match k with Some v => v | None => 0 end).
  destruct (negb (upper =? 0)).
  - destruct (Z.leb_spec c (r + (v - 1))); split; intros; try reflexivity; exfalso; lia.
  - destruct (Z.leb_spec c (r + v)); split; intros; try reflexivity; exfalso; lia.
Qed.

(** ** CumSum *)
Lemma running_sum f n : running f n = fold_right Z.add 0 (map f (upto (n + 1))).
Proof.
  unfold running. change (pyrange (n + 1)) with (upto (n + 1)). generalize (upto (n + 1)) as l. intros l. rewrite (fold_add_right f l 0). rewrite Z.add_0_l. induction l as [|v l IH]; [reflexivity|]. cbn [map fold_right]. rewrite IH. reflexivity.
Qed.
Lemma cumsum_ok axis a (x : arr Z) : axis_pos (length (shp x)) axis = Z.of_nat a -> (a < length (shp x))%nat -> exists y, cumsum_value 0 0 axis x = SOk y /\ onnx_cumsum x a y.
Proof.
  intros A L. unfold cumsum_value, np_cumsum. cbn [Z.eqb andb]. change (zlen (shp x)) with (Z.of_nat (length (shp x))). rewrite np_axis_pos by (rewrite A; lia). rewrite A, np_axis_ok by exact L. cbn [sbind].
  eexists. split; [reflexivity|]. split; [reflexivity|]. cbn [el]. intros o R. apply in_range_length in R. rewrite running_sum. f_equal. apply map_ext_in. intros j _. rewrite set_nth_with by lia. reflexivity.
Qed.

(** ** Compress *)
Lemma in_cond cond v : In v (positions (fun v => negb (v =? 0)) cond) <-> 0 <= v < Z.of_nat (length cond) /\ nth (Z.to_nat v) cond 0 <> 0.
Proof.
  rewrite in_positions. split.
  - intros (k & -> & Hk & P). rewrite Nat2Z.id. split; [lia|]. apply negb_true_iff, Z.eqb_neq in P. exact P.
  - intros (H & N). exists (Z.to_nat v). rewrite Z2Nat.id by lia. split; [reflexivity|]. split; [lia|]. apply negb_true_iff, Z.eqb_neq. exact N.
Qed.
Lemma take_compress {T} (x : arr T) axis a cond : axis_pos (length (shp x)) axis = Z.of_nat a -> (a < length (shp x))%nat ->
  let ps := positions (fun v => negb (v =? 0)) cond in
  let ind := {| shp := [zlen ps]; el := fun i => nth (Z.to_nat (nth 0 i 0)) ps 0 |} in
  ((forall v, In v ps -> v < nth a (shp x) 0) -> exists y, np_take x ind axis = SOk y /\ onnx_compress x a cond y) /\
  ((exists v, In v ps /\ nth a (shp x) 0 <= v) -> np_take x ind axis = SRaise IndexErr).
Proof.
  intros A L ps ind. destruct (take_in x ind axis a A L) as (P & Q).
  assert (IN : forall i, in_range (shp ind) i = true -> In (el ind i) ps).
  { intros i R. apply in_range_spec in R as (_ & R). specialize (R 0%nat ltac:(cbn; lia)). cbn [shp nth ind] in R. unfold zlen in R. cbn [el ind]. apply nth_In. lia. }
  split.
  - intros H. destruct P as (y & E & (Sy & V)).
    { intros i R. apply IN in R. specialize (H _ R). apply in_cond in R. lia. }
    exists y. split; [exact E|]. exists ps. split; [apply positions_ascending|]. split; [intros v; apply in_cond|]. split; [exact Sy|]. intros o R. rewrite Sy in R. cbn [shp ind] in R.
    pose proof (in_range_length _ _ R) as Lo. rewrite !app_length, firstn_length_le, skipn_length in Lo by lia. cbn [length] in Lo.
    destruct (split_at_nth o a) as (p & q & Eo & Lp); [lia|]. rewrite Eo in R |- *.
    assert (R1 : in_range (firstn a (shp x)) p = true /\ in_range ([zlen ps] ++ skipn (S a) (shp x)) (nth a o 0 :: q) = true).
    { apply range_prefix in R. rewrite firstn_length_le in R by lia. replace (firstn a (p ++ nth a o 0 :: q)) with p in R by (rewrite <- Lp; symmetry; apply first_exact). replace (skipn a (p ++ nth a o 0 :: q)) with (nth a o 0 :: q) in R by (rewrite <- Lp; symmetry; apply skip_exact). exact R. }
    destruct R1 as (R1 & R2). cbn [List.app in_range] in R2. apply andb_true_iff in R2 as (R2 & R3).
    assert (R4 : in_range (shp ind) [nth a o 0] = true) by (cbn [shp ind in_range]; rewrite R2; reflexivity).
    change (p ++ nth a o 0 :: q) with (p ++ [nth a o 0] ++ q). rewrite (V p [nth a o 0] q R1 R4 R3). specialize (IN _ R4). apply in_cond in IN. unfold from_end. destruct (Z.ltb_spec (el ind [nth a o 0]) 0); [lia|]. cbn [el ind nth].
    unfold with_dim. cbn [List.app]. rewrite <- Lp. rewrite first_exact. f_equal. f_equal. rewrite app_nth2 by lia. rewrite Nat.sub_diag. cbn [nth]. f_equal. replace (p ++ nth (length p) o 0 :: q) with ((p ++ [nth (length p) o 0]) ++ q) by (rewrite <- app_assoc; reflexivity).
    replace (S (length p)) with (length (p ++ [nth (length p) o 0])) by (rewrite app_length; cbn; lia). rewrite skip_exact. reflexivity.
  - intros (v & Iv & Hv). apply Q. intros H. destruct (In_nth _ _ 0 Iv) as (k & Hk & Ek). specialize (H [Z.of_nat k]). cbn [shp el ind nth in_range] in H. rewrite Nat2Z.id, Ek in H. unfold zlen in H.
    rewrite (proj2 (Z.leb_le 0 (Z.of_nat k))), (proj2 (Z.ltb_lt (Z.of_nat k) (Z.of_nat (length ps)))) in H by lia. specialize (H eq_refl). lia.
Qed.

Lemma flattened_arr {T} (dflt : T) (x : arr T) : nonneg (shp x) -> {| shp := [numel (shp x)]; el := fun i => nth (Z.to_nat (nth 0 i 0)) (buffer x) dflt |} = flattened dflt x.
Proof. intros N. unfold flattened, flat, buffer. rewrite ndindex_indices, map_length, indices_length by exact N. reflexivity. Qed.

(** ** Range *)
Lemma arange_len start limit delta : delta <> 0 -> Z.abs (limit - start) < 2 ^ 53 -> Z.abs delta < 2 ^ 53 ->
  arange_length start limit delta = Z.max 0 (if 0 <? delta then - (- (limit - start) / delta) else - ((limit - start) / - delta)).
Proof.
  intros N A B. unfold arange_length. f_equal. rewrite !rnd_int by lia. unfold fdiv. destruct (Z.ltb_spec 0 delta) as [P|P].
  - apply (ceil_fdiv (limit - start) delta); lia.
  - replace (IZR (limit - start) / IZR delta)%R with (IZR (- (limit - start)) / IZR (- delta))%R.
    + rewrite <- (Z.opp_involutive (limit - start)) at 2. apply (ceil_fdiv (- (limit - start)) (- delta)); lia.
    + rewrite !opp_IZR. field. apply not_0_IZR. exact N.
Qed.
Lemma range_ok start limit delta : delta <> 0 -> Z.abs (limit - start) < 2 ^ 53 -> Z.abs delta < 2 ^ 53 ->
  exists l, range_value start limit delta = SOk l /\ onnx_range start limit delta l.
Proof.
  intros N A B. unfold range_value. rewrite (proj2 (Z.eqb_neq delta 0) N). eexists. split; [reflexivity|]. intros i. rewrite (arange_len start limit delta N A B). unfold pyrange. rewrite map_map.
  set (n := Z.max 0 _). assert (X : short_of delta limit (start + Z.of_nat i * delta) = true <-> Z.of_nat i < n).
  { unfold short_of, n. destruct (Z.ltb_spec 0 delta) as [P|P]; rewrite Z.ltb_lt.
    - pose proof (Z.div_mod (- (limit - start)) delta ltac:(lia)) as D. pose proof (Z.mod_pos_bound (- (limit - start)) delta ltac:(lia)) as M. set (q := - (limit - start) / delta) in *. nia.
    - pose proof (Z.div_mod (limit - start) (- delta) ltac:(lia)) as D. pose proof (Z.mod_pos_bound (limit - start) (- delta) ltac:(lia)) as M. set (q := (limit - start) / - delta) in *. nia. }
  destruct (short_of delta limit (start + Z.of_nat i * delta)).
  - assert (Z.of_nat i < n) as H by (apply X; reflexivity). rewrite nth_error_map. rewrite (nth_error_nth' _ 0%nat) by (rewrite seq_length; lia). rewrite seq_nth by lia. reflexivity.
  - assert (~ Z.of_nat i < n) as H by (intros C; apply X in C; discriminate). apply nth_error_None. rewrite map_length, seq_length. lia.
Qed.

Lemma rnd_2_60 : rnd (IZR (2 ^ 60)) = IZR (2 ^ 60).
Proof. unfold rnd. apply round_generic; [apply valid_rnd_N|]. change (IZR (2 ^ 60)) with (bpow radix2 60). apply generic_format_bpow. unfold b64exp, FLT_exp. cbn. lia. Qed.
Lemma rnd_2_60_1 : rnd (IZR (2 ^ 60 + 1)) = IZR (2 ^ 60).
Proof.
  apply Rle_antisym.
  - unfold rnd. apply round_N_le_midp; [exact b64_valid| |].
    + change (IZR (2 ^ 60)) with (bpow radix2 60). apply generic_format_bpow. unfold b64exp, FLT_exp. cbn. lia.
    + change (IZR (2 ^ 60)) with (bpow radix2 60). rewrite succ_eq_pos by apply bpow_ge_0. rewrite ulp_bpow. change (bpow radix2 (b64exp (60 + 1))) with 256%R. rewrite plus_IZR. change (IZR (2 ^ 60)) with (bpow radix2 60). lra.
  - rewrite <- rnd_2_60 at 1. apply rnd_le. apply IZR_le. lia.
Qed.
