(** MaxPool, Gemm, GatherElements and the element-wise operators. *)
From Verif Require Import PyBase GraphModel FloatPy ShapeModel ShapeSpec BcastProofs LayoutProofs SliceProofs CostSpec CostProofs ValueModel ValueModel2 ValueSpec ValueProofs ValueProofs3.
From Coq Require Import Lia Bool.
Open Scope list_scope. Open Scope Z_scope.

Lemma in_indices sh : forall i, in_range sh i = true -> In i (indices sh).
Proof.
  induction sh as [|d r IH]; intros [|v i] H; cbn [in_range] in H; try discriminate; cbn [indices]; [left; reflexivity|].
  rewrite !andb_true_iff, Z.leb_le, Z.ltb_lt in H. destruct H as ((H0 & H1) & H). apply in_flat_map. exists v. split.
  - unfold upto. apply in_map_iff. exists (Z.to_nat v). split; [lia|]. apply in_seq. lia.
  - apply in_map. apply IH; exact H.
Qed.
Lemma Forall2_map_self {A B} (P : A -> B -> Prop) (f : A -> B) l : (forall a, In a l -> P a (f a)) -> Forall2 P l (map f l).
Proof. induction l as [|a l IH]; intro H; constructor; [apply H; left; reflexivity|apply IH; intros; apply H; right; assumption]. Qed.

Definition src_of (o st pd k : list Z) : list Z := firstn 2 o ++ taps st [1; 1] pd (skipn 2 o) k.
Definition max_step (x : arr Z) (o st pd : list Z) (t : Z) (k : list Z) : Z :=
  if in_range (shp x) (src_of o st pd k) then Z.max (el x (src_of o st pd k)) t else t.
Lemma max_fold x o st pd l : forall t,
  t <= fold_left (max_step x o st pd) l t
  /\ (forall k, In k l -> in_range (shp x) (src_of o st pd k) = true -> el x (src_of o st pd k) <= fold_left (max_step x o st pd) l t)
  /\ (fold_left (max_step x o st pd) l t = t \/ exists k, In k l /\ in_range (shp x) (src_of o st pd k) = true /\ el x (src_of o st pd k) = fold_left (max_step x o st pd) l t).
Proof.
  induction l as [|k l IH]; intro t; cbn [fold_left].
  { split; [lia|]. split; [intros k []|left; reflexivity]. }
  destruct (IH (max_step x o st pd t k)) as (H1 & H2 & H3).
  assert (M : t <= max_step x o st pd t k) by (unfold max_step; destruct (in_range _ _); lia).
  split; [lia|]. split.
  - intros k' [<-|Hk] R; [|apply H2; assumption]. assert (el x (src_of o st pd k) <= max_step x o st pd t k) by (unfold max_step; rewrite R; lia). lia.
  - destruct H3 as [H3|(k' & Hk & R & E)].
    + rewrite H3. unfold max_step. set (src := src_of o st pd k) in *. destruct (in_range (shp x) src) eqn:R; [|left; reflexivity].
      destruct (Z.max_spec (el x src) t) as [[? ->]|[? ->]]; [left; reflexivity|right]. exists k. split; [left; reflexivity|]. fold src. split; [exact R|reflexivity].
    + right. exists k'. split; [right; exact Hk|]. split; assumption.
Qed.

Section Pool.
Context (wd : window) (x : arr Z) (n c xh xw oh ow : Z) (k0 k1 s0 s1 p0 p1 : Z) (sr pr : list Z) (ceil : bool).
Context (Hx : shp x = [n; c; xh; xw]) (Hs : w_strides wd = s0 :: s1 :: sr) (Hp : w_pads wd = p0 :: p1 :: pr).
Lemma maxpool_step_ok b oc i j t k : 0 <= b < n -> 0 <= oc < c -> in_range [k0; k1] k = true ->
  maxpool_step wd x b oc i j t k = SOk (max_step x [b; oc; i; j] [s0; s1] [p0; p1] t k).
Proof.
  intros Hb Hoc Hk. destruct k as [|a [|d [|]]]; cbn [in_range] in Hk; rewrite ?andb_true_iff, ?andb_false_iff in Hk; try (exfalso; intuition discriminate).
  unfold maxpool_step, max_step, src_of. rewrite Hs, Hp.
  change (py_index (s0 :: s1 :: sr) 0) with (SOk s0). change (py_index (s0 :: s1 :: sr) 1) with (SOk s1).
  change (py_index (p0 :: p1 :: pr) 0) with (SOk p0). change (py_index (p0 :: p1 :: pr) 1) with (SOk p1).
  replace (py_index (shp x) 2) with (SOk xh) by (rewrite Hx; reflexivity). replace (py_index (shp x) 3) with (SOk xw) by (rewrite Hx; reflexivity). cbn [sbind].
  cbn [firstn skipn List.app taps]. rewrite !Z.mul_1_r.
  set (u := i * s0 + a - p0). set (v := j * s1 + d - p1).
  destruct ((u <? 0) || (xh <=? u) || (v <? 0) || (xw <=? v)) eqn:E.
  - assert (R : in_range (shp x) [b; oc; u; v] = false).
    { destruct (in_range (shp x) [b; oc; u; v]) eqn:R; [|reflexivity]. rewrite Hx in R. apply in_range4 in R.
      rewrite !orb_true_iff, !Z.ltb_lt, !Z.leb_le in E. lia. }
    rewrite R. reflexivity.
  - rewrite !orb_false_iff, !Z.ltb_ge, !Z.leb_gt in E.
    assert (R : in_range (shp x) [b; oc; u; v] = true) by (rewrite Hx; apply in_range4; lia).
    rewrite R, (np_at_in x _ R). reflexivity.
Qed.
Lemma maxpool_value_eq prev : pool_shape wd [k0; k1] ceil (shp x) = SOk [n; c; oh; ow] ->
  maxpool_value wd [k0; k1] ceil prev x
  = SOk ([n; c; oh; ow], map (fun o => fold_left (max_step x o [s0; s1] [p0; p1]) (indices [k0; k1]) (out_numpy 0 prev [n; c; oh; ow] o)) (indices [n; c; oh; ow])).
Proof.
  intros Ho. unfold maxpool_value. rewrite Ho. cbn [sbind].
  erewrite smap_pure; [cbn [sbind]; reflexivity|]. intros i Hi. rewrite ndindex_indices in Hi. apply indices_in in Hi.
  destruct i as [|b [|oc [|r [|q [|]]]]]; cbn [in_range] in Hi; rewrite ?andb_true_iff, ?andb_false_iff in Hi; try (exfalso; intuition discriminate).
  rewrite !Z.leb_le, !Z.ltb_lt in Hi. apply sfold_pure. intros t k Hk. apply indices_in in Hk. apply maxpool_step_ok; [lia|lia|exact Hk].
Qed.
Theorem maxpool_ok : pool_shape wd [k0; k1] ceil (shp x) = SOk [n; c; oh; ow] ->
  (forall i, in_range (shp x) i = true -> 0 <= el x i) ->
  (forall o, in_range [n; c; oh; ow] o = true -> exists v, in_window x [s0; s1] [1; 1] [p0; p1] [k0; k1] o v) ->
  exists vals, maxpool_value wd [k0; k1] ceil None x = SOk ([n; c; oh; ow], vals)
    /\ Forall2 (fun o m => is_max (in_window x [s0; s1] [1; 1] [p0; p1] [k0; k1] o) m) (indices [n; c; oh; ow]) vals.
Proof.
  intros Ho Hn Hw. eexists. split; [apply maxpool_value_eq; exact Ho|]. apply Forall2_map_self. intros o Hi. apply indices_in in Hi.
  destruct (max_fold x o [s0; s1] [p0; p1] (indices [k0; k1]) (out_numpy 0 None [n; c; oh; ow] o)) as (H1 & H2 & H3).
  cbn [out_numpy] in *. set (m := fold_left _ _ _) in *. split.
  - destruct H3 as [H3|(k & Hk & R & E)].
    + destruct (Hw o Hi) as (v & k & src & Hk & Es & R & Ev). exists k, src. split; [exact Hk|]. split; [exact Es|]. split; [exact R|].
      pose proof (H2 k (in_indices _ _ Hk)) as H. unfold src_of in H. rewrite <- Es in H. specialize (H R). specialize (Hn src R). lia.
    + eexists k, _. split; [apply indices_in; exact Hk|]. split; [reflexivity|]. split; [exact R|]. symmetry. exact E.
  - intros v (k & src & Hk & Es & R & Ev). pose proof (H2 k (in_indices _ _ Hk)) as H. unfold src_of in H. rewrite <- Es in H. specialize (H R). lia.
Qed.
End Pool.

(** ** Gemm *)
Lemma fold_add_right {A} (f : A -> Z) l : forall t, fold_left (fun s k => s + f k) l t = t + fold_right (fun k s => f k + s) 0 l.
Proof. induction l as [|k l IH]; intro t; cbn [fold_left fold_right]; [lia|]. rewrite IH. lia. Qed.
Lemma gemm_ok transA transB (a b : arr Z) c m k n :
  (transA = 0 \/ transA = 1) -> (transB = 0 \/ transB = 1) ->
  shp a = (if transA =? 0 then [m; k] else [k; m]) -> shp b = (if transB =? 0 then [k; n] else [n; k]) ->
  (forall cc, c = Some cc -> shp cc = [] \/ (exists d, (d = n \/ d = 1) /\ shp cc = [d]) \/ (exists e d, (e = m \/ e = 1) /\ (d = n \/ d = 1) /\ shp cc = [e; d])) ->
  exists y, gemm_value 0 Z.add Z.mul transA transB a b c = SOk y /\ shp y = [m; n] /\
    forall i j, el y [i; j] = onnx_gemm 1 1 transA transB a b (option_map broadcast_read c) i j k.
Proof.
  intros HA HB Ea Eb Hc. unfold gemm_value, onnx_gemm. rewrite Ea, Eb.
  assert (K : forall (p q : Z -> Z -> list Z) i j, fold_left (fun acc l => acc + el a (p i l) * el b (q l j)) (pyrange k) 0
    = fold_right (fun l s => el a (p i l) * el b (q l j) + s) 0 (upto k)).
  { intros p q i j. rewrite (fold_add_right (fun l => el a (p i l) * el b (q l j))). reflexivity. }
  destruct HA as [-> | ->]; destruct HB as [-> | ->];
  change (0 <? 0) with false; change (0 <? 1) with true; change (0 =? 0) with true; change (1 =? 0) with false; cbn iota; cbn beta iota zeta;
  rewrite Z.eqb_refl; cbn [negb]; cbn iota.
  all: destruct c as [cc|]; [|eexists; split; [reflexivity|]; split; [reflexivity|]; intros i j; cbn [el nth option_map]; rewrite Z.mul_1_l, Z.add_0_r;
         first [ exact (K (fun i l => [i; l]) (fun l j => [l; j]) i j) | exact (K (fun i l => [i; l]) (fun l j => [j; l]) i j)
               | exact (K (fun i l => [l; i]) (fun l j => [l; j]) i j) | exact (K (fun i l => [l; i]) (fun l j => [j; l]) i j) ]].
  all: destruct (Hc _ eq_refl) as [E|[(d & Hd & E)|(e & d & He & Hd & E)]]; unfold broadcast_read; rewrite E;
   [ | replace ((d =? n) || (d =? 1)) with true by (symmetry; rewrite orb_true_iff, !Z.eqb_eq; exact Hd)
     | replace (((e =? m) || (e =? 1)) && ((d =? n) || (d =? 1))) with true by (symmetry; rewrite andb_true_iff, !orb_true_iff, !Z.eqb_eq; split; assumption) ].
  all: eexists; split; [reflexivity|]; split; [reflexivity|]; intros i j; cbn [el nth option_map length Nat.sub skipn combine map fst snd]; rewrite E; cbn [length Nat.sub skipn combine map fst snd]; rewrite !Z.mul_1_l; f_equal;
    first [ exact (K (fun i l => [i; l]) (fun l j => [l; j]) i j) | exact (K (fun i l => [i; l]) (fun l j => [j; l]) i j)
               | exact (K (fun i l => [l; i]) (fun l j => [l; j]) i j) | exact (K (fun i l => [l; i]) (fun l j => [j; l]) i j) ].
Qed.

(** ** GatherElements *)
Lemma np_index_wrap sh : forall a i v, in_range (set_nth sh a 1) (set_nth i a 0) = true -> (a < length sh)%nat -> length i = length sh ->
  - nth a sh 0 <= v < nth a sh 0 ->
  np_index sh (set_nth i a v) = SOk (set_nth i a (if v <? 0 then v + nth a sh 0 else v)).
Proof.
  induction sh as [|d s IH]; intros a i v H Ha Hl Hv; [simpl in Ha; lia|]. destruct i as [|x i]; [discriminate|].
  destruct a as [|a]; cbn [set_nth nth] in *.
  - cbn [in_range] in H. rewrite !andb_true_iff in H. destruct H as (_ & H). cbn [np_index].
    rewrite (np_index_in s i H). destruct (Z.ltb_spec v (- d)); [lia|]. destruct (Z.leb_spec d v); [lia|]. reflexivity.
  - cbn [in_range] in H. rewrite !andb_true_iff, Z.leb_le, Z.ltb_lt in H. destruct H as ((H0 & H1) & H). cbn [np_index].
    destruct (Z.ltb_spec x (- d)); [lia|]. destruct (Z.leb_spec d x); [lia|]. cbn [orb]. rewrite (IH a i v H) by (simpl in *; lia). cbn [sbind].
    destruct (Z.ltb_spec x 0); [lia|]. reflexivity.
Qed.
Lemma gather_range sh ish : forall a i, (a < length sh)%nat -> length ish = length sh ->
  (forall b, (b < length sh)%nat -> b <> a -> nth b ish 0 <= nth b sh 0) -> in_range ish i = true ->
  in_range (set_nth sh a 1) (set_nth i a 0) = true.
Proof.
  revert ish. induction sh as [|d s IH]; intros [|e ish] a [|v i] Ha Hl Hd Hi; try (simpl in *; discriminate); try (simpl in Ha; lia).
  cbn [in_range] in Hi. rewrite !andb_true_iff, Z.leb_le, Z.ltb_lt in Hi. destruct Hi as ((H0 & H1) & Hi).
  destruct a as [|a]; cbn [set_nth in_range].
  - rewrite !andb_true_iff. split; [split; reflexivity|]. assert (E : forall ish s i, length ish = length s -> (forall b, (b < length s)%nat -> nth b ish 0 <= nth b s 0) -> in_range ish i = true -> in_range s i = true).
    { clear. induction ish as [|e ish IH]; intros [|d s] [|v i] Hl Hd Hi; try (simpl in *; discriminate); [reflexivity|].
      cbn [in_range] in *. rewrite !andb_true_iff, Z.leb_le, Z.ltb_lt in *. pose proof (Hd O). simpl in H. split; [split; [lia|]|].
      - assert (e <= d) by (apply H; simpl; lia). lia.
      - apply IH; [simpl in Hl; lia| |intuition]. intros b Hb. apply (Hd (S b)). simpl. lia. }
    apply (E ish); [simpl in Hl; lia| |exact Hi]. intros b Hb. apply (Hd (S b)); simpl; lia.
  - rewrite !andb_true_iff, Z.leb_le, Z.ltb_lt. pose proof (Hd O) as H. cbn [nth] in H. assert (e <= d) by (apply H; simpl; lia). split; [lia|].
    apply (IH ish); [simpl in Ha; lia|simpl in Hl; lia| |exact Hi]. intros b Hb Hn. apply (Hd (S b)); [simpl; lia|lia].
Qed.
Theorem gather_elements_ok {T} (x : arr T) ind axis a :
  axis_pos (length (shp x)) axis = Z.of_nat a -> (a < length (shp x))%nat -> length (shp ind) = length (shp x) ->
  (forall b, (b < length (shp x))%nat -> b <> a -> nth b (shp ind) 0 <= nth b (shp x) 0) ->
  (forall i, in_range (shp ind) i = true -> - nth a (shp x) 0 <= el ind i < nth a (shp x) 0) ->
  gather_elements_value (fun v => v) axis x ind = SOk (shp ind, map (gathered x ind a) (indices (shp ind))).
Proof.
  intros Hax Ha Hl Hd Hi. unfold gather_elements_value. erewrite smap_pure; [reflexivity|]. intros i Hin. apply indices_in in Hin.
  assert (Li : length i = length (shp x)).
  { rewrite <- Hl. clear - Hin. revert i Hin. induction (shp ind) as [|d s IH]; intros [|v i] H; cbn [in_range] in H; try discriminate; [reflexivity|].
    rewrite andb_true_iff in H. simpl. f_equal. apply IH. intuition. }
  assert (S' : py_store i axis (el ind i) = SOk (set_nth i a (el ind i))).
  { unfold py_store. unfold zlen. rewrite Li. unfold axis_pos in Hax.
    destruct (Z.ltb_spec axis 0).
    - replace (axis + Z.of_nat (length (shp x))) with (Z.of_nat a) by lia. destruct (Z.ltb_spec (Z.of_nat a) 0); [lia|]. destruct (Z.leb_spec (Z.of_nat (length (shp x))) (Z.of_nat a)); [lia|]. rewrite Nat2Z.id. reflexivity.
    - subst axis. destruct (Z.leb_spec (Z.of_nat (length (shp x))) (Z.of_nat a)); [lia|]. destruct (Z.ltb_spec (Z.of_nat a) 0); [lia|]. rewrite Nat2Z.id. reflexivity. }
  rewrite S'. cbn [sbind]. unfold np_at. rewrite (np_index_wrap _ a i) by (try assumption; try (apply Hi; assumption); apply (gather_range _ (shp ind)); assumption).
  cbn [sbind]. unfold gathered. rewrite set_nth_with by lia. reflexivity.
Qed.

(** ** Element-wise *)
Lemma max_value_ok a r m : max_value (a :: r) = SOk m -> In m (a :: r) /\ forall v, In v (a :: r) -> v <= m.
Proof.
  intro H. cbn [max_value] in H. injection H as <-. revert a. induction r as [|b r IH]; intro a; cbn [fold_left].
  - split; [left; reflexivity|]. intros v [<-|[]]. lia.
  - destruct (IH (Z.max a b)) as (H1 & H2). split.
    + destruct H1 as [H1|H1]; [|right; right; exact H1]. rewrite <- H1. destruct (Z.max_spec a b) as [[? ->]|[? ->]]; [right; left|left]; reflexivity.
    + intros v [<-|[<-|Hv]]; [specialize (H2 _ (or_introl eq_refl)); lia|specialize (H2 _ (or_introl eq_refl)); lia|apply H2; right; exact Hv].
Qed.
Lemma sum_value_ok a r m : sum_value (a :: r) = SOk m -> m = fold_right Z.add 0 (a :: r).
Proof.
  intro H. cbn [sum_value] in H. injection H as <-. cbn [fold_right]. revert a. induction r as [|b r IH]; intro a; cbn [fold_left fold_right]; [lia|]. rewrite IH. lia.
Qed.
