(** C53, C54: the memory pool of the inference engine. *)
From Verif Require Import PyBase PyBaseFacts GraphModel ShapeModel FusionModel FusionProofs PoolModel PoolProofs CompressModel CompressSpec CompressTop Props_Memory Demo.
Open Scope Z_scope.

(** ** C53 *)
(** For every plan, key and shape: a returned view lies inside the pool. *)
Theorem C53_view_in_pool : forall plan size esz mem p key sh v, 0 < esz -> mk_pool plan size esz mem = SOk p ->
  pool_get p key sh = SOk v -> 0 <= v_off v /\ 0 <= v_len v /\ v_off v + v_len v <= size.
Proof.
  intros plan size esz mem p key sh v E H G. assert (pl_esz p = esz /\ pl_size p = size).
  { unfold mk_pool in H. destruct (size <=? 0); [discriminate|]. apply sbind_ok in H as (u & _ & H). injection H as <-. auto. }
  destruct H0 as [<- <-]. apply (get_in_pool p key sh v); [|exact G]. split; [exact E|]. eauto.
Qed.
(** Without negative dimensions it is the start of the planned block and has the requested shape. *)
Theorem C53_view_in_block : forall plan size esz mem p key sh v, 0 < esz -> mk_pool plan size esz mem = SOk p ->
  nonneg sh -> pool_get p key sh = SOk v ->
  exists o s, dget plan key = Some (o, s) /\ v_off v = o /\ v_len v <= s /\ v_len v = prodZ (v_shape v) * esz /\
    match sh with Some l => v_shape v = l | None => v_len v = s end.
Proof.
  intros plan size esz mem p key sh v E H N G. assert (pl_esz p = esz /\ pl_plan p = plan).
  { unfold mk_pool in H. destruct (size <=? 0); [discriminate|]. apply sbind_ok in H as (u & _ & H). injection H as <-. auto. }
  destruct H0 as [<- <-]. destruct (get_in_block p key sh v) as (o & s & A & B & C & D & F); auto.
  { split; [exact E|]. eauto. }
  exists o, s. repeat (split; [first [assumption|lia]|]). exact F.
Qed.
(** An unknown key raises KeyError, a shape larger than the block ValueError. *)
Theorem C53_rejects : forall p key,
  (dget (pl_plan p) key = None -> forall sh, pool_get p key sh = SRaise KeyErr) /\
  (forall o s l, dget (pl_plan p) key = Some (o, s) -> s / pl_esz p < prodZ l -> pool_get p key (Some l) = SRaise ValueErr).
Proof.
  intros p key. split.
  - intros H sh. unfold pool_get, dlook. rewrite H. reflexivity.
  - intros o s l H L. unfold pool_get, dlook. rewrite H. cbn [sbind]. destruct (Z.ltb_spec (s / pl_esz p) (prodZ l)); [reflexivity|lia].
Qed.
(** Plans of [compress_memory] are accepted, and every planned tensor can be fetched, for every dtype
    whose size divides the padding (64 by default). *)
Theorem C53_plan_accepted : forall g pad mem total esz m, 0 < pad -> wf_plan_input g -> planned g pad mem total -> mem <> [] ->
  0 < esz -> (esz | pad) ->
  exists p, mk_pool mem total esz m = SOk p /\
    forall t o s, dget mem t = Some (o, s) -> exists v, pool_get p t None = SOk v /\ v_off v = o /\ v_len v = s.
Proof.
  intros g pad mem total esz m Hp HW HP NE E Dv. assert (ND := po_nodup _ _ _ _ (planned_ok _ _ _ _ Hp HW HP)).
  assert (B : forall k o s, In (k, (o, s)) mem -> 0 <= o /\ 0 < s /\ o + s <= total /\ (esz | o) /\ (esz | s)).
  { intros k o s I. apply In_dget in I; [|exact ND]. destruct (C02_blocks_in_bounds g pad mem total k o s Hp HW HP I) as (b & (_ & _ & tn & _ & _ & Pb) & R & O & D1 & D2 & T).
    split; [exact O|]. split; [|split; [exact T|split; eapply Z.divide_trans; eauto]].
    assert (0 < round_up pad b); [|lia]. unfold round_up. assert (1 <= (b + pad - 1) / pad); [|nia]. apply Z.div_le_lower_bound; lia. }
  assert (Tot : 0 < total). { destruct mem as [|[k [o s]] mem']; [congruence|]. destruct (B k o s (or_introl eq_refl)). lia. }
  unfold mk_pool. destruct (Z.leb_spec total 0); [lia|]. rewrite validate_pass by (intros k o s I; destruct (B k o s I); lia). cbn [sbind].
  eexists. split; [reflexivity|]. intros t o s G. assert (I := dget_In _ _ _ _ G). destruct (B t o s I) as (B1 & B2 & B3 & [q1 B4] & [q2 B5]).
  unfold pool_get, dlook. cbn [pl_plan pl_size pl_esz]. rewrite G. cbn [sbind]. rewrite slice_exact by lia. unfold view_dtype.
  rewrite B4, B5. rewrite !Z_mod_mult. cbn [Z.eqb andb sbind]. eexists. split; [reflexivity|]. cbn. auto.
Qed.
(** A negative dimension defeats the check: the view leaves the block it was asked for. *)
Theorem C53_negative_refuted : exists plan size esz m p key sh v o s,
  mk_pool plan size esz m = SOk p /\ pool_get p key (Some sh) = SOk v /\ dget plan key = Some (o, s) /\ o + s < v_off v + v_len v.
Proof.
  exists [("a", (0, 64)); ("b", (64, 192))]%string, 256, 4, (fun _ => 0). eexists. exists "a"%string, [-1; 4]. do 3 eexists.
  split; [reflexivity|]. split; [vm_compute; reflexivity|]. split; [reflexivity|]. vm_compute. reflexivity.
Qed.
Example C53_demo : exists p, mk_pool demo_mem 960 4 (fun a => a) = SOk p /\
  (exists v, pool_get p "a" (Some [1; 50]) = SOk v /\ v_off v = 448 /\ v_len v = 200).
Proof. eexists. split; [vm_compute; reflexivity|]. eexists. split; [vm_compute; reflexivity|]. split; reflexivity. Qed.

(** ** C54 *)
Definition ranges_disjoint (o1 s1 o2 s2 : Z) : Prop := o1 + s1 <= o2 \/ o2 + s2 <= o1.
(** Filling a tensor changes no byte outside its planned range; so every view of a tensor with a
    disjoint range shows the same bytes as before. *)
Theorem C54_disjoint_unchanged : forall plan size esz mem p key vals p', 0 < esz -> mk_pool plan size esz mem = SOk p ->
  (forall x, In x vals -> zlen x = esz) -> fill_tensor p key vals = SOk p' ->
  exists o s, dget plan key = Some (o, s) /\
  (forall a, a < o \/ o + s <= a -> pl_mem p' a = pl_mem p a) /\
  (forall key2 o2 s2 sh v, dget plan key2 = Some (o2, s2) -> ranges_disjoint o s o2 s2 -> nonneg sh ->
     pool_get p key2 sh = SOk v -> pool_get p' key2 sh = SOk v /\ read_view p' v = read_view p v).
Proof.
  intros plan size esz mem p key vals p' E H Sz F.
  assert (Q : pl_esz p = esz /\ pl_plan p = plan /\ pl_size p = size).
  { unfold mk_pool in H. destruct (size <=? 0); [discriminate|]. apply sbind_ok in H as (u & _ & H). injection H as <-. auto. }
  destruct Q as (<- & <- & <-). assert (M : made p) by (split; [exact E|eauto]).
  destruct (filled p key vals p' F) as (F1 & F2 & F3 & v0 & l & G & W & L & Sub & _).
  destruct (get_in_block p key None v0 M I G) as (o & s & P & V1 & V2 & V3 & V4). exists o, s. split; [exact P|].
  assert (Len : zlen (concat l) = s).
  { rewrite (concat_len (pl_esz p)) by auto. unfold zlen. rewrite L, Z2Nat.id by (apply Z.div_pos; lia). rewrite V4.
    symmetry. apply Z_div_exact_full_2; [lia|]. rewrite <- V4, V3. apply Z_mod_mult. }
  assert (Out : forall a, a < o \/ o + s <= a -> pl_mem p' a = pl_mem p a).
  { intros a Ha. rewrite W. unfold write_bytes. rewrite V1, Len. destruct (Z.leb_spec o a), (Z.ltb_spec a (o + s)); cbn; auto; lia. }
  split; [exact Out|]. intros key2 o2 s2 sh v P2 D N G2. split.
  - rewrite <- G2. unfold pool_get. rewrite F1, F2, F3. reflexivity.
  - destruct (get_in_block p key2 sh v M N G2) as (o3 & s3 & P3 & W1 & W2 & _). rewrite P2 in P3. injection P3 as <- <-.
    apply read_same. intros a Ha. apply Out. destruct D; lia.
Qed.
(** ... and afterwards the tensor shows the value: its first block-many elements, or its only element
    repeated. *)
Theorem C54_read_back : forall plan size esz mem p key vals p', 0 < esz -> mk_pool plan size esz mem = SOk p ->
  (forall x, In x vals -> zlen x = esz) -> fill_tensor p key vals = SOk p' ->
  exists v n, pool_get p' key None = SOk v /\ v_len v = Z.of_nat n * esz /\
   ((n <= length vals)%nat /\ read_view p' v = concat (firstn n vals) \/
    exists x, vals = [x] /\ read_view p' v = concat (repeat x n)).
Proof.
  intros plan size esz mem p key vals p' E H Sz F.
  assert (Q : pl_esz p = esz) by (unfold mk_pool in H; destruct (size <=? 0); [discriminate|]; apply sbind_ok in H as (u & _ & H); injection H as <-; reflexivity).
  subst esz. assert (M : made p) by (split; [exact E|eauto]).
  destruct (filled p key vals p' F) as (F1 & F2 & F3 & v & l & G & W & L & Sub & C).
  destruct (get_in_block p key None v M I G) as (o & s & P & V1 & V2 & V3 & V4).
  set (n := Z.to_nat (v_len v / pl_esz p)) in *. exists v, n.
  assert (Nl : v_len v = Z.of_nat n * pl_esz p).
  { unfold n. rewrite Z2Nat.id by (apply Z.div_pos; lia). rewrite Z.mul_comm. apply Z_div_exact_full_2; [lia|]. rewrite V3. apply Z_mod_mult. }
  assert (Len : v_len v = zlen (concat l)) by (rewrite (concat_len (pl_esz p)) by auto; unfold zlen; rewrite L, Nl; lia).
  assert (R := read_write p' (pl_mem p) (concat l) v W Len).
  split; [rewrite <- G; unfold pool_get; rewrite F1, F2, F3; reflexivity|]. split; [exact Nl|].
  destruct C as [->|(x & -> & ->)]; [left|right; exists x; auto]. split; [|exact R]. rewrite firstn_length in L. lia.
Qed.
(** With a plan of [compress_memory]: while both are live, filling one tensor leaves the other alone. *)
Theorem C54_live_tensors_independent : forall g pad plan total i t1 t2 esz mem p vals p', 0 < pad -> wf_plan_input g -> planned g pad plan total ->
  live_at g i t1 -> live_at g i t2 -> t1 <> t2 -> 0 < esz -> mk_pool plan total esz mem = SOk p ->
  (forall x, In x vals -> zlen x = esz) -> fill_tensor p t1 vals = SOk p' ->
  forall sh v, nonneg sh -> pool_get p t2 sh = SOk v -> pool_get p' t2 sh = SOk v /\ read_view p' v = read_view p v.
Proof.
  intros g pad plan total i t1 t2 esz mem p vals p' Hp HW HP L1 L2 D E H Sz F sh v N G.
  destruct (C54_disjoint_unchanged plan total esz mem p t1 vals p' E H Sz F) as (o & s & P & _ & K).
  destruct (C53_view_in_block plan total esz mem p t2 sh v E H N G) as (o2 & s2 & P2 & _).
  apply (K t2 o2 s2 sh v); auto. exact (C01_live_tensors_disjoint g pad plan total i t1 t2 o s o2 s2 Hp HW HP L1 L2 D P P2).
Qed.
(** Filling is not available for the tensors of a real plan: blocks are padded, and a value with
    fewer elements than the block raises (unless it has exactly one, which is then repeated). *)
Theorem C54_padded_block_refuted : forall p key vals o s, made p -> dget (pl_plan p) key = Some (o, s) -> length vals <> 1%nat ->
  zlen vals * pl_esz p < s -> exists e, fill_tensor p key vals = SRaise e.
Proof.
  intros p key vals o s M P N1 L. unfold fill_tensor. destruct (pool_get p key None) as [v|e] eqn:G; [|exists e; reflexivity]. cbn [sbind].
  destruct (get_in_block p key None v M I G) as (o' & s' & P' & V1 & V2 & V3 & V4). rewrite P in P'. injection P' as <- <-.
  destruct (made_inv p M) as (E & _). set (n := Z.to_nat (v_len v / pl_esz p)).
  assert (Ln : (length vals < n)%nat).
  { unfold n. rewrite V3, Z_div_mult by lia. unfold zlen in L. rewrite <- V4, V3 in L. nia. }
  rewrite firstn_all2 by lia. destruct (Nat.eqb_spec (length vals) n); [lia|].
  destruct vals as [|x [|y r]]; [eauto|cbn in N1; lia|eauto].
Qed.
(** the case of "a" in the demonstration plan: 50 floats in a block of 64 *)
Example C54_demo : exists p, mk_pool demo_mem 960 4 (fun _ => 7) = SOk p /\ fill_tensor p "a" (repeat [1; 2; 3; 4] 50) = SRaise RuntimeErr /\
  exists p', fill_tensor p "a" (repeat [1; 2; 3; 4] 64) = SOk p' /\ pl_mem p' 448 = 1 /\ pl_mem p' 703 = 4 /\ pl_mem p' 704 = 7.
Proof. eexists. split; [vm_compute; reflexivity|]. split; [vm_compute; reflexivity|]. eexists. split; [vm_compute; reflexivity|]. vm_compute. auto. Qed.

(** ** C65 *)
(** If no tensor is narrower than the engine's dtype, each view of the inference engine stays in its
    tensor's block, so live tensors have disjoint views. *)
Definition not_narrower (g : graph) (esz : Z) : Prop := forall t tn, dget (tensormap g) t = Some tn -> esz <= t_esize tn.
Lemma volume_prod : forall sh, sh <> [] -> volume sh = prodZ sh.
Proof. intros [|a l] H; [congruence|]. unfold volume, prodZ. reflexivity. Qed.
Theorem C65_engine_view_in_block_partial : forall g pad plan total esz mem p t v, 0 < pad -> wf_plan_input g -> planned g pad plan total ->
  0 < esz -> mk_pool plan total esz mem = SOk p -> not_narrower g esz -> infer_view (tensormap g) p t = SOk (Some v) ->
  exists o s, dget plan t = Some (o, s) /\ v_off v = o /\ v_len v <= s.
Proof.
  intros g pad plan total esz mem p t v Hp HW HP E H NN V.
  assert (Q : pl_esz p = esz /\ pl_plan p = plan /\ pl_size p = total).
  { unfold mk_pool in H. destruct (total <=? 0); [discriminate|]. apply sbind_ok in H as (u & _ & H). injection H as <-. auto. }
  destruct Q as (Q1 & Q2 & Q3). unfold infer_view in V. rewrite Q1, Q2, Q3 in V. destruct (dget plan t) as [[o s]|] eqn:G; [|discriminate].
  destruct (dget (tensormap g) t) as [tn|] eqn:T; [|discriminate]. destruct (Z.ltb_spec 0 (prodZ (t_shape tn) * esz)) as [Pos|]; [|discriminate].
  destruct (C02_blocks_in_bounds g pad plan total t o s Hp HW HP G) as (b & (_ & _ & tn' & T' & B & Bp) & R & O & _ & _ & Tot).
  rewrite T in T'. injection T' as <-.
  assert (Le : prodZ (t_shape tn) * esz <= s).
  { assert (N := NN _ _ T). assert (b <= round_up pad b).
    { unfold round_up. assert (D := Z.div_mod (b + pad - 1) pad ltac:(lia)). assert (M := Z.mod_pos_bound (b + pad - 1) pad Hp). nia. }
    rewrite <- memsize_bytes in B. unfold get_memsize in B. destruct (t_shape tn) as [|d l] eqn:Sh; [unfold volume in B; lia|]. rewrite volume_prod in B by discriminate.
    assert (0 < prodZ (d :: l)) by nia. nia. }
  rewrite slice_exact in V by lia. apply sbind_ok in V as (n & _ & V). injection V as <-. exists o, s. cbn. repeat split; auto; lia.
Qed.
Theorem C65_live_views_disjoint_partial : forall g pad plan total esz mem p i t1 t2 v1 v2, 0 < pad -> wf_plan_input g -> planned g pad plan total ->
  0 < esz -> mk_pool plan total esz mem = SOk p -> not_narrower g esz ->
  live_at g i t1 -> live_at g i t2 -> t1 <> t2 ->
  infer_view (tensormap g) p t1 = SOk (Some v1) -> infer_view (tensormap g) p t2 = SOk (Some v2) ->
  v_off v1 + v_len v1 <= v_off v2 \/ v_off v2 + v_len v2 <= v_off v1.
Proof.
  intros g pad plan total esz mem p i t1 t2 v1 v2 Hp HW HP E H NN L1 L2 D V1 V2.
  destruct (C65_engine_view_in_block_partial g pad plan total esz mem p t1 v1 Hp HW HP E H NN V1) as (o1 & s1 & A1 & B1 & C1).
  destruct (C65_engine_view_in_block_partial g pad plan total esz mem p t2 v2 Hp HW HP E H NN V2) as (o2 & s2 & A2 & B2 & C2).
  destruct (C01_live_tensors_disjoint g pad plan total i t1 t2 o1 s1 o2 s2 Hp HW HP L1 L2 D A1 A2); lia.
Qed.
(** With a one-byte mask in a float32 engine, two live tensors share memory. *)
Definition demo_mask : graph := relate (mkGraph
  [("m1", mkNode "m1" "Greater" ["x"; "k"] ["m"]); ("m2", mkNode "m2" "Where" ["m"; "x"; "x"] ["y"])]%string
  [("x", dyn [64]); ("k", mkTensor STATIC [1] 4); ("m", mkTensor DYNAMIC [64] 1); ("y", dyn [64])]%string
  [] [] ["k"]%string ["m"; "y"]%string ["x"]%string ["y"]%string).
Theorem C65_narrow_refuted : exists g pad plan total mem p i t1 t2 v1 v2, 0 < pad /\ wf_plan_input g /\ planned g pad plan total /\
  mk_pool plan total 4 mem = SOk p /\ live_at g i t1 /\ live_at g i t2 /\ t1 <> t2 /\
  infer_view (tensormap g) p t1 = SOk (Some v1) /\ infer_view (tensormap g) p t2 = SOk (Some v2) /\
  v_off v1 < v_off v2 + v_len v2 /\ v_off v2 < v_off v1 + v_len v1.
Proof.
  exists demo_mask, 64. eexists. eexists. exists (fun _ => 0). eexists. exists 1%nat, "m"%string, "y"%string. eexists. eexists.
  split; [lia|]. split.
  { split; [apply Decide.ssa_b_ok; vm_compute; reflexivity|]. split; [apply RelProofs.ucp_consumers_exact|]. apply Decide.anon_b_ok. vm_compute. reflexivity. }
  split; [vm_compute; reflexivity|]. split; [vm_compute; reflexivity|].
  split; [|split; [|split; [discriminate|split; [vm_compute; reflexivity|split; [vm_compute; reflexivity|vm_compute; auto]]]]].
  - split; [discriminate|]. split; [vm_compute; lia|]. split.
    + right. exists 0%nat. eexists. split; [lia|]. split; [reflexivity|]. left. reflexivity.
    + left. exists 1%nat. eexists. split; [lia|]. split; [reflexivity|]. left. reflexivity.
  - split; [discriminate|]. split; [vm_compute; lia|]. split.
    + right. exists 1%nat. eexists. split; [lia|]. split; [reflexivity|]. left. reflexivity.
    + right. vm_compute. intuition discriminate.
Qed.
Example C65_demo : not_narrower demo 4 /\ exists p v, mk_pool demo_mem 960 4 (fun _ => 0) = SOk p /\ infer_view (tensormap demo) p "a" = SOk (Some v).
Proof.
  split.
  - intros t tn H. apply dget_In in H. cbn in H. repeat (destruct H as [H|H]; [injection H as _ <-; vm_compute; discriminate|]). contradiction.
  - do 2 eexists. split; vm_compute; reflexivity.
Qed.
