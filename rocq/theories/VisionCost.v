(** Size and cost of the vision builder's graph. *)
From Coq Require Import Permutation Reals.
From Verif Require Import PyBase PyBaseFacts GraphModel CompressSpec ShapeModel FloatPy FusionModel FusionProofs RegressModel RegressProofs ProfileModel ProfileProofs CostModel LlmModel LlmSpec LlmNames LlmBuild LlmCost LlmCostSpec LlmCostProofs LlmCostOps LlmCostTop LlmCostRows LlmRel LlmWireSpec InferModel LlmInfer LlmInferProofs Props_LlmCost VisionModel VisionSpec VisionProofs VisionFits VisionGraph VisionWire.
Open Scope string_scope. Open Scope Z_scope.

(** items: each finds its operands *)
Lemma fits_found P its : forall d, fits P d its -> forall nm op ins sh k, In (IS nm op ins sh k) its ->
  exists es, Forall2 (fun x e => In (x, e) (d ++ map ent its)) ins es /\ P op es sh k.
Proof.
  induction its as [|i its IH]; intros d FF nm op ins sh k H; [contradiction|]. destruct FF as [F1 F2]. destruct H as [->|H].
  - destruct F1 as (es & F & Q). exists es. split; [|exact Q]. eapply Forall2_impl; [|exact F]. cbn. intros x e I. apply in_or_app. auto.
  - destruct (IH _ F2 _ _ _ _ _ H) as (es & F & Q). exists es. split; [|exact Q]. eapply Forall2_impl; [|exact F]. cbn [map]. intros x e I. rewrite <- app_assoc in I. exact I.
Qed.
Ltac num := unfold vols, TANH_MACS, MUL_MACS, ADD_MACS, CMP_MACS, DIV_MACS, EXP_MACS, SIN_MACS, COS_MACS, SQRT_MACS; cbn [map t_shape wt act ct idt tl]; rewrite ?sum_cons, ?sum0, ?vol1, ?vol2, ?vol3, ?vol4, ?pwr.
Ltac prof := cbn -[volume Z.mul Z.add Z.sub Z.div Z.min Z.max Z.log2 pw_ratio sum_list vols Z.ltb Z.leb Z.eqb getattr head_size flag_or linear_params norm_params rope_params grid tl].
Section COST.
Context (v : vdims) (c h w : Z).
Notation its := (vision_items v c h w).
Notation n := (grid v h w).
Notation g := (vgraph v c h w).
Lemma ent_tensor x e : In (x, e) (map ent its) -> dget (tensormap g) x = Some (fst e).
Proof. intros H. apply in_map_iff in H as (i & E & I). pose proof (tensor_at v c h w i I) as T. rewrite E in T. exact T. Qed.
Lemma ent_named x e : In (x, e) (map ent its) -> x <> "".
Proof. intros H ->. apply (items_t_named v c h w). unfold tnames. rewrite <- map_map. apply in_map_iff. exists ("", e). auto. Qed.
Lemma node_item m : In m (nodes_of g) -> exists nm op ins sh k, m = mkNode nm op ins [nm ++ ".output"] /\ In (IS nm op ins sh k) its.
Proof.
  change (nodes_of g) with (nodes_of (built_of its)). rewrite nodes_items by apply (vision_exec v c h w). intros H. apply in_flat_map in H as (i & Hi & H). destruct i; try contradiction.
  destruct H as [<-|[]]. do 5 eexists. split; [reflexivity|exact Hi].
Qed.
(** shapes *)
Lemma typed_ok op es sh k : 0 <= d_heads v * d_head v -> any_ok v c h w op es sh k -> vision_typed op (map (fun e : tentry => t_shape (fst e)) es) sh.
Proof.
  intros Ha H. destruct H as [| |op es sh k H].
  - apply vt_conv.
  - apply vt_reshape. change (volume [1; d_hidden v; h / d_patch v; w / d_patch v] = volume [1; n; d_hidden v]). rewrite vol4, vol3. unfold grid. cbv zeta. ring.
  - apply vt_other. destruct H; cbn [map fst pl act wt nu ct t_shape]; repeat change (zlen [_]) with 1.
    + apply (ty_norm [1; n] (d_hidden v)); [cbn; lia|]. repeat constructor; exists (d_hidden v); split; auto; apply Z.divide_refl.
    + apply (ty_matmul_bias [1; n]).
    + apply ty_slice. lia.
    + apply ty_sdpa.
    + apply ty_eltwise. auto.
    + apply ty_eltwise. auto.
    + apply ty_act. auto.
Qed.
Lemma shaped : 0 <= d_heads v * d_head v -> vision_shaped g.
Proof.
  intros Ha m Hm. destruct (node_item m Hm) as (nm & op & ins & sh & k & -> & I). destruct (fits_found _ _ _ (vision_fits v c h w) _ _ _ _ _ I) as (es & F & Q).
  exists (nm ++ ".output"), (map (fun e : tentry => t_shape (fst e)) es), sh. cbn [n_out n_in n_op]. split; [reflexivity|]. split; [|split; [|eapply typed_ok; eassumption]].
  - clear -F. cbn [app] in F. induction F as [|x e ? ? I F IH]; constructor; [|exact IH]. eexists. split; [eapply ent_tensor; exact I|reflexivity].
  - pose proof (tensor_at v c h w _ I) as T. eexists. split; [exact T|reflexivity].
Qed.
(** cost of a node *)
Lemma cost_ok nd op es sh k : any_ok v c h w op es sh k -> n_op nd = op -> static_inputs nd (map fst es) = static_of (map fst es) ->
  vision_nprof v nd (map fst es) [act sh] = SOk (k_macs k, k_io k, k_static k) /\ k_params k = vols (static_of (map fst es)).
Proof.
  intros H E S. unfold vision_nprof, llm_nprof. rewrite S, E.
  destruct H as [| |op es sh k H]; [| |destruct H]; cbn [String.eqb Ascii.eqb Bool.eqb].
  - split; [prof; apply tri|prof]; num; unfold grid; cbv zeta; ring.
  - split; [prof; apply tri|prof]; num; try ring. all: cbn; ring.
  - split; [prof; apply tri|prof]; num; ring.
  - split; [prof; apply tri|prof]; num; unfold linear_params, b2z; try ring. cbn [Z.eqb Pos.eqb]. ring.
  - split; [prof; apply tri|prof]; num; ring.
  - split; [prof; apply tri|prof]; num; try ring. change (head_size (vision_heads v)) with (d_head v). cbn [fst]. ring.
  - split; [prof; apply tri|prof]; num; ring.
  - split; [prof; apply tri|prof]; num; ring.
  - split; [prof; apply tri|prof]; num; ring.
Qed.
Lemma row_ok nm op ins sh k : In (IS nm op ins sh k) its -> profile_node (vision_nprof v) g nm = SOk (mkrow nm op k).
Proof.
  intros I. destruct (fits_found _ _ _ (vision_fits v c h w) _ _ _ _ _ I) as (es & F & Q). cbn [app] in F.
  destruct (vision_exec v c h w) as (W & FA & _ & _). pose proof (item_node _ _ _ _ _ _ W FA I) as Gn.
  unfold profile_node. unfold dlook at 1. change (nodemap g) with (nodemap (built_of its)). rewrite Gn. cbn [sbind n_in n_out n_op].
  rewrite (smap_lookup g ins (map fst es)).
  2: { clear -F. induction F as [|x e ? ? J F IH]; constructor; [apply ent_tensor; exact J|exact IH]. }
  cbn [sbind]. rewrite (smap_lookup g [nm ++ ".output"] [act sh]).
  2: { constructor; [|constructor]. exact (tensor_at v c h w _ I). }
  cbn [sbind].
  assert (SI : static_inputs (mkNode nm op ins [nm ++ ".output"]) (map fst es) = static_of (map fst es)).
  { unfold static_inputs. cbn [n_in]. apply statics_combine. clear -F. induction F as [|x e ? ? J F IH]; constructor; [eapply ent_named; exact J|exact IH]. }
  destruct (cost_ok (mkNode nm op ins [nm ++ ".output"]) _ _ _ _ Q eq_refl SI) as [P1 P2]. rewrite P1. cbn [sbind]. unfold mkrow. f_equal. f_equal.
  - rewrite P2. unfold vols. rewrite <- SI. unfold static_inputs. cbn [n_in]. rewrite map_map. reflexivity.
  - cbn [t_esize act]. assert (X : exists t r, map fst es = t :: r /\ t_esize t = 4) by (destruct Q as [| |? ? ? ? Q]; [| |destruct Q]; eexists; eexists; split; reflexivity).
    destruct X as (t & r & -> & ->). ring.
Qed.
(** sums *)
Lemma ksum_app a b : k_macs (ksum (a ++ b)) = k_macs (ksum a) + k_macs (ksum b) /\ k_io (ksum (a ++ b)) = k_io (ksum a) + k_io (ksum b) /\
  k_params (ksum (a ++ b)) = k_params (ksum a) + k_params (ksum b) /\ k_static (ksum (a ++ b)) = k_static (ksum a) + k_static (ksum b).
Proof.
  induction a as [|k a IH]; [repeat split; reflexivity|]. cbn [app ksum fold_right]. fold (ksum (a ++ b)). fold (ksum a). destruct IH as (E1 & E2 & E3 & E4).
  cbn [kadd k_macs k_io k_params k_static]. rewrite E1, E2, E3, E4. repeat split; ring.
Qed.
Lemma layer_sum nm x : k_macs (ksum (costs (layer_items v n nm x))) = block_macs v n /\ k_io (ksum (costs (layer_items v n nm x))) = block_io v n /\
  k_params (ksum (costs (layer_items v n nm x))) = block_params v /\ k_static (ksum (costs (layer_items v n nm x))) = block_params v.
Proof.
  unfold layer_items, attn_items, mlp_items. cbn [app lin_items ln_items slice_items gelu_items add_items costs flat_map ksum fold_right kadd kzero k_macs k_io k_params k_static].
  unfold block_macs, block_io, block_params, norm_macs, affine_params, norm_on, linear_cost, slice_cost, eltwise_cost, sdpa_cost, linear_params, b2z. cbn [k_macs k_io k_params k_static]. repeat split; ring.
Qed.
Lemma layers_sum k : forall i x, let cs := ksum (costs (layers_items v n i k x)) in
  k_macs cs = Z.of_nat k * block_macs v n /\ k_io cs = Z.of_nat k * block_io v n /\ k_params cs = Z.of_nat k * block_params v /\ k_static cs = Z.of_nat k * block_params v.
Proof.
  induction k as [|k IH]; intros i x; [repeat split; reflexivity|]. cbn [layers_items]. cbv zeta. rewrite costs_app.
  destruct (ksum_app (costs (layer_items v n (block_name i) x)) (costs (layers_items v n (S i) k ((block_name i ++ ".mlp_add") ++ ".output")))) as (-> & -> & -> & ->).
  destruct (layer_sum (block_name i) x) as (-> & -> & -> & ->). destruct (IH (S i) ((block_name i ++ ".mlp_add") ++ ".output")) as (-> & -> & -> & ->). rewrite Nat2Z.inj_succ. repeat split; ring.
Qed.
Lemma total : let cs := ksum (costs its) in
  k_macs cs = encoder_macs v c n /\ k_io cs = encoder_io v n /\ k_params cs = encoder_params v c n /\ k_static cs = encoder_params v c n.
Proof.
  cbv zeta. unfold vision_items. rewrite !costs_app.
  destruct (ksum_app (costs (head_items v c h w)) (costs (body_items v h w) ++ costs (tail_items v h w))) as (-> & -> & -> & ->).
  destruct (ksum_app (costs (body_items v h w)) (costs (tail_items v h w))) as (-> & -> & -> & ->).
  unfold body_items. destruct (layers_sum (Z.to_nat (d_layers v)) 0 "vision.pos_embed_add.output") as (-> & -> & -> & ->).
  assert (EB : Z.of_nat (Z.to_nat (d_layers v)) = blocks v) by (unfold blocks; lia). rewrite EB.
  unfold encoder_macs, encoder_io, encoder_params, projector_macs, projector_params, norm_macs, affine_params, tail_items, proj_items. destruct (d_mlp v);
    unfold mlp_items; cbn [app head_items lin_items ln_items gelu_items costs flat_map ksum fold_right kadd kzero k_macs k_io k_params k_static];
    unfold conv_cost, norm_on, linear_cost, eltwise_cost, linear_params, b2z; cbn [k_macs k_io k_params k_static]; repeat split; ring.
Qed.
(** stored numbers *)
Definition wvol (l : list item) : Z := sum_list (flat_map (fun i => match i with IW _ sh => [volume sh] | IN _ l => [zlen l] | _ => [] end) l).
Lemma wvol_app a b : wvol (a ++ b) = wvol a + wvol b.
Proof.
  unfold wvol. rewrite flat_map_app. generalize (flat_map (fun i => match i with IW _ sh => [volume sh] | IN _ l => [zlen l] | _ => [] end) a) as xs. intros xs.
  induction xs as [|y xs IH]; [reflexivity|]. cbn [app]. rewrite !sum_cons, IH. ring.
Qed.
Lemma stored_items : stored_params g = wvol its.
Proof.
  unfold stored_params, wvol. f_equal. destruct (vision_exec v c h w) as (_ & F & _). change (initials g) with (initials (built_of its)). rewrite initials_items by exact F.
  assert (H : forall i, In i its -> dget (tensormap g) (fst (ent i)) = Some (fst (snd (ent i)))) by (intros; apply tensor_at; assumption). change (tensormap (built_of its)) with (tensormap g). revert H. generalize its as l. induction l as [|i l IH]; intros H; [reflexivity|].
  cbn [flat_map]. rewrite map_app, IH by (intros; apply H; right; assumption). f_equal. specialize (H i (or_introl eq_refl)). destruct i; cbn [ent fst snd] in H; cbn [map]; rewrite ?H; try reflexivity. cbn [t_shape ct]. rewrite vol1. reflexivity.
Qed.
Lemma layers_vol k : forall i x, wvol (layers_items v n i k x) = Z.of_nat k * block_params v.
Proof.
  induction k as [|k IH]; intros i x; [reflexivity|]. cbn [layers_items]. rewrite wvol_app, IH, Nat2Z.inj_succ.
  assert (E : wvol (layer_items v n (block_name i) x) = block_params v).
  { unfold layer_items, attn_items, mlp_items, lin_items, ln_items, slice_items, gelu_items, add_items. cbn [app lin_items ln_items slice_items gelu_items add_items]. unfold wvol. cbn [flat_map app]. rewrite !sum_cons. change (sum_list (@nil Z)) with 0. rewrite ?vol1, ?vol2. repeat change (zlen [_]) with 1.
    unfold block_params, affine_params. ring. }
  rewrite E. ring.
Qed.
Lemma stored_total : stored_params g = encoder_params v c n.
Proof.
  rewrite stored_items. unfold vision_items. rewrite !wvol_app. unfold body_items. rewrite layers_vol. assert (EB : Z.of_nat (Z.to_nat (d_layers v)) = blocks v) by (unfold blocks; lia). rewrite EB.
  unfold tail_items, proj_items, encoder_params, projector_params, affine_params. rewrite wvol_app. destruct (d_mlp v); unfold mlp_items, head_items, lin_items, ln_items, gelu_items; cbn [app]; unfold wvol; cbn [flat_map app];
    rewrite !sum_cons; change (sum_list (@nil Z)) with 0; rewrite ?vol1, ?vol2, ?vol3, ?vol4; change (zlen [1; n; d_hidden v]) with 3; ring.
Qed.
Lemma report_ok : exists r, profiles (vision_nprof v) g [] r /\ sum_list (map r_macs (rp_rows r)) = encoder_macs v c n /\ rp_params r = encoder_params v c n /\
  rp_memory r = 4 * (encoder_io v n + encoder_params v c n) /\ map r_name (rp_rows r) = dkeys (nodemap g).
Proof.
  assert (R : Forall2 (fun kn k => profile_node (vision_nprof v) g (fst kn) = SOk (mkrow (fst kn) (n_op (snd kn)) k)) (nodemap g) (costs its)).
  { assert (N : nodemap g = flat_map (fun i => match i with IS m op ins _ _ => [(m, mkNode m op ins [m ++ ".output"])] | _ => [] end) its).
    { destruct (vision_exec v c h w) as (_ & (A & _) & _). change (nodemap g) with (nodemap (built_of its)). rewrite A. clear A. generalize its as l. induction l as [|i l IH]; [reflexivity|]. unfold lnodes in *. cbn [map flat_map]. rewrite map_app, IH. destruct i; reflexivity. }
    rewrite N. assert (H : forall m op ins sh k, In (IS m op ins sh k) its -> profile_node (vision_nprof v) g m = SOk (mkrow m op k)) by (intros; eapply row_ok; eassumption).
    revert H. unfold costs. generalize its as l. induction l as [|i l IH]; intros H; [constructor|]. cbn [flat_map]. apply Forall2_app; [|apply IH; intros; eapply H; right; eassumption].
    destruct i; try constructor; [|constructor]. cbn [fst snd n_op]. eapply H. left. reflexivity. }
  destruct (profile_run _ _ _ _ R) as (mf & Pr). destruct total as (T1 & T2 & T3 & T4).
  destruct (dedup_ok g) as (dd & Ed). { intros t It. apply (eg_known _ (vgraph_exec v c h w)). unfold tensor_names. rewrite !in_app_iff. auto. }
  eexists. split.
  - exists (dkeys (nodemap g)). split; [reflexivity|]. unfold profile_with, dkeys. rewrite Pr. cbn [sbind]. rewrite Ed. cbn [sbind]. reflexivity.
  - pose proof (Forall2_len _ _ _ R) as L. cbn [rp_rows rp_params rp_memory app]. split; [rewrite combine_macs by exact L; rewrite <- ksum_macs; exact T1|]. split; [rewrite T3; apply Z.add_0_l|]. split; [rewrite T2, T4; apply Z.add_0_l|].
    rewrite map_map. unfold dkeys. cbn [mkrow r_name]. clear -L. revert L. generalize (costs its) as cs. generalize (nodemap g) as nm. induction nm as [|a nm IH]; intros [|k cs] L; try discriminate; [reflexivity|]. cbn [combine map fst]. f_equal. apply IH. cbn in L. lia.
Qed.
End COST.
