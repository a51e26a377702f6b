(** Inference on the vision builder's graph. *)
From Coq Require Import Permutation.
From Verif Require Import PyBase PyBaseFacts GraphModel CompressSpec ShapeModel ShapeModel2 FloatPy FusionModel FusionProofs RegressModel RegressProofs LlmModel LlmSpec LlmNames LlmBuild LlmCost LlmCostSpec LlmCostProofs LlmRel LlmWireSpec InferModel LlmInfer LlmInferProofs Props_LlmWire VisionModel VisionSpec VisionProofs VisionFits VisionGraph VisionWire.
Open Scope string_scope. Open Scope Z_scope.

Notation rec := (trec (V := list Z * list Z)).
Definition rec_of (e : tentry) : rec := mkT (t_shape (fst e)) (snd e).
Definition holds (tm : dict rec) (l : list entry) : Prop := forall x e, In (x, e) l -> dget tm x = Some (rec_of e).
Lemma dset_same {A} (d : dict A) k r : dget d k = Some r -> dset d k r = d.
Proof.
  induction d as [|[k' x] d IH]; [discriminate|]. cbn [dget dset]. destruct (String.eqb_spec k k') as [->|N]; [congruence|]. intros H. rewrite IH by exact H. reflexivity.
Qed.
Notation run v := (infer_node fst (vision_shape_rule v) (fun _ _ => SRaise NotImplErr) []).
Notation runs v := (infer_nodes fst (vision_shape_rule v) (fun _ _ => SRaise NotImplErr) []).
Definition steps (l : list item) : list node := flat_map (fun i => match i with IS n op ins _ _ => [mkNode n op ins [n ++ ".output"]] | _ => [] end) l.
Lemma infer_app v a b tm : runs v (a ++ b) tm = (let* t := runs v a tm in runs v b t).
Proof. revert tm. induction a as [|x a IH]; intros tm; [reflexivity|]. cbn [app infer_nodes]. destruct (run v tm x) as [t|]; [|reflexivity]. cbn [sbind]. apply IH. Qed.
Lemma look_all tm D ins es : holds tm D -> Forall2 (fun x e => In (x, e) D) ins es -> lookup_all tm ins = SOk (map rec_of es).
Proof. intros H F. induction F as [|x e l l' I F IH]; [reflexivity|]. cbn [lookup_all map]. rewrite (H x e I), IH. reflexivity. Qed.
(** one node: its rule decides *)
Lemma run_node v tm n op ins l r s num : lookup_all tm ins = SOk l -> dget tm (n ++ ".output") = Some (mkT s num) -> vision_shape_rule v (mkNode n op ins [n ++ ".output"]) l = r ->
  run v tm (mkNode n op ins [n ++ ".output"]) = match r with SOk [y] => SOk (dset tm (n ++ ".output") (mkT y num)) | SOk ss => SOk (set_shapes tm [n ++ ".output"] ss) | SRaise _ => SRaise ValueErr end.
Proof.
  intros L O <-. unfold infer_node. cbn [n_in n_out n_name lookup_all]. rewrite L, O. cbn [sbind]. unfold memb. cbn [existsb].
  destruct (vision_shape_rule v _ l) as [[|y [|z q]]|e]; try reflexivity. cbn [set_shapes]. rewrite O. reflexivity.
Qed.

Section RULES.
Context (v : vdims) (n : Z).
Let d := d_hidden v.
Let a := d_heads v * d_head v.
Context (Ha : 0 <= a) (Hn : 0 <= n < 2 ^ 53 - 1) (Hw : 3 * a < 2 ^ 53 - 1).
Lemma rule_op nm op es sh k ins : op_ok v n op es sh k -> vision_shape_rule v (mkNode nm op ins [nm ++ ".output"]) (map rec_of es) = SOk [sh].
Proof.
  intros H. unfold vision_shape_rule. inversion H; subst; cbn [n_op String.eqb Ascii.eqb Bool.eqb]; unfold builder_shape_rule; cbn [n_op String.eqb Ascii.eqb Bool.eqb orb map rec_of fst snd t_shape operand nth_error tr_shape sbind].
  - reflexivity.
  - cbn [pl act wt fst snd t_shape]. rewrite matmul3 by lia. reflexivity.
  - change (slice_shape _ _ _ _ _) with (slice_shape [1; n; 3 * a] [off] [off + a] (Some [2]) (Some [1])).
    match goal with X : 0 <= _ -> _ /\ _ |- _ => destruct (X Ha) as (Z1 & Z2 & Z3) end. fold a in Z1, Z2, Z3. rewrite slice_range by (assumption || lia). reflexivity.
  - reflexivity.
  - cbn [pl act wt fst snd t_shape]. unfold npmath_shape. rewrite bcast_shape_same. reflexivity.
  - cbn [pl act wt fst snd t_shape]. unfold npmath_shape. rewrite bcast_shape_same. reflexivity.
  - cbn [pl act wt fst snd t_shape]. unfold pw_shape. rewrite pw_one. reflexivity.
Qed.
Lemma run_token tm D nm op ins sh k : holds tm D -> item_ok (op_ok v n) D (IS nm op ins sh k) -> dget tm (nm ++ ".output") = Some (mkT sh None) ->
  run v tm (mkNode nm op ins [nm ++ ".output"]) = SOk tm.
Proof.
  intros H (es & F & O) E. rewrite (run_node v tm nm op ins _ _ sh None (look_all _ _ _ _ H F) E (rule_op nm op es sh k ins O)). rewrite dset_same by exact E. reflexivity.
Qed.
Lemma run_tokens its : forall tm D, fits (op_ok v n) D its -> holds tm (D ++ map ent its) -> runs v (steps its) tm = SOk tm.
Proof.
  induction its as [|i its IH]; intros tm D F H; [reflexivity|]. cbn [fits map] in *. destruct F as [F1 F2].
  assert (H2 : holds tm ((D ++ [ent i]) ++ map ent its)) by (rewrite <- app_assoc; exact H). specialize (IH tm _ F2 H2).
  destruct i as [m sh|m sh|m l|m op ins sh k]; unfold steps in *; cbn [flat_map app]; try exact IH. cbn [infer_nodes].
  rewrite (run_token tm D m op ins sh k).
  - cbn [sbind]. exact IH.
  - intros x e I. apply H. apply in_or_app. auto.
  - exact F1.
  - apply (H (m ++ ".output") (act sh, None)). apply in_or_app. right. left. reflexivity.
Qed.
End RULES.

Section RUN.
Context (v : vdims) (c h w : Z).
Notation its := (vision_items v c h w).
Notation n := (grid v h w).
Notation g := (vgraph v c h w).
Notation p := (d_patch v).
Notation d := (d_hidden v).
Notation tm0 := (vision_tensors g (nums its)).
Lemma tm0_get t : dget tm0 t = option_map (fun x => mkT (t_shape x) (dget (nums its) t)) (dget (tensormap g) t).
Proof.
  unfold vision_tensors. induction (tensormap g) as [|[k x] m IH]; [reflexivity|]. cbn [map dget fst snd]. destruct (String.eqb_spec t k) as [->|N]; [reflexivity|exact IH].
Qed.
Lemma tm0_holds : holds tm0 (map ent its).
Proof.
  intros x e H. apply in_map_iff in H as (i & E & I). rewrite tm0_get. pose proof (tensor_at v c h w i I) as T. pose proof (item_stored its i (items_t_nodup v c h w) I) as N.
  rewrite E in T, N. cbn [fst snd] in T, N. rewrite T. cbn [option_map]. rewrite N. reflexivity.
Qed.
Context (Hp : 0 < p) (Ha : 0 <= d_heads v * d_head v) (Hn : 0 < n < 2 ^ 53 - 1) (Hd : 0 < d) (Hw : 3 * (d_heads v * d_head v) < 2 ^ 53 - 1).
Context (b2 c2 h2 w2 : Z) (num : option (list Z * list Z)) (Hh : 0 <= h2 /\ h2 + 2 * p < 2 ^ 50) (Hww : 0 <= w2 /\ w2 + 2 * p < 2 ^ 50).
Notation tm1 := (dset tm0 "pixel_values" (mkT [b2; c2; h2; w2] num)).
Notation tm2 := (dset tm1 "vision.patch_embed.output" (mkT [b2; d; h2 / p; w2 / p] None)).
Lemma conv_len x : 0 <= x /\ x + 2 * p < 2 ^ 50 -> conv_output_shape x 0 p p 1 = SOk (x / p).
Proof.
  intros H. unfold conv_output_shape. destruct (Z.eqb_spec p 0); [lia|]. rewrite int_fdiv1 by lia. f_equal. replace (x + 0 - 1 * (p - 1) - 1) with (x + (-1) * p) by ring. rewrite Z.div_add by lia. ring.
Qed.
Lemma conv_rule nm : vision_shape_rule v (mkNode nm "Conv" ["pixel_values"; "vision.patch_embed.weight"] [nm ++ ".output"]) [mkT [b2; c2; h2; w2] num; mkT [d; c; p; p] None] = SOk [[b2; d; h2 / p; w2 / p]].
Proof.
  unfold vision_shape_rule. cbn [n_op String.eqb Ascii.eqb Bool.eqb operand nth_error sbind tr_shape]. unfold conv_shape, patch_window. cbn [w_autopad length Nat.eqb]. unfold conv_axis. cbn [w_pads w_strides w_dilations].
  change (py_index [b2; c2; h2; w2] (2 + 0)) with (SOk h2). change (py_index [b2; c2; h2; w2] (2 + 1)) with (SOk w2). change (py_index [d; c; p; p] (2 + 0)) with (SOk p). change (py_index [d; c; p; p] (2 + 1)) with (SOk p).
  change (py_index [p; p] 0) with (SOk p). change (py_index [p; p] 1) with (SOk p). cbn [py_index]. cbn [sbind].
  repeat match goal with |- context [py_index [0; 0; 0; 0] ?i] => change (py_index [0; 0; 0; 0] i) with (SOk 0) end.
  repeat match goal with |- context [py_index [1; 1; 1] ?i] => change (py_index [1; 1; 1] i) with (SOk 1) end. cbn [sbind]. change (0 + 0) with 0.
  rewrite !conv_len by assumption. reflexivity.
Qed.
Lemma reshape_rule nm ins : vision_shape_rule v (mkNode nm "Reshape" ins [nm ++ ".output"]) [mkT [b2; d; h2 / p; w2 / p] None; rec_of (nu [1; n; d])] =
  if b2 * (h2 / p) * (w2 / p) =? n then SOk [[1; n; d]] else SRaise AssertErr.
Proof.
  unfold vision_shape_rule. cbn [n_op String.eqb Ascii.eqb Bool.eqb operand nth_error sbind tr_shape]. unfold numbers, rec_of, nu. cbn [tr_num tr_shape fst snd ct t_shape]. change (zlen [1; n; d]) with 3.
  destruct (list_eq_dec Z.eq_dec [3] [3]) as [_|X]; [|congruence]. unfold reshape_shape. cbn [reshape_fill]. destruct (Z.eqb_spec n 0) as [X0|X0]; [lia|]. destruct (Z.eqb_spec d 0) as [X1|X1]; [lia|]. change (1 =? 0) with false. cbn [sbind].
  unfold volume. cbn [fold_left]. destruct (Z.ltb_spec (1 * 1 * n * d) 0) as [X2|X2]; [nia|]. cbn [fold_left]. destruct (Z.eqb_spec (b2 * (h2 / p) * (w2 / p)) n) as [E|E]; destruct (Z.eqb_spec (1 * b2 * d * (h2 / p) * (w2 / p)) (1 * 1 * n * d)) as [F|F]; try reflexivity; exfalso.
  - apply F. rewrite <- E. ring.
  - apply E. apply (Z.mul_reg_r _ _ d); [lia|]. rewrite !Z.mul_1_l in F. rewrite <- F. ring.
Qed.
Lemma run_vision : runs v (nodes_of g) tm1 = if b2 * (h2 / p) * (w2 / p) =? n then SOk tm2 else SRaise ValueErr.
Proof.
  change (nodes_of g) with (nodes_of (built_of its)). rewrite nodes_items by apply (vision_exec v c h w). fold (steps its). rewrite token_split. unfold steps at 1. rewrite flat_map_app. fold (steps (firstn 5 (head_items v c h w))). fold (steps (token_items v c h w)).
  rewrite infer_app. change (steps (firstn 5 (head_items v c h w))) with
    [mkNode "vision.patch_embed" "Conv" ["pixel_values"; "vision.patch_embed.weight"] ["vision.patch_embed" ++ ".output"]; mkNode "vision.patch_reshape" "Reshape" ["vision.patch_embed.output"; "vision.patch_reshape.shape"] ["vision.patch_reshape" ++ ".output"]].
  cbn [infer_nodes]. pose proof tm0_holds as H0.
  assert (HW : dget tm0 "vision.patch_embed.weight" = Some (mkT [d; c; p; p] None)) by (apply (H0 _ (pl (wt [d; c; p; p]))); cbn; tauto).
  assert (HE : dget tm0 "vision.patch_embed.output" = Some (mkT [1; d; h / p; w / p] None)) by (apply (H0 _ (pl (act [1; d; h / p; w / p]))); cbn; tauto).
  assert (HS : dget tm0 "vision.patch_reshape.shape" = Some (rec_of (nu [1; n; d]))) by (apply (H0 _ (nu [1; n; d])); cbn; tauto).
  assert (HR : dget tm0 "vision.patch_reshape.output" = Some (mkT [1; n; d] None)) by (apply (H0 _ (pl (act [1; n; d]))); cbn; tauto).
  assert (NE : forall x r k, x <> k -> forall t : dict rec, dget (dset t k r) x = dget t x) by (intros; apply dget_dset_neq; auto).
  erewrite (run_node v tm1 "vision.patch_embed" "Conv" _ [mkT [b2; c2; h2; w2] num; mkT [d; c; p; p] None] _ [1; d; h / p; w / p] None); [| |rewrite NE by discriminate; exact HE|apply conv_rule].
  2: { cbn [lookup_all]. rewrite dget_dset_eq, NE, HW by discriminate. reflexivity. }
  cbn [sbind].
  erewrite (run_node v tm2 "vision.patch_reshape" "Reshape" _ [mkT [b2; d; h2 / p; w2 / p] None; rec_of (nu [1; n; d])] _ [1; n; d] None); [| |rewrite !NE by discriminate; exact HR|apply reshape_rule].
  2: { cbn [lookup_all]. change ("vision.patch_embed" ++ ".output") with "vision.patch_embed.output". rewrite dget_dset_eq, !NE, HS by discriminate. reflexivity. }
  change ("vision.patch_embed" ++ ".output") with "vision.patch_embed.output". change ("vision.patch_reshape" ++ ".output") with "vision.patch_reshape.output".
  destruct (_ =? n); [|reflexivity]. cbn [sbind]. rewrite dset_same by (rewrite !NE by discriminate; exact HR).
  assert (Hn2 : 0 <= n < 2 ^ 53 - 1) by lia. apply (run_tokens v n Ha Hn2 Hw (token_items v c h w) _ [tokens v h w] (token_fits v c h w)).
  pose proof (items_t_nodup v c h w) as ND. rewrite token_split, tnames_app in ND. apply NoDup_app_inv in ND as (_ & _ & ND).
  intros x e I. assert (IT : In (x, e) (map ent its)). { rewrite token_split, map_app. apply in_or_app. destruct I as [<-|I]; [left; cbn; tauto|right; exact I]. }
  assert (X : x <> "pixel_values" /\ x <> "vision.patch_embed.output").
  { destruct I as [E|I]; [injection E as <- _; split; discriminate|]. assert (Ix : In x (tnames (token_items v c h w))) by (unfold tnames; rewrite <- map_map; apply in_map_iff; exists (x, e); auto).
    split; intros ->; refine (ND _ _ Ix); cbn; tauto. }
  rewrite !NE by apply X. apply H0. exact IT.
Qed.
End RUN.
(** an image with no whole patch *)
Section SMALL.
Context (v : vdims) (c h w : Z).
Notation its := (vision_items v c h w).
Notation g := (vgraph v c h w).
Notation p := (d_patch v).
Notation d := (d_hidden v).
Notation tm0 := (vision_tensors g (nums its)).
Lemma run_small : 0 < p -> 0 < d -> grid v h w = 0 -> 0 <= h -> h + 2 * p < 2 ^ 50 -> 0 <= w -> w + 2 * p < 2 ^ 50 -> runs v (nodes_of g) tm0 = SRaise ValueErr.
Proof.
  intros Hp Hd Hn H1 H2 H3 H4.
  change (nodes_of g) with (nodes_of (built_of its)). rewrite nodes_items by apply (vision_exec v c h w). fold (steps its). rewrite token_split. unfold steps at 1. rewrite flat_map_app. fold (steps (firstn 5 (head_items v c h w))). fold (steps (token_items v c h w)).
  rewrite infer_app. change (steps (firstn 5 (head_items v c h w))) with
    [mkNode "vision.patch_embed" "Conv" ["pixel_values"; "vision.patch_embed.weight"] ["vision.patch_embed" ++ ".output"]; mkNode "vision.patch_reshape" "Reshape" ["vision.patch_embed.output"; "vision.patch_reshape.shape"] ["vision.patch_reshape" ++ ".output"]].
  cbn [infer_nodes]. pose proof (tm0_holds v c h w) as H0.
  assert (HI : dget tm0 "pixel_values" = Some (mkT [1; c; h; w] None)) by (apply (H0 _ (pl (act [1; c; h; w]))); cbn; tauto).
  assert (HW : dget tm0 "vision.patch_embed.weight" = Some (mkT [d; c; p; p] None)) by (apply (H0 _ (pl (wt [d; c; p; p]))); cbn; tauto).
  assert (HE : dget tm0 "vision.patch_embed.output" = Some (mkT [1; d; h / p; w / p] None)) by (apply (H0 _ (pl (act [1; d; h / p; w / p]))); cbn; tauto).
  assert (HS : dget tm0 "vision.patch_reshape.shape" = Some (rec_of (nu [1; grid v h w; d]))) by (apply (H0 _ (nu [1; grid v h w; d])); cbn; tauto).
  assert (HR : dget tm0 "vision.patch_reshape.output" = Some (mkT [1; grid v h w; d] None)) by (apply (H0 _ (pl (act [1; grid v h w; d]))); cbn; tauto).
  erewrite (run_node v tm0 "vision.patch_embed" "Conv" _ [mkT [1; c; h; w] None; mkT [d; c; p; p] None] _ [1; d; h / p; w / p] None); [| |exact HE|apply conv_rule; lia].
  2: { cbn [lookup_all]. rewrite HI, HW. reflexivity. }
  cbn [sbind]. change ("vision.patch_embed" ++ ".output") with "vision.patch_embed.output". rewrite dset_same by exact HE.
  erewrite (run_node v tm0 "vision.patch_reshape" "Reshape" _ [mkT [1; d; h / p; w / p] None; rec_of (nu [1; grid v h w; d])] (SRaise AssertErr) [1; grid v h w; d] None); [reflexivity| |exact HR|].
  - cbn [lookup_all]. rewrite HE, HS. reflexivity.
  - rewrite Hn. unfold vision_shape_rule. cbn [n_op String.eqb Ascii.eqb Bool.eqb operand nth_error sbind tr_shape]. unfold numbers, rec_of, nu. cbn [tr_num tr_shape fst snd ct t_shape]. change (zlen [1; 0; d]) with 3.
    destruct (list_eq_dec Z.eq_dec [3] [3]) as [_|X]; [|congruence]. unfold reshape_shape. cbn [reshape_fill]. change (0 =? 0) with true. change (1 =? 0) with false. destruct (Z.eqb_spec d 0) as [X1|X1]; [lia|]. cbn [sbind].
    change (py_index [1; d; h / p; w / p] (0 + 1)) with (SOk d). cbn [sbind]. unfold volume. cbn [fold_left]. destruct (Z.ltb_spec (1 * 1 * d * d) 0) as [X2|X2]; [nia|]. cbn [fold_left].
    unfold grid in Hn. cbv zeta in Hn. destruct (Z.eqb_spec (1 * 1 * d * (h / p) * (w / p)) (1 * 1 * d * d)) as [F|F]; [|reflexivity]. exfalso. assert (E : 1 * 1 * d * (h / p) * (w / p) = d * ((h / p) * (w / p))) by ring. rewrite E, Hn in F. nia.
Qed.
End SMALL.
