(** The graph that the vision builder's log makes. *)
From Coq Require Import Permutation.
From Verif Require Import PyBase PyBaseFacts GraphModel CompressSpec ShapeModel FusionModel FusionProofs RegressModel RegressProofs LlmModel LlmSpec LlmNames LlmBuild LlmCost LlmCostSpec LlmCostProofs LlmRel LlmWireSpec InferModel LlmInfer LlmInferProofs Props_LlmWire VisionModel VisionSpec VisionProofs VisionFits.
Open Scope string_scope. Open Scope Z_scope.

Notation built_of its := (fold_left replay_step (map ev_of its) g0).
Section ITEMS.
Context (P : string -> list tentry -> list Z -> cost -> Prop).
Lemma items_graph its : fits P [] its -> NoDup (tnames its) -> NoDup (nnames its) -> ~ In "" (tnames its) ->
  executable_graph (built_of its) /\ faithful (map ev_of its) /\ Permutation (tensor_names (built_of its)) (tnames its) /\ map fst (nodemap (built_of its)) = nnames its.
Proof.
  induction its as [|i its IH] using rev_ind; intros F T N E.
  - cbn. split; [apply wf_empty|]. split; [|split; [constructor|reflexivity]]. split; [reflexivity|]. split; [reflexivity|]. intros d [].
  - apply fits_app in F as [F1 F2]. rewrite tnames_app in T, E. rewrite nnames_app in N. cbn [tnames map app] in T, E.
    apply NoDup_remove in T as [T T2]. rewrite app_nil_r in T, T2.
    assert (N1 : NoDup (nnames its)). { clear - N. induction (nnames its) as [|x l IHl]; [constructor|]. inversion N. constructor; [intros K; apply H1; apply in_or_app; auto|auto]. }
    destruct IH as (W & FA & PT & PN); [exact F1|exact T|exact N1|intros K; apply E; apply in_or_app; auto|].
    assert (Fr : ~ In (fst (ent i)) (tensor_names (built_of its))) by (intros K; apply T2; eapply Permutation_in; eassumption).
    assert (Ne : fst (ent i) <> "") by (intros K; apply E; apply in_or_app; right; left; exact K).
    rewrite map_app, fold_left_app. cbn [map fold_left]. destruct i as [n sh|n sh|n l|n op ins sh k]; cbn [ent fst ev_of] in *.
    + split; [apply wf_input; assumption|]. split; [apply faithful_input; assumption|]. split.
      * rewrite names_snoc_input, PT, tnames_app. reflexivity.
      * rewrite nnames_app. cbn. rewrite app_nil_r. exact PN.
    + split; [apply wf_static; assumption|]. split; [apply faithful_static; assumption|]. split.
      * rewrite names_snoc_static, PT, tnames_app. reflexivity.
      * rewrite nnames_app. cbn. rewrite app_nil_r. exact PN.
    + split; [apply wf_static; assumption|]. split; [apply faithful_static; assumption|]. split.
      * rewrite names_snoc_static, PT, tnames_app. reflexivity.
      * rewrite nnames_app. cbn. rewrite app_nil_r. exact PN.
    + assert (Fn : ~ In n (map fst (nodemap (built_of its)))).
      { rewrite PN. cbn in N. apply NoDup_remove in N as [_ N]. rewrite app_nil_r in N. exact N. }
      assert (Ri : forall x, In x ins -> In x (tensor_names (built_of its))).
      { intros x Hx. cbn in F2. destruct F2 as [(es & FF & _) _]. apply (Permutation_in _ (Permutation_sym PT)).
        assert (exists e, In (x, e) (map ent its)) as (e & He).
        { clear - FF Hx. induction FF; [contradiction|]. destruct Hx as [->|Hx]; [eauto|auto]. }
        apply in_map_iff in He as (j & Ej & Hj). apply in_map_iff. exists j. rewrite Ej. auto. }
      split; [apply wf_node; assumption|]. split; [apply faithful_node; assumption|]. split.
      * rewrite names_snoc_node by exact Fn. cbn [n_out]. rewrite tnames_app. cbn. rewrite PT. reflexivity.
      * rewrite nodes_snoc by exact Fn. rewrite map_app, PN, nnames_app. reflexivity.
Qed.
End ITEMS.
Lemma item_tensor its i : faithful (map ev_of its) -> In i its -> dget (tensormap (built_of its)) (fst (ent i)) = Some (fst (snd (ent i))).
Proof.
  intros (_ & _ & D) H. apply (D (fst (ent i), fst (snd (ent i)))). unfold defs. apply in_flat_map. exists (ev_of i). split; [apply in_map; exact H|].
  destruct i; left; reflexivity.
Qed.
Lemma item_node its n op ins sh k : executable_graph (built_of its) -> faithful (map ev_of its) -> In (IS n op ins sh k) its -> computes (built_of its) n op ins.
Proof. intros W F H. exact (faithful_N _ W F (mkNode n op ins [n ++ ".output"]) _ (in_map ev_of _ _ H)). Qed.
Lemma item_weight its n sh : faithful (map ev_of its) -> In (IW n sh) its -> weight (built_of its) n sh.
Proof.
  intros F H. pose proof (faithful_S _ F n _ (in_map ev_of _ _ H)) as [A B]. split; [exact A|]. eexists. split; [exact B|]. split; reflexivity.
Qed.
Lemma item_number its n l : faithful (map ev_of its) -> In (IN n l) its -> weight (built_of its) n [zlen l].
Proof.
  intros F H. pose proof (faithful_S _ F n _ (in_map ev_of _ _ H)) as [A B]. split; [exact A|]. eexists. split; [exact B|]. split; reflexivity.
Qed.
Lemma nodes_items its : faithful (map ev_of its) -> nodes_of (built_of its) = flat_map (fun i => match i with IS n op ins _ _ => [mkNode n op ins [n ++ ".output"]] | _ => [] end) its.
Proof.
  intros (A & _ & _). unfold nodes_of. rewrite A, map_map. cbn [snd]. clear A. induction its as [|i its IH]; [reflexivity|]. cbn [map flat_map]. unfold lnodes in *. cbn [flat_map]. rewrite map_app, IH. destruct i; reflexivity.
Qed.
Lemma inputs_items its : g_input (built_of its) = flat_map (fun i => match i with IIn n _ => [n] | _ => [] end) its.
Proof. rewrite replay_inputs. cbn [g_input g0 app]. induction its as [|i its IH]; [reflexivity|]. cbn [map flat_map]. rewrite map_app, IH. destruct i; reflexivity. Qed.
Lemma initials_items its : faithful (map ev_of its) -> initials (built_of its) = flat_map (fun i => match i with IW n _ => [n] | IN n _ => [n] | _ => [] end) its.
Proof.
  intros (_ & A & _). rewrite A. clear A. induction its as [|i its IH]; [reflexivity|]. unfold statics in *. cbn [map flat_map]. rewrite map_app, IH. destruct i; reflexivity.
Qed.
(** numbers *)
Lemma nums_keys_in its n x : In (n, x) (nums its) -> In n (tnames its).
Proof.
  unfold nums, tnames. intros H. apply in_flat_map in H as (i & Hi & H). apply in_map_iff. exists i. split; [|exact Hi]. destruct i; cbn in *; try contradiction. destruct H as [H|[]]. congruence.
Qed.
Lemma nums_nodup its : NoDup (tnames its) -> NoDup (map fst (nums its)).
Proof.
  induction its as [|i its IH]; intros H; [constructor|]. cbn [tnames map] in H. inversion H as [|? ? H1 H2]. subst. specialize (IH H2).
  unfold nums. cbn [flat_map]. rewrite map_app. destruct i; cbn [map app]; try exact IH. cbn [fst]. constructor; [|exact IH].
  intros K. apply in_map_iff in K as ((m & x) & E & K). cbn in E. subst m. apply H1. eapply nums_keys_in. exact K.
Qed.
Lemma item_stored its i : NoDup (tnames its) -> In i its -> dget (nums its) (fst (ent i)) = snd (snd (ent i)).
Proof.
  intros N H. destruct (snd (snd (ent i))) as [p|] eqn:E.
  - apply In_dget; [apply nums_nodup; exact N|]. unfold nums. apply in_flat_map. exists i. split; [exact H|]. destruct i; cbn in *; try discriminate. injection E as <-. left. reflexivity.
  - destruct (dget (nums its) (fst (ent i))) as [p|] eqn:G; [|reflexivity]. exfalso. apply dget_In in G. unfold nums in G. apply in_flat_map in G as (j & Hj & G).
    assert (i = j). { clear - N H Hj G. assert (fst (ent i) = fst (ent j)) as EE by (destruct j; cbn in G; try contradiction; destruct G as [G|[]]; injection G as <- _; reflexivity).
      clear G. revert N H Hj. induction its as [|x l IH]; intros N H Hj; [contradiction|]. cbn [tnames map] in N. inversion N as [|? ? N1 N2]. subst.
      destruct H as [->|H], Hj as [->|Hj]; auto.
      - exfalso. apply N1. rewrite EE. apply in_map_iff. eauto.
      - exfalso. apply N1. rewrite <- EE. apply in_map_iff. eauto. }
    subst j. destruct i; cbn in *; try contradiction; discriminate.
Qed.

(** ** The vision builder *)
Section VISION.
Context (v : vdims) (c h w : Z).
Notation its := (vision_items v c h w).
Notation n := (grid v h w).
Lemma stored_layers k : forall i x, nums (layers_items v n i k x) = stored_numbers (layers_bounds v i k).
Proof.
  induction k as [|k IH]; intros i x; [reflexivity|]. cbn [layers_items layers_bounds]. rewrite nums_app, IH. unfold stored_numbers. rewrite flat_map_app. reflexivity.
Qed.
Lemma vision_numbers : nums its = vision_stored v n (body_bounds v).
Proof.
  unfold vision_items, tail_items. rewrite !nums_app. unfold body_items. rewrite stored_layers. unfold vision_stored, body_bounds.
  assert (E : (nums (ln_items v n "vision.post_ln" (body_out v)) ++ nums (proj_items v n "vision.post_ln.output"))%list = []) by (unfold proj_items; destruct (d_mlp v); reflexivity).
  rewrite E, app_nil_r. reflexivity.
Qed.
Definition vgraph : graph := replay (map ev_of its) (proj_out v).
Lemma vision_graph_eq cfg : vision_dims cfg = SOk v -> d_patch v <> 0 -> vision_graph cfg c h w = SOk (vgraph, nums its).
Proof.
  intros D Z. unfold vision_graph. rewrite D. cbn [sbind]. rewrite vision_makes by exact Z. cbn [sbind fst snd ext log bounds bst0 app]. rewrite vision_numbers. reflexivity.
Qed.
Lemma vision_exec : executable_graph (built_of its) /\ faithful (map ev_of its) /\ Permutation (tensor_names (built_of its)) (tnames its) /\ map fst (nodemap (built_of its)) = nnames its.
Proof. eapply items_graph; [apply vision_fits|apply items_t_nodup|apply items_n_nodup|apply items_t_named]. Qed.
Lemma vgraph_exec : executable_graph vgraph.
Proof. destruct vision_exec as ([A1 A2 A3 A4 A5 A6] & _). constructor; assumption. Qed.
End VISION.
