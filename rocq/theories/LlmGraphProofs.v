(** Consequences of executability. *)
From Coq Require Import Permutation.
From Verif Require Import PyBase PyBaseFacts GraphModel CompressSpec ShapeModel FusionModel FusionProofs RegressModel RegressProofs LlmModel LlmProofs LlmSpec LlmNames LlmBuild LlmLayers
  RelSpec RelProofs TopSortModel TopSortSpec OrderSpec OrderProofs MemTop.
Open Scope Z_scope. Open Scope string_scope.

Lemma outs_nodemap g : outs_of (nodes_of g) = flat_map (fun kn => n_out (snd kn)) (nodemap g).
Proof. unfold outs_of, nodes_of. induction (nodemap g) as [|kn l IH]; cbn; [reflexivity|]. rewrite IH. reflexivity. Qed.
Lemma eg_unique g : executable_graph g -> unique_producers (nodemap g).
Proof.
  intros W. split; [apply W|]. rewrite <- outs_nodemap. pose proof (eg_once _ W) as N. unfold tensor_names in N.
  apply NoDup_app_inv in N as (_ & N & _). apply NoDup_app_inv in N as (_ & N & _). exact N.
Qed.
Lemma flat_map_pos (l : list node) i j n m t : NoDup (flat_map n_out l) -> nth_error l i = Some n -> nth_error l j = Some m -> In t (n_out n) -> In t (n_out m) -> i = j.
Proof.
  revert i j. induction l as [|a l IH]; intros [|i] [|j] N E1 E2 I1 I2; try discriminate; cbn in *.
  - reflexivity.
  - exfalso. injection E1 as ->. apply NoDup_app_inv in N as (_ & _ & N). apply (N t I1). apply in_flat_map. exists m. split; [eapply nth_error_In; eauto|exact I2].
  - exfalso. injection E2 as ->. apply NoDup_app_inv in N as (_ & _ & N). apply (N t I2). apply in_flat_map. exists n. split; [eapply nth_error_In; eauto|exact I1].
  - f_equal. apply NoDup_app_inv in N as (_ & N & _). eapply IH; eauto.
Qed.
Fixpoint pos (k : string) (l : list string) : nat := match l with [] => O | x :: r => if String.eqb k x then O else S (pos k r) end.
Lemma pos_nth l i k : NoDup l -> nth_error l i = Some k -> pos k l = i.
Proof.
  revert i. induction l as [|x l IH]; intros [|i] N E; try discriminate; cbn in *; inversion N; subst.
  - injection E as ->. rewrite String.eqb_refl. reflexivity.
  - destruct (String.eqb_spec k x) as [->|D]; [exfalso; apply H1; eapply nth_error_In; eauto|]. rewrite (IH i); auto.
Qed.
Lemma eg_acyclic g : executable_graph g -> acyclic (nodemap g).
Proof.
  intros W. exists (fun k => pos k (map fst (nodemap g))). intros a b (na & nb & t & Ia & Ib & Oa & Rb).
  apply In_nth_error in Ia as (i & Ea). apply In_nth_error in Ib as (j & Eb).
  assert (Ka : nth_error (map fst (nodemap g)) i = Some a) by (rewrite nth_error_map, Ea; reflexivity).
  assert (Kb : nth_error (map fst (nodemap g)) j = Some b) by (rewrite nth_error_map, Eb; reflexivity).
  assert (Na : nth_error (nodes_of g) i = Some na) by (unfold nodes_of; rewrite nth_error_map, Ea; reflexivity).
  assert (Nb : nth_error (nodes_of g) j = Some nb) by (unfold nodes_of; rewrite nth_error_map, Eb; reflexivity).
  rewrite (pos_nth _ _ _ (eg_nodes _ W) Ka), (pos_nth _ _ _ (eg_nodes _ W) Kb).
  pose proof (eg_once _ W) as N. unfold tensor_names in N. apply NoDup_app_inv in N as (_ & N2 & N3). apply NoDup_app_inv in N2 as (_ & N4 & N5).
  assert (Io : In t (outs_of (nodes_of g))) by (apply in_flat_map; exists na; split; [eapply nth_error_In; eauto|exact Oa]).
  destruct (eg_ready _ W j nb t Nb Rb) as [X|[X|(k & m & L & Em & Om)]].
  - exfalso. apply (N3 t X). apply in_or_app. auto.
  - exfalso. apply (N5 t X Io).
  - replace i with k; [exact L|]. eapply (flat_map_pos (nodes_of g)); eauto.
Qed.
Lemma eg_plan g : executable_graph g -> exists g', graph_reorder_nodes g = Some g' /\ Permutation (nodemap g') (nodemap g) /\ wf_plan_input g' /\ topologically_ordered g'.
Proof.
  intros W. pose proof (eg_unique g W) as U. pose proof (eg_acyclic g W) as A. destruct (reorder_total g (proj1 U)) as (g' & E & _). exists g'. split; [exact E|].
  destruct (reorder_respects g g' U A E) as (P & _). split; [exact P|].
  pose proof (eg_once _ W) as N. unfold tensor_names in N. apply NoDup_app_inv in N as (N1 & N2 & N3).
  apply (reorder_establishes_plan_input g g' U A); auto.
  - intros t It Io. apply (N3 t It). apply in_or_app. auto.
  - intros tn G. exfalso. apply (eg_named _ W). apply (eg_known _ W). unfold dhas. rewrite G. reflexivity.
Qed.

(** [add_kv_cache] *)
Lemma nth_error_map_snd {A C} (f : string * A -> string * C) l i : nth_error (map snd (map f l)) i = option_map (fun kn => snd (f kn)) (nth_error l i).
Proof. rewrite map_map, nth_error_map. reflexivity. Qed.
Lemma kv_cache_executable c fl batch n_context g : executable_graph g -> ~ In "n_past" (tensor_names g) -> ~ In "kv_cache" (tensor_names g) ->
  executable_graph (add_kv_cache c fl batch n_context g) /\ map fst (nodemap (add_kv_cache c fl batch n_context g)) = map fst (nodemap g) /\
  g_input (add_kv_cache c fl batch n_context g) = (g_input g ++ ["n_past"; "kv_cache"])%list /\
  initials (add_kv_cache c fl batch n_context g) = initials g /\ outs_of (nodes_of (add_kv_cache c fl batch n_context g)) = outs_of (nodes_of g).
Proof.
  intros W F1 F2. unfold add_kv_cache. set (f := fun kn : string * node => _). set (g' := mkGraph _ _ _ _ _ _ _ _).
  assert (Kf : forall kn, fst (f kn) = fst kn /\ n_name (snd (f kn)) = n_name (snd kn) /\ n_out (snd (f kn)) = n_out (snd kn)).
  { intros kn. unfold f. destruct (String.eqb (n_op (snd kn)) "SDPA"); auto. }
  assert (Q1 : map fst (nodemap g') = map fst (nodemap g)). { unfold g'. cbn [nodemap]. rewrite map_map. apply map_ext. intros kn. apply Kf. }
  assert (Q2 : outs_of (nodes_of g') = outs_of (nodes_of g)).
  { unfold g', nodes_of, outs_of. cbn [nodemap]. clear -Kf. induction (nodemap g) as [|kn l IH]; [reflexivity|].
    cbn [map flat_map]. rewrite IH. rewrite (proj2 (proj2 (Kf kn))). reflexivity. }
  assert (X : forall x, In x (tensor_names g') <-> In x (tensor_names g) \/ x = "n_past" \/ x = "kv_cache").
  { intros x. unfold tensor_names. rewrite Q2. change (g_input g') with (g_input g ++ ["n_past"; "kv_cache"])%list. change (initials g') with (initials g).
    rewrite !in_app_iff. cbn. intuition auto. }
  split; [|auto]. destruct W as [W1 W2 W3 W4 W5 W6]. constructor.
  - rewrite Q1. exact W1.
  - intros k n I. unfold g' in I. cbn [nodemap] in I. apply in_map_iff in I as (kn & E & I). destruct (Kf kn) as (E1 & E2 & _). rewrite E in E1, E2. cbn in E1, E2. rewrite E2, E1. apply W2. rewrite E1 in *. destruct kn; exact I.
  - unfold tensor_names. rewrite Q2. change (g_input g') with (g_input g ++ ["n_past"; "kv_cache"])%list. change (initials g') with (initials g). rewrite <- app_assoc.
    unfold tensor_names in W3, F1, F2. set (rest := (initials g ++ outs_of (nodes_of g))%list) in *.
    apply NoDup_app_inv in W3 as (N1 & N2 & N3). rewrite in_app_iff in F1, F2. apply NoDup_app_intro; [exact N1| |].
    + cbn. constructor; [intros [H|H]; [discriminate|tauto]|]. constructor; [tauto|exact N2].
    + intros x Hx Hy. cbn in Hy. destruct Hy as [<-|[<-|Hy]]; [tauto|tauto|]. apply (N3 x Hx Hy).
  - intros i n t E I. unfold nodes_of, g' in E. cbn [nodemap] in E. rewrite nth_error_map_snd in E. destruct (nth_error (nodemap g) i) as [kn|] eqn:En; [|discriminate]. cbn [option_map] in E. injection E as <-.
    assert (En' : nth_error (nodes_of g) i = Some (snd kn)) by (unfold nodes_of; rewrite nth_error_map, En; reflexivity).
    change (g_input g') with (g_input g ++ ["n_past"; "kv_cache"])%list. change (initials g') with (initials g). rewrite in_app_iff.
    assert (I' : In t (n_in (snd kn)) \/ t = "n_past" \/ t = "kv_cache").
    { unfold f in I. destruct (String.eqb (n_op (snd kn)) "SDPA"); cbn in I; [|auto]. apply in_app_or in I. cbn in I. intuition auto. }
    destruct I' as [I'|[->| ->]]; [|left; cbn; auto|left; cbn; auto].
    destruct (W4 i _ t En' I') as [J|[J|(j & m & L & Em & Om)]]; [auto|auto|]. right. right.
    unfold nodes_of in Em. rewrite nth_error_map in Em. destruct (nth_error (nodemap g) j) as [km|] eqn:Ej; [|discriminate]. injection Em as <-.
    exists j, (snd (f km)). split; [exact L|]. split; [unfold nodes_of, g'; cbn [nodemap]; rewrite nth_error_map_snd, Ej; reflexivity|].
    destruct (Kf km) as (_ & _ & E3). rewrite E3. exact Om.
  - intros t. rewrite X. change (tensormap g') with (dset (dset (tensormap g) "n_past" (mkTensor DYNAMIC [] 8)) "kv_cache" (mkTensor DYNAMIC [batch; c_layers c * 2; n_context; if flag_or fl "is_mla" false then head_size c else kv_width c] 4)).
    rewrite dhas_keys, !In_dkeys_dset, <- dhas_keys, W5. tauto.
  - rewrite X. intros [H|[H|H]]; [contradiction|discriminate|discriminate].
Qed.

(** the shipped tables *)
Lemma default_names fl : flag_or fl "post_attn_norm" false = false -> flag_or fl "pos_embedding" false = false -> names_ok fl WeightMap layer_root0.
Proof.
  intros H1 H2. unfold names_ok, layer_segments, global_segments. rewrite H1, H2. split; [|split].
  - destruct (flag_or fl "post_mlp_norm" false); vm_compute; repeat (constructor; [cbn; intuition discriminate|]); constructor.
  - vm_compute. repeat (constructor; [cbn; intuition discriminate|]); constructor.
  - intros n Hn. vm_compute in Hn. repeat (destruct Hn as [<-|Hn]; [reflexivity|]). contradiction.
Qed.
