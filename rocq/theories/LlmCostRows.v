(** From the builder's log to the report of [Graph.profile]. *)
From Coq Require Import Znumtheory Reals.
From Verif Require Import PyBase PyBaseFacts GraphModel CompressSpec ShapeModel FloatPy FusionModel FusionProofs RegressModel RegressProofs ProfileModel ProfileProofs LlmModel LlmSpec LlmBuild LlmLayers LlmCost LlmCostSpec LlmCostProofs LlmCostOps LlmCostTop.
Open Scope string_scope. Open Scope Z_scope.

Definition mkrow (key op : string) (k : cost) : row :=
  {| r_name := key; r_op := op; r_macs := k_macs k; r_params := k_params k; r_memory := 4 * (k_io k + k_static k) |}.
Lemma ksum_macs cs : k_macs (ksum cs) = sum_list (map k_macs cs).
Proof. induction cs as [|k cs IH]; [reflexivity|]. cbn [map ksum fold_right]. rewrite sum_cons. fold (ksum cs). cbn [kadd k_macs]. rewrite IH. reflexivity. Qed.
Lemma ksum_params cs : k_params (ksum cs) = sum_list (map k_params cs).
Proof. induction cs as [|k cs IH]; [reflexivity|]. cbn [map ksum fold_right]. rewrite sum_cons. fold (ksum cs). cbn [kadd k_params]. rewrite IH. reflexivity. Qed.
Lemma ksum_mem cs : 4 * (k_io (ksum cs) + k_static (ksum cs)) = sum_list (map (fun k => 4 * (k_io k + k_static k)) cs).
Proof. induction cs as [|k cs IH]; [reflexivity|]. cbn [map ksum fold_right]. rewrite sum_cons. fold (ksum cs). cbn [kadd k_io k_static]. rewrite <- IH. ring. Qed.

Lemma smap_lookup (g : graph) ns ts : Forall2 (fun n t => dget (tensormap g) n = Some t) ns ts -> smap (dlook (tensormap g)) ns = SOk ts.
Proof. induction 1 as [|n t ns ts E F IH]; [reflexivity|]. cbn [smap]. unfold dlook at 1. rewrite E. cbn [sbind]. rewrite IH. reflexivity. Qed.
Lemma Forall2_len {A C} (P : A -> C -> Prop) l m : Forall2 P l m -> length l = length m.
Proof. induction 1; cbn; auto. Qed.
Lemma statics_combine ns ts : Forall2 (fun n (t : tensor) => n <> "") ns ts -> map snd (filter is_static (combine ns ts)) = static_of ts.
Proof.
  induction 1 as [|n t ns ts E F IH]; [reflexivity|]. cbn [combine filter]. unfold is_static at 1, static_of. cbn [fst snd filter].
  destruct (String.eqb_spec n ""); [contradiction|]. cbn [negb andb]. destruct (t_kind t); cbn [map snd]; fold (static_of ts); rewrite IH; reflexivity.
Qed.
Lemma combine_app {A C} (a a' : list A) (b b' : list C) : length a = length b -> combine (a ++ a') (b ++ b') = (combine a b ++ combine a' b')%list.
Proof. revert b. induction a as [|x a IH]; intros [|y b] E; try discriminate; [reflexivity|]. cbn. rewrite IH by (cbn in E; lia). reflexivity. Qed.
Lemma statics_dyn ns (ts : list tensor) : Forall (fun t => t_kind t = DYNAMIC) ts -> filter is_static (combine ns ts) = [].
Proof.
  intros F. revert ns. induction F as [|t ts E F IH]; intros [|n ns]; try reflexivity. cbn [combine filter]. unfold is_static at 1. cbn [fst snd]. rewrite E, andb_false_r. apply IH.
Qed.
Section ROWS.
Context (fl : flags) (c : config) (x : extra) (batch seq_len : Z) (cache : list tensor).
Context (HD : Forall (fun t => t_kind t = DYNAMIC) cache).
Lemma row_general g key n e k d xs : node_ok fl c x batch seq_len cache d e k ->
  (forall p, In p d -> dget (tensormap g) (fst p) = Some (snd p)) ->
  (forall o, n_out (fst e) = [o] -> In (o, snd e) d) ->
  dget (nodemap g) key = Some n -> n_op n = n_op (fst e) -> n_out n = n_out (fst e) -> n_in n = (n_in (fst e) ++ xs)%list ->
  Forall2 (fun y t => dget (tensormap g) y = Some t) xs (more cache (n_op (fst e))) ->
  profile_node (llm_nprof fl c x) g key = SOk (mkrow key (n_op (fst e)) k).
Proof.
  intros (its & F & _ & Pf & Pp & H4 & O4 & (o & Eo) & _) L LO Gn E1 E2 E3 FX.
  unfold profile_node. unfold dlook at 1. rewrite Gn. cbn [sbind].
  rewrite (smap_lookup g (n_in n) (its ++ more cache (n_op (fst e)))).
  2: { rewrite E3. apply Forall2_app; [|exact FX]. eapply Forall2_impl; [|exact F]. cbn. intros a t [I _]. apply (L (a, t) I). }
  cbn [sbind]. rewrite (smap_lookup g (n_out n) [snd e]).
  2: { rewrite E2, Eo. constructor; [|constructor]. apply (L (o, snd e)). apply LO. exact Eo. }
  cbn [sbind].
  assert (SI : static_inputs n (its ++ more cache (n_op (fst e))) = static_of its).
  { unfold static_inputs. rewrite E3, combine_app by (apply (Forall2_len _ _ _ F)). rewrite filter_app, map_app.
    rewrite statics_combine by (eapply Forall2_impl; [|exact F]; cbn; tauto). rewrite statics_dyn; [apply app_nil_r|]. unfold more. destruct (String.eqb _ _); [exact HD|constructor]. }
  unfold llm_nprof. rewrite SI, E1, Pf. cbn [sbind]. unfold mkrow. f_equal. f_equal.
  - rewrite Pp. unfold vols. rewrite <- SI. unfold static_inputs. rewrite map_map. reflexivity.
  - rewrite O4. destruct its as [|t its]; [discriminate|]. cbn [hd_error option_map] in H4. injection H4 as H4. cbn [app]. rewrite H4. ring.
Qed.
End ROWS.
Lemma profile_run np g kvs cs : Forall2 (fun kn k => profile_node np g (fst kn) = SOk (mkrow (fst kn) (n_op (snd kn)) k)) kvs cs ->
  exists m, forall acc,
  forall f p mem, profile_nodes np g (map fst kvs) acc f p mem =
    SOk ((acc ++ map (fun q => mkrow (fst (fst q)) (n_op (snd (fst q))) (snd q)) (combine kvs cs))%list, m f, p + k_params (ksum cs), mem + 4 * (k_io (ksum cs) + k_static (ksum cs))).
Proof.
  induction 1 as [|kn k kvs cs E F (m & IH)].
  - exists (fun f => f). intros acc f p mem. cbn. rewrite app_nil_r. repeat f_equal; lia.
  - exists (fun f => m (fadd f (IZR (k_macs k)))). intros acc f p mem. cbn [map profile_nodes]. rewrite E. cbn [sbind]. rewrite IH.
    cbn [mkrow r_macs r_params r_memory combine map fst snd]. rewrite <- app_assoc. cbn [app]. f_equal. f_equal; [f_equal|].
    + cbn [ksum fold_right]. fold (ksum cs). cbn [kadd k_params]. ring.
    + cbn [ksum fold_right]. fold (ksum cs). cbn [kadd k_io k_static]. ring.
Qed.
Lemma combine_macs (kvs : list (string * node)) cs : length kvs = length cs ->
  map r_macs (map (fun q => mkrow (fst (fst q)) (n_op (snd (fst q))) (snd q)) (combine kvs cs)) = map k_macs cs.
Proof. revert cs. induction kvs as [|kn kvs IH]; intros [|k cs] L; try discriminate; [reflexivity|]. cbn [combine map mkrow r_macs snd]. rewrite IH by (cbn in L; lia). reflexivity. Qed.
