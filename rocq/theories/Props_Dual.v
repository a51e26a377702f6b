(** C94: memory planning with a separate pool for the KV cache. *)
From Verif Require Import MemTop PyBase PyBaseFacts GraphModel CompressModel CompressSpec CompressProofs CompressTop ExecModel ExecProofs Decide RelProofs Demo
  Props_Memory DualModel DualProofs ShapeModel LlmModel LlmCost.
Local Open Scope string_scope. Local Open Scope list_scope. Local Open Scope Z_scope.

Definition planned2 (g : graph) (pad : Z) (mem : dict (Z * Z)) (total : Z) (kv : dict (Z * Z)) (kv_total : Z) : Prop :=
  compress_memory_with_kv_cache g pad = DPlan mem total kv kv_total.
(** the two pools as one address space: the KV pool starts where the activation pool ends *)
Definition side_by_side (mem : dict (Z * Z)) (total : Z) (kv : dict (Z * Z)) : dict (Z * Z) :=
  mem ++ map (fun e => (fst e, (total + fst (snd e), snd (snd e)))) kv.

Section Planned.
Variables (g : graph) (pad : Z) (mem kv : dict (Z * Z)) (total kv_total : Z).
Hypothesis (Hp : 0 < pad) (HW : wf_plan_input g) (HP : planned2 g pad mem total kv kv_total).
Lemma p2_pools : plan_ok (restrict g not_kv) pad mem total /\ plan_ok (restrict g is_kv) pad kv kv_total.
Proof.
  unfold planned2, compress_memory_with_kv_cache in HP. rewrite (dual_plan_split g pad Hp HW) in HP.
  destruct (plan (restrict g not_kv) pad) as [a b] eqn:E1. destruct (plan (restrict g is_kv) pad) as [c d] eqn:E2.
  destruct (dual_raw g =? 0); [discriminate|]. injection HP as -> -> -> ->.
  split; (apply plan_correct; [exact Hp|exact HW|assumption]).
Qed.
Lemma p2_whole : plan_ok g pad (side_by_side mem total kv) (total + kv_total).
Proof. apply (plan_side_by_side g not_kv is_kv); [exact Hp|apply HW|reflexivity|apply p2_pools|apply p2_pools]. Qed.
Lemma p2_mem : forall t, dget mem t <> None -> t <> "kv_cache".
Proof.
  intros t G ->. destruct p2_pools as [P _]. destruct (dget mem "kv_cache") as [[o s]|] eqn:E; [|congruence].
  destruct (po_entries _ _ _ _ P _ _ _ E) as (z & Z1 & _). rewrite restrict_sizes in Z1. discriminate.
Qed.
Lemma p2_kv : forall t, dget kv t <> None -> t = "kv_cache".
Proof.
  intros t G. destruct p2_pools as [_ P]. destruct (dget kv t) as [[o s]|] eqn:E; [|congruence].
  destruct (po_entries _ _ _ _ P _ _ _ E) as (z & Z1 & _). rewrite restrict_sizes in Z1. unfold is_kv in Z1.
  destruct (String.eqb_spec t "kv_cache"); [assumption|discriminate].
Qed.
End Planned.

(** every live activation has a block of its pool, the cache a block of the other; both stay in bounds *)
Theorem C94_blocks : forall g pad mem total kv kv_total t o s,
  0 < pad -> wf_plan_input g -> planned2 g pad mem total kv kv_total ->
  (dget mem t = Some (o, s) -> t <> "kv_cache" /\
     exists b, planned_bytes g t b /\ round_up pad b <= s /\ 0 <= o /\ (pad | o) /\ (pad | s) /\ o + s <= total) /\
  (dget kv t = Some (o, s) -> t = "kv_cache" /\ o = 0 /\ s = kv_total /\ exists b, planned_bytes g t b /\ s = round_up pad b).
Proof.
  intros g pad mem total kv kv_total t o s Hp HW HP. pose proof (p2_pools _ _ _ _ _ _ Hp HW HP) as [P1 P2]. split; intros E.
  - split; [eapply p2_mem; [exact Hp|exact HW|exact HP|congruence]|].
    destruct (plan_entry_bytes _ _ _ _ _ _ _ Hp P1 E) as (b & (A1 & A2) & A3). exists b. split; [|exact A3].
    split; [|exact A2]. apply filter_In in A1. apply A1.
  - assert (Et : t = "kv_cache") by (eapply p2_kv; [exact Hp|exact HW|exact HP|congruence]).
    destruct (plan_entry_bytes _ _ _ _ _ _ _ Hp P2 E) as (b & (A1 & A2) & A3 & A4 & A5 & A6 & A7).
    assert (U : kv_total <= round_up pad b).
    { pose proof (plan_upper _ _ _ _ P2) as U.
      assert (K : dkeys kv = [t]).
      { pose proof (po_nodup _ _ _ _ P2) as ND.
        assert (A : forall u, In u (dkeys kv) -> u = t).
        { intros u I. rewrite Et. eapply p2_kv; [exact Hp|exact HW|exact HP|]. intros X. apply dget_None in X. contradiction. }
        assert (It : In t (dkeys kv)) by (destruct (in_dec string_dec t (dkeys kv)) as [I|I]; [exact I|apply dget_None in I; congruence]).
        destruct (dkeys kv) as [|a [|b' r]]; [destruct It|f_equal; apply A; left; reflexivity|].
        pose proof (A a (or_introl eq_refl)). pose proof (A b' (or_intror (or_introl eq_refl))). subst. inversion ND as [|? ? N1 N2]. exfalso. apply N1. left. congruence. }
      rewrite K in U. cbn [sumZ fold_right] in U. destruct A2 as (_ & tn & T1 & T2 & T3).
      unfold padded_bytes in U. change (tensormap (restrict g is_kv)) with (tensormap g) in *. rewrite T1, T2 in U. lia. }
    split; [exact Et|]. split; [lia|]. split; [lia|]. exists b. split; [|lia]. split; [|exact A2]. apply filter_In in A1. apply A1.
Qed.
Print Assumptions C94_blocks.
Theorem C94_live_tensors_disjoint : forall g pad mem total kv kv_total i t1 t2 o1 s1 o2 s2,
  0 < pad -> wf_plan_input g -> planned2 g pad mem total kv kv_total ->
  live_at g i t1 -> live_at g i t2 -> t1 <> t2 ->
  dget mem t1 = Some (o1, s1) -> dget mem t2 = Some (o2, s2) ->
  o1 + s1 <= o2 \/ o2 + s2 <= o1.
Proof.
  intros g pad mem total kv kv_total i t1 t2 o1 s1 o2 s2 Hp HW HP. pose proof (p2_pools _ _ _ _ _ _ Hp HW HP) as [P1 _].
  exact (plan_no_overlap (restrict g not_kv) pad mem total i t1 t2 o1 s1 o2 s2 (proj1 (proj2 HW)) P1).
Qed.
Print Assumptions C94_live_tensors_disjoint.
Theorem C94_live_tensor_has_block : forall g pad mem total kv kv_total i t b,
  0 < pad -> wf_plan_input g -> planned2 g pad mem total kv kv_total ->
  live_at g i t -> planned_bytes g t b ->
  if String.eqb t "kv_cache" then dget kv t = Some (0, kv_total) /\ kv_total = round_up pad b else exists o s, dget mem t = Some (o, s).
Proof.
  intros g pad mem total kv kv_total i t b Hp HW HP L B.
  pose proof (p2_whole _ _ _ _ _ _ Hp HW HP) as W.
  destruct (plan_coverage _ _ _ _ _ _ _ (proj1 (proj2 HW)) W Hp L B) as (o & s & E).
  unfold side_by_side in E. change (map _ kv) with (shift total kv) in E. rewrite dget_app, dget_shift in E.
  destruct (String.eqb_spec t "kv_cache") as [->|N].
  - destruct (dget mem "kv_cache") as [x|] eqn:E1; [exfalso; eapply p2_mem; [exact Hp|exact HW|exact HP| |reflexivity]; congruence|].
    destruct (dget kv "kv_cache") as [[o' s']|] eqn:E2; [|discriminate].
    destruct (proj2 (C94_blocks g pad mem total kv kv_total _ o' s' Hp HW HP) E2) as (_ & -> & -> & b' & (_ & _ & tn & B1 & B2 & _) & B3).
    destruct B as (_ & _ & tn' & B4 & B5 & _). split; [reflexivity|]. congruence.
  - destruct (dget mem t) as [[o' s']|] eqn:E1; [eauto|].
    destruct (dget kv t) as [x|] eqn:E2; [|discriminate]. exfalso. apply N. eapply p2_kv; [exact Hp|exact HW|exact HP|congruence].
Qed.
Print Assumptions C94_live_tensor_has_block.

(** running in the two pools computes what private buffers compute *)
Theorem C94_pools_refine_private : forall g pad mem total kv kv_total sem size p e,
  0 < pad -> wf_plan_input g -> planned2 g pad mem total kv kv_total -> topologically_ordered g ->
  let mm := side_by_side mem total kv in
  (forall t tn, dget (tensormap g) t = Some tn -> dget mm t <> None -> Z.of_nat (size t) = data_bytes tn) ->
  (forall n ins, In n (nodes_of g) -> length (sem n ins) = length (n_out n)) ->
  (forall n ins t v, In n (nodes_of g) -> In (t, v) (combine (n_out n) (sem n ins)) -> dget mm t <> None -> length v = size t) ->
  (forall t, ~ In t (g_input g ++ outs_of (nodes_of g)) -> p_env p t = e t) ->
  (forall t, In t (g_input g) -> dget mm t <> None -> length (e t) = size t) ->
  forall i n, nth_error (nodes_of g) i = Some n ->
     map (look_pool mm size (run_pool sem mm size (load_pool mm p e (g_input g)) (firstn i (nodes_of g)))) (n_in n)
     = map (look_private (run_private sem e (firstn i (nodes_of g)))) (n_in n).
Proof.
  intros g pad mem total kv kv_total sem size p e Hp HW HP HT mm Hs H1 H2 H3 H4.
  exact (proj1 (pool_refines_private g pad mm (total + kv_total) Hp (proj1 HW) (proj1 (proj2 HW)) (p2_whole _ _ _ _ _ _ Hp HW HP) HT sem size Hs H1 H2
     (proj2 (proj2 HW)) p e H3 H4)).
Qed.
Print Assumptions C94_pools_refine_private.

(** the point of the second pool: whatever the nodes compute and in whatever order they run, if none of them outputs the cache then
    no byte of it changes - a cache filled in one call is intact in the next *)
Theorem C94_cache_survives : forall g pad mem total kv kv_total sem size p ns,
  0 < pad -> wf_plan_input g -> planned2 g pad mem total kv kv_total ->
  let mm := side_by_side mem total kv in
  (forall t tn, dget (tensormap g) t = Some tn -> dget mm t <> None -> Z.of_nat (size t) = data_bytes tn) ->
  (forall n ins t v, In n ns -> In (t, v) (combine (n_out n) (sem n ins)) -> dget mm t <> None -> length v = size t) ->
  (forall n, In n ns -> ~ In "kv_cache" (n_out n)) ->
  look_pool mm size (run_pool sem mm size p ns) "kv_cache" = look_pool mm size p "kv_cache".
Proof.
  intros g pad mem total kv kv_total sem size p ns Hp HW HP mm Hs H2 HN.
  pose proof (p2_whole _ _ _ _ _ _ Hp HW HP) as W. fold mm in W.
  revert p. induction ns as [|n ns IH]; intros p; [reflexivity|].
  unfold run_pool. cbn [fold_left]. fold (run_pool sem mm size (step_pool sem mm size p n) ns).
  rewrite IH; [|intros m ins t v I; apply H2; right; exact I|intros m I; apply HN; right; exact I].
  unfold step_pool. apply (writes_other g pad mm (total + kv_total) Hp W size Hs).
  intros u v I. split; [intros G; eapply H2; [left; reflexivity|exact I|exact G]|]. right.
  assert (Nu : "kv_cache" <> u).
  { intros <-. apply in_combine_l in I. apply (HN n (or_introl eq_refl) I). }
  split; [exact Nu|]. intros o1 s1 o2 s2 E1 E2. unfold mm, side_by_side in E1, E2.
  change (map _ kv) with (shift total kv) in E1, E2. rewrite dget_app, dget_shift in E1, E2.
  destruct (dget mem "kv_cache") as [x|] eqn:K1; [exfalso; eapply (p2_mem g); [exact Hp|exact HW|exact HP| |reflexivity]; congruence|].
  destruct (dget kv "kv_cache") as [[a b]|] eqn:K2; [|discriminate]. injection E1 as <- <-.
  destruct (proj2 (C94_blocks g pad mem total kv kv_total _ a b Hp HW HP) K2) as (_ & -> & _).
  destruct (dget mem u) as [[c d]|] eqn:K3.
  - injection E2 as -> ->. destruct (proj1 (C94_blocks g pad mem total kv kv_total u o2 s2 Hp HW HP) K3) as (_ & z & _ & _ & Z1 & _ & _ & Z2). lia.
  - destruct (dget kv u) as [x|] eqn:K4; [|discriminate]. exfalso. apply Nu. symmetry. eapply (p2_kv g); [exact Hp|exact HW|exact HP|congruence].
Qed.
Print Assumptions C94_cache_survives.

(** the reported total lies between the live peak and the sum of all padded sizes *)
Theorem C94_total_between_peak_and_sum : forall g pad mem total kv kv_total,
  0 < pad -> wf_plan_input g -> planned2 g pad mem total kv kv_total ->
  total + kv_total <= sumZ (padded_bytes g pad) (dkeys mem ++ dkeys kv) /\
  (forall i l, NoDup l -> (forall t, In t l -> live_at g i t /\ exists b, planned_bytes g t b) ->
     sumZ (padded_bytes g pad) l <= total + kv_total).
Proof.
  intros g pad mem total kv kv_total Hp HW HP. pose proof (p2_whole _ _ _ _ _ _ Hp HW HP) as W. split.
  - pose proof (plan_upper _ _ _ _ W) as U. unfold side_by_side in U. change (map _ kv) with (shift total kv) in U.
    unfold dkeys in U at 1. rewrite map_app in U. fold (dkeys mem) (dkeys (shift total kv)) in U. rewrite dkeys_shift in U. exact U.
  - intros i l. exact (plan_lower g pad _ _ i l (proj1 (proj2 HW)) W Hp).
Qed.
Print Assumptions C94_total_between_peak_and_sum.

Theorem C94_validation_never_warns : forall g pad, 0 < pad -> wf_plan_input g -> dual_warns g pad = false.
Proof.
  intros g pad Hp HW. unfold dual_warns. rewrite (dual_plan_split g pad Hp HW). cbn [fst].
  pose proof (validation_silent (restrict g not_kv) pad Hp HW) as V. unfold validation_warns in V.
  change (consumedby (restrict g not_kv)) with (consumedby g) in V. change (nodes_of (restrict g not_kv)) with (nodes_of g) in V.
  change (g_input (restrict g not_kv)) with (g_input g) in V.
  destruct (plan (restrict g not_kv) pad) as [mem total]. cbn [fst].
  set (snaps := liveness _ _ _ _) in *. clearbody snaps.
  apply not_true_is_false. intros X. apply existsb_exists in X. destruct X as (s & S1 & S2).
  assert (Y : overlap_warning mem s || size_warning mem total s = false).
  { destruct (overlap_warning mem s || size_warning mem total s) eqn:E; [|reflexivity].
    rewrite <- V. symmetry. apply existsb_exists. exists s. auto. }
  apply orb_false_elim in Y. destruct Y as [Y _]. apply not_true_iff_false in Y. apply Y. clear Y V.
  unfold overlap_warning. apply existsb_exists in S2. destruct S2 as (t & T1 & T2). apply existsb_exists. exists t. split; [exact T1|].
  destruct (dget mem t) as [p|]; [|discriminate]. apply existsb_exists in T2. destruct T2 as (u & U1 & U2). apply existsb_exists. exists u. split; [exact U1|].
  apply andb_prop in U2. destruct U2 as [-> U2]. destruct (dget mem u) as [q|]; [|discriminate]. cbn [andb].
  unfold dual_clash in U2. unfold ranges_clash. apply andb_prop in U2. destruct U2 as [U2 U3]. apply andb_prop in U2. destruct U2 as [U2 U4].
  rewrite U2. cbn [andb]. apply Z.ltb_lt in U3, U4. 
  destruct (Z.le_gt_cases (fst q) (fst p)) as [L|L].
  - apply Z.leb_le in L. rewrite L. apply Z.ltb_lt in U4. rewrite U4. reflexivity.
  - assert (L' : fst p <= fst q) by lia. apply Z.leb_le in L'. apply Z.ltb_lt in U3. rewrite L', U3. cbn [andb]. apply orb_true_r.
Qed.
Print Assumptions C94_validation_never_warns.

(** non-vacuity: a decode step reading its cache, then two more nodes; the same graph in one pool reuses the cache's bytes *)
Definition dec : graph := relate (mkGraph
  [("q", mkNode "q" "MatMul" ["x"; "w"] ["a"]); ("att", mkNode "att" "SDPA" ["a"; "kv_cache"] ["b"]);
   ("f", mkNode "f" "Relu" ["b"] ["c"]); ("h", mkNode "h" "Add" ["b"; "c"] ["y"])]
  [("x", dyn [1; 16]); ("w", mkTensor STATIC [16; 16] 4); ("kv_cache", dyn [1; 2; 8; 4]); ("a", dyn [1; 16]); ("b", dyn [1; 16]); ("c", dyn [1; 16]); ("y", dyn [1; 16])]
  [] [] ["w"] ["x"; "kv_cache"; "a"; "b"; "c"; "y"] ["x"; "kv_cache"] ["y"]).
Lemma dec_wf : wf_plan_input dec.
Proof. split; [apply ssa_b_ok; vm_compute; reflexivity|]. split; [apply ucp_consumers_exact|]. apply anon_b_ok. vm_compute. reflexivity. Qed.
Example C94_planned : planned2 dec 64 [("x", (0, 64)); ("a", (64, 64)); ("b", (0, 64)); ("c", (64, 64)); ("y", (128, 64))] 192 [("kv_cache", (0, 256))] 256.
Proof. vm_compute. reflexivity. Qed.
Example C94_topo : topologically_ordered dec.
Proof. apply topo_b_ok. vm_compute. reflexivity. Qed.
Definition dec_size (t : string) : nat := match dget (tensormap dec) t with Some tn => Z.to_nat (data_bytes tn) | None => 0%nat end.
(** with [Graph.compress_memory], which knows no cache, a run overwrites it *)
Theorem C94_single_pool_refuted : exists g mem total sem size p, wf_plan_input g /\ topologically_ordered g /\
  Props_Memory.planned g 64 mem total /\ dget mem "kv_cache" <> None /\
  (forall t tn, dget (tensormap g) t = Some tn -> Z.of_nat (size t) = data_bytes tn) /\
  (forall n, In n (nodes_of g) -> ~ In "kv_cache" (n_out n)) /\
  look_pool mem size (run_pool sem mem size p (nodes_of g)) "kv_cache" <> look_pool mem size p "kv_cache".
Proof.
  exists dec. do 2 eexists. exists (demo_sem dec_size), dec_size, (mkP (fun _ => 0) (fun _ => [])).
  split; [exact dec_wf|]. split; [exact C94_topo|]. split; [vm_compute; reflexivity|]. split; [vm_compute; discriminate|].
  split.
  { intros t tn E. unfold dec_size. rewrite E. apply Z2Nat.id. apply dget_In in E. cbn in E.
    repeat (destruct E as [E|E]; [injection E as <- <-; vm_compute; discriminate|]). destruct E. }
  split. { intros n I. cbn in I. repeat (destruct I as [<-|I]; [cbn; intuition discriminate|]). destruct I. }
  vm_compute. discriminate.
Qed.
Print Assumptions C94_single_pool_refuted.

(** The docstring asks for [update_tensor_relations()] first; that call makes the list of dynamic tensors the list of produced ones,
    so a cache that no node produces gets no block at all. *)
Theorem C94_relations_lose_cache_refuted : forall g pad mem total kv kv_total, 0 < pad ->
  wf_plan_input (update_tensor_relations g) -> planned2 (update_tensor_relations g) pad mem total kv kv_total ->
  ~ In "kv_cache" (outs_of (nodes_of g)) -> kv = [] /\ kv_total = 0.
Proof.
  intros g pad mem total kv kv_total Hp HW HP N. pose proof (p2_pools _ _ _ _ _ _ Hp HW HP) as [_ P].
  assert (E : dkeys kv = []).
  { destruct (dkeys kv) as [|t r] eqn:K; [reflexivity|]. exfalso.
    assert (G : dget kv t <> None) by (intros X; apply dget_None in X; rewrite K in X; apply X; left; reflexivity).
    destruct (dget kv t) as [[o s]|] eqn:G1; [|congruence].
    destruct (proj2 (C94_blocks _ pad mem total kv kv_total t o s Hp HW HP) G1) as (-> & _ & _ & b & (D & _) & _).
    apply N. clear - D. unfold update_tensor_relations, update_consumer_producer in D.
    destruct (fold_left upd_node (nodes_of g) ([], [])) as [p c] eqn:F. cbn [dynamics producedby] in D.
    assert (Q : forall ns p0 c0 p' c', fold_left upd_node ns (p0, c0) = (p', c') -> forall t, In t (dkeys p') -> In t (dkeys p0) \/ In t (outs_of ns)).
    { induction ns as [|n ns IH]; intros p0 c0 p' c' E t I; [injection E as <- <-; auto|]. cbn [fold_left upd_node] in E.
      destruct (IH _ _ _ _ E t I) as [H|H]; [|right; unfold outs_of; cbn [flat_map]; apply in_app_iff; right; exact H].
      assert (R : forall l d, In t (dkeys (fold_left (fun d t => dpush d t (n_name n)) l d)) -> In t (dkeys d) \/ In t l).
      { induction l as [|x l IHl]; intros d Hd; [auto|]. cbn [fold_left] in Hd. destruct (IHl _ Hd) as [A|A]; [|cbn; auto].
        unfold dpush in A. destruct (dget d x); (apply In_dkeys_dset in A; destruct A as [A|A]; [cbn; auto|cbn; auto]). }
      destruct (R _ _ H) as [A|A]; [auto|]. right. unfold outs_of. cbn [flat_map]. apply in_app_iff. auto. }
    destruct (Q _ _ _ _ _ F "kv_cache" D) as [[]|X]. exact X. }
  assert (Ek : kv = []) by (destruct kv; [reflexivity|discriminate]). split; [exact Ek|]. subst kv.
  pose proof (plan_upper _ _ _ _ P) as U. cbn in U. pose proof (po_nonneg _ _ _ _ P). lia.
Qed.
Print Assumptions C94_relations_lose_cache_refuted.
Example C94_relations_case : wf_plan_input (update_tensor_relations dec) /\
  planned2 (update_tensor_relations dec) 64 [("a", (0, 64)); ("b", (64, 64)); ("c", (0, 64)); ("y", (128, 64))] 192 [] 0.
Proof.
  split; [|vm_compute; reflexivity]. split; [apply ssa_b_ok; vm_compute; reflexivity|]. split; [|apply anon_b_ok; vm_compute; reflexivity].
  apply (ucp_consumers_exact dec).
Qed.

Lemma dual_raw_spec : forall g, dual_raw g = sumZ (bytes_of g) (intermediates g).
Proof.
  intros g. unfold dual_raw, intermediates.
  assert (G : forall l a, fold_left (fun a t => if memb t (g_input g) || memb t (g_output g) then a
      else match dget (tensormap g) t with Some tn => a + get_memsize tn | None => a end) l a
    = a + sumZ (bytes_of g) (filter (fun t => negb (memb t (g_input g) || memb t (g_output g))) l)).
  { induction l as [|t r IH]; intros a; [cbn; lia|]. cbn [fold_left filter]. rewrite IH.
    destruct (memb t (g_input g) || memb t (g_output g)); cbn [negb]; [reflexivity|]. unfold sumZ at 2. cbn [fold_right].
    fold (sumZ (bytes_of g) (filter (fun t => negb (memb t (g_input g) || memb t (g_output g))) r)).
    unfold bytes_of at 2. destruct (dget (tensormap g) t); [rewrite memsize_bytes|]; lia. }
  apply G.
Qed.
(** the call fails exactly when the graph's intermediate tensors (neither inputs nor outputs) hold no bytes ... *)
Theorem C94_outcome : forall g pad,
  (sumZ (bytes_of g) (intermediates g) = 0 /\ compress_memory_with_kv_cache g pad = DZeroDivision) \/
  (sumZ (bytes_of g) (intermediates g) <> 0 /\ exists mem total kv kv_total, planned2 g pad mem total kv kv_total).
Proof.
  intros g pad. rewrite <- dual_raw_spec. unfold planned2, compress_memory_with_kv_cache. destruct (dual_plan g pad) as [[m s] [km ks]].
  destruct (Z.eqb_spec (dual_raw g) 0) as [E|E]; [left; auto|right; split; [exact E|eauto]].
Qed.
Print Assumptions C94_outcome.
(** ... in particular always for a graph coming straight from the LLM builder, as in benchmark/llm_test.py:1505-1525 *)
Theorem C94_built_graph_refuted : forall m c batch seq_len wm root fl g n_context pad,
  built m c batch seq_len wm root = SOk g -> compress_memory_with_kv_cache (add_kv_cache c fl batch n_context g) pad = DZeroDivision.
Proof.
  intros m c batch seq_len wm root fl g n_context pad B.
  assert (D : dynamics g = []).
  { unfold built in B. destruct (arch_config m c) as [f|]; [|discriminate]. cbn [sbind] in B.
    destruct (build_graph f c batch seq_len wm root bst0) as [x|]; [|discriminate]. cbn [sbind] in B. injection B as <-.
    unfold replay. cbn [dynamics].
    match goal with |- dynamics (fold_left ?f _ _) = [] => assert (H : forall l a, dynamics a = [] -> dynamics (fold_left f l a) = []) end.
    { induction l as [|e l IH]; intros a H; [exact H|]. cbn [fold_left]. apply IH. destruct e; exact H. }
    apply H. reflexivity. }
  unfold compress_memory_with_kv_cache. destruct (dual_plan (add_kv_cache c fl batch n_context g) pad) as [[a b] [k ks]].
  unfold dual_raw. cbn [add_kv_cache dynamics]. rewrite D. reflexivity.
Qed.
Print Assumptions C94_built_graph_refuted.
