(** Property C96: fixing the number of results of every TopK at load time. *)
From Verif Require Import PyBase PyBaseFacts GraphModel CompressSpec RelSpec RelProofs TopSortSpec OrderSpec EditModel EditSpec
  RemoveProofs IoProofs FuseProofs ShapeModel ConvBNModel ComputeSpec ComputeProofs ComputeTop Props_Compute TopKModel TopKSpec TopKProofs Demo Decide Props_Edit.
Local Open Scope string_scope.
Local Open Scope list_scope.
Local Open Scope nat_scope.

Definition rekeyed (c : string) (kn : string * node) : string * node := (fst kn, with_k c (snd kn)).

Lemma chain_more : forall g nm f q rm r, k_chain f g nm q rm = Some r -> forall f', f <= f' -> k_chain f' g nm q rm = Some r.
Proof.
  intros g nm. induction f as [|f IH]; intros [|k q] rm r E f' L; try (destruct f'; exact E); [discriminate|].
  destruct f' as [|f']; [lia|]. cbn in *. destruct (dget nm k); [|exact E]. destruct (visit_k g (n_in n) q); [|exact E]. apply (IH _ _ _ E). lia.
Qed.
Lemma scan_more : forall f g keys nm rm c r, k_scan f g keys nm rm c = Some r -> forall f', f <= f' -> k_scan f' g keys nm rm c = Some r.
Proof.
  intros f g. induction keys as [|k ks IH]; intros nm rm c r E f' L; [exact E|]. cbn [k_scan] in *. destruct (dget nm k) as [n|]; [|exact E].
  destruct (String.eqb (n_op n) "TopK"); [|eauto]. destruct (nth_error (n_in n) 1); [|exact E]. destruct (k_start g s) as [q|]; [|exact E].
  destruct (k_chain f g nm q rm) as [[]|] eqn:C; try discriminate; rewrite (chain_more _ _ _ _ _ _ C _ L); eauto.
Qed.
Lemma topk_more : forall f g r, set_fixed_topk f g = Some r -> forall f', f <= f' -> set_fixed_topk f' g = Some r.
Proof.
  intros f g r E f' L. unfold set_fixed_topk in *. destruct (k_scan f g _ _ _ _) as [x|] eqn:S; [|discriminate]. now rewrite (scan_more _ _ _ _ _ _ _ S _ L).
Qed.
Lemma topk_spec : forall fuel g g', consistent g -> acyclic (nodemap g) -> k_rewritable g -> set_fixed_topk fuel g = Some (SOk g') ->
  exists rm, (forall x, In x rm <-> k_only g x) /\ nodemap g' = map (rekeyed fixed_name) (outside rm (nodemap g)) /\
    (forall t, In t (g_output g) -> ~ made_inside g rm t -> In t (g_output g')).
Proof.
  intros fuel g g' HC HA HR E. destruct (enough_exists g HA) as (f0 & F). destruct (F (fuel + f0) ltac:(lia)) as (rk & Hrk & Fu).
  destruct (topk_ok g HC rk Hrk HR (fuel + f0) Fu) as (g1 & rm & E1 & K & M & _ & _ & _ & _ & _ & O).
  rewrite (topk_more _ _ _ E) in E1 by lia. injection E1 as <-. exists rm. auto.
Qed.
Lemma unique_producers_map : forall (f : node -> node) nm, (forall n, n_out (f n) = n_out n) -> unique_producers nm ->
  unique_producers (map (fun kn => (fst kn, f (snd kn))) nm).
Proof.
  intros f nm H [A B]. split.
  - rewrite map_map. exact A.
  - rewrite flat_map_concat_map, map_map. cbn [snd]. rewrite (map_ext _ (fun kn : string * node => n_out (snd kn))) by (intros; apply H). now rewrite <- flat_map_concat_map.
Qed.

(** ---- the rewriting ends and does exactly this: nodes that only compute some K are dropped, every TopK reads the new constant, the
    other nodes stay as they are and in order; the constant is added iff there is a TopK; the rebuilt tables are right ---- *)
Theorem C96_rewritten_exactly : forall g, consistent g -> acyclic (nodemap g) -> k_rewritable g ->
  exists f0, forall fuel, f0 <= fuel -> exists g' keep, set_fixed_topk fuel g = Some (SOk g') /\
    nodemap g' = map (rekeyed fixed_name) (filter (fun kn => keep (fst kn)) (nodemap g)) /\ (forall k, keep k = false <-> k_only g k) /\
    ((exists n, In n (nodes_of g) /\ n_op n = "TopK") /\ initials g' = initials g ++ [fixed_name] /\ dget (tensormap g') fixed_name = Some (mkTensor STATIC [1%Z] 8%Z) \/
     (forall n, In n (nodes_of g) -> n_op n <> "TopK") /\ initials g' = initials g /\ tensormap g' = tensormap g) /\
    (forall t, t <> fixed_name -> dget (tensormap g') t = dget (tensormap g) t) /\
    g_input g' = g_input g /\ (forall t, In t (g_output g') -> In t (g_output g)) /\
    consistent (update_consumer_producer g').
Proof.
  intros g HC HA HR. destruct (enough_exists g HA) as (f0 & F). exists f0. intros fuel L. destruct (F fuel L) as (rk & Hrk & Fu).
  destruct (topk_ok g HC rk Hrk HR fuel Fu) as (g1 & rm & E1 & K & M & T & I1 & GI & _ & O1 & _).
  exists g1, (fun k => negb (memb k rm)). split; [exact E1|]. split; [exact M|].
  split; [intros k; rewrite <- K, negb_false_iff; apply memb_In|].
  split; [|split; [|split; [exact GI|split; [exact O1|]]]].
  - unfold has_topk in *. destruct (existsb (fun n => String.eqb (n_op n) "TopK") (nodes_of g)) eqn:X.
    + left. apply existsb_exists in X. destruct X as (n & In' & Eo). apply String.eqb_eq in Eo. split; [eauto|]. split; [exact I1|]. rewrite T. apply dget_dset_eq.
    + right. split; [|auto]. intros n In' Eo. apply (f_equal negb) in X. cbn in X. apply negb_true_iff in X.
      assert (Y : existsb (fun n => String.eqb (n_op n) "TopK") (nodes_of g) = true) by (apply existsb_exists; exists n; split; [exact In'|now apply String.eqb_eq]). congruence.
  - intros t N. rewrite T. destruct (has_topk g); [apply dget_dset_neq; congruence|reflexivity].
  - destruct HC as [C1 C2 C3 _ _]. apply loaded_consistent; [rewrite M| |rewrite M].
    + rewrite map_map. cbn [fst]. unfold outside. clear - C1. unfold dkeys in C1. induction (nodemap g) as [|[k n] r IH]; [constructor|]. cbn [filter fst].
      inversion C1 as [|? ? N1 N2]; subst. destruct (negb (memb k rm)); [|auto]. cbn [map fst]. constructor; [|auto].
      intros X. apply N1. apply in_map_iff in X. destruct X as ([a b] & <- & X). apply filter_In in X. apply in_map_iff. exists (a, b). split; [reflexivity|apply X].
    + intros k n I. rewrite M in I. apply in_map_iff in I. destruct I as ([k' n'] & E & I). injection E as <- <-. apply filter_In in I. rewrite with_k_name. apply C2, I.
    + apply (unique_producers_map (with_k fixed_name)); [apply with_k_out|]. destruct C3 as [A B]. split.
      * clear - A. unfold outside. induction (nodemap g) as [|[k n] r IH]; [constructor|]. cbn [filter fst]. inversion A as [|? ? N1 N2]; subst.
        destruct (negb (memb k rm)); [|auto]. cbn [map fst]. constructor; [|auto].
        intros X. apply N1. apply in_map_iff in X. destruct X as ([a b] & <- & X). apply filter_In in X. apply in_map_iff. exists (a, b). split; [reflexivity|apply X].
      * clear - B. unfold outside. induction (nodemap g) as [|[k n] r IH]; [constructor|]. cbn [filter fst flat_map snd] in *.
        apply NoDup_app_inv in B. destruct B as (B1 & B2 & B3). destruct (negb (memb k rm)); [|auto]. cbn [flat_map snd]. apply NoDup_app_intro; [exact B1|auto|].
        intros x X Y. apply (B3 x X). apply in_flat_map in Y. destruct Y as (kn & Y1 & Y2). apply filter_In in Y1. apply in_flat_map. exists kn. split; [apply Y1|exact Y2].
Qed.
Print Assumptions C96_rewritten_exactly.

Lemma count_reads_ge : forall ns n t, In n ns -> count t (n_in n) <= count t (reads_of ns).
Proof.
  induction ns as [|m r IH]; intros n t I; [destruct I|]. unfold reads_of. cbn [flat_map]. rewrite count_app. destruct I as [->|I]; [lia|]. specialize (IH n t I). unfold reads_of in IH. lia.
Qed.
Lemma with_k_reads : forall c n t, In t (n_in (with_k c n)) -> t = c \/ (In t (n_in n) /\ forall u, k_operand n u -> t = u -> 2 <= count t (n_in n)).
Proof.
  intros c n t. unfold with_k, k_operand. destruct (n_in n) as [|a [|b r]] eqn:E.
  - rewrite E. intros [].
  - rewrite E. intros H. right. split; [exact H|]. intros u [_ K]. discriminate.
  - destruct (String.eqb_spec (n_op n) "TopK") as [O|O].
    + cbn [n_in]. intros H. destruct H as [<-|[<-|H]]; [right|auto|right].
      * split; [left; reflexivity|]. intros u [_ K] ->. injection K as ->. cbn. rewrite !eqb_refl'. lia.
      * split; [right; right; exact H|]. intros u [_ K] ->. injection K as ->. cbn. rewrite eqb_refl'. apply count_pos in H. destruct (String.eqb u a); lia.
    + rewrite E. intros H. right. split; [exact H|]. intros u [K _]. contradiction.
Qed.
(** the operand of a kept, rewritten node comes from a kept node, or from no node *)
Lemma kept_reads : forall g, consistent g -> one_wanted_output g -> forall k n t p pn, In (k, n) (nodemap g) -> ~ k_only g k ->
  In t (n_in n) -> (forall u, k_operand n u -> t = u -> 2 <= count t (n_in n)) -> In (p, pn) (nodemap g) -> In t (n_out pn) -> ~ k_only g p.
Proof.
  intros g HC H1 k n t p pn Ik Nk R Hu Ip Ot Kp.
  assert (Same : forall q m m', In (q, m) (nodemap g) -> In (q, m') (nodemap g) -> m = m').
  { intros q m m' A B. pose proof (node_at g HC _ _ A). pose proof (node_at g HC _ _ B). congruence. }
  inversion Kp as [k0 n0 t0 p' pn0 A B C D E|p' k0 K0 F]; subst.
  - assert (pn0 = pn) by eauto. subst pn0. assert (R0 : In t0 (n_in n0)) by (destruct B as [_ B]; eapply nth_error_In; eauto).
    assert (t0 = t). { eapply H1; [exact Ip|exact E|exact Ot| |]; left; apply read_in; eauto. } subst t0.
    assert (k = k0) by (eapply sole_reader_eq; eauto). subst k0. assert (n0 = n) by eauto. subst n0.
    specialize (Hu t B eq_refl). pose proof (count_reads_ge (nodes_of g) n t) as X. rewrite C in X.
    assert (In n (nodes_of g)) by (apply node_in; eauto). specialize (X H). lia.
  - destruct F as (pn' & kn & s & J1 & J2 & J3 & J4 & J5). assert (pn' = pn) by eauto. subst pn'.
    assert (s = t). { eapply H1; [exact Ip|exact J3|exact Ot| |]; left; apply read_in; eauto. } subst s.
    assert (k = k0) by (eapply sole_reader_eq; eauto). subst k0. contradiction.
Qed.

(** ---- the result computes what the graph with every K replaced by the constant computes: whatever the operators, with the same
    inputs, initializers and constant every tensor of a kept node gets the same value ---- *)
Theorem C96_values : forall V (sem : node -> list V -> list V) g fuel g' (v w : string -> V),
  consistent g -> acyclic (nodemap g) -> k_rewritable g -> one_wanted_output g -> source g fixed_name ->
  set_fixed_topk fuel g = Some (SOk g') ->
  solves sem (map (with_k fixed_name) (nodes_of g)) v -> solves sem (nodes_of g') w -> (forall t, source g t -> w t = v t) ->
  forall n t, In n (nodes_of g') -> In t (n_in n) \/ In t (n_out n) -> w t = v t.
Proof.
  intros V sem g fuel g' v w HC HA HR H1 Hf E Sv Sw Hs.
  destruct (topk_spec _ _ _ HC HA HR E) as (rm & K & M & _). destruct HA as (rk & Hrk).
  assert (Kn : forall k n', In (k, n') (nodemap g') <-> exists n, n' = with_k fixed_name n /\ In (k, n) (nodemap g) /\ ~ k_only g k).
  { intros k n'. rewrite M, in_map_iff. split.
    - intros ([a n] & X & I). injection X as <- <-. apply In_outside in I. rewrite K in I. exists n. tauto.
    - intros (n & -> & I). exists (k, n). split; [reflexivity|]. apply In_outside. now rewrite K. }
  assert (Main : forall m k n', rk k < m -> In (k, n') (nodemap g') -> forall t, In t (n_in n') \/ In t (n_out n') -> w t = v t).
  { induction m as [|m IH]; intros k n' L I; [lia|]. pose proof I as I'. apply Kn in I'. destruct I' as (n & -> & Ig & Nk).
    assert (Ins : forall t, In t (n_in (with_k fixed_name n)) -> w t = v t).
    { intros t R. apply with_k_reads in R. destruct R as [->|[R Hu]]; [apply Hs; exact Hf|].
      destruct (in_dec string_dec t (outs_of (nodes_of g))) as [O|O]; [|apply Hs; exact O].
      apply out_in in O. destruct O as (p & pn & Ip & Op).
      assert (Kp : ~ k_only g p) by exact (kept_reads g HC H1 k n t p pn Ig Nk R Hu Ip Op).
      apply (IH p (with_k fixed_name pn)); [|apply Kn; exists pn; auto|right; rewrite with_k_out; exact Op].
      assert (rk p < rk k) by (apply Hrk; exists pn, n, t; auto). lia. }
    intros t [R|O]; [apply Ins, R|].
    assert (X : map w (n_out (with_k fixed_name n)) = map v (n_out (with_k fixed_name n))).
    { rewrite (Sw (with_k fixed_name n)) by (apply node_in; eauto). rewrite (Sv (with_k fixed_name n)) by (apply in_map, node_in; eauto).
      f_equal. apply map_ext_in. intros u U. apply Ins, U. }
    clear - X O. induction (n_out (with_k fixed_name n)) as [|a r IHr]; [destruct O|]. cbn [map] in X. injection X as E1 E2. destruct O as [<-|O]; auto. }
  intros n t In' Ht. apply node_in in In'. destruct In' as (k & Ik). exact (Main (S (rk k)) k n ltac:(lia) Ik t Ht).
Qed.
Print Assumptions C96_values.

(** an operator depends on the node's name (its attributes), its type and its outputs, not on how its operands are called *)
Definition operand_names_irrelevant {V} (sem : node -> list V -> list V) : Prop :=
  forall n m, n_name n = n_name m -> n_op n = n_op m -> n_out n = n_out m -> forall vs, sem n vs = sem m vs.
(** ---- ... so if every K of the model had that value anyway, nothing changes ---- *)
Theorem C96_same_k_same_values : forall V (sem : node -> list V -> list V) g fuel g' (v w : string -> V),
  consistent g -> acyclic (nodemap g) -> k_rewritable g -> one_wanted_output g -> source g fixed_name -> operand_names_irrelevant sem ->
  set_fixed_topk fuel g = Some (SOk g') ->
  solves sem (nodes_of g) v -> (forall n t, In n (nodes_of g) -> k_operand n t -> v t = v fixed_name) ->
  solves sem (nodes_of g') w -> (forall t, source g t -> w t = v t) ->
  forall n t, In n (nodes_of g') -> In t (n_in n) \/ In t (n_out n) -> w t = v t.
Proof.
  intros V sem g fuel g' v w HC HA HR H1 Hf Hn E Sv Hk Sw Hs. eapply C96_values; eauto.
  intros m Im. apply in_map_iff in Im. destruct Im as (n & <- & In'). rewrite with_k_out, (Sv n In').
  assert (Eq : map v (n_in (with_k fixed_name n)) = map v (n_in n)).
  { specialize (Hk n). unfold with_k, k_operand in *. destruct (n_in n) as [|a [|b r]] eqn:X; try (now rewrite X).
    destruct (String.eqb_spec (n_op n) "TopK") as [O|O]; [|now rewrite X]. cbn [n_in map]. now rewrite (Hk b In' (conj O eq_refl)). }
  rewrite Eq. apply Hn; [symmetry; apply with_k_name| |symmetry; apply with_k_out].
  unfold with_k. destruct (n_in n) as [|a [|b r]]; try reflexivity. destruct (String.eqb (n_op n) "TopK"); reflexivity.
Qed.
Print Assumptions C96_same_k_same_values.

(** ---- declared outputs stay declared and computed ---- *)
Theorem C96_outputs_kept : forall g fuel g', consistent g -> acyclic (nodemap g) -> k_rewritable g -> one_wanted_output g -> outputs_unread g ->
  set_fixed_topk fuel g = Some (SOk g') ->
  forall t, In t (g_output g) -> In t (g_output g') /\ forall k n, In (k, n) (nodemap g) -> In t (n_out n) -> In (k, with_k fixed_name n) (nodemap g').
Proof.
  intros g fuel g' HC HA HR H1 HU E t It. destruct (topk_spec _ _ _ HC HA HR E) as (rm & K & M & O).
  assert (N : forall k n, In (k, n) (nodemap g) -> In t (n_out n) -> ~ k_only g k).
  { intros k n Ik Ot Kk. assert (Same : forall q m m', In (q, m) (nodemap g) -> In (q, m') (nodemap g) -> m = m').
    { intros q m m' A B. pose proof (node_at g HC _ _ A). pose proof (node_at g HC _ _ B). congruence. }
    assert (W : exists s, In s (n_out n) /\ In s (reads_of (nodes_of g))).
    { inversion Kk as [k0 n0 t0 p' pn0 A B C D X|p' k0 K0 F]; subst.
      - assert (pn0 = n) by eauto. subst. exists t0. split; [exact X|]. apply read_in. exists k0, n0. split; [exact A|]. destruct B as [_ B]. eapply nth_error_In; eauto.
      - destruct F as (pn' & kn & s & J1 & J2 & J3 & J4 & J5). assert (pn' = n) by eauto. subst. exists s. split; [exact J3|apply read_in; eauto]. }
    destruct W as (s & S1 & S2). assert (s = t) by (eapply H1; [exact Ik|exact S1|exact Ot|left; exact S2|right; exact It]). subst s. exact (HU t It S2). }
  split.
  - apply O; [exact It|]. intros (k & n & Ik & In' & Ot). apply K in Ik. exact (N k n In' Ot Ik).
  - intros k n Ik Ot. rewrite M. apply in_map_iff. exists (k, n). split; [reflexivity|]. apply In_outside. split; [exact Ik|]. rewrite K. eauto.
Qed.
Print Assumptions C96_outputs_kept.

(** ---- a case: two TopK; the K of the first is computed by a chain of its own, that of the second is also used elsewhere ---- *)
Definition ranking_raw : graph := mkGraph
  [("c1", mkNode "c1" "Constant" [] ["k0"]); ("c2", mkNode "c2" "Cast" ["k0"] ["k"]); ("t1", mkNode "t1" "TopK" ["x"; "k"] ["v"; "i"]);
   ("c3", mkNode "c3" "Constant" [] ["h"]); ("t2", mkNode "t2" "TopK" ["v"; "h"] ["w"; "j"]); ("r", mkNode "r" "Add" ["w"; "h"] ["y"])]
  [("x", mkTensor DYNAMIC [9]%Z 4%Z)] [] [] [] [] ["x"] ["y"].
Definition ranking : graph := update_consumer_producer ranking_raw.
Definition ranking_rank (k : string) : nat := if memb k ["c1"; "c3"] then 0 else if String.eqb k "c2" then 1 else if String.eqb k "t1" then 2 else if String.eqb k "t2" then 3 else 4.
Definition rewritable_b (rm : list string) (g : graph) : bool :=
  forallb (fun kn => negb (String.eqb (n_op (snd kn)) "TopK") ||
    match nth_error (n_in (snd kn)) 1 with None => false | Some t => negb (Nat.eqb (count t (reads_of (nodes_of g))) 1) || memb t (outs_of (nodes_of g)) end) (nodemap g) &&
  forallb (fun kn => negb (memb (fst kn) rm) || (negb (String.eqb (n_op (snd kn)) "TopK") &&
    forallb (fun t => negb (Nat.eqb (count t (reads_of (nodes_of g))) 1) || memb t (outs_of (nodes_of g))) (n_in (snd kn)))) (nodemap g) &&
  (* [rm] contains the starts and is closed upwards *)
  forallb (fun kn => negb (String.eqb (n_op (snd kn)) "TopK") ||
    match nth_error (n_in (snd kn)) 1 with None => false | Some t => negb (Nat.eqb (count t (reads_of (nodes_of g))) 1) ||
      forallb (fun pn => negb (memb t (n_out (snd pn))) || memb (fst pn) rm) (nodemap g) end) (nodemap g) &&
  forallb (fun kn => negb (memb (fst kn) rm) || forallb (fun pn => negb (existsb (fun t => memb t (n_in (snd kn)) && Nat.eqb (count t (reads_of (nodes_of g))) 1) (n_out (snd pn))) || memb (fst pn) rm) (nodemap g)) (nodemap g).
Lemma rewritable_b_ok : forall rm g, rewritable_b rm g = true -> k_rewritable g.
Proof.
  intros rm g H. unfold rewritable_b in H. apply andb_true_iff in H. destruct H as [H H4]. apply andb_true_iff in H. destruct H as [H H3].
  apply andb_true_iff in H. destruct H as [H1 H2]. rewrite forallb_forall in H1, H2, H3, H4.
  assert (KO : forall p, k_only g p -> In p rm).
  { intros p Kp. induction Kp as [k n t p pn A [B0 B] C D E|p k Kk IH F].
    - specialize (H3 _ A). cbn [snd] in H3. rewrite B0, B, C, eqb_refl' in H3. cbn [negb orb Nat.eqb] in H3. rewrite forallb_forall in H3. specialize (H3 _ D). cbn [fst snd] in H3.
      apply memb_In in E. rewrite E in H3. now apply memb_In.
    - destruct F as (pn & kn & t & J1 & J2 & J3 & J4 & J5). specialize (H4 _ J2). cbn [fst snd] in H4. apply memb_In in IH. rewrite IH in H4. cbn in H4.
      rewrite forallb_forall in H4. specialize (H4 _ J1). cbn [fst snd] in H4.
      assert (X : existsb (fun t => memb t (n_in kn) && Nat.eqb (count t (reads_of (nodes_of g))) 1) (n_out pn) = true).
      { apply existsb_exists. exists t. split; [exact J3|]. apply memb_In in J4. rewrite J4, J5. reflexivity. }
      rewrite X in H4. now apply memb_In. }
  split.
  - intros k n I O. specialize (H1 _ I). cbn [snd] in H1. rewrite O, eqb_refl' in H1. cbn [negb orb] in H1. destruct (nth_error (n_in n) 1) as [t|] eqn:E; [|discriminate].
    exists t. split; [reflexivity|]. intros C S. rewrite C in H1. cbn in H1. apply S. now apply memb_In.
  - intros p pn Kp Ip. specialize (H2 _ Ip). cbn [fst snd] in H2. apply KO, memb_In in Kp. rewrite Kp in H2. cbn in H2. apply andb_true_iff in H2.
    destruct H2 as [A B]. split; [intros X; rewrite X in A; discriminate|]. intros t It C S. rewrite forallb_forall in B. specialize (B t It). rewrite C in B. cbn in B.
    apply S. now apply memb_In.
Qed.
Example C96_case : exists g', consistent ranking /\ acyclic (nodemap ranking) /\ k_rewritable ranking /\ one_wanted_output ranking /\ outputs_unread ranking /\
  source ranking fixed_name /\ set_fixed_topk 2 ranking = Some (SOk g') /\ dkeys (nodemap g') = ["t1"; "c3"; "t2"; "r"] /\
  map n_in (nodes_of g') = [["x"; fixed_name]; []; ["v"; fixed_name]; ["w"; "h"]] /\ k_only ranking "c1" /\
  exists v : string -> Z, solves (fun n vs => map (fun o => (fold_right Z.add 1 vs + (if String.eqb o "i" then 5 else 0))%Z) (n_out n)) (nodes_of ranking) v /\ v "y" = 8%Z.
Proof.
  eexists. split; [consistent_case|]. split; [apply (rank_b_ok ranking_rank); vm_compute; reflexivity|].
  split; [apply (rewritable_b_ok ["c1"; "c2"]); vm_compute; reflexivity|]. split; [apply one_wanted_b_ok; vm_compute; reflexivity|]. split; [unread_case|].
  split; [unfold source, fixed_name; cbn; intuition congruence|]. split; [vm_compute; reflexivity|]. split; [vm_compute; reflexivity|]. split; [vm_compute; reflexivity|].
  split.
  - apply (ko_feed ranking "c1" "c2").
    + eapply (ko_start ranking "t1" _ "k" "c2"); [cbn; right; right; left; reflexivity|split; reflexivity|reflexivity|cbn; right; left; reflexivity|cbn; auto].
    + eexists _, _, "k0". split; [cbn; left; reflexivity|]. split; [cbn; right; left; reflexivity|]. cbn. auto.
  - exists (fun t => if String.eqb t "x" then 1 else if String.eqb t "k0" then 1 else if String.eqb t "k" then 2 else if String.eqb t "v" then 4
      else if String.eqb t "i" then 9 else if String.eqb t "h" then 1 else if String.eqb t "w" then 6 else if String.eqb t "j" then 6 else 8)%Z.
    split; [|reflexivity]. intros n Hn. repeat (destruct Hn as [<-|Hn]; [vm_compute; reflexivity|]). destruct Hn.
Qed.

(** ---- what does not hold ---- *)
Lemma scan_starts : forall fuel g keys nm rm c r, NoDup keys -> k_scan fuel g keys nm rm c = Some (SOk r) ->
  forall k n, In k keys -> dget nm k = Some n -> n_op n = "TopK" -> exists t q, nth_error (n_in n) 1 = Some t /\ k_start g t = SOk q.
Proof.
  intros fuel g. induction keys as [|a ks IH]; intros nm rm c r ND E k n I D O; [destruct I|]. inversion ND as [|? ? N1 N2]; subst. cbn [k_scan] in E.
  destruct I as [->|I].
  - rewrite D, O, eqb_refl' in E. destruct (nth_error (n_in n) 1) as [t|]; [|discriminate]. destruct (k_start g t) as [q|] eqn:S; [|discriminate]. eauto.
  - destruct (dget nm a) as [m|]; [|discriminate]. destruct (String.eqb (n_op m) "TopK"); [|eauto].
    destruct (nth_error (n_in m) 1) as [t|]; [|discriminate]. destruct (k_start g t) as [q|]; [|discriminate].
    destruct (k_chain fuel g nm q rm) as [[]|]; try discriminate. eapply IH; eauto. rewrite dget_dset_neq; [exact D|]. intros ->. contradiction.
Qed.
(** a K given as an initializer or graph input and read by one TopK only (the usual case): loading always fails; so does saving a
    rewritten model with one TopK and loading it again *)
Theorem C96_given_k_raises_refuted : forall g k n t, consistent g -> In (k, n) (nodemap g) -> k_operand n t ->
  count t (reads_of (nodes_of g)) = 1 -> source g t -> forall fuel g', set_fixed_topk fuel g <> Some (SOk g').
Proof.
  intros g k n t HC I [O T] C Sc fuel g' E. unfold set_fixed_topk in E. destruct (k_scan fuel g _ _ _ _) as [[[[nm rm] c]|]|] eqn:K; try discriminate.
  destruct (scan_starts _ _ _ _ _ _ _ (co_nd g HC) K k n) as (t' & q & T' & S).
  - apply in_map_iff. exists (k, n). auto.
  - apply (node_at g HC _ _ I).
  - exact O.
  - rewrite T in T'. injection T' as <-. unfold k_start in S. destruct (dget (consumedby g) t) as [cs|] eqn:Ec; [|discriminate].
    rewrite (reads_count g HC t cs Ec), C in S. cbn in S. destruct (dget (producedby g) t) as [ps|] eqn:Ep; [|discriminate].
    destruct (prod_some g HC t ps Ep) as (pn & P1 & P2). apply Sc, out_in. eauto.
Qed.
Print Assumptions C96_given_k_raises_refuted.
Definition given_raw : graph := mkGraph [("t1", mkNode "t1" "TopK" ["x"; "k"] ["v"; "i"])] [("k", mkTensor STATIC [1]%Z 8%Z)] [] [] ["k"] [] ["x"] ["v"].
Definition given : graph := update_consumer_producer given_raw.
Example C96_given_case : consistent given /\ In "k" (initials given) /\ set_fixed_topk 5 given = Some (SRaise KeyErr) /\
  exists n, In ("t1", n) (nodemap given) /\ k_operand n "k" /\ count "k" (reads_of (nodes_of given)) = 1 /\ source given "k".
Proof.
  split; [consistent_case|]. split; [cbn; auto|]. split; [vm_compute; reflexivity|]. eexists. split; [cbn; left; reflexivity|].
  split; [split; reflexivity|]. split; [reflexivity|]. unfold source. cbn. intuition congruence.
Qed.
(** TopK of opset 1 has one operand (K is an attribute): loading fails *)
Theorem C96_opset1_raises_refuted : forall g k n x, consistent g -> In (k, n) (nodemap g) -> n_op n = "TopK" -> n_in n = [x] ->
  forall fuel g', set_fixed_topk fuel g <> Some (SOk g').
Proof.
  intros g k n x HC I O T fuel g' E. unfold set_fixed_topk in E. destruct (k_scan fuel g _ _ _ _) as [[[[nm rm] c]|]|] eqn:K; try discriminate.
  destruct (scan_starts _ _ _ _ _ _ _ (co_nd g HC) K k n) as (t' & q & T' & S).
  - apply in_map_iff. exists (k, n). auto.
  - apply (node_at g HC _ _ I).
  - exact O.
  - rewrite T in T'. discriminate.
Qed.
Print Assumptions C96_opset1_raises_refuted.
(** a K computed from the result of another TopK: loading fails *)
Definition nested_raw : graph := mkGraph
  [("c1", mkNode "c1" "Constant" [] ["k0"]); ("t1", mkNode "t1" "TopK" ["x"; "k0"] ["v"; "i"]); ("t2", mkNode "t2" "TopK" ["x"; "i"] ["w"; "j"])]
  [] [] [] [] [] ["x"] ["w"].
Definition nested : graph := update_consumer_producer nested_raw.
Theorem C96_topk_for_topk_raises_refuted : consistent nested /\ acyclic (nodemap nested) /\ one_wanted_output nested /\ outputs_unread nested /\
  forall fuel, 1 < fuel -> set_fixed_topk fuel nested = Some (SRaise KeyErr).
Proof.
  split; [consistent_case|]. split; [apply (rank_b_ok (fun k => if String.eqb k "c1" then 0 else if String.eqb k "t1" then 1 else 2)); vm_compute; reflexivity|].
  split; [apply one_wanted_b_ok; vm_compute; reflexivity|]. split; [unread_case|].
  intros fuel L. apply (topk_more 1); [vm_compute; reflexivity|lia].
Qed.
Print Assumptions C96_topk_for_topk_raises_refuted.
(** a node that computes K and something else: it goes, and the other result loses its producer *)
Definition halves_raw : graph := mkGraph
  [("n1", mkNode "n1" "Constant" [] ["q"]); ("n2", mkNode "n2" "Split" ["q"] ["k"; "m"]); ("t1", mkNode "t1" "TopK" ["x"; "k"] ["v"; "i"]); ("n3", mkNode "n3" "Add" ["v"; "m"] ["y"])]
  [] [] [] [] [] ["x"] ["y"].
Definition halves : graph := update_consumer_producer halves_raw.
Theorem C96_two_outputs_refuted : exists g', consistent halves /\ acyclic (nodemap halves) /\ k_rewritable halves /\ outputs_unread halves /\
  set_fixed_topk 3 halves = Some (SOk g') /\ dkeys (nodemap g') = ["t1"; "n3"] /\ orphan halves g' "m".
Proof.
  eexists. split; [consistent_case|].
  split; [apply (rank_b_ok (fun k => if String.eqb k "n1" then 0 else if String.eqb k "n2" then 1 else if String.eqb k "t1" then 2 else 3)); vm_compute; reflexivity|].
  split; [apply (rewritable_b_ok ["n1"; "n2"]); vm_compute; reflexivity|]. split; [unread_case|]. split; [vm_compute; reflexivity|]. split; [vm_compute; reflexivity|].
  unfold orphan. cbn. intuition congruence.
Qed.
Print Assumptions C96_two_outputs_refuted.
(** a declared output whose only reader is a TopK's K: it is no longer declared and nobody computes it *)
Definition shown_raw : graph := mkGraph
  [("n1", mkNode "n1" "Constant" [] ["k"]); ("t1", mkNode "t1" "TopK" ["x"; "k"] ["v"; "i"])] [] [] [] [] [] ["x"] ["k"; "v"].
Definition shown : graph := update_consumer_producer shown_raw.
Theorem C96_output_lost_refuted : exists g', consistent shown /\ acyclic (nodemap shown) /\ k_rewritable shown /\ one_wanted_output shown /\
  In "k" (g_output shown) /\ set_fixed_topk 3 shown = Some (SOk g') /\ dkeys (nodemap g') = ["t1"] /\ g_output g' = ["v"].
Proof.
  eexists. split; [consistent_case|]. split; [apply (rank_b_ok (fun k => if String.eqb k "n1" then 0 else 1)); vm_compute; reflexivity|].
  split; [apply (rewritable_b_ok ["n1"]); vm_compute; reflexivity|]. split; [apply one_wanted_b_ok; vm_compute; reflexivity|]. split; [cbn; auto|].
  split; [vm_compute; reflexivity|]. split; vm_compute; reflexivity.
Qed.
Print Assumptions C96_output_lost_refuted.
