(** Lemmas for the planner's failure modes (C06-C08). *)
From Verif Require Import PyBase PyBaseFacts GraphModel CompressModel CompressSpec CompressProofs CompressTop
  RelProofs TopSortModel TopSortProofs OrderProofs.
Local Open Scope Z_scope.

Lemma alloc1_keys : forall sizes thr st t x,
  dget (snd (alloc1 sizes thr st t)) x <> None -> dget (snd st) x <> None \/ dget sizes x <> None.
Proof.
  intros sizes thr [bs mem] t x H. unfold alloc1 in H. cbn [snd].
  destruct (memb t (tags bs)); [left; exact H|].
  destruct (dget sizes t) as [sz|] eqn:E; [|left; exact H].
  destruct (find_tag t _) as [b|]; cbn [snd] in H; [|left; exact H].
  rewrite dget_dset in H. destruct (String.eqb_spec x t) as [->|N]; [right; congruence|left; exact H].
Qed.

Lemma step_keys : forall sizes thr st live x,
  dget (snd (step_node sizes thr st live)) x <> None -> dget (snd st) x <> None \/ dget sizes x <> None.
Proof.
  intros sizes thr [bs mem] live x. unfold step_node.
  generalize (release live [] bs) as b1. intros b1.
  generalize (sort_desc sizes (filter (fun t => negb (memb t (tags b1)) && dhas sizes t) live)) as l.
  intros l. cbn [snd].
  assert (G : forall l st, dget (snd (fold_left (alloc1 sizes thr) l st)) x <> None ->
    dget (snd st) x <> None \/ dget sizes x <> None).
  { clear. induction l as [|t r IH]; intros st H; [left; exact H|]. cbn [fold_left] in H.
    apply IH in H. destruct H as [H|H]; [|right; exact H]. eapply alloc1_keys; eauto. }
  intros H. apply G in H. exact H.
Qed.

Lemma plan_keys : forall g pad mem total x, plan g pad = (mem, total) ->
  dget mem x <> None -> dget (tensor_sizes g pad) x <> None.
Proof.
  intros g pad mem total x E H. unfold plan in E.
  destruct (fold_left _ _ _) as [bs m] eqn:F. injection E as <- <-.
  assert (G : forall snaps st, dget (snd (fold_left (step_node (tensor_sizes g pad) (Z.max pad 4096)) snaps st)) x <> None ->
    dget (snd st) x <> None \/ dget (tensor_sizes g pad) x <> None).
  { clear. induction snaps as [|s r IH]; intros st H; [left; exact H|]. cbn [fold_left] in H.
    apply IH in H. destruct H as [H|H]; [|right; exact H]. eapply step_keys; eauto. }
  specialize (G (liveness (consumedby g) (nodes_of g) [] (g_input g)) ([], [])). rewrite F in G. cbn [snd] in G.
  destruct (G H) as [K|K]; [simpl in K; congruence|exact K].
Qed.

(** C07: after reordering, no graph input that is not also produced by a node is planned *)
Lemma reorder_inputs_unplanned : forall g g' pad mem total t, NoDup (map fst (nodemap g)) ->
  graph_reorder_nodes g = Some g' -> plan g' pad = (mem, total) ->
  ~ In t (outs_of (nodes_of g)) -> dget mem t = None.
Proof.
  intros g g' pad mem total t ND HR HP HO.
  destruct (dget mem t) eqn:E; [|reflexivity]. exfalso.
  assert (K : dget (tensor_sizes g' pad) t <> None) by (eapply plan_keys; [exact HP|congruence]).
  destruct (dget (tensor_sizes g' pad) t) as [s|] eqn:E2; [|congruence].
  apply tensor_sizes_spec in E2. destruct E2 as (D & _).
  destruct (reorder_fields g g' HR) as (_ & _ & _ & _ & _ & _ & _ & _ & _ & DY).
  apply DY in D. destruct (reorder_total g ND) as (g2 & H2 & _ & HI). rewrite HR in H2. injection H2 as <-.
  apply HO. unfold outs_of, nodes_of in *. apply in_flat_map in D. destruct D as (n & N1 & N2).
  apply in_flat_map. exists n. split; [|exact N2]. apply in_map_iff in N1. destruct N1 as ([k m] & X & N1).
  apply in_map_iff. exists (k, m). split; [exact X|]. apply HI. exact N1.
Qed.

(** C08 *)
Definition intermediates (g : graph) : list string :=
  filter (fun t => negb (memb t (g_input g) || memb t (g_output g))) (dynamics g).
Definition bytes_of (g : graph) (t : string) : Z :=
  match dget (tensormap g) t with Some tn => data_bytes tn | None => 0 end.

Lemma raw_spec : forall g, (forall t, In t (intermediates g) -> dget (tensormap g) t <> None) ->
  raw_memsize g = Some (sumZ (bytes_of g) (intermediates g)).
Proof.
  intros g H. unfold raw_memsize, intermediates in *.
  assert (G : forall l a, (forall t, In t (filter (fun t => negb (memb t (g_input g) || memb t (g_output g))) l) -> dget (tensormap g) t <> None) ->
    fold_left (fun acc t => match acc with None => None | Some a =>
        if memb t (g_input g) || memb t (g_output g) then Some a
        else match dget (tensormap g) t with Some tn => Some (a + get_memsize tn) | None => None end end) l (Some a)
    = Some (a + sumZ (bytes_of g) (filter (fun t => negb (memb t (g_input g) || memb t (g_output g))) l))).
  { induction l as [|t r IH]; intros a Hl; [simpl; f_equal; lia|]. cbn [fold_left filter] in *.
    destruct (memb t (g_input g) || memb t (g_output g)); cbn [negb] in *.
    - apply IH. exact Hl.
    - destruct (dget (tensormap g) t) as [tn|] eqn:E.
      2:{ exfalso. apply (Hl t); [left; reflexivity|exact E]. }
      rewrite IH by (intros u U; apply Hl; right; exact U). cbn [sumZ fold_right]. unfold bytes_of at 2. rewrite E, memsize_bytes.
      unfold sumZ. f_equal. lia. }
  rewrite G by exact H. f_equal.
Qed.

Lemma raw_missing : forall g t, In t (intermediates g) -> dget (tensormap g) t = None -> raw_memsize g = None.
Proof.
  intros g t H E. unfold raw_memsize, intermediates in *. revert H. generalize 0 as a.
  generalize (dynamics g) as l.
  assert (N : forall l, fold_left (fun acc t => match acc with None => None | Some a =>
        if memb t (g_input g) || memb t (g_output g) then Some a
        else match dget (tensormap g) t with Some tn => Some (a + get_memsize tn) | None => None end end) l None = None)
    by (induction l; auto).
  induction l as [|u r IH]; intros a H; [destruct H|]. cbn [fold_left filter] in *.
  destruct (memb u (g_input g) || memb u (g_output g)) eqn:M; cbn [negb] in *; [apply IH; exact H|].
  destruct H as [->|H]; [rewrite E; apply N|].
  destruct (dget (tensormap g) u) as [tn|]; [apply IH; exact H|apply N].
Qed.

Lemma compress_outcome : forall g pad mem total, plan g pad = (mem, total) ->
  (forall t, In t (intermediates g) -> dget (tensormap g) t <> None) ->
  compress_memory g pad = if sumZ (bytes_of g) (intermediates g) =? 0 then CZeroDivision else CPlan mem total.
Proof. intros g pad mem total E H. unfold compress_memory. rewrite E, (raw_spec g H). reflexivity. Qed.

Lemma no_intermediates_crash : forall g pad,
  (forall t, In t (dynamics g) -> In t (g_input g) \/ In t (g_output g)) -> compress_memory g pad = CZeroDivision.
Proof.
  intros g pad H. destruct (plan g pad) as [mem total] eqn:E.
  assert (N : intermediates g = []).
  { unfold intermediates. destruct (filter _ (dynamics g)) as [|x r] eqn:F; [reflexivity|].
    assert (I : In x (filter (fun t => negb (memb t (g_input g) || memb t (g_output g))) (dynamics g))) by (rewrite F; left; reflexivity).
    apply filter_In in I. destruct I as [I1 I2]. apply H in I1. rewrite negb_true_iff, orb_false_iff in I2.
    destruct I2 as [I2 I3]. apply memb_nIn in I2, I3. tauto. }
  rewrite (compress_outcome g pad mem total E); rewrite N; [reflexivity|]. intros t [].
Qed.
