From Verif Require Import PyBase PyBaseFacts GraphModel RelSpec CompressSpec.

Definition glist (d : dict (list string)) (t : string) : list string :=
  match dget d t with Some l => l | None => [] end.

Definition noempty (d : dict (list string)) : Prop := forall t, dget d t <> Some [].

Lemma glist_dpush : forall d k v t, glist (dpush d k v) t = if String.eqb t k then (glist d t ++ [v])%list else glist d t.
Proof.
  intros d k v t. unfold glist, dpush.
  destruct (dget d k) as [l|] eqn:E; rewrite dget_dset; destruct (String.eqb_spec t k) as [->|N]; auto;
  rewrite E; reflexivity.
Qed.

Lemma noempty_dpush : forall d k v, noempty d -> noempty (dpush d k v).
Proof.
  intros d k v H t. unfold dpush. destruct (dget d k) as [l|] eqn:E; rewrite dget_dset;
  destruct (String.eqb_spec t k) as [->|N]; auto; try congruence.
  intro X. injection X as X. destruct l; discriminate.
Qed.

Lemma NoDup_dpush : forall d k v, NoDup (dkeys d) -> NoDup (dkeys (dpush d k v)).
Proof. intros d k v H. unfold dpush. destruct (dget d k); apply NoDup_dkeys_dset; assumption. Qed.

Lemma fold_dpush : forall v ts d t,
  glist (fold_left (fun d t => dpush d t v) ts d) t = (glist d t ++ map (fun _ => v) (filter (String.eqb t) ts))%list.
Proof.
  intros v. induction ts as [|x r IH]; intros d t; cbn [fold_left filter]; [now rewrite app_nil_r|].
  rewrite IH, glist_dpush. destruct (String.eqb t x); [|reflexivity].
  rewrite <- app_assoc. reflexivity.
Qed.

Lemma fold_dpush_noempty : forall v ts d, noempty d -> noempty (fold_left (fun d t => dpush d t v) ts d).
Proof. intros v. induction ts as [|x r IH]; intros d H; cbn [fold_left]; [assumption|]. apply IH, noempty_dpush, H. Qed.

Lemma fold_dpush_NoDup : forall v ts d, NoDup (dkeys d) -> NoDup (dkeys (fold_left (fun d t => dpush d t v) ts d)).
Proof. intros v. induction ts as [|x r IH]; intros d H; cbn [fold_left]; [assumption|]. apply IH, NoDup_dpush, H. Qed.

Lemma upd_fold : forall ns p c p' c', fold_left upd_node ns (p, c) = (p', c') ->
  (forall t, glist p' t = (glist p t ++ occurrences n_out ns t)%list) /\
  (forall t, glist c' t = (glist c t ++ occurrences n_in ns t)%list) /\
  (noempty p -> noempty p') /\ (noempty c -> noempty c') /\
  (NoDup (dkeys p) -> NoDup (dkeys p')) /\ (NoDup (dkeys c) -> NoDup (dkeys c')).
Proof.
  induction ns as [|n r IH]; intros p c p' c' E; cbn [fold_left] in E.
  - injection E as <- <-. unfold occurrences. simpl. repeat split; auto; intros; now rewrite app_nil_r.
  - unfold upd_node at 2 in E.
    apply IH in E. destruct E as (E1 & E2 & E3 & E4 & E5 & E6).
    unfold occurrences in *. cbn [flat_map].
    repeat split; intros.
    + rewrite E1, fold_dpush, <- app_assoc. reflexivity.
    + rewrite E2, fold_dpush, <- app_assoc. reflexivity.
    + apply E3, fold_dpush_noempty. assumption.
    + apply E4, fold_dpush_noempty. assumption.
    + apply E5, fold_dpush_NoDup. assumption.
    + apply E6, fold_dpush_NoDup. assumption.
Qed.

Lemma glist_opt : forall d t, noempty d -> dget d t = none_if_empty (glist d t).
Proof.
  intros d t H. specialize (H t). unfold glist. destruct (dget d t) as [[|x l]|]; auto. congruence.
Qed.

Lemma ucp_spec : forall g,
  let g' := update_consumer_producer g in
  (forall t, dget (producedby g') t = none_if_empty (occurrences n_out (nodes_of g) t)) /\
  (forall t, dget (consumedby g') t = none_if_empty (occurrences n_in (nodes_of g) t)) /\
  NoDup (dkeys (producedby g')) /\ NoDup (dkeys (consumedby g')) /\
  nodemap g' = nodemap g /\ tensormap g' = tensormap g /\ initials g' = initials g /\
  dynamics g' = dynamics g /\ g_input g' = g_input g /\ g_output g' = g_output g.
Proof.
  intros g. unfold update_consumer_producer.
  destruct (fold_left upd_node (nodes_of g) ([], [])) as [p c] eqn:E.
  apply upd_fold in E. destruct E as (E1 & E2 & E3 & E4 & E5 & E6). cbv zeta. cbn [producedby consumedby nodemap tensormap initials dynamics g_input g_output].
  repeat split; auto.
  - intros t. rewrite glist_opt by (apply E3; intros u; discriminate). rewrite E1. reflexivity.
  - intros t. rewrite glist_opt by (apply E4; intros u; discriminate). rewrite E2. reflexivity.
  - apply E5. constructor.
  - apply E6. constructor.
Qed.

Lemma occurrences_count : forall sel ns t, length (occurrences sel ns t) = count t (flat_map sel ns).
Proof.
  intros sel. induction ns as [|n r IH]; intros t; [reflexivity|].
  unfold occurrences in *. cbn [flat_map]. rewrite app_length, count_app, IH, map_length. f_equal.
  induction (sel n) as [|x l IHl]; [reflexivity|]. cbn [filter count].
  destruct (String.eqb t x); simpl; rewrite IHl; reflexivity.
Qed.

Lemma occurrences_nil : forall sel ns t, occurrences sel ns t = [] <-> ~ In t (flat_map sel ns).
Proof.
  intros. rewrite <- count_zero, <- occurrences_count. split; [intros ->; reflexivity|].
  apply length_zero_iff_nil.
Qed.

Lemma ucp_consumers_exact : forall g, consumers_exact (update_consumer_producer g).
Proof.
  intros g t. pose proof (ucp_spec g) as (_ & H & _ & _ & HM & _).
  assert (EN : nodes_of (update_consumer_producer g) = nodes_of g) by (unfold nodes_of; rewrite HM; reflexivity).
  rewrite EN, H. unfold none_if_empty, reads_of.
  pose proof (occurrences_count n_in (nodes_of g) t) as HC.
  pose proof (occurrences_nil n_in (nodes_of g) t) as HN.
  destruct (occurrences n_in (nodes_of g) t); [apply HN; reflexivity|exact HC].
Qed.

Lemma In_occurrences : forall sel ns t x, In x (occurrences sel ns t) <-> exists n, In n ns /\ n_name n = x /\ In t (sel n).
Proof.
  intros. unfold occurrences. rewrite in_flat_map. split.
  - intros (n & N1 & N2). apply in_map_iff in N2. destruct N2 as (y & Y1 & Y2). apply filter_In in Y2.
    destruct Y2 as [Y2 Y3]. apply String.eqb_eq in Y3. subst y. eauto.
  - intros (n & N1 & N2 & N3). exists n. split; [assumption|]. apply in_map_iff. exists t. split; [assumption|].
    apply filter_In. split; [assumption|apply String.eqb_refl].
Qed.

Lemma utr_spec : forall g,
  let g' := update_tensor_relations g in
  (forall t, dget (producedby g') t = none_if_empty (occurrences n_out (nodes_of g) t)) /\
  (forall t, dget (consumedby g') t = none_if_empty (occurrences n_in (nodes_of g) t)) /\
  (forall t, In t (dynamics g') <-> In t (outs_of (nodes_of g))) /\ NoDup (dynamics g') /\
  nodemap g' = nodemap g /\ g_input g' = g_input g /\ g_output g' = g_output g /\ tensormap g' = tensormap g /\ initials g' = initials g.
Proof.
  intros g. unfold update_tensor_relations.
  pose proof (ucp_spec g) as H. cbv zeta in H.
  destruct H as (H1 & H2 & H3 & H4 & H5 & H6 & H7 & H8 & H9 & H10).
  cbv zeta. cbn [producedby consumedby nodemap tensormap initials dynamics g_input g_output].
  repeat split; auto.
  - intros I. destruct (dget (producedby (update_consumer_producer g)) t) eqn:E.
    + rewrite H1 in E. unfold none_if_empty in E. unfold outs_of.
      destruct (in_dec string_dec t (flat_map n_out (nodes_of g))) as [J|J]; [assumption|].
      apply occurrences_nil in J. rewrite J in E. discriminate.
    + apply dget_None in E. contradiction.
  - intros I. destruct (dget (producedby (update_consumer_producer g)) t) eqn:E.
    + eapply dget_Some_keys; eauto.
    + rewrite H1 in E. unfold none_if_empty in E.
      destruct (occurrences n_out (nodes_of g) t) eqn:O; [|discriminate].
      apply occurrences_nil in O. contradiction.
Qed.
