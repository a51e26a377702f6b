From Verif Require Import PyBase PyBaseFacts GraphModel CompressModel CompressSpec CompressProofs CompressTop ExecModel ExecProofs
  RelSpec RelProofs TopSortModel TopSortSpec TopSortProofs OrderSpec.
From Coq Require Import Permutation.
Local Open Scope list_scope.

(** ---- C11: final values do not depend on the order ---- *)
Section Order.
Variable sem : node -> list bytes -> list bytes.
Local Notation run := (run_private sem).
Local Notation step := (step_private sem).

Lemma writes_notin : forall outs vals e t, ~ In t outs -> fold_left write_private (combine outs vals) e t = e t.
Proof.
  intros outs vals e t N. apply writes_private_other. intro I. apply N.
  apply in_map_iff in I. destruct I as ([x v] & <- & I). exact (in_combine_l _ _ _ _ I).
Qed.

Lemma writes_ext : forall tvs e e' t, e t = e' t -> fold_left write_private tvs e t = fold_left write_private tvs e' t.
Proof.
  induction tvs as [|[u v] r IH]; intros e e' t H; [exact H|]. cbn [fold_left]. apply IH.
  unfold write_private, upd. cbn [fst snd]. destruct (String.eqb t u); [reflexivity|exact H].
Qed.

Lemma run_notin : forall ns e t, ~ In t (outs_of ns) -> run e ns t = e t.
Proof.
  induction ns as [|n r IH]; intros e t N; [reflexivity|].
  unfold outs_of in N. cbn [flat_map] in N. rewrite in_app_iff in N.
  unfold run_private. cbn [fold_left]. fold (run (step e n) r). rewrite IH by tauto.
  unfold step_private. apply writes_notin. tauto.
Qed.

Lemma run_app : forall e a b, run e (a ++ b) = run (run e a) b.
Proof. intros. unfold run_private. apply fold_left_app. Qed.

Lemma outs_app : forall a b, outs_of (a ++ b) = outs_of a ++ outs_of b.
Proof. intros. unfold outs_of. apply flat_map_app. Qed.

Lemma final_eq : forall e a n b t, NoDup (named (outs_of (a ++ n :: b))) -> respects_deps (a ++ n :: b) ->
  In t (n_out n) -> t <> ""%string ->
  run e (a ++ n :: b) t =
  fold_left write_private (combine (n_out n) (sem n (map (look_private (run e (a ++ n :: b))) (n_in n)))) e t.
Proof.
  intros e a n b t ND HR I Nt.
  assert (Ea : ~ In t (outs_of a) /\ ~ In t (outs_of b)).
  { rewrite outs_app, named_app in ND. cbn [outs_of flat_map] in ND. fold (outs_of b) in ND. rewrite named_app in ND.
    destruct (NoDup_app_inv _ _ _ ND) as (_ & N2 & N3). destruct (NoDup_app_inv _ _ _ N2) as (_ & _ & N4).
    assert (It : In t (named (n_out n))) by (apply In_named; auto).
    split; intro J.
    - apply (N3 t); [apply In_named; auto|apply in_app_iff; auto].
    - apply (N4 t It). apply In_named; auto. }
  transitivity (run (step (run e a) n) b t); [rewrite run_app; reflexivity|].
  rewrite (run_notin b) by apply Ea. unfold step_private.
  assert (El : map (look_private (run e (a ++ n :: b))) (n_in n) = map (look_private (run e a)) (n_in n)).
  { apply map_ext_in. intros u Iu. unfold look_private. destruct (String.eqb_spec u "") as [->|Nu]; [reflexivity|].
    rewrite run_app. apply run_notin. exact (HR a n b u eq_refl Iu Nu). }
  rewrite El. apply writes_ext. apply run_notin. tauto.
Qed.

Lemma named_In_unique : forall ns t n m, NoDup (named (outs_of ns)) -> t <> ""%string -> In n ns -> In m ns ->
  In t (n_out n) -> In t (n_out m) -> n = m.
Proof.
  intros ns t n m ND Nt In1 In2 T1 T2. apply In_nth_error in In1. apply In_nth_error in In2.
  destruct In1 as (i & Ei), In2 as (j & Ej).
  assert (i = j) by (eapply outs_unique; eauto). congruence.
Qed.

Lemma Permutation_outs : forall a b, Permutation a b -> Permutation (outs_of a) (outs_of b).
Proof. intros a b H. unfold outs_of. apply Permutation_flat_map. exact H. Qed.

Lemma Permutation_named : forall a b, Permutation a b -> Permutation (named a) (named b).
Proof.
  intros a b H. unfold named. induction H; cbn [filter].
  - constructor.
  - destruct (negb (String.eqb x "")); [constructor|]; assumption.
  - destruct (negb (String.eqb x "")), (negb (String.eqb y "")); try reflexivity. apply perm_swap.
  - etransitivity; eassumption.
Qed.

Theorem order_irrelevant : forall e l1 l2, Permutation l1 l2 -> NoDup (named (outs_of l1)) ->
  respects_deps l1 -> respects_deps l2 -> forall t, t <> ""%string -> run e l1 t = run e l2 t.
Proof.
  intros e l1 l2 HP ND1 R1 R2.
  assert (ND2 : NoDup (named (outs_of l2))).
  { eapply Permutation_NoDup; [|exact ND1]. apply Permutation_named, Permutation_outs, HP. }
  assert (G : forall m a n b t, length a < m -> l1 = a ++ n :: b -> In t (n_out n) -> t <> ""%string -> run e l1 t = run e l2 t).
  { induction m as [|m IH]; intros a n b t HL EL I Nt; [lia|].
    assert (I2 : In n l2).
    { apply (Permutation_in n HP). rewrite EL. apply in_app_iff. right. left. reflexivity. }
    apply in_split in I2. destruct I2 as (a' & b' & E2).
    assert (F1 := final_eq e a n b t). rewrite <- EL in F1. rewrite (F1 ND1 R1 I Nt).
    assert (F2 := final_eq e a' n b' t). rewrite <- E2 in F2. rewrite (F2 ND2 R2 I Nt).
    do 2 f_equal. f_equal. apply map_ext_in. intros u Iu. unfold look_private.
    destruct (String.eqb_spec u "") as [->|Nu]; [reflexivity|].
    destruct (in_dec string_dec u (outs_of l1)) as [J|J].
    - rewrite EL, outs_app in J. apply in_app_iff in J. destruct J as [J|J].
      + unfold outs_of in J. apply in_flat_map in J. destruct J as (n' & K1 & K2).
        apply in_split in K1. destruct K1 as (p & s & Ep). apply (IH p n' (s ++ n :: b) u).
        * rewrite Ep, app_length in HL. simpl in HL. lia.
        * rewrite EL, Ep, <- app_assoc. reflexivity.
        * assumption.
        * assumption.
      + exfalso. exact (R1 a n b u EL Iu Nu J).
    - rewrite run_notin by assumption. symmetry. apply run_notin. intro K. apply J.
      eapply Permutation_in; [apply Permutation_sym, Permutation_outs, HP|exact K]. }
  intros t Nt. destruct (in_dec string_dec t (outs_of l1)) as [J|J].
  - unfold outs_of in J. apply in_flat_map in J. destruct J as (n & K1 & K2). apply in_split in K1.
    destruct K1 as (p & s & Ep). apply (G (S (length p)) p n s t); auto.
  - rewrite run_notin by assumption. symmetry. apply run_notin. intro K. apply J.
    eapply Permutation_in; [apply Permutation_sym, Permutation_outs, HP|exact K].
Qed.
End Order.

(** ---- rebuilding the node map ---- *)
Lemma rebuild_spec : forall (nm : dict node) l, NoDup l -> incl l (map fst nm) ->
  map fst (rebuild nm l) = l /\ forall k n, In (k, n) (rebuild nm l) -> dget nm k = Some n.
Proof.
  intros nm l ND HI. unfold rebuild.
  assert (G : forall l d, NoDup (dkeys d ++ l) -> incl l (map fst nm) -> (forall k n, In (k, n) d -> dget nm k = Some n) ->
    let d' := fold_left (fun d k => match dget nm k with Some n => dset d k n | None => d end) l d in
    map fst d' = dkeys d ++ l /\ forall k n, In (k, n) d' -> dget nm k = Some n).
  { clear. induction l as [|k r IH]; intros d ND HI HD; cbn [fold_left].
    - rewrite app_nil_r. split; [reflexivity|assumption].
    - destruct (dget nm k) as [n|] eqn:E.
      2:{ exfalso. apply dget_None in E. apply E. apply HI. left. reflexivity. }
      assert (Nk : ~ In k (dkeys d)).
      { intro X. destruct (NoDup_app_inv _ _ _ ND) as (_ & _ & K). apply (K k X). left. reflexivity. }
      rewrite (dset_new _ d k n Nk).
      assert (Ek : dkeys (d ++ [(k, n)]) = dkeys d ++ [k]) by (unfold dkeys; rewrite map_app; reflexivity).
      destruct (IH (d ++ [(k, n)])) as [I1 I2].
      + rewrite Ek, <- app_assoc. exact ND.
      + intros x X. apply HI. right. exact X.
      + intros k' n' X. apply in_app_iff in X. destruct X as [X|[X|[]]]; [auto|]. injection X as <- <-. exact E.
      + split; [|exact I2]. rewrite I1, Ek, <- app_assoc. reflexivity. }
  destruct (G l [] ND HI) as [G1 G2]; [intros k n []|]. split; assumption.
Qed.

Lemma rebuild_perm : forall nm l, NoDup (map fst nm) -> Permutation l (map fst nm) -> Permutation (rebuild nm l) nm.
Proof.
  intros nm l ND HP.
  assert (NDl : NoDup l) by (eapply Permutation_NoDup; [apply Permutation_sym; exact HP|exact ND]).
  destruct (rebuild_spec nm l NDl) as [R1 R2]; [intros x X; exact (Permutation_in x HP X)|].
  apply NoDup_Permutation.
  - apply (NoDup_map_inv fst). rewrite R1. exact NDl.
  - apply (NoDup_map_inv fst). exact ND.
  - intros [k n]. split; intros I.
    + apply dget_In. auto.
    + assert (Ik : In k (map fst (rebuild nm l))).
      { rewrite R1. eapply Permutation_in; [apply Permutation_sym; exact HP|]. apply in_map_iff. exists (k, n). auto. }
      apply in_map_iff in Ik. destruct Ik as ([k' n'] & E & Ik). simpl in E. subst k'.
      pose proof (R2 k n' Ik) as A. rewrite (In_dget _ nm k n ND I) in A. congruence.
Qed.

(** fields of the reordered graph *)
Lemma reorder_fields : forall g g', graph_reorder_nodes g = Some g' ->
  exists l, topsort (nodemap g) = Some l /\ nodemap g' = rebuild (nodemap g) l /\
    tensormap g' = tensormap g /\ initials g' = initials g /\ g_input g' = g_input g /\ g_output g' = g_output g /\
    dynamics g' = dkeys (producedby g') /\ consumers_exact g' /\
    (forall t, In t (dynamics g') <-> In t (outs_of (nodes_of g'))).
Proof.
  intros g g' H. unfold graph_reorder_nodes in H. destruct (topsort (nodemap g)) as [l|] eqn:E; [|discriminate].
  injection H as H. exists l. split; [reflexivity|].
  set (g0 := mkGraph _ _ _ _ _ _ _ _) in H.
  pose proof (utr_spec g0) as (U1 & U2 & U3 & U4 & U5). rewrite H in *.
  pose proof (ucp_consumers_exact g0) as CE.
  assert (Hn : nodemap g' = rebuild (nodemap g) l /\ tensormap g' = tensormap g /\ initials g' = initials g /\
    g_input g' = g_input g /\ g_output g' = g_output g /\ dynamics g' = dkeys (producedby g') /\
    consumedby g' = consumedby (update_consumer_producer g0)).
  { subst g'. unfold update_tensor_relations, update_consumer_producer.
    destruct (fold_left upd_node (nodes_of g0) ([], [])) as [p c]. repeat split; reflexivity. }
  destruct Hn as (N1 & N2 & N3 & N4 & N5 & N6 & N7).
  assert (Hm : nodemap (update_consumer_producer g0) = rebuild (nodemap g) l).
  { unfold update_consumer_producer. destruct (fold_left upd_node (nodes_of g0) ([], [])) as [p c]. reflexivity. }
  repeat split; auto.
  - intros t. specialize (CE t). rewrite N7. unfold nodes_of in *. rewrite Hm in CE. rewrite N1. exact CE.
  - intros I. apply U3 in I. unfold nodes_of in *. rewrite N1. exact I.
  - intros I. apply U3. unfold nodes_of in *. rewrite N1 in I. exact I.
Qed.

(** ---- C09/C11 at the level of graphs ---- *)
Lemma nodes_outs : forall g, outs_of (nodes_of g) = flat_map (fun kn => n_out (snd kn)) (nodemap g).
Proof. intros g. unfold outs_of, nodes_of. generalize (nodemap g). induction d as [|x r IH]; [reflexivity|]. cbn. now rewrite IH. Qed.

Lemma before_split : forall (l : list string) a b l1 l2, NoDup l -> before l a b -> l = l1 ++ b :: l2 -> In a l1.
Proof.
  intros l a b l1 l2 ND (p & q & r & E) E2.
  assert (G : forall p l1, p ++ a :: q ++ b :: r = l1 ++ b :: l2 -> NoDup (p ++ a :: q ++ b :: r) -> In a l1).
  { clear. induction p as [|x p IH]; intros l1 E ND.
    - cbn [app] in *. destruct l1 as [|y l1]; cbn [app] in E.
      + injection E as -> E. exfalso. inversion ND as [|? ? N1 N2]; subst. apply N1. apply in_app_iff. right. left. reflexivity.
      + injection E as -> E. left. reflexivity.
    - destruct l1 as [|y l1]; cbn [app] in E.
      + injection E as -> E. exfalso. inversion ND as [|? ? N1 N2]; subst. apply N1.
        apply in_app_iff. right. right. apply in_app_iff. right. left. reflexivity.
      + injection E as -> E. right. apply IH; [exact E|]. inversion ND; assumption. }
  apply (G p); [congruence|]. rewrite <- E. exact ND.
Qed.

Lemma reorder_respects : forall g g', unique_producers (nodemap g) -> acyclic (nodemap g) ->
  graph_reorder_nodes g = Some g' ->
  Permutation (nodemap g') (nodemap g) /\ respects_deps (nodes_of g') /\
  (forall a b, feeds (nodemap g) a b -> before (map fst (nodemap g')) a b).
Proof.
  intros g g' HU HA HR. destruct (reorder_fields g g' HR) as (l & E & N1 & _).
  destruct (topsort_correct (nodemap g) HU HA) as (l' & E' & HP & HB).
  rewrite E in E'. injection E' as <-.
  assert (NDl : NoDup l) by (eapply Permutation_NoDup; [apply Permutation_sym; exact HP|apply HU]).
  destruct (rebuild_spec (nodemap g) l NDl) as [R1 R2]; [intros x X; exact (Permutation_in x HP X)|].
  pose proof (rebuild_perm (nodemap g) l (proj1 HU) HP) as RP.
  split; [rewrite N1; exact RP|]. split; [|intros a b F; rewrite N1, R1; auto].
  intros a n b t EL I Nt J.
  unfold nodes_of in EL. rewrite N1 in EL.
  (* lift the split to the dictionary *)
  assert (exists da k db, rebuild (nodemap g) l = da ++ (k, n) :: db /\ map snd da = a /\ map snd db = b) as (da & k & db & ED & EA & EB).
  { revert EL. generalize (rebuild (nodemap g) l). clear. intros d. revert a.
    induction d as [|[k m] r IH]; intros a EL; [destruct a; discriminate|]. cbn [map snd] in EL.
    destruct a as [|x a]; cbn [app] in EL.
    - injection EL as -> <-. exists [], k, r. auto.
    - injection EL as -> EL. destruct (IH _ EL) as (da & k' & db & -> & <- & <-).
      exists ((k, x) :: da), k', db. auto. }
  cbn [outs_of flat_map] in J.
  assert (exists k' m, In (k', m) ((k, n) :: db) /\ In t (n_out m)) as (k' & m & K1 & K2).
  { apply in_app_iff in J. destruct J as [J|J]; [exists k, n; split; [left; reflexivity|exact J]|].
    apply in_flat_map in J. destruct J as (m & M1 & M2). rewrite <- EB in M1. apply in_map_iff in M1.
    destruct M1 as ([k' m'] & X & M1). simpl in X. subst m'. exists k', m. split; [right; exact M1|exact M2]. }
  assert (F : feeds (nodemap g) k' k).
  { exists m, n, t. repeat split; auto; apply dget_In; apply R2; rewrite ED; apply in_app_iff; right; [exact K1|left; reflexivity]. }
  apply HB in F.
  assert (El : l = map fst da ++ k :: map fst db) by (rewrite <- R1, ED, map_app; reflexivity).
  pose proof (before_split l k' k _ _ NDl F El) as Ik.
  rewrite El in NDl. destruct (NoDup_app_inv _ _ _ NDl) as (_ & _ & K). apply (K k' Ik).
  destruct K1 as [K1|K1]; [injection K1 as -> _; left; reflexivity|].
  right. apply in_map_iff. exists (k', m). auto.
Qed.

Lemma map_snd_perm : forall (a b : dict node), Permutation a b -> Permutation (map snd a) (map snd b).
Proof. intros. apply Permutation_map. assumption. Qed.

Lemma NoDup_named : forall l, NoDup l -> NoDup (named l).
Proof. intros. apply NoDup_filter. assumption. Qed.

Theorem reorder_same_values : forall sem g g' ns e t, unique_producers (nodemap g) -> acyclic (nodemap g) ->
  graph_reorder_nodes g = Some g' ->
  Permutation ns (nodes_of g) -> respects_deps ns -> t <> ""%string ->
  run_private sem e (nodes_of g') t = run_private sem e ns t.
Proof.
  intros sem g g' ns e t HU HA HR HP HD Nt. destruct (reorder_respects g g' HU HA HR) as (P1 & P2 & _).
  apply order_irrelevant; auto.
  - transitivity (nodes_of g); [apply map_snd_perm; exact P1|apply Permutation_sym; exact HP].
  - eapply Permutation_NoDup; [apply Permutation_named, Permutation_outs, map_snd_perm, Permutation_sym, P1|].
    fold (nodes_of g). rewrite nodes_outs. apply NoDup_named. apply HU.
Qed.

Lemma nth_error_split_list : forall (l : list node) i n, nth_error l i = Some n -> exists a b, l = a ++ n :: b /\ length a = i.
Proof. intros l i n H. apply nth_error_split in H. destruct H as (a & b & E & L). exists a, b. auto. Qed.

(** the planner's hypotheses hold after reordering *)
Theorem reorder_establishes_plan_input : forall g g', unique_producers (nodemap g) -> acyclic (nodemap g) ->
  NoDup (g_input g) -> (forall t, In t (g_input g) -> ~ In t (outs_of (nodes_of g))) -> no_anonymous_data g ->
  graph_reorder_nodes g = Some g' -> wf_plan_input g' /\ topologically_ordered g'.
Proof.
  intros g g' HU HA HI HO HN HR. destruct (reorder_fields g g' HR) as (l & E & N1 & N2 & N3 & N4 & N5 & N6 & CE & DY).
  destruct (reorder_respects g g' HU HA HR) as (P1 & P2 & _).
  assert (PO : Permutation (outs_of (nodes_of g')) (outs_of (nodes_of g))).
  { apply Permutation_outs. apply map_snd_perm. exact P1. }
  split.
  - split; [|split; [exact CE|]].
    + unfold single_assignment. apply NoDup_named. rewrite N4. apply NoDup_app_intro.
      * exact HI.
      * eapply Permutation_NoDup; [apply Permutation_sym; exact PO|]. rewrite nodes_outs. apply HU.
      * intros t I J. apply (HO t I). exact (Permutation_in t PO J).
    + intros tn. rewrite N2. apply HN.
  - intros i n t En It Nt.
    destruct (in_dec string_dec t (g_input g')) as [I|I]; [left; exact I|right].
    destruct (in_dec string_dec t (outs_of (nodes_of g'))) as [J|J]; [left|right; rewrite in_app_iff; tauto].
    destruct (nth_error_split_list _ _ _ En) as (a & b & EL & La).
    rewrite EL in J. rewrite outs_app in J. apply in_app_iff in J. destruct J as [J|J].
    + unfold outs_of in J. apply in_flat_map in J. destruct J as (m & M1 & M2). apply In_nth_error in M1.
      destruct M1 as (j & Ej). exists j, m.
      assert (j < length a) by (apply nth_error_Some; congruence).
      split; [lia|]. split; [|exact M2]. rewrite EL, nth_error_app1 by assumption. exact Ej.
    + exfalso. exact (P2 a n b t EL It Nt J).
Qed.

(** ---- C10: dropped nodes are exactly those depending on a cycle ---- *)
Lemma path_trans : forall nm a b c, path nm a b -> path nm b c -> path nm a c.
Proof.
  intros nm a b c H. revert c. induction H as [a b F|a b d F P IH]; intros c Q.
  - eapply path_step; eauto.
  - eapply path_step; [exact F|]. apply IH. exact Q.
Qed.

Lemma executable_no_cycle : forall nm k, executable nm k -> forall c, path nm c k -> executable nm c.
Proof.
  intros nm k HE. induction HE as [k I Hp IH]. intros c P.
  assert (G : forall x y, path nm x y -> y = k -> exists z, feeds nm z k /\ (z = x \/ path nm x z)).
  { induction 1 as [a b F|a b d F P' IHP]; intros ->; [exists a; auto|].
    destruct (IHP eq_refl) as (z & Z1 & [->|Z2]); [exists b; split; [exact Z1|right; constructor; exact F]|].
    exists z. split; [exact Z1|]. right. eapply path_step; eauto. }
  destruct (G c k P eq_refl) as (z & Z1 & [->|Z2]); [auto|]. eapply IH; eauto.
Qed.

Lemma executable_acyc : forall nm k, executable nm k -> ~ path nm k k.
Proof.
  intros nm k HE. induction HE as [k I Hp IH]. intros P.
  assert (G : forall x y, path nm x y -> exists z, feeds nm z y /\ (z = x \/ path nm x z)).
  { induction 1 as [a b F|a b d F P' IHP]; [exists a; auto|].
    destruct IHP as (z & Z1 & [->|Z2]); [exists b; split; [exact Z1|right; constructor; exact F]|].
    exists z. split; [exact Z1|]. right. eapply path_step; eauto. }
  destruct (G k k P) as (z & Z1 & [->|Z2]).
  - exact (IH k Z1 P).
  - apply (IH z Z1). eapply path_trans; [|exact Z2]. constructor. exact Z1.
Qed.

(** a backwards chain of nodes ending in [k] *)
Inductive chain (nm : dict node) : list string -> string -> Prop :=
| chain_one : forall k, chain nm [k] k
| chain_more : forall a l k h, feeds nm a h -> chain nm (h :: l) k -> chain nm (a :: h :: l) k.

Lemma chain_path : forall nm l k, chain nm l k -> forall x, In x l -> x = k \/ path nm x k.
Proof.
  intros nm l k H. induction H as [k|a l k h F C IH]; intros x I.
  - destruct I as [->|[]]. left. reflexivity.
  - destruct I as [<-|I]; [|auto]. right.
    destruct (IH h (or_introl eq_refl)) as [->|P]; [constructor; exact F|eapply path_step; eauto].
Qed.

Lemma chain_dup : forall nm l k, chain nm l k -> ~ NoDup l -> exists c, path nm c c /\ (c = k \/ path nm c k).
Proof.
  intros nm l k H. induction H as [k|a l k h F C IH]; intros ND.
  - exfalso. apply ND. repeat constructor. intros [].
  - destruct (in_dec string_dec a (h :: l)) as [I|I].
    + exists a. split.
      * assert (G : forall l' k', chain nm l' k' -> forall x y r, l' = y :: r -> In x l' -> y = x \/ path nm y x).
        { clear. intros l' k' H. induction H as [k|a l k h F C IH]; intros x y r E I.
          - injection E as <- <-. destruct I as [<-|[]]. left. reflexivity.
          - injection E as <- <-. destruct I as [<-|I]; [left; reflexivity|right].
            destruct (IH x h l eq_refl I) as [<-|P]; [constructor; exact F|eapply path_step; eauto]. }
        destruct (G _ _ C a h l eq_refl I) as [<-|P]; [constructor; exact F|eapply path_step; eauto].
      * destruct (chain_path _ _ _ C a I) as [->|P]; auto.
    + apply IH. intro X. apply ND. constructor; assumption.
Qed.

Theorem dropped_iff_cycle : forall g g' k, unique_producers (nodemap g) -> graph_reorder_nodes g = Some g' ->
  In k (map fst (nodemap g)) -> (~ In k (map fst (nodemap g')) <-> depends_on_cycle (nodemap g) k).
Proof.
  intros g g' k HU HR I. destruct (reorder_fields g g' HR) as (l & E & N1 & _).
  destruct (topsort_total (nodemap g) (proj1 HU)) as (l' & E' & NDl & HI). rewrite E in E'. injection E' as <-.
  destruct (rebuild_spec (nodemap g) l NDl HI) as [R1 _]. rewrite N1, R1. split.
  - intros N.
    assert (G : forall m, exists c, chain (nodemap g) c k /\ length c = S m /\ (forall x, In x c -> ~ In x l /\ In x (map fst (nodemap g)))).
    { induction m as [|m (c & C1 & C2 & C3)].
      - exists [k]. split; [constructor|]. split; [reflexivity|]. intros x [<-|[]]. auto.
      - destruct c as [|h c]; [discriminate|].
        destruct (C3 h (or_introl eq_refl)) as [H1 H2].
        destruct (topsort_stuck _ l h HU E H2 H1) as (a & F & Na).
        exists (a :: h :: c). split; [constructor; assumption|]. split; [simpl in *; lia|].
        intros x [<-|X]; [|auto]. split; [exact Na|]. apply (feeds_key _ a h F). }
    destruct (G (length (nodemap g))) as (c & C1 & C2 & C3).
    apply (chain_dup _ _ _ C1). intro ND.
    assert (length c <= length (map fst (nodemap g))) by (apply NoDup_incl_length; [exact ND|intros x X; apply C3; exact X]).
    rewrite map_length in *. lia.
  - intros (c & P1 & P2) J. apply (topsort_executable _ l k HU E) in J.
    destruct P2 as [->|P2]; [exact (executable_acyc _ _ J P1)|].
    exact (executable_acyc _ _ (executable_no_cycle _ _ J c P2) P1).
Qed.

Lemma reorder_total : forall g, NoDup (map fst (nodemap g)) -> exists g', graph_reorder_nodes g = Some g' /\
  NoDup (map fst (nodemap g')) /\ incl (nodemap g') (nodemap g).
Proof.
  intros g ND. destruct (topsort_total (nodemap g) ND) as (l & E & NDl & HI).
  assert (exists g', graph_reorder_nodes g = Some g') as (g' & H) by (unfold graph_reorder_nodes; rewrite E; eauto).
  exists g'. split; [exact H|]. destruct (reorder_fields g g' H) as (l' & E' & N1 & _).
  rewrite E in E'. injection E' as <-. destruct (rebuild_spec (nodemap g) l NDl HI) as [R1 R2].
  rewrite N1. split; [rewrite R1; exact NDl|]. intros [k n] X. apply dget_In. auto.
Qed.
