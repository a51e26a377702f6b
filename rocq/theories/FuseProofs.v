From Verif Require Import PyBase PyBaseFacts GraphModel CompressSpec RelSpec RelProofs ExecModel ExecProofs CompressProofs CompressTop TopSortSpec TopSortProofs
  OrderSpec OrderProofs EditModel EditSpec RemoveProofs DanglingProofs IoProofs.
From Coq Require Import Permutation.
Local Open Scope list_scope.

Definition outside (names : list string) (nm : dict node) : dict node :=
  filter (fun kn => negb (memb (fst kn) names)) nm.

Lemma ddel_filter : forall (d : dict node) k, NoDup (dkeys d) -> ddel d k = filter (fun kn => negb (String.eqb (fst kn) k)) d.
Proof.
  induction d as [|[k0 v0] r IH]; intros k ND; [reflexivity|]. cbn [dkeys map fst] in ND. inversion ND as [|? ? N1 N2]; subst.
  cbn [ddel filter fst]. rewrite (String.eqb_sym k0 k). destruct (String.eqb_spec k k0) as [->|N]; cbn [negb].
  - symmetry. clear - N1. induction r as [|[a b] r IH]; [reflexivity|]. cbn [filter fst map] in *.
    destruct (String.eqb_spec a k0) as [->|N]; cbn [negb]; [exfalso; apply N1; left; reflexivity|].
    f_equal. apply IH. intro. apply N1. right. assumption.
  - f_equal. apply IH. exact N2.
Qed.

Lemma outside_cons : forall k names nm, NoDup (dkeys nm) -> outside names (ddel nm k) = outside (k :: names) nm.
Proof.
  intros k names nm ND. rewrite ddel_filter by exact ND. unfold outside. clear ND. induction nm as [|[a b] r IH]; [reflexivity|].
  cbn [filter fst memb]. destruct (String.eqb_spec a k) as [->|N]; cbn [negb]; [exact IH|].
  cbn [filter fst]. destruct (memb a names); cbn [negb]; [exact IH|f_equal; exact IH].
Qed.

Lemma In_outside : forall names nm k n, In (k, n) (outside names nm) <-> In (k, n) nm /\ ~ In k names.
Proof. intros. unfold outside. rewrite filter_In. cbn [fst]. rewrite negb_true_iff, memb_nIn. tauto. Qed.

(** a node of the set produces [t] *)
Definition made_inside (g : graph) (names : list string) (t : string) : Prop :=
  exists k n, In k names /\ In (k, n) (nodemap g) /\ In t (n_out n).

Lemma remove_nodes_ok : forall names g, consistent g ->
  exists g1, remove_nodes g names = Ok g1 /\ consistent g1 /\ nodemap g1 = outside names (nodemap g) /\
    tensormap g1 = tensormap g /\ initials g1 = initials g /\ dynamics g1 = dynamics g /\ g_input g1 = g_input g /\
    (forall t, In t (g_output g1) -> In t (g_output g)) /\
    (forall t, In t (g_output g) -> ~ made_inside g names t -> In t (g_output g1)) /\
    (NoDup (g_output g) -> NoDup (g_output g1) /\ forall t, In t (g_output g1) -> ~ made_inside g names t).
Proof.
  induction names as [|k r IH]; intros g HC.
  - exists g. split; [reflexivity|]. split; [exact HC|]. split.
    { unfold outside. clear. induction (nodemap g) as [|x l IH]; [reflexivity|]. cbn [filter fst memb negb]. f_equal. exact IH. }
    repeat (split; [reflexivity|]). split; [auto|]. split; [auto|]. intros ND. split; [exact ND|]. intros t _ (? & ? & [] & _).
  - unfold remove_nodes. cbn [fold_left bind]. destruct (dget (nodemap g) k) as [n|] eqn:E.
    + destruct (remove_node1_ok g k n HC E) as (g1 & nn & R1 & C1 & M1 & T1 & I1 & D1 & GI1 & A1 & A2 & A3 & _ & _).
      rewrite R1. cbn [bind]. destruct (IH g1 C1) as (g2 & S1 & C2 & M2 & T2 & I2 & D2 & GI2 & B1 & B2 & B3).
      exists g2. split; [exact S1|]. split; [exact C2|]. split; [rewrite M2, M1; apply outside_cons, HC|].
      repeat (split; [congruence|]). split; [auto|].
      assert (MI : forall t, made_inside g (k :: r) t <-> In t (n_out n) \/ made_inside g1 r t).
      { intros t. split.
        - intros (x & xn & Ix & In_ & Io). destruct (string_dec x k) as [->|Nx].
          + apply In_dget in In_; [|apply HC]. rewrite E in In_. injection In_ as <-. left. exact Io.
          + right. exists x, xn. destruct Ix as [Ix|Ix]; [congruence|]. split; [exact Ix|]. split; [|exact Io].
            rewrite M1. apply In_ddel; [apply HC|]. auto.
        - intros [I|(x & xn & Ix & In_ & Io)].
          + exists k, n. split; [left; reflexivity|]. split; [apply dget_In; exact E|exact I].
          + exists x, xn. split; [right; exact Ix|]. split; [|exact Io]. rewrite M1 in In_. apply In_ddel in In_; [|apply HC]. apply In_. }
      split.
      * intros t It Nt. rewrite MI in Nt. apply B2; [apply A2; tauto|tauto].
      * intros ND. destruct (A3 ND) as [K1 K2]. destruct (B3 K1) as [K3 K4]. split; [exact K3|].
        intros t It. rewrite MI. intros [X|X]; [exact (K2 t (B1 t It) X)|exact (K4 t It X)].
    + rewrite (remove_node1_absent g k E). cbn [bind]. destruct (IH g HC) as (g2 & S1 & C2 & M2 & T2 & I2 & D2 & GI2 & B1 & B2 & B3).
      assert (EK : forall x xn, In (x, xn) (nodemap g) -> x <> k).
      { intros x xn I ->. apply In_dget in I; [|apply HC]. congruence. }
      assert (MI : forall t, made_inside g (k :: r) t <-> made_inside g r t).
      { intros t. split; intros (x & xn & Ix & In_ & Io); exists x, xn; (split; [|auto]).
        - destruct Ix as [Ix|Ix]; [exfalso; exact (EK _ _ In_ (eq_sym Ix))|exact Ix].
        - right. exact Ix. }
      exists g2. split; [exact S1|]. split; [exact C2|]. split.
      { rewrite M2. rewrite <- (ddel_absent _ (nodemap g) k E) at 1. apply outside_cons, HC. }
      repeat (split; [assumption|]). split; [intros t It Nt; apply B2; [exact It|rewrite <- MI; exact Nt]|].
      intros ND. destruct (B3 ND) as [K1 K2]. split; [exact K1|]. intros t It. rewrite MI. exact (K2 t It).
Qed.

Lemma glist_fold_dset : forall v os d t, glist (fold_left (fun d o => dset d o [v]) os d) t = if memb t os then [v] else glist d t.
Proof.
  intros v. induction os as [|o r IH]; intros d t; [reflexivity|]. cbn [fold_left memb]. rewrite IH.
  destruct (memb t r); [destruct (String.eqb t o); reflexivity|].
  unfold glist. rewrite dget_dset. destruct (String.eqb t o); reflexivity.
Qed.
Lemma fold_dset_NoDup : forall v os (d : dict (list string)), NoDup (dkeys d) -> NoDup (dkeys (fold_left (fun d o => dset d o [v]) os d)).
Proof. intros v. induction os as [|o r IH]; intros d H; [exact H|]. cbn [fold_left]. apply IH, NoDup_dkeys_dset, H. Qed.
Lemma fold_dset_noempty : forall v os d, noempty d -> noempty (fold_left (fun d o => dset d o [v]) os d).
Proof.
  intros v. induction os as [|o r IH]; intros d H; [exact H|]. cbn [fold_left]. apply IH. intros t. rewrite dget_dset.
  destruct (String.eqb t o); [discriminate|apply H].
Qed.
Lemma count_NoDup : forall x l, NoDup l -> count x l = if memb x l then 1 else 0.
Proof.
  intros x. induction l as [|y r IH]; intros ND; [reflexivity|]. inversion ND as [|? ? N1 N2]; subst. cbn [count memb].
  rewrite IH by exact N2. destruct (String.eqb_spec x y) as [->|N]; [|reflexivity].
  apply memb_nIn in N1. rewrite N1. reflexivity.
Qed.
Lemma dget_app_new : forall (d : dict node) k v x, ~ In k (dkeys d) -> dget (d ++ [(k, v)]) x = if String.eqb x k then Some v else dget d x.
Proof. intros d k v x N. rewrite <- dset_new by exact N. apply dget_dset. Qed.

Lemma produces_made : forall g names t, produces_outside g names t -> made_inside g names t.
Proof. intros g names t (k & n & A & B & C & _). exists k, n. auto. Qed.

(** the fused graph: exact node map, exact relations, which outputs survive *)
Theorem fuse_ok : forall g names op name, consistent g ->
  (forall k, In k names -> In k (dkeys (nodemap g))) -> (In name (dkeys (nodemap g)) -> In name names) ->
  exists g' ins outs, get_iotensors g names false = Ok (ins, outs) /\ fuse_nodes g names op name = Ok g' /\
    NoDup ins /\ NoDup outs /\
    (forall t, In t ins <-> t <> ""%string /\ reads_outside g names t) /\
    (forall t, In t outs <-> produces_outside g names t) /\
    nodemap g' = outside names (nodemap g) ++ [(name, mkNode name op ins outs)] /\
    consistent g' /\
    tensormap g' = tensormap g /\ initials g' = initials g /\ dynamics g' = dynamics g /\ g_input g' = g_input g /\
    (forall t, In t (g_output g') -> In t (g_output g)) /\
    (forall t, In t (g_output g) -> ~ made_inside g names t -> In t (g_output g')) /\
    (NoDup (g_output g) -> forall t, In t (g_output g') -> ~ made_inside g names t).
Proof.
  intros g names op name HC HK HF.
  destruct (get_iotensors_spec g HC names false HK) as (ins & outs & E & NI & NO & SI & SO).
  destruct (remove_nodes_ok names g HC) as (g1 & R & C1 & M1 & T1 & I1 & D1 & GI1 & A1 & A2 & A3).
  unfold fuse_nodes. rewrite E. cbn [bind]. rewrite R. cbn [bind].
  assert (NK : ~ In name (dkeys (nodemap g1))).
  { rewrite M1. intro K. unfold dkeys in K. apply in_map_iff in K. destruct K as ([x xn] & X & K). cbn in X. subst x.
    apply In_outside in K. destruct K as [K1 K2]. apply K2, HF. apply in_map_iff. exists (name, xn). auto. }
  eexists. exists ins, outs. split; [reflexivity|]. split; [reflexivity|]. split; [exact NI|]. split; [exact NO|].
  split; [intros t; rewrite SI; intuition congruence|]. split; [intros t; rewrite SO; intuition congruence|].
  cbn [with_rel nodemap tensormap initials dynamics g_input g_output].
  rewrite dset_new by exact NK.
  split; [rewrite M1; reflexivity|]. split; [|repeat (split; [assumption|]); intros ND; apply (A3 ND)].
  assert (PO : forall t x xn, In t outs -> dget (nodemap g1) x = Some xn -> ~ In t (n_out xn)).
  { intros t x xn It Ex Io. apply SO in It. destruct It as [_ It]. apply produces_made in It.
    destruct It as (k & n & K1 & K2 & K3). apply dget_In in Ex. rewrite M1 in Ex. apply In_outside in Ex. destruct Ex as [X1 X2].
    assert (x = k) by (eapply outs_unique_key; [apply (co_uniq g HC)|exact X1|exact K2|exact Io|exact K3]). subst. contradiction. }
  constructor; cbn [with_rel nodemap producedby consumedby].
  - unfold dkeys. rewrite map_app. apply NoDup_snoc; [apply C1|exact NK].
  - intros k n I. cbn [with_rel nodemap] in I. apply in_app_iff in I. destruct I as [I|[I|[]]]; [apply (co_names g1 C1); exact I|injection I as <- <-; reflexivity].
  - split; [rewrite map_app; apply NoDup_snoc; [apply C1|exact NK]|].
    rewrite flat_map_app. cbn [flat_map snd n_out]. rewrite app_nil_r. apply NoDup_app_intro; [apply (co_uniq g1 C1)|exact NO|].
    intros t I J. apply in_flat_map in I. destruct I as ([x xn] & X1 & X2). apply In_dget in X1; [|apply C1]. exact (PO t x xn J X1 X2).
  - destruct (co_prod g1 C1) as [P1 P2 P3]. constructor; [apply fold_dset_NoDup; exact P1|apply fold_dset_noempty; exact P2|].
    intros t x. rewrite glist_fold_dset. unfold cnt_sel. rewrite dget_app_new by exact NK. cbn [count].
    specialize (P3 t x). cbn [count] in P3. unfold cnt_sel in P3.
    destruct (String.eqb_spec x name) as [->|Nx].
    + cbn [n_out]. rewrite (count_NoDup t outs NO). destruct (memb t outs); [cbn [count]; rewrite String.eqb_refl; destruct (String.eqb name ""); reflexivity|].
      rewrite P3. destruct (dget (nodemap g1) name) eqn:X; [apply dget_Some_keys in X; contradiction|]. destruct (String.eqb name ""); reflexivity.
    + destruct (memb t outs) eqn:M; [|exact P3]. apply memb_In in M. cbn [count].
      destruct (String.eqb_spec x name); [congruence|]. destruct (dget (nodemap g1) x) as [xn|] eqn:X; [|destruct (String.eqb x ""); reflexivity].
      pose proof (PO t x xn M X) as Z. apply count_zero in Z. rewrite Z. destruct (String.eqb x ""); reflexivity.
  - destruct (co_cons g1 C1) as [P1 P2 P3]. constructor; [apply fold_dpush_NoDup; exact P1|apply fold_dpush_noempty; exact P2|].
    intros t x. rewrite fold_dpush, count_app, count_map_const, length_filter_eqb. unfold cnt_sel. rewrite dget_app_new by exact NK. cbn [count].
    specialize (P3 t x). cbn [count] in P3. unfold cnt_sel in P3. rewrite P3.
    destruct (String.eqb_spec x name) as [->|Nx].
    + cbn [n_in]. destruct (dget (nodemap g1) name) eqn:X; [apply dget_Some_keys in X; contradiction|]. destruct (String.eqb name ""); lia.
    + destruct (dget (nodemap g1) x); destruct (String.eqb x ""); lia.
Qed.

(** ---- what the fused graph computes ---- *)
Lemma respects_cons : forall n r, respects_deps (n :: r) <->
  (forall t, In t (n_in n) -> t <> ""%string -> ~ In t (outs_of (n :: r))) /\ respects_deps r.
Proof.
  intros n r. split.
  - intros H. split; [intros t; exact (H [] n r t eq_refl)|]. intros a m b t E. apply (H (n :: a) m b t). rewrite E. reflexivity.
  - intros [H1 H2] [|x a] m b t E; cbn [app] in E; injection E as -> ->; [apply H1|]. apply (H2 a m b t eq_refl).
Qed.
Lemma respects_tail : forall a b, respects_deps (a ++ b) -> respects_deps b.
Proof. induction a as [|x a IH]; intros b H; [exact H|]. cbn [app] in H. apply respects_cons in H. apply IH, H. Qed.
Lemma respects_head : forall a b, respects_deps (a ++ b) -> respects_deps a.
Proof.
  intros a b H x n y t -> I N J. apply (H x n (y ++ b) t); [rewrite <- app_assoc; reflexivity|exact I|exact N|].
  change (n :: y ++ b) with ((n :: y) ++ b). rewrite outs_app. apply in_app_iff. left. exact J.
Qed.
Lemma respects_swap : forall a l l', respects_deps (a ++ l) -> incl (outs_of l') (outs_of l) -> respects_deps l' -> respects_deps (a ++ l').
Proof.
  induction a as [|x a IH]; intros l l' H HI H'; [exact H'|]. cbn [app] in *. apply respects_cons in H. destruct H as [H1 H2].
  apply respects_cons. split; [|eapply IH; eauto].
  intros t It Nt J. apply (H1 t It Nt). change (x :: a ++ l') with ((x :: a) ++ l') in J. change (x :: a ++ l) with ((x :: a) ++ l).
  rewrite outs_app in *. apply in_app_iff in J. apply in_app_iff. destruct J as [J|J]; [left|right]; auto.
Qed.
Lemma Permutation_filter : forall A (p : A -> bool) l l', Permutation l l' -> Permutation (filter p l) (filter p l').
Proof.
  intros A p l l' H. induction H as [|x l l' H IH|x y l|l1 l2 l3 H1 IH1 H2 IH2]; cbn [filter]; [constructor| | |].
  - destruct (p x); [constructor|]; exact IH.
  - destruct (p x), (p y); try apply perm_swap; apply Permutation_refl.
  - eapply Permutation_trans; eauto.
Qed.
Lemma filter_all : forall A (p : A -> bool) l, (forall x, In x l -> p x = true) -> filter p l = l.
Proof. intros A p. induction l as [|x r IH]; intros H; [reflexivity|]. cbn [filter]. rewrite (H x (or_introl eq_refl)). f_equal. apply IH. intros y Y. apply H. right. exact Y. Qed.
Lemma filter_none : forall A (p : A -> bool) l, (forall x, In x l -> p x = false) -> filter p l = [].
Proof. intros A p. induction l as [|x r IH]; intros H; [reflexivity|]. cbn [filter]. rewrite (H x (or_introl eq_refl)). apply IH. intros y Y. apply H. right. exact Y. Qed.
Lemma filter_map_snd : forall (p : node -> bool) (q : string * node -> bool) (l : dict node), (forall x, In x l -> q x = p (snd x)) ->
  filter p (map snd l) = map snd (filter q l).
Proof.
  intros p q. induction l as [|x r IH]; intros H; [reflexivity|]. cbn [map filter]. rewrite (H x (or_introl eq_refl)).
  destruct (p (snd x)); cbn [map]; [f_equal|]; apply IH; intros y Y; apply H; right; exact Y.
Qed.

Section FuseSem.
Variable sem : node -> list bytes -> list bytes.
Local Notation run := (run_private sem).

Lemma writes_cover : forall outs vals e e' t, length vals = length outs -> In t outs ->
  fold_left write_private (combine outs vals) e t = fold_left write_private (combine outs vals) e' t.
Proof.
  induction outs as [|o r IH]; intros vals e e' t L I; [destruct I|]. destruct vals as [|v vals]; [discriminate|].
  cbn [combine fold_left]. injection L as L.
  destruct (in_dec string_dec t r) as [J|J]; [apply IH; assumption|].
  destruct I as [->|I]; [|contradiction]. rewrite !writes_notin by exact J. unfold write_private, upd. cbn [fst snd]. rewrite String.eqb_refl. reflexivity.
Qed.
Lemma writes_map : forall (f : string -> bytes) outs e t, In t outs -> fold_left write_private (combine outs (map f outs)) e t = f t.
Proof.
  intros f. induction outs as [|o r IH]; intros e t I; [destruct I|]. cbn [map combine fold_left].
  destruct (in_dec string_dec t r) as [J|J]; [apply IH; exact J|]. destruct I as [->|I]; [|contradiction].
  rewrite writes_notin by exact J. unfold write_private, upd. cbn [fst snd]. rewrite String.eqb_refl. reflexivity.
Qed.
Lemma look_ext : forall e e' l, (forall t, In t l -> t <> ""%string -> e t = e' t) -> map (look_private e) l = map (look_private e') l.
Proof.
  intros e e' l H. apply map_ext_in. intros t I. unfold look_private. destruct (String.eqb_spec t ""); [reflexivity|]. apply H; assumption.
Qed.

Lemma run_agree : forall (S : string -> Prop) ns e e', (forall t, S t -> e t = e' t) ->
  (forall n t, In n ns -> In t (n_in n) -> t <> ""%string -> S t) -> forall t, S t -> run e ns t = run e' ns t.
Proof.
  intros S. induction ns as [|n r IH]; intros e e' H HR t St; [exact (H t St)|].
  unfold run_private. cbn [fold_left]. apply IH; [|intros; eapply HR; [right|..]; eauto|exact St].
  intros u Su. unfold step_private. rewrite (look_ext e e' (n_in n)) by (intros x X Nx; apply H, (HR n); auto; left; reflexivity).
  apply writes_ext, H, Su.
Qed.

Lemma run_agree_fresh : forall ns (S : string -> Prop) e e',
  (forall n args, In n ns -> length (sem n args) = length (n_out n)) ->
  (forall t, S t -> e t = e' t) ->
  (forall a n b t, ns = a ++ n :: b -> In t (n_in n) -> t <> ""%string -> S t \/ In t (outs_of a)) ->
  forall t, S t \/ In t (outs_of ns) -> run e ns t = run e' ns t.
Proof.
  induction ns as [|n r IH]; intros S e e' HL H HR t Ht.
  - destruct Ht as [Ht|[]]. exact (H t Ht).
  - unfold run_private. cbn [fold_left].
    assert (EA : map (look_private e) (n_in n) = map (look_private e') (n_in n)).
    { apply look_ext. intros u Iu Nu. apply H. destruct (HR [] n r u eq_refl Iu Nu) as [X|[]]. exact X. }
    apply (IH (fun u => S u \/ In u (n_out n))).
    + intros m args I. apply HL. right. exact I.
    + intros u [Su|Iu]; unfold step_private; rewrite EA; [apply writes_ext, H, Su|apply writes_cover; [apply HL; left; reflexivity|exact Iu]].
    + intros a m b u E Iu Nu. destruct (HR (n :: a) m b u) as [X|X]; [rewrite E; reflexivity|exact Iu|exact Nu|left; left; exact X|].
      unfold outs_of in X. cbn [flat_map] in X. apply in_app_iff in X. destruct X as [X|X]; [left; right; exact X|right; exact X].
    + destruct Ht as [Ht|Ht]; [left; left; exact Ht|]. unfold outs_of in Ht. cbn [flat_map] in Ht. apply in_app_iff in Ht.
      destruct Ht as [X|X]; [left; right; exact X|right; exact X].
Qed.

(** the values a region computes from the values of its inputs alone *)
Definition region_values (R : list node) (ins : list string) (args : list bytes) : env :=
  run (fold_left write_private (combine ins args) (fun _ => [])) R.

Theorem fuse_values : forall g names op name g' f A R B,
  consistent g -> (forall k, In k names -> In k (dkeys (nodemap g))) -> (In name (dkeys (nodemap g)) -> In name names) ->
  fuse_nodes g names op name = Ok g' -> In (name, f) (nodemap g') ->
  Permutation (A ++ R ++ B) (nodes_of g) -> respects_deps (A ++ R ++ B) ->
  (forall n, In n R <-> In n (nodes_of g) /\ In (n_name n) names) ->
  (forall n args, In n R -> length (sem n args) = length (n_out n)) ->
  (forall args, length args = length (n_in f) -> sem f args = map (region_values R (n_in f) args) (n_out f)) ->
  Permutation (A ++ f :: B) (nodes_of g') /\ respects_deps (A ++ f :: B) /\
  forall e t, t <> ""%string -> (In t (outs_of R) -> In t (n_out f)) -> run e (A ++ f :: B) t = run e (A ++ R ++ B) t.
Proof.
  intros g names op name g' f A R B HC HK HF EF If HP HR HM HL HS.
  destruct (fuse_ok g names op name HC HK HF) as (g2 & ins & outs & _ & E2 & NI & NO & SI & SO & M & C2 & _).
  rewrite EF in E2. injection E2 as <-.
  assert (Ef : f = mkNode name op ins outs).
  { rewrite M in If. apply in_app_iff in If. destruct If as [I|[I|[]]]; [|injection I as <-; reflexivity].
    exfalso. apply In_outside in I. destruct I as [I1 I2]. apply I2, HF, in_map_iff. exists (name, f). auto. }
  assert (Nn : n_in f = ins /\ n_out f = outs) by (subst f; auto). destruct Nn as [Nin Nout]. rewrite Nin, Nout in *.
  assert (KN : forall n, In n (nodes_of g) -> In (n_name n, n) (nodemap g)).
  { intros n I. unfold nodes_of in I. apply in_map_iff in I. destruct I as ([k m] & X & I). cbn in X. subst m.
    rewrite (co_names g HC k n I). exact I. }
  assert (NK : forall k n, In (k, n) (nodemap g) -> In n (nodes_of g) /\ n_name n = k).
  { intros k n I. split; [apply in_map_iff; exists (k, n); auto|apply (co_names g HC); exact I]. }
  assert (NDn : NoDup (A ++ R ++ B)).
  { eapply Permutation_NoDup; [apply Permutation_sym; exact HP|]. apply (NoDup_map_inv n_name). unfold nodes_of. rewrite map_map.
    erewrite map_ext_in; [exact (co_nd g HC)|]. intros [k n] I. cbn. apply (co_names g HC). exact I. }
  destruct (NoDup_app_inv _ _ _ NDn) as (_ & NDrb & DA). destruct (NoDup_app_inv _ _ _ NDrb) as (_ & _ & DR).
  assert (inN : forall n, In n A \/ In n R \/ In n B -> In n (nodes_of g)).
  { intros n I. eapply Permutation_in; [exact HP|]. rewrite !in_app_iff. exact I. }
  assert (outA : forall n, In n A -> ~ In (n_name n) names).
  { intros n I J. apply (DA n I). apply in_app_iff. left. apply HM. split; [apply inN; auto|exact J]. }
  assert (outB : forall n, In n B -> ~ In (n_name n) names).
  { intros n I J. assert (In n R) by (apply HM; split; [apply inN; auto|exact J]). eapply DR; eauto. }
  assert (MR : forall t, In t (outs_of R) <-> made_inside g names t).
  { intros t. unfold outs_of. rewrite in_flat_map. split.
    - intros (n & I & J). apply HM in I. destruct I as [I1 I2]. exists (n_name n), n. auto.
    - intros (k & n & K1 & K2 & K3). exists n. split; [|exact K3]. apply HM. destruct (NK k n K2) as [X Y]. rewrite Y. auto. }
  assert (outsR : incl outs (outs_of R)) by (intros t I; apply MR, produces_made, SO, I).
  assert (insR : forall t, In t ins -> ~ In t (outs_of R) /\ ~ In t (outs_of B)).
  { intros t I. apply SI in I. destruct I as (Nt & k & n & K1 & K2 & K3 & K4). split.
    - rewrite MR. intros (k' & n' & L1 & L2 & L3). exact (K4 k' n' L1 L2 L3).
    - intro J. destruct (NK k n K2) as [X Y].
      assert (In n R) as InR by (apply HM; rewrite Y; auto). apply in_split in InR. destruct InR as (a & b & ->).
      apply (HR (A ++ a) n (b ++ B) t); [rewrite <- !app_assoc; reflexivity|exact K3|exact Nt|].
      change (n :: b ++ B) with ((n :: b) ++ B). rewrite outs_app. apply in_app_iff. right. exact J. }
  split; [|split].
  - unfold nodes_of at 1. rewrite M, map_app. cbn [map snd]. subst f.
    eapply Permutation_trans; [apply Permutation_sym, Permutation_cons_app, Permutation_refl|].
    eapply Permutation_trans; [|apply Permutation_cons_append]. constructor.
    assert (PF : Permutation (filter (fun n => negb (memb (n_name n) names)) (A ++ R ++ B))
                             (filter (fun n => negb (memb (n_name n) names)) (nodes_of g))) by (apply Permutation_filter; exact HP).
    rewrite !filter_app in PF.
    rewrite (filter_all _ _ A) in PF by (intros n I; apply negb_true_iff, memb_nIn, outA, I).
    rewrite (filter_all _ _ B) in PF by (intros n I; apply negb_true_iff, memb_nIn, outB, I).
    rewrite (filter_none _ _ R) in PF by (intros n I; apply negb_false_iff, memb_In; apply HM in I; apply I).
    cbn [app] in PF. eapply Permutation_trans; [exact PF|].
    unfold nodes_of. rewrite (filter_map_snd _ (fun kn => negb (memb (fst kn) names))); [apply Permutation_refl|].
    intros [k n] I. cbn [fst snd]. rewrite (co_names g HC k n I). reflexivity.
  - apply (respects_swap A (R ++ B)); [exact HR| |].
    + intros t I. unfold outs_of in I. cbn [flat_map] in I. fold (outs_of B) in I. rewrite Nout in I. rewrite outs_app. apply in_app_iff in I.
      apply in_app_iff. destruct I as [I|I]; [left; apply outsR; exact I|right; exact I].
    + apply respects_cons. split; [|eapply respects_tail, respects_tail; rewrite app_assoc in HR; rewrite <- app_assoc in HR; exact HR].
      intros t I Nt J. rewrite Nin in I. destruct (insR t I) as [X Y]. unfold outs_of in J. cbn [flat_map] in J. fold (outs_of B) in J.
      rewrite Nout in J. apply in_app_iff in J. destruct J as [J|J]; [apply X, outsR, J|exact (Y J)].
  - intros e t Nt Ht. rewrite !run_app. cbn [app]. change (f :: B) with ([f] ++ B). rewrite !run_app.
    set (e1 := run e A).
    assert (RR : forall a n b u, R = a ++ n :: b -> In u (n_in n) -> u <> ""%string -> In u ins \/ In u (outs_of a)).
    { intros a n b u Eu Iu Nu.
      assert (In n R) as InR by (rewrite Eu; apply in_app_iff; right; left; reflexivity).
      apply HM in InR. destruct InR as [R1 R2].
      destruct (in_dec string_dec u (outs_of R)) as [J|J].
      - right. rewrite Eu, outs_app in J. apply in_app_iff in J. destruct J as [J|J]; [exact J|]. exfalso.
        apply (HR (A ++ a) n (b ++ B) u); [rewrite Eu, <- !app_assoc; reflexivity|exact Iu|exact Nu|].
        change (n :: b ++ B) with ((n :: b) ++ B). rewrite outs_app. apply in_app_iff. left. exact J.
      - left. apply SI. split; [exact Nu|]. exists (n_name n), n. split; [exact R2|]. split; [apply KN; exact R1|]. split; [exact Iu|].
        intros k' n' L1 L2 L3. apply J, MR. exists k', n'. auto. }
    assert (Erun : forall u, In u outs -> region_values R ins (map (look_private e1) ins) u = run e1 R u).
    { intros u Iu. unfold region_values. apply (run_agree_fresh R (fun x => In x ins)); [exact HL| |exact RR|right; apply outsR; exact Iu].
      intros x Ix. rewrite writes_map by exact Ix. unfold look_private. destruct (String.eqb_spec x ""); [|reflexivity].
      apply SI in Ix. tauto. }
    assert (E2 : forall u, u <> ""%string /\ (In u (outs_of R) -> In u outs) -> run e1 [f] u = run e1 R u).
    { intros u [Nu Hu]. unfold run_private at 1. cbn [fold_left]. unfold step_private. rewrite Nin, Nout.
      rewrite HS by (rewrite map_length; reflexivity).
      destruct (in_dec string_dec u outs) as [I|I].
      - rewrite writes_map by exact I. apply Erun. exact I.
      - rewrite writes_notin by exact I. rewrite run_notin; [reflexivity|]. intro J. exact (I (Hu J)). }
    apply (run_agree (fun u => u <> ""%string /\ (In u (outs_of R) -> In u outs))); [exact E2| |auto].
    intros n u In_ Iu Nu. split; [exact Nu|]. intros J. apply SO. apply MR in J. destruct J as (k & m & K1 & K2 & K3).
    exists k, m. repeat (split; [assumption|]). left. exists (n_name n), n. split; [apply outB; exact In_|]. split; [apply KN, inN; auto|exact Iu].
Qed.
End FuseSem.
