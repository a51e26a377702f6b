(** [fuse_postop] on graphs whose consumer table may be incomplete. *)
From Verif Require Import PyBase PyBaseFacts GraphModel CompressSpec RelSpec RelProofs ExecModel ExecProofs CompressProofs CompressTop TopSortSpec TopSortProofs
  OrderSpec OrderProofs EditModel EditSpec RemoveProofs DanglingProofs IoProofs FuseProofs PostOpModel.
Local Open Scope list_scope.

(** everything exact except possibly the consumer table *)
Record weak (g : graph) : Prop := {
  wk_nd : NoDup (dkeys (nodemap g));
  wk_names : names_match g;
  wk_uniq : unique_producers (nodemap g);
  wk_prod : tbl (producedby g) n_out (nodemap g) "" [];
  wk_cnd : NoDup (dkeys (consumedby g));
  wk_ne : noempty (consumedby g) }.
Lemma consistent_weak : forall g, consistent g -> weak g.
Proof. intros g [A B C D E]. constructor; auto; apply E. Qed.

Definition drop (name : string) (n : node) (c : dict (list string)) (c' : dict (list string)) (P : list string) : Prop :=
  forall t x, count x (glist c' t) = count x (glist c t) - (if String.eqb x name then count t P else 0).

Lemma rm_ins_weak : forall g name n prod output, weak g -> dget (nodemap g) name = Some n ->
  tbl prod n_out (nodemap g) name (n_out n) ->
  forall is cns nn, NoDup (dkeys cns) -> noempty cns ->
  exists cns' nn', rm_ins (nodemap g) prod output name is (cns, nn) = Ok (cns', nn') /\ NoDup (dkeys cns') /\ noempty cns' /\
    forall t x, count x (glist cns' t) = count x (glist cns t) - (if String.eqb x name then count t is else 0).
Proof.
  intros g name n prod output HC En HTp. induction is as [|i r IH]; intros cns nn ND NE; cbn [rm_ins].
  - exists cns, nn. split; [reflexivity|]. split; [exact ND|]. split; [exact NE|]. intros t x. cbn [count]. destruct (String.eqb x name); lia.
  - assert (Hstep : exists nn1 c1, rm_in (nodemap g) prod output name (cns, nn) i = Ok (c1, nn1) /\ NoDup (dkeys c1) /\ noempty c1 /\
       forall t x, count x (glist c1 t) = count x (glist cns t) - (if String.eqb x name then count t [i] else 0)).
    { unfold rm_in. destruct (dget cns i) as [l|] eqn:El.
      - assert (HX : exists nn1, (if Nat.eqb (length l) 1
           then match dget prod i with None => Ok nn | Some [] => KeyError | Some (p :: q) => match q with _ :: _ => AssertionError
             | [] => bind (dangling (nodemap g) cns output i p) (fun b => Ok (if b then nn ++ [p] else nn)) end end else Ok nn) = Ok nn1).
        { destruct (Nat.eqb (length l) 1); [|eauto]. destruct (dget prod i) as [[|p q]|] eqn:Ep; [exfalso; exact (tb_ne _ _ _ _ _ HTp i Ep)| |eauto].
          destruct (single_producer _ _ _ _ _ _ _ (wk_uniq g HC) HTp En Ep) as (-> & Np & pn & P1 & P2).
          unfold dangling. rewrite P1. cbn [bind]. eauto. }
        destruct HX as (nn1 & ->). cbn [bind]. exists nn1. eexists. split; [reflexivity|]. split; [apply NoDup_put, ND|]. split; [apply noempty_put; assumption|].
        intros t x. rewrite glist_put by exact ND. cbn [count]. destruct (String.eqb_spec t i) as [->|Nt].
        + assert (EG : glist cns i = l) by (unfold glist; rewrite El; reflexivity). rewrite EG.
          destruct (memb name l) eqn:M.
          * destruct (String.eqb_spec x name) as [->|Nx]; [rewrite count_remove1_eq; lia|rewrite count_remove1_neq by exact Nx; lia].
          * apply memb_nIn in M. apply count_zero in M. destruct (String.eqb_spec x name) as [->|Nx]; [rewrite M|]; lia.
        + destruct (String.eqb x name); lia.
      - exists nn, cns. split; [reflexivity|]. split; [exact ND|]. split; [exact NE|]. intros t x. cbn [count]. destruct (String.eqb_spec t i) as [->|Nt].
        + assert (EG : glist cns i = []) by (unfold glist; rewrite El; reflexivity). rewrite EG. cbn [count]. lia.
        + destruct (String.eqb x name); lia. }
    destruct Hstep as (nn1 & c1 & S1 & S2 & S3 & S4). rewrite S1. cbn [bind].
    destruct (IH c1 nn1 S2 S3) as (c' & nn' & R1 & R2 & R3 & R4). exists c', nn'. split; [exact R1|]. split; [exact R2|]. split; [exact R3|].
    intros t x. rewrite R4, S4. cbn [count]. destruct (String.eqb x name), (String.eqb t i); lia.
Qed.

Theorem remove_node1_weak : forall g name n, weak g -> dget (nodemap g) name = Some n ->
  exists g' nn, remove_node1 g name = Ok (g', nn) /\ weak g' /\ nodemap g' = ddel (nodemap g) name /\
    tensormap g' = tensormap g /\ initials g' = initials g /\ dynamics g' = dynamics g /\ g_input g' = g_input g /\
    forall t x, count x (glist (consumedby g') t) = count x (glist (consumedby g) t) - (if String.eqb x name then count t (n_in n) else 0).
Proof.
  intros g name n HC En. unfold remove_node1. rewrite En.
  destruct (rm_outs_ok name (nodemap g) n En (n_out n) [] (producedby g) (g_output g) eq_refl
             (tbl_any _ _ _ _ _ (wk_prod g HC))) as (prod & output & R1 & R2 & _).
  rewrite R1. cbn [bind].
  destruct (rm_ins_weak g name n prod output HC En R2 (n_in n) (consumedby g) [] (wk_cnd g HC) (wk_ne g HC)) as (cns & nn & S1 & S2 & S3 & S4).
  rewrite S1. cbn [bind]. eexists. exists nn. split; [reflexivity|]. cbn [with_rel nodemap tensormap initials dynamics g_input g_output consumedby producedby].
  split; [|repeat (split; [reflexivity|]); exact S4].
  constructor; cbn [with_rel nodemap producedby consumedby]; auto.
  - apply NoDup_dkeys_ddel, HC.
  - intros k m I. cbn [with_rel nodemap] in I. apply In_ddel in I; [|apply HC]. apply (wk_names g HC). tauto.
  - split; [apply NoDup_dkeys_ddel, HC|apply flat_map_ddel_NoDup, (wk_uniq g HC)].
  - eapply tbl_done; eauto. apply HC.
Qed.

Lemma cnt_sel_ddel : forall nm sel k x t, NoDup (dkeys nm) -> cnt_sel (ddel nm k) sel x t = if String.eqb x k then 0 else cnt_sel nm sel x t.
Proof.
  intros nm sel k x t ND. unfold cnt_sel. destruct (String.eqb_spec x k) as [->|N]; [rewrite dget_ddel_eq by exact ND; reflexivity|].
  rewrite dget_ddel_neq by congruence. reflexivity.
Qed.
Lemma remove_nodes_weak : forall names g, weak g ->
  exists g1, remove_nodes g names = Ok g1 /\ weak g1 /\ nodemap g1 = outside names (nodemap g) /\
    tensormap g1 = tensormap g /\ initials g1 = initials g /\ dynamics g1 = dynamics g /\ g_input g1 = g_input g /\
    forall t x, count x (glist (consumedby g1) t) = count x (glist (consumedby g) t) - (if memb x names then cnt_sel (nodemap g) n_in x t else 0).
Proof.
  induction names as [|k r IH]; intros g HC.
  - exists g. split; [reflexivity|]. split; [exact HC|]. split.
    { unfold outside. clear. induction (nodemap g) as [|x l IH]; [reflexivity|]. cbn [filter fst memb negb]. f_equal. exact IH. }
    repeat (split; [reflexivity|]). intros t x. cbn [memb]. lia.
  - unfold remove_nodes. cbn [fold_left bind]. destruct (dget (nodemap g) k) as [n|] eqn:E.
    + destruct (remove_node1_weak g k n HC E) as (g1 & nn & R1 & C1 & M1 & T1 & I1 & D1 & GI1 & A1).
      rewrite R1. cbn [bind]. destruct (IH g1 C1) as (g2 & S1 & C2 & M2 & T2 & I2 & D2 & GI2 & B1).
      exists g2. split; [exact S1|]. split; [exact C2|]. split; [rewrite M2, M1; apply outside_cons, HC|].
      repeat (split; [congruence|]). intros t x. rewrite B1, A1, M1. cbn [memb]. rewrite cnt_sel_ddel by apply HC.
      destruct (String.eqb_spec x k) as [->|Nx].
      * unfold cnt_sel. rewrite E. destruct (memb k r); lia.
      * destruct (memb x r); lia.
    + rewrite (remove_node1_absent g k E). cbn [bind]. destruct (IH g HC) as (g2 & S1 & C2 & M2 & T2 & I2 & D2 & GI2 & B1).
      exists g2. split; [exact S1|]. split; [exact C2|]. split.
      { rewrite M2. rewrite <- (ddel_absent _ (nodemap g) k E) at 1. apply outside_cons, HC. }
      repeat (split; [assumption|]). intros t x. rewrite B1. cbn [memb]. destruct (String.eqb_spec x k) as [->|Nx]; [|reflexivity].
      unfold cnt_sel. rewrite E. destruct (memb k r); lia.
Qed.

(** the interface computed on such a graph *)
Lemma in_inner_weak : forall g names t, weak g -> in_inner g names t = true <-> made_inside g names t.
Proof.
  intros g names t HC. unfold in_inner, made_inside. destruct (dget (producedby g) t) as [l|] eqn:E.
  - rewrite all_in_spec. split.
    + intros H. destruct l as [|p q]; [exfalso; exact (tb_ne _ _ _ _ _ (wk_prod g HC) t E)|].
      assert (Ip : In p (glist (producedby g) t)) by (unfold glist; rewrite E; left; reflexivity).
      destruct (tbl_of _ _ _ _ _ _ _ (wk_prod g HC) Ip) as (n & N1 & N2 & _).
      exists p, n. split; [apply H; left; reflexivity|]. split; [apply dget_In; exact N1|exact N2].
    + intros (k & n & K1 & K2 & K3) x Ix.
      assert (Ig : In x (glist (producedby g) t)) by (unfold glist; rewrite E; exact Ix).
      destruct (tbl_of _ _ _ _ _ _ _ (wk_prod g HC) Ig) as (xn & N1 & N2 & _).
      assert (x = k) by (eapply outs_unique_key; [apply (wk_uniq g HC)|apply dget_In; exact N1|exact K2|exact N2|exact K3]).
      subst. exact K1.
  - split; [discriminate|]. intros (k & n & K1 & K2 & K3). exfalso.
    assert (count k (glist (producedby g) t) = 0) as Z by (unfold glist; rewrite E; reflexivity).
    rewrite (tb_cnt _ _ _ _ _ (wk_prod g HC)) in Z. unfold cnt_sel in Z.
    rewrite (In_dget _ _ _ _ (wk_nd g HC) K2) in Z. apply count_pos in K3. cbn [count] in Z. destruct (String.eqb k ""); lia.
Qed.
Lemma io_go_weak : forall g names todo ins outs, weak g -> (forall k, In k todo -> In k (dkeys (nodemap g))) ->
  exists ins' outs', io_go g names false todo (ins, outs) = Ok (ins', outs') /\
   (forall t, In t ins' <-> In t ins \/ (t <> ""%string /\ in_inner g names t = false /\ exists k n, In k todo /\ In (k, n) (nodemap g) /\ In t (n_in n))) /\
   (forall t, In t outs' <-> In t outs \/ (out_inner g names t = false /\ exists k n, In k todo /\ In (k, n) (nodemap g) /\ In t (n_out n))) /\
   (NoDup ins -> NoDup ins') /\ (NoDup outs -> NoDup outs').
Proof.
  intros g names todo ins outs HC. revert ins outs.
  assert (S1 : forall acc t, io_in g names false acc t = if negb (String.eqb t "") && negb (in_inner g names t) then (if memb t acc then acc else acc ++ [t]) else acc).
  { intros acc t. unfold io_in. fold (in_inner g names t). cbn [andb]. destruct (String.eqb t ""), (in_inner g names t); reflexivity. }
  assert (S2 : forall acc t, io_out g names false acc t = if negb (out_inner g names t) then (if memb t acc then acc else acc ++ [t]) else acc).
  { intros acc t. unfold io_out. fold (out_inner g names t). cbn [andb]. destruct (out_inner g names t); reflexivity. }
  induction todo as [|k r IH]; intros ins outs HK; cbn [io_go].
  - exists ins, outs. split; [reflexivity|]. split; [intros t; split; [tauto|intros [A|(_ & _ & k & n & [] & _)]; exact A]|].
    split; [intros t; split; [tauto|intros [A|(_ & k & n & [] & _)]; exact A]|]. auto.
  - assert (Ik : In k (dkeys (nodemap g))) by (apply HK; left; reflexivity).
    destruct (dget (nodemap g) k) as [n|] eqn:E; [|apply dget_None in E; contradiction].
    cbn [fst snd].
    destruct (fold_acc _ _ S1 (n_in n) ins) as [A1 A2]. destruct (fold_acc _ _ S2 (n_out n) outs) as [B1 B2].
    destruct (IH (fold_left (io_in g names false) (n_in n) ins) (fold_left (io_out g names false) (n_out n) outs))
      as (ins' & outs' & R1 & R2 & R3 & R4 & R5); [intros x X; apply HK; right; exact X|].
    exists ins', outs'. split; [exact R1|]. split; [|split; [|split; auto]].
    + intros t. rewrite R2, A1, andb_true_iff, !negb_true_iff, String.eqb_neq. split.
      * intros [[A|[A [B C]]]|(A & B & k' & n' & C & D)]; [left; exact A| |].
        -- right. split; [exact B|]. split; [exact C|]. exists k, n. split; [left; reflexivity|]. split; [apply dget_In; exact E|exact A].
        -- right. split; [exact A|]. split; [exact B|]. exists k', n'. split; [right; exact C|exact D].
      * intros [A|(A & B & k' & n' & [<-|C] & D & F)]; [left; left; exact A| |].
        -- left. right. apply In_dget in D; [|apply HC]. rewrite E in D. injection D as <-. auto.
        -- right. split; [exact A|]. split; [exact B|]. exists k', n'. auto.
    + intros t. rewrite R3, B1, negb_true_iff. split.
      * intros [[A|[A B]]|(A & k' & n' & B & C)]; [left; exact A| |].
        -- right. split; [exact B|]. exists k, n. split; [left; reflexivity|]. split; [apply dget_In; exact E|exact A].
        -- right. split; [exact A|]. exists k', n'. split; [right; exact B|exact C].
      * intros [A|(A & k' & n' & [<-|B] & C & D)]; [left; left; exact A| |].
        -- left. right. apply In_dget in C; [|apply HC]. rewrite E in C. injection C as <-. auto.
        -- right. split; [exact A|]. exists k', n'. auto.
Qed.

Lemma push_known_filter : forall name ins d, fold_left (push_known name) ins d = fold_left (fun d t => dpush d t name) (filter (dhas d) ins) d.
Proof.
  intros name ins. induction ins as [|i r IH]; intros d; [reflexivity|]. cbn [fold_left filter]. unfold push_known at 2.
  destruct (dhas d i) eqn:H.
  - cbn [fold_left]. rewrite IH. f_equal. apply filter_ext. intros t. unfold dhas, dpush.
    destruct (dget d i) as [l|] eqn:E; [|unfold dhas in H; rewrite E in H; discriminate].
    rewrite dget_dset. destruct (String.eqb_spec t i) as [->|]; [rewrite E|]; reflexivity.
  - apply IH.
Qed.

(** adding one node to an otherwise exact graph *)
Lemma add_weak : forall g1 name op ins outs cns o, weak g1 -> ~ In name (dkeys (nodemap g1)) -> NoDup outs ->
  (forall t x xn, In t outs -> dget (nodemap g1) x = Some xn -> ~ In t (n_out xn)) -> NoDup (dkeys cns) -> noempty cns ->
  weak (with_rel g1 (nodemap g1 ++ [(name, mkNode name op ins outs)]) (fold_left (fun d o => dset d o [name]) outs (producedby g1)) cns o).
Proof.
  intros g1 name op ins outs cns o C1 NK NO PO CN CE.
  constructor; cbn [with_rel nodemap producedby consumedby]; auto.
  - unfold dkeys. rewrite map_app. apply NoDup_snoc; [apply C1|exact NK].
  - intros k n I. cbn [with_rel nodemap] in I. apply in_app_iff in I. destruct I as [I|[I|[]]]; [apply (wk_names g1 C1); exact I|injection I as <- <-; reflexivity].
  - split; [rewrite map_app; apply NoDup_snoc; [apply C1|exact NK]|].
    rewrite flat_map_app. cbn [flat_map snd n_out]. rewrite app_nil_r. apply NoDup_app_intro; [apply (wk_uniq g1 C1)|exact NO|].
    intros t I J. apply in_flat_map in I. destruct I as ([x xn] & X1 & X2). apply In_dget in X1; [|apply C1]. exact (PO t x xn J X1 X2).
  - destruct (wk_prod g1 C1) as [P1 P2 P3]. constructor; [apply fold_dset_NoDup; exact P1|apply fold_dset_noempty; exact P2|].
    intros t x. rewrite glist_fold_dset. unfold cnt_sel. rewrite dget_app_new by exact NK. cbn [count].
    specialize (P3 t x). cbn [count] in P3. unfold cnt_sel in P3.
    destruct (String.eqb_spec x name) as [->|Nx].
    + cbn [n_out]. rewrite (count_NoDup t outs NO). destruct (memb t outs); [cbn [count]; rewrite String.eqb_refl; destruct (String.eqb name ""); reflexivity|].
      rewrite P3. destruct (dget (nodemap g1) name) eqn:X; [apply dget_Some_keys in X; contradiction|]. destruct (String.eqb name ""); reflexivity.
    + destruct (memb t outs) eqn:M; [|exact P3]. apply memb_In in M. cbn [count].
      destruct (String.eqb_spec x name); [congruence|]. destruct (dget (nodemap g1) x) as [xn|] eqn:X; [|destruct (String.eqb x ""); reflexivity].
      pose proof (PO t x xn M X) as Z. apply count_zero in Z. rewrite Z. destruct (String.eqb x ""); reflexivity.
Qed.
