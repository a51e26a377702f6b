(** Fusing a list of pairwise disjoint matches one after the other. *)
From Verif Require Import PyBase PyBaseFacts GraphModel CompressSpec RelSpec RelProofs ExecModel ExecProofs CompressProofs CompressTop TopSortSpec TopSortProofs
  OrderSpec OrderProofs EditModel EditSpec RemoveProofs DanglingProofs IoProofs FuseProofs PostOpModel PostOpProofs.
Local Open Scope list_scope.

(** [f] replaces the group [grp] of graph [g]: named and typed like its first node, reading what the
    group reads from outside and producing what is used outside (or nowhere). *)
Definition replaces (g : graph) (grp : list string) (f : node) : Prop :=
  exists k r m, grp = k :: r /\ In (k, m) (nodemap g) /\ n_name f = k /\ n_op f = n_op m /\ NoDup (n_in f) /\ NoDup (n_out f) /\
    (forall t, In t (n_in f) <-> t <> ""%string /\ reads_outside g grp t) /\ (forall t, In t (n_out f) <-> produces_outside g grp t).

Section LOOP.
Context (g : graph) (HC : consistent g) (HE : forall k n, In (k, n) (nodemap g) -> ~ In ""%string (n_out n)).

Record inv (D : list (list string)) (h : graph) : Prop := {
  iv_weak : weak h;
  iv_keep : forall k n, ~ In k (concat D) -> (In (k, n) (nodemap h) <-> In (k, n) (nodemap g));
  iv_new : forall k f, In k (concat D) -> In (k, f) (nodemap h) -> exists grp, In grp D /\ replaces g grp f;
  iv_has : forall grp, In grp D -> exists f, replaces g grp f /\ In (n_name f, f) (nodemap h);
  iv_sound : forall t, (forall x, count x (glist (consumedby h) t) = cnt_sel (nodemap h) n_in x t) \/ glist (consumedby h) t = [];
  iv_same : forall t, (forall k n, In k (concat D) -> In (k, n) (nodemap g) -> ~ In t (n_in n)) ->
              forall x, count x (glist (consumedby h) t) = cnt_sel (nodemap g) n_in x t;
  iv_tm : tensormap h = tensormap g; iv_in : initials h = initials g; iv_dy : dynamics h = dynamics g; iv_gi : g_input h = g_input g }.

Lemma inv0 : inv [] g.
Proof.
  constructor; auto; cbn [concat]; try tauto.
  - apply consistent_weak, HC.
  - intros k n []. 
  - intros grp [].
  - intros t. left. intros x. rewrite (tb_cnt _ _ _ _ _ (co_cons g HC)). cbn [count]. destruct (String.eqb x ""); lia.
  - intros t _ x. rewrite (tb_cnt _ _ _ _ _ (co_cons g HC)). cbn [count]. destruct (String.eqb x ""); lia.
Qed.
Lemma dget_iff : forall (a b : dict node) k, NoDup (dkeys a) -> NoDup (dkeys b) -> (forall n, In (k, n) a <-> In (k, n) b) -> dget a k = dget b k.
Proof.
  intros a b k NA NB H. destruct (dget a k) as [n|] eqn:E.
  - apply dget_In in E. apply H in E. symmetry. apply In_dget; assumption.
  - destruct (dget b k) as [n|] eqn:F; [|reflexivity]. apply dget_In in F. apply H in F. apply In_dget in F; [|exact NA]. congruence.
Qed.
Lemma reads_cases : forall t, In t (reads_of (nodes_of g)) <-> exists k n, In (k, n) (nodemap g) /\ In t (n_in n).
Proof.
  intros t. unfold reads_of, nodes_of. rewrite in_flat_map. split.
  - intros (n & I & J). apply in_map_iff in I. destruct I as ([k m] & X & I). cbn in X. subst. eauto.
  - intros (k & n & I & J). exists n. split; [apply in_map_iff; exists (k, n); auto|exact J].
Qed.

Lemma step_ok : forall D h k0 r0, inv D h -> let grp := k0 :: r0 in
  (forall k, In k grp -> In k (dkeys (nodemap g))) -> (forall k, In k grp -> ~ In k (concat D)) ->
  exists h', fuse_postop h grp = Ok h' /\ inv (D ++ [grp]) h'.
Proof.
  intros D h k0 r0 I grp HK HD. destruct I as [W KE NW HA SO SA TM II DY GI].
  assert (KD : forall k, In k grp -> dget (nodemap h) k = dget (nodemap g) k).
  { intros k Ik. apply dget_iff; [apply W|apply HC|]. intros n. apply KE, HD, Ik. }
  assert (MEM : forall k n, In k grp -> (In (k, n) (nodemap h) <-> In (k, n) (nodemap g))) by (intros; apply KE, HD; assumption).
  assert (HKh : forall k, In k grp -> In k (dkeys (nodemap h))).
  { intros k Ik. specialize (HK k Ik). unfold dkeys in HK. apply in_map_iff in HK as ([k' n] & E & Hn). cbn in E. subst k'.
    apply (MEM k n Ik) in Hn. unfold dkeys. apply in_map_iff. exists (k, n). auto. }
  destruct (io_go_weak h grp grp [] [] W HKh) as (ins & outs & E & SI & SO' & NI & NO). specialize (NI (NoDup_nil _)). specialize (NO (NoDup_nil _)).
  assert (MI : forall t, made_inside h grp t <-> made_inside g grp t).
  { intros t. split; intros (k & n & A & B & C); exists k, n; split; auto; split; auto; apply (MEM k n A); exact B. }
  assert (INS : forall t, In t ins <-> t <> ""%string /\ reads_outside g grp t).
  { intros t. rewrite SI. cbn [In]. split.
    - intros [[]|(A & B & k & n & K1 & K2 & K3)]. split; [exact A|]. exists k, n. split; [exact K1|]. split; [apply (MEM k n K1); exact K2|]. split; [exact K3|].
      intros k' n' K1' K2' K3'. assert (Q : in_inner h grp t = true); [|congruence]. apply (in_inner_weak h grp t W). apply MI. exists k', n'. auto.
    - intros [A (k & n & K1 & K2 & K3 & K4)]. right. split; [exact A|]. split.
      + destruct (in_inner h grp t) eqn:Q; [|reflexivity]. exfalso. apply (in_inner_weak h grp t W), MI in Q. destruct Q as (k' & n' & Q1 & Q2 & Q3). exact (K4 k' n' Q1 Q2 Q3).
      + exists k, n. split; [exact K1|]. split; [apply (MEM k n K1); exact K2|exact K3]. }
  assert (OI : forall t, made_inside g grp t -> out_inner h grp t = false <->
     ((exists k n, ~ In k grp /\ In (k, n) (nodemap g) /\ In t (n_in n)) \/ ~ In t (reads_of (nodes_of g)))).
  { intros t MT. assert (TN : t <> ""%string) by (intros ->; destruct MT as (k & n & _ & A & B); exact (HE k n A B)).
    split.
    - intros OF. apply (out_inner_spec g HC grp). destruct (out_inner g grp t) eqn:OG; [|reflexivity]. exfalso.
      assert (NR : forall k n, In (k, n) (nodemap g) -> In t (n_in n) -> In k grp).
      { intros k n A B. destruct (in_dec string_dec k grp) as [X|X]; [exact X|]. exfalso.
        assert (Q : out_inner g grp t = false) by (apply (out_inner_spec g HC grp); left; exists k, n; auto). congruence. }
      assert (RD : In t (reads_of (nodes_of g))).
      { destruct (in_dec string_dec t (reads_of (nodes_of g))) as [X|X]; [exact X|]. exfalso.
        assert (Q : out_inner g grp t = false) by (apply (out_inner_spec g HC grp); right; exact X). congruence. }
      assert (EX := SA t). assert (C0 : forall k n, In k (concat D) -> In (k, n) (nodemap g) -> ~ In t (n_in n)).
      { intros k n A B C. exact (HD k (NR k n B C) A). }
      specialize (EX C0). unfold out_inner in OF. destruct (dget (consumedby h) t) as [l|] eqn:El.
      + assert (AL : all_in l grp = true); [|congruence]. apply all_in_spec. intros x Ix.
        assert (EG : glist (consumedby h) t = l) by (unfold glist; rewrite El; reflexivity). specialize (EX x). rewrite EG in EX. apply count_pos in Ix.
        unfold cnt_sel in EX. destruct (dget (nodemap g) x) as [xn|] eqn:Ex; [|lia]. apply (NR x xn); [apply dget_In; exact Ex|]. apply count_pos. lia.
      + apply reads_cases in RD as (k & n & A & B). specialize (EX k). unfold glist in EX. rewrite El in EX. cbn [count] in EX. unfold cnt_sel in EX.
        rewrite (In_dget _ _ _ _ (co_nd g HC) A) in EX. apply count_pos in B. lia.
    - intros H. destruct (out_inner h grp t) eqn:OF; [|reflexivity]. exfalso. unfold out_inner in OF.
      destruct (dget (consumedby h) t) as [l|] eqn:El; [|discriminate].
      assert (EG : glist (consumedby h) t = l) by (unfold glist; rewrite El; reflexivity).
      assert (LN : l <> []) by (intros ->; exact (wk_ne h W t El)).
      destruct H as [(k & n & A & B & C)|H].
      + destruct (SO t) as [EX|EX]; [|congruence].
        assert (RH : exists x xn, ~ In x grp /\ In (x, xn) (nodemap h) /\ In t (n_in xn)).
        { destruct (in_dec string_dec k (concat D)) as [X|X].
          - apply in_concat in X as (g2 & X1 & X2). destruct (HA g2 X1) as (f & R & Hf). exists (n_name f), f.
            assert (R' := R). destruct R' as (k2 & r2 & m2 & -> & M2 & NM & _ & _ & _ & RI & _).
            split; [|split; [exact Hf|]].
            + rewrite NM. intros Z. apply (HD k2 Z). apply in_concat. exists (k2 :: r2). split; [exact X1|left; reflexivity].
            + apply RI. split; [exact TN|]. exists k, n. split; [exact X2|]. split; [exact B|]. split; [exact C|].
              intros k' n' A' B' C'. destruct MT as (k3 & n3 & M1 & M2' & M3).
              assert (k' = k3) by (eapply outs_unique_key; [apply (co_uniq g HC)|exact B'|exact M2'|exact C'|exact M3]). subst k3.
              apply (HD k' M1). apply in_concat. exists (k2 :: r2). auto.
          - exists k, n. split; [exact A|]. split; [apply (KE k n X); exact B|exact C]. }
        destruct RH as (x & xn & X1 & X2 & X3). apply X1. apply (proj1 (all_in_spec grp l) OF). rewrite <- EG. apply count_pos. rewrite EX.
        unfold cnt_sel. rewrite (In_dget _ _ _ _ (wk_nd h W) X2). apply count_pos in X3. lia.
      + destruct l as [|x l]; [congruence|]. assert (EX := SA t).
        assert (C0 : forall k n, In k (concat D) -> In (k, n) (nodemap g) -> ~ In t (n_in n)).
        { intros k n A B C. apply H. apply reads_cases. eauto. }
        specialize (EX C0 x). rewrite EG in EX. cbn [count] in EX. rewrite String.eqb_refl in EX. unfold cnt_sel in EX.
        destruct (dget (nodemap g) x) as [xn|] eqn:Ex; [|lia]. apply H, reads_cases. exists x, xn. split; [apply dget_In; exact Ex|]. apply count_pos. lia. }
  assert (OUTS : forall t, In t outs <-> produces_outside g grp t).
  { intros t. rewrite SO'. cbn [In]. split.
    - intros [[]|(A & k & n & K1 & K2 & K3)]. assert (MT : made_inside g grp t) by (exists k, n; split; [exact K1|split; [apply (MEM k n K1); exact K2|exact K3]]).
      apply (OI t MT) in A. exists k, n. split; [exact K1|]. split; [apply (MEM k n K1); exact K2|]. split; [exact K3|exact A].
    - intros (k & n & K1 & K2 & K3 & K4). right. split.
      + apply OI; [exists k, n; auto|exact K4].
      + exists k, n. split; [exact K1|]. split; [apply (MEM k n K1); exact K2|exact K3]. }
  destruct (remove_nodes_weak grp h W) as (g1 & R & W1 & M1 & T1 & I1 & D1 & GI1 & CN1).
  unfold fuse_postop, get_iotensors. rewrite E. cbn [bind]. unfold grp at 1. cbv iota.
  assert (Ik0 : In k0 (dkeys (nodemap h))) by (apply HKh; left; reflexivity).
  destruct (dget (nodemap h) k0) as [main|] eqn:Em; [|apply dget_None in Em; contradiction].
  assert (Nm : n_name main = k0) by (apply (wk_names h W); apply dget_In; exact Em). rewrite Nm.
  fold grp. rewrite R. cbn [bind].
  assert (NK : ~ In k0 (dkeys (nodemap g1))).
  { rewrite M1. intro K. unfold dkeys in K. apply in_map_iff in K. destruct K as ([x xn] & X & K). cbn in X. subst x.
    apply In_outside in K. destruct K as [_ K2]. apply K2. left; reflexivity. }
  rewrite dset_new by exact NK. rewrite push_known_filter.
  set (cns := fold_left (fun d t => dpush d t k0) (filter (dhas (consumedby g1)) ins) (consumedby g1)).
  eexists. split; [reflexivity|].
  assert (PO : forall t x xn, In t outs -> dget (nodemap g1) x = Some xn -> ~ In t (n_out xn)).
  { intros t x xn It Ex Io. apply OUTS in It. apply produces_made, MI in It.
    destruct It as (k & n & K1 & K2 & K3). apply dget_In in Ex. rewrite M1 in Ex. apply In_outside in Ex. destruct Ex as [X1 X2].
    assert (x = k) by (eapply outs_unique_key; [apply (wk_uniq h W)|exact X1|exact K2|exact Io|exact K3]). subst. contradiction. }
  assert (CC : concat (D ++ [grp]) = concat D ++ grp) by (rewrite concat_app; cbn [concat]; rewrite app_nil_r; reflexivity).
  assert (FR : replaces g grp (mkNode k0 (n_op main) ins outs)).
  { exists k0, r0, main. split; [reflexivity|]. split; [apply (MEM k0 main); [left; reflexivity|apply dget_In; exact Em]|].
    cbn [n_name n_op n_in n_out]. auto 10. }
  assert (CNT : forall t x, count x (glist cns t) = count x (glist (consumedby g1) t) +
     (if String.eqb x k0 then (if memb t ins && dhas (consumedby g1) t then 1 else 0) else 0)).
  { intros t x. unfold cns. rewrite fold_dpush, count_app, count_map_const, length_filter_eqb. f_equal.
    destruct (String.eqb x k0); [|reflexivity]. rewrite count_NoDup by (apply NoDup_filter; exact NI).
    destruct (memb t (filter (dhas (consumedby g1)) ins)) eqn:Q.
    - apply memb_In, filter_In in Q as [Q1 Q2]. apply memb_In in Q1. rewrite Q1, Q2. reflexivity.
    - destruct (memb t ins) eqn:Q1; [|reflexivity]. destruct (dhas (consumedby g1) t) eqn:Q2; [|reflexivity]. exfalso.
      apply memb_nIn in Q. apply Q, filter_In. split; [apply memb_In; exact Q1|exact Q2]. }
  constructor; cbn [with_rel nodemap consumedby tensormap initials dynamics g_input]; try congruence.
  - apply add_weak; auto; [apply fold_dpush_NoDup, W1|apply fold_dpush_noempty, W1].
  - intros k n N. rewrite CC, in_app_iff in N. rewrite in_app_iff, M1, In_outside. cbn [In].
    assert (N1 : ~ In k (concat D)) by tauto. assert (N2 : ~ In k grp) by tauto. rewrite (KE k n N1). split.
    + intros [[A _]|[A|[]]]; [exact A|]. injection A as <- _. exfalso. apply N2. left; reflexivity.
    + intros A. left. auto.
  - intros k f Ik If. rewrite in_app_iff, M1, In_outside in If. cbn [In] in If. destruct If as [[If1 If2]|[If|[]]].
    + rewrite CC, in_app_iff in Ik. destruct Ik as [Ik|Ik]; [|contradiction]. destruct (NW k f Ik If1) as (g2 & G1 & G2). exists g2. rewrite in_app_iff. auto.
    + injection If as <- <-. exists grp. split; [rewrite in_app_iff; right; left; reflexivity|exact FR].
  - intros g2 Ig. rewrite in_app_iff in Ig. cbn [In] in Ig. destruct Ig as [Ig|[<-|[]]].
    + destruct (HA g2 Ig) as (f & F1 & F2). exists f. split; [exact F1|]. rewrite in_app_iff, M1, In_outside. left. split; [exact F2|].
      destruct F1 as (k2 & r2 & m2 & -> & _ & NM & _). rewrite NM. intros Z. apply (HD k2 Z). apply in_concat. exists (k2 :: r2). split; [exact Ig|left; reflexivity].
    + eexists. split; [exact FR|]. cbn [n_name]. rewrite in_app_iff. right. left. reflexivity.
  - intros t. assert (C1 := CN1 t). destruct (SO t) as [EX|EX].
    + assert (EX1 : forall x, count x (glist (consumedby g1) t) = cnt_sel (nodemap g1) n_in x t).
      { intros x. rewrite C1, EX, M1. unfold cnt_sel. destruct (memb x grp) eqn:Mx.
        - apply memb_In in Mx. destruct (dget (outside grp (nodemap h)) x) as [xn|] eqn:Ex; [|lia]. apply dget_In, In_outside in Ex. tauto.
        - apply memb_nIn in Mx. assert (Q : dget (outside grp (nodemap h)) x = dget (nodemap h) x); [|rewrite Q; lia].
          apply dget_iff; [rewrite <- M1; apply W1|apply W|]. intros n. rewrite In_outside. tauto. }
      destruct (dhas (consumedby g1) t) eqn:DH.
      * left. intros x. rewrite CNT, EX1, DH, andb_true_r. unfold cnt_sel. rewrite dget_app_new by exact NK.
        destruct (String.eqb_spec x k0) as [->|Nx]; [|lia]. cbn [n_in]. rewrite (count_NoDup t ins NI).
        destruct (dget (nodemap g1) k0) eqn:X; [apply dget_Some_keys in X; contradiction|]. lia.
      * right. assert (G0 : glist (consumedby g1) t = []) by (unfold dhas in DH; unfold glist; destruct (dget (consumedby g1) t); [discriminate|reflexivity]).
        unfold cns. rewrite fold_dpush, G0. cbn [app].
        assert (F0 : filter (String.eqb t) (filter (dhas (consumedby g1)) ins) = []); [|rewrite F0; reflexivity].
        apply filter_none. intros x X. apply filter_In in X as [_ X]. apply String.eqb_neq. intros ->. congruence.
    + right. assert (G0 : glist (consumedby g1) t = []).
      { destruct (glist (consumedby g1) t) as [|x l] eqn:Q; [reflexivity|]. specialize (C1 x). rewrite EX in C1. cbn [count] in C1. rewrite String.eqb_refl in C1. lia. }
      assert (DH : dhas (consumedby g1) t = false).
      { unfold dhas. destruct (dget (consumedby g1) t) as [l|] eqn:Q; [|reflexivity]. unfold glist in G0. rewrite Q in G0. subst l. exfalso. exact (wk_ne g1 W1 t Q). }
      unfold cns. rewrite fold_dpush, G0. cbn [app].
      assert (F0 : filter (String.eqb t) (filter (dhas (consumedby g1)) ins) = []); [|rewrite F0; reflexivity].
      apply filter_none. intros x X. apply filter_In in X as [_ X]. apply String.eqb_neq. intros ->. congruence.
  - intros t NR x. rewrite CNT, CN1.
    assert (NR1 : forall k n, In k (concat D) -> In (k, n) (nodemap g) -> ~ In t (n_in n)) by (intros k n A B; apply (NR k n); [rewrite CC, in_app_iff; auto|exact B]).
    assert (NR2 : forall k n, In k grp -> In (k, n) (nodemap g) -> ~ In t (n_in n)) by (intros k n A B; apply (NR k n); [rewrite CC, in_app_iff; auto|exact B]).
    rewrite (SA t NR1 x).
    assert (Z0 : (if memb x grp then cnt_sel (nodemap h) n_in x t else 0) = 0).
    { destruct (memb x grp) eqn:Mx; [|reflexivity]. apply memb_In in Mx. unfold cnt_sel. rewrite (KD x Mx).
      destruct (dget (nodemap g) x) as [xn|] eqn:Ex; [|reflexivity]. apply count_zero. apply (NR2 x xn Mx). apply dget_In. exact Ex. }
    rewrite Z0. assert (Mt : memb t ins = false).
    { apply memb_nIn. intros It. apply INS in It as [_ (k & n & K1 & K2 & K3 & _)]. exact (NR2 k n K1 K2 K3). }
    rewrite Mt. cbn [andb]. destruct (String.eqb x k0); lia.
Qed.

Theorem loop_ok : forall groups D h, inv D h -> (forall grp, In grp groups -> grp <> []) ->
  (forall grp k, In grp groups -> In k grp -> In k (dkeys (nodemap g))) ->
  (forall grp k, In grp groups -> In k grp -> ~ In k (concat D)) ->
  (forall a b c x y k, groups = a ++ x :: b ++ y :: c -> In k x -> ~ In k y) ->
  exists h', fuse_all h groups = Ok h' /\ inv (D ++ groups) h'.
Proof.
  induction groups as [|grp r IH]; intros D h I NEc HK HD DJ.
  - exists h. rewrite app_nil_r. auto.
  - cbn [fuse_all]. destruct grp as [|k0 r0]; [exfalso; exact (NEc [] (or_introl eq_refl) eq_refl)|].
    destruct (step_ok D h k0 r0 I) as (h1 & F & I1).
    + intros k Ik. exact (HK _ k (or_introl eq_refl) Ik).
    + intros k Ik. exact (HD _ k (or_introl eq_refl) Ik).
    + rewrite F. cbn [bind]. destruct (IH (D ++ [k0 :: r0]) h1 I1) as (h' & F' & I').
      * intros x X. apply NEc. right; exact X.
      * intros x k X. apply HK. right; exact X.
      * intros x k X Ik. rewrite concat_app. cbn [concat]. rewrite app_nil_r, in_app_iff. intros [Q|Q]; [exact (HD x k (or_intror X) Ik Q)|].
        apply in_split in X as (b & c & ->). exact (DJ [] b c _ x k eq_refl Q Ik).
      * intros a b c x y k E. apply (DJ ((k0 :: r0) :: a) b c x y k). rewrite E. reflexivity.
      * exists h'. split; [exact F'|]. rewrite <- app_assoc in I'. exact I'.
Qed.
End LOOP.
