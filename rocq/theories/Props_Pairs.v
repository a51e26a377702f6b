(** C70: two-node patterns (the shipped Fused_Element and the activation patterns of the benchmarks). *)
From Verif Require Import PyBase PyBaseFacts GraphModel ShapeModel RelSpec RelProofs FusionModel FusionSpec FusionProofs FusionTop FusionMeets FusionPair Props_Fusion.
From Coq Require Import Lia.
Open Scope string_scope. Open Scope Z_scope.

(** no node writes its own first operand *)
Definition no_self_feed (g : graph) : Prop := forall n t ro ri, In n (nodes_of g) -> n_out n = t :: ro -> n_in n = t :: ri -> False.
(** the first output [t] of [a] is the first operand of [b] *)
Definition passes (a b : node) (t : string) : Prop := exists ro ri, n_out a = t :: ro /\ n_in b = t :: ri.
(** [t] is read exactly once in the graph, by [b] *)
Definition sole_reader (g : graph) (b : node) (t : string) : Prop :=
  count t (n_in b) = 1%nat /\ forall m, In m (nodes_of g) -> In t (n_in m) -> m = b.

Lemma occ_cons sel m ns t : occurrences sel (m :: ns) t = (map (fun _ => n_name m) (filter (String.eqb t) (sel m)) ++ occurrences sel ns t)%list.
Proof. reflexivity. Qed.
Lemma len_filter t l : length (filter (String.eqb t) l) = count t l.
Proof. induction l as [|x l IH]; [reflexivity|]. cbn [filter count]. destruct (String.eqb t x); cbn [length]; rewrite IH; reflexivity. Qed.
Lemma count_pos t l : In t l -> (1 <= count t l)%nat.
Proof. induction l as [|x l IH]; [intros []|]. cbn [count]. destruct (String.eqb_spec t x); [lia|]. intros [->|H]; [congruence|]. auto. Qed.
Lemma occ_len_ge sel t b : forall ns, In b ns -> (count t (sel b) <= length (occurrences sel ns t))%nat.
Proof.
  induction ns as [|m ns IH]; [intros []|]. rewrite occ_cons, app_length, map_length, len_filter. intros [->|H]; [lia|]. specialize (IH H). lia.
Qed.
Lemma occ_two sel t a b : forall ns, NoDup (map n_name ns) -> In a ns -> In b ns -> a <> b -> (count t (sel a) + count t (sel b) <= length (occurrences sel ns t))%nat.
Proof.
  induction ns as [|m ns IH]; intros ND; [intros []|]. rewrite occ_cons, app_length, map_length, len_filter. cbn [map] in ND. inversion ND; subst.
  intros [->|Ha] [->|Hb] NE; [congruence| | |].
  - assert (Q := occ_len_ge sel t b ns Hb). lia.
  - assert (Q := occ_len_ge sel t a ns Ha). lia.
  - specialize (IH H2 Ha Hb NE). lia.
Qed.
Lemma occ_le sel t b : forall ns, NoDup (map n_name ns) -> (forall m, In m ns -> In t (sel m) -> m = b) -> (length (occurrences sel ns t) <= count t (sel b))%nat.
Proof.
  induction ns as [|m ns IH]; intros ND H; [cbn; lia|]. cbn [map] in ND. inversion ND as [|? ? N1 N2]; subst.
  rewrite occ_cons, app_length, map_length, len_filter.
  destruct (in_dec string_dec t (sel m)) as [I|I].
  - assert (m = b) by (apply H; [left; reflexivity|exact I]). subst m.
    assert (Z0 : occurrences sel ns t = []).
    { apply occurrences_nil. rewrite in_flat_map. intros (x & X1 & X2). assert (x = b) by (apply H; [right; exact X1|exact X2]). subst x. apply N1, in_map, X1. }
    rewrite Z0. cbn [length]. lia.
  - assert (Q := proj2 (count_zero _ _) I). rewrite Q. cbn [Nat.add]. apply IH; [exact N2|]. intros x X. apply H. right; exact X.
Qed.

Section C70.
Context (G : fgraph) (na nb : string) (oa ob : opcond) (HN : na <> nb) (HX : exact (fg G)) (HL : no_self_feed (fg G)).
Local Notation g := (fg G).
Local Notation A := (fun n => op_ok oa (n_op n)).
Local Notation B := (fun n => op_ok ob (n_op n)).

Lemma pairs_run inpl : search_pattern G (mk_pattern (pair_desc na oa [] nb ob []) inpl) = SOk (flat_map (pair_match G inpl A B) (nodes_of g)).
Proof. apply (search_pair G na nb oa ob [] [] inpl HN HX A B); [reflexivity|reflexivity|exact HL]. Qed.
Lemma node_of_key n : In n (nodes_of g) -> dget (nodemap g) (n_name n) = Some n.
Proof. intros H. exact (In_dget _ _ _ _ (ex_nodup _ HX) (nodes_In G HX _ H)). Qed.
Lemma names_nodup : NoDup (map n_name (nodes_of g)).
Proof.
  assert (E : map n_name (nodes_of g) = dkeys (nodemap g)); [|rewrite E; apply (ex_nodup _ HX)].
  unfold nodes_of, dkeys. rewrite map_map. apply map_ext_in. intros [k n] H. exact (ex_names _ HX _ _ H).
Qed.
Lemma takes_spec t k : takes G B t k = true <-> exists b ri, In b (nodes_of g) /\ n_name b = k /\ op_meets ob (n_op b) /\ n_in b = t :: ri.
Proof.
  unfold takes. destruct (dget (nodemap g) k) as [b|] eqn:E.
  - rewrite andb_true_iff, op_ok_meets. apply dget_In in E. assert (Eb := ex_names _ HX _ _ E).
    assert (Ib : In b (nodes_of g)) by (unfold nodes_of; apply in_map_iff; exists (k, b); auto).
    split.
    + intros [O I]. destruct (n_in b) as [|i ri] eqn:Ei; [discriminate|]. apply String.eqb_eq in I. subst i. exists b, ri. auto.
    + intros (b' & ri & I' & N' & O' & E'). assert (b' = b).
      { assert (Q := node_of_key b' I'). rewrite N' in Q. apply (In_dget _ _ _ _ (ex_nodup _ HX)) in E. congruence. }
      subst b'. split; [exact O'|]. rewrite E'. apply String.eqb_refl.
  - split; [discriminate|]. intros (b & ri & I' & N' & _). assert (Q := node_of_key b I'). rewrite N' in Q. congruence.
Qed.
Lemma sole_len b t : In b (nodes_of g) -> In t (n_in b) -> (length (occurrences n_in (nodes_of g) t) <= 1)%nat <-> sole_reader g b t.
Proof.
  intros Hb Ht. split.
  - intros L. split.
    + assert (Q := occ_len_ge n_in t b _ Hb). assert (R := count_pos _ _ Ht). lia.
    + intros m Hm Im. destruct (string_dec (n_name m) (n_name b)) as [E|NE].
      * assert (Q := node_of_key m Hm). assert (R := node_of_key b Hb). rewrite E in Q. congruence.
      * assert (Q := occ_two n_in t m b _ names_nodup Hm Hb (fun e => NE (f_equal n_name e))).
        assert (R := count_pos _ _ Ht). assert (R' := count_pos _ _ Im). lia.
  - intros [C U]. assert (Q := occ_le n_in t b _ names_nodup U). lia.
Qed.
Lemma match_in inpl a ns : In a (nodes_of g) -> In ns (pair_match G inpl A B a) ->
  exists b t, In b (nodes_of g) /\ op_meets oa (n_op a) /\ op_meets ob (n_op b) /\ passes a b t /\
    (inpl = true -> sole_reader g b t) /\ ns = [n_name a; n_name b].
Proof.
  intros Ha. unfold pair_match. destruct (op_ok oa (n_op a)) eqn:OA; [|intros []]. apply op_ok_meets in OA.
  destruct (n_out a) as [|t ro] eqn:Eo; [intros []|]. cbv zeta. destruct (inpl && _) eqn:TM; [intros []|].
  destruct (find _ _) as [k|] eqn:Fi; [|intros []]. intros [<-|[]]. apply find_some in Fi as [Fi1 Fi2].
  apply takes_spec in Fi2 as (b & ri & Ib & <- & OB & Ei). exists b, t. split; [exact Ib|]. split; [exact OA|]. split; [exact OB|]. split; [exists ro, ri; auto|].
  split; [|reflexivity]. intros ->. apply sole_len; [exact Ib|rewrite Ei; left; reflexivity|]. cbn [andb] in TM. apply Nat.ltb_ge in TM. exact TM.
Qed.
Lemma match_head inpl a ns : In ns (pair_match G inpl A B a) -> exists k, ns = [n_name a; k].
Proof.
  unfold pair_match. destruct (op_ok oa (n_op a)); [|intros []]. destruct (n_out a) as [|t ro]; [intros []|]. cbv zeta.
  destruct (inpl && _); [intros []|]. destruct (find _ _) as [k|]; [|intros []]. intros [<-|[]]. eauto.
Qed.
Lemma match_le1 inpl a : (length (pair_match G inpl A B a) <= 1)%nat.
Proof.
  unfold pair_match. destruct (op_ok oa (n_op a)); [|cbn; lia]. destruct (n_out a); [cbn; lia|]. cbv zeta.
  destruct (inpl && _); [cbn; lia|]. destruct (find _ _); cbn; lia.
Qed.
Lemma heads_nodup inpl : forall l, NoDup (map n_name l) -> NoDup (map (hd "") (flat_map (pair_match G inpl A B) l)).
Proof.
  induction l as [|a l IH]; intros ND; [constructor|]. cbn [map] in ND. inversion ND as [|? ? N1 N2]; subst. cbn [flat_map]. rewrite map_app.
  assert (R : forall x, In x (map (hd "") (flat_map (pair_match G inpl A B) l)) -> In x (map n_name l)).
  { intros x X. apply in_map_iff in X as (ns & <- & X). apply in_flat_map in X as (c & C1 & C2). apply match_head in C2 as [k ->]. cbn. apply in_map, C1. }
  assert (L := match_le1 inpl a). assert (HD := match_head inpl a).
  destruct (pair_match G inpl A B a) as [|ns [|? ?]]; [exact (IH N2)| |cbn in L; lia].
  cbn [map List.app]. constructor; [|exact (IH N2)]. destruct (HD ns (or_introl eq_refl)) as [k ->]. cbn [hd]. intros X. apply N1, R, X.
Qed.
Lemma NoDup_of_map {X Y} (f : X -> Y) l : NoDup (map f l) -> NoDup l.
Proof. induction l as [|x l IH]; intros H; [constructor|]. cbn [map] in H. inversion H; subst. constructor; [|auto]. intros I. apply H2, in_map, I. Qed.
End C70.

(** In-place search for "an operator [oa] whose first output is the first operand of an operator [ob]":
    on every graph it returns exactly the pairs whose intermediate tensor has no other reader, each once. *)
Theorem C70_inplace_pairs : forall G na oa nb ob, na <> nb -> exact (fg G) -> no_self_feed (fg G) ->
  exists ls, search_pattern G (mk_pattern (pair_desc na oa [] nb ob []) true) = SOk ls /\ NoDup ls /\
  forall ns, In ns ls <-> exists a b t, In a (nodes_of (fg G)) /\ In b (nodes_of (fg G)) /\
    op_meets oa (n_op a) /\ op_meets ob (n_op b) /\ passes a b t /\ sole_reader (fg G) b t /\ ns = [n_name a; n_name b].
Proof.
  intros G na oa nb ob HN HX HL. eexists. split; [exact (pairs_run G na nb oa ob HN HX HL true)|]. split.
  - apply (NoDup_of_map (hd "")), heads_nodup, names_nodup; assumption.
  - intros ns. rewrite in_flat_map. split.
    + intros (a & Ha & Hn). destruct (match_in G oa ob HX true a ns Ha Hn) as (b & t & Q1 & Q2 & Q3 & Q4 & Q5 & Q6). exists a, b, t. auto 10.
    + intros (a & b & t & Ha & Hb & OA & OB & (ro & ri & Eo & Ei) & SR & ->). exists a. split; [exact Ha|].
      assert (It : In t (n_in b)) by (rewrite Ei; left; reflexivity).
      assert (L := proj2 (sole_len G HX b t Hb It) SR).
      unfold pair_match. rewrite (proj2 (op_ok_meets _ _) OA), Eo. cbv zeta.
      destruct (Nat.ltb_spec 1 (length (occurrences n_in (nodes_of (fg G)) t))); [lia|]. cbn [andb].
      destruct (find _ _) as [k|] eqn:Fi.
      * left. apply find_some in Fi as [_ F2]. apply (takes_spec G ob HX) in F2 as (b' & ri' & I' & <- & _ & E').
        destruct SR as [_ U]. rewrite (U b' I'); [reflexivity|]. rewrite E'. left; reflexivity.
      * exfalso. assert (Q := find_none _ _ Fi (n_name b)). cbv beta in Q.
        assert (I2 : In (n_name b) (occurrences n_in (nodes_of (fg G)) t)) by (apply In_occurrences; exists b; auto).
        specialize (Q I2). assert (T : takes G (fun n => op_ok ob (n_op n)) t (n_name b) = true) by (apply (takes_spec G ob HX); exists b, ri; auto). congruence.
Qed.
Print Assumptions C70_inplace_pairs.

(** Without the in-place option: every returned pair is a genuine one, and every operator with a
    matching reader is the head of exactly one pair. *)
Theorem C70_plain_pairs : forall G na oa nb ob, na <> nb -> exact (fg G) -> no_self_feed (fg G) ->
  exists ls, search_pattern G (mk_pattern (pair_desc na oa [] nb ob []) false) = SOk ls /\ NoDup (map (hd "") ls) /\
  (forall ns, In ns ls -> exists a b t, In a (nodes_of (fg G)) /\ In b (nodes_of (fg G)) /\
     op_meets oa (n_op a) /\ op_meets ob (n_op b) /\ passes a b t /\ ns = [n_name a; n_name b]) /\
  (forall a b t, In a (nodes_of (fg G)) -> In b (nodes_of (fg G)) -> op_meets oa (n_op a) -> op_meets ob (n_op b) -> passes a b t ->
     In (n_name a) (map (hd "") ls)).
Proof.
  intros G na oa nb ob HN HX HL. eexists. split; [exact (pairs_run G na nb oa ob HN HX HL false)|]. split; [apply heads_nodup, names_nodup; assumption|]. split.
  - intros ns. rewrite in_flat_map. intros (a & Ha & Hn). destruct (match_in G oa ob HX false a ns Ha Hn) as (b & t & Q1 & Q2 & Q3 & Q4 & Q5 & Q6). exists a, b, t. auto 10.
  - intros a b t Ha Hb OA OB (ro & ri & Eo & Ei). apply in_map_iff.
    destruct (find (takes G (fun n => op_ok ob (n_op n)) t) (occurrences n_in (nodes_of (fg G)) t)) as [k|] eqn:Fi.
    + exists [n_name a; k]. split; [reflexivity|]. apply in_flat_map. exists a. split; [exact Ha|]. unfold pair_match.
      rewrite (proj2 (op_ok_meets _ _) OA), Eo. cbn [andb]. rewrite Fi. left; reflexivity.
    + exfalso. assert (Q := find_none _ _ Fi (n_name b)). cbv beta in Q.
      assert (I2 : In (n_name b) (occurrences n_in (nodes_of (fg G)) t)) by (apply In_occurrences; exists b; rewrite Ei; cbn; auto).
      specialize (Q I2). assert (T : takes G (fun n => op_ok ob (n_op n)) t (n_name b) = true) by (apply (takes_spec G ob HX); exists b, ri; auto). congruence.
Qed.
Print Assumptions C70_plain_pairs.

(** fusion.py:31-47 *)
Definition Fused_Element : list desc := pair_desc "any" (OneOp "Any") [] "act_0" (OpList ["Relu"; "LeakyRelu"; "Add"]) [].
(** conv -> relu -> add: the hypotheses hold, and there are two matches *)
Definition g_chain : fgraph := mkg [mkNode "conv" "Conv" ["x"; "w"] ["a"]; mkNode "relu" "Relu" ["a"] ["b"]; mkNode "add" "Add" ["b"; "c"] ["y"];
                                    mkNode "e" "Exp" ["x"] ["z"]; mkNode "s1" "Relu" ["z"] ["z1"]; mkNode "s2" "Sigmoid" ["z"] ["z2"]].
Lemma g_chain_exact : exact (fg g_chain).
Proof. apply exact_mkg; vm_compute; repeat constructor; cbn; intuition discriminate. Qed.
Example C70_case : exact (fg g_chain) /\ no_self_feed (fg g_chain) /\
  search_pattern g_chain (mk_pattern Fused_Element true) = SOk [["conv"; "relu"]; ["relu"; "add"]] /\
  search_pattern g_chain (mk_pattern Fused_Element false) = SOk [["conv"; "relu"]; ["relu"; "add"]; ["e"; "s1"]].
Proof.
  split; [exact g_chain_exact|]. split; [|split; vm_compute; reflexivity].
  intros n t ro ri H. cbn in H. repeat (destruct H as [<-|H]; [cbn; congruence|]). destruct H.
Qed.
(** The matches need not be disjoint: the node "relu" belongs to two of them. *)
Theorem C70_overlap_refuted : exists G ls ns ms k, exact (fg G) /\ search_pattern G (mk_pattern Fused_Element true) = SOk ls /\
  nth_error ls 0 = Some ns /\ nth_error ls 1 = Some ms /\ In k ns /\ In k ms.
Proof. exists g_chain. do 3 eexists. exists "relu". split; [exact g_chain_exact|]. split; [vm_compute; reflexivity|]. repeat split; cbn; auto. Qed.
Print Assumptions C70_overlap_refuted.
