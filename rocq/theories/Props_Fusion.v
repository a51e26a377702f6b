(** C46, C47, C63, C64: pattern search. *)
From Verif Require Import PyBase PyBaseFacts GraphModel ShapeModel RelSpec RelProofs FusionModel FusionSpec FusionProofs FusionTop FusionMeets.
From Coq Require Import Lia.
Open Scope string_scope. Open Scope Z_scope.

(** ** C46 *)
(** For every graph and pattern: a returned list has one entry per descriptor, an entry is either the
    placeholder "a" or a node meeting that descriptor's condition, the first descriptor always has a
    node, and no node is used for two descriptors.  Missing for the full property: edges. *)
Theorem C46_conditions_partial : forall G P ls, NoDup (dkeys (p_desc P)) -> search_pattern G P = SOk ls ->
  forall ns, In ns ls ->
  length ns = length (p_desc P) /\
  (forall i dk d, nth_error (p_desc P) i = Some (dk, d) -> exists k, nth_error ns i = Some k /\
     ((k = "a" /\ dk <> p_first P) \/ exists n, dget (nodemap (fg G)) k = Some n /\ node_meets G d n)) /\
  (forall i j k, i <> j -> nth_error ns i = Some k -> nth_error ns j = Some k -> k = "a").
Proof.
  intros G P ls N E ns Hin. unfold search_pattern in E. apply sbind_ok in E as (first & F & E). apply dlook_ok in F.
  destruct (search_from_in _ _ _ _ _ _ E ns Hin) as (k0 & n0 & v & p & SS & _ & O & IS & -> & Q & Pl).
  destruct (search_path _ _ _ _ _ _ _ _ _ F O IS Q) as (Gd & Nd & Hself). specialize (Hself eq_refl).
  destruct (place_spec _ N _ _ _ Pl (repeat_length _ _)) as [L Sp].
  assert (Rep : forall i k, nth_error (repeat "a" (length (dkeys (p_desc P)))) i = Some k -> k = "a").
  { intros i k H. apply nth_error_In in H. apply repeat_spec in H. exact H. }
  split; [|split].
  - unfold dkeys in L. rewrite map_length in L. exact L.
  - intros i dk d Hi. assert (Hk : nth_error (dkeys (p_desc P)) i = Some dk) by (unfold dkeys; rewrite nth_error_map, Hi; reflexivity).
    destruct (Sp i dk Hk) as (k & A & [B|[B C]]); exists k; (split; [exact A|]).
    + right. rewrite Forall_forall in Gd. destruct (Gd _ B) as (d' & n & D & O' & I'). cbn [fst snd] in D, O'.
      assert (D2 : dget (p_desc P) dk = Some d) by (apply In_dget; auto; eapply nth_error_In; eauto).
      rewrite D2 in D. injection D as <-. apply is_node_meets in I'. eauto.
    + left. split; [exact (Rep _ _ B)|]. intros ->. apply C. apply in_map_iff. exists (p_first P, k0). auto.
  - intros i j k D A B.
    assert (Li : (i < length (dkeys (p_desc P)))%nat) by (rewrite <- L; apply nth_error_Some; congruence).
    assert (Lj : (j < length (dkeys (p_desc P)))%nat) by (rewrite <- L; apply nth_error_Some; congruence).
    destruct (nth_error (dkeys (p_desc P)) i) as [di|] eqn:Ei; [|apply nth_error_None in Ei; lia].
    destruct (nth_error (dkeys (p_desc P)) j) as [dj|] eqn:Ej; [|apply nth_error_None in Ej; lia].
    destruct (Sp i di Ei) as (k1 & A1 & [B1|[B1 _]]); rewrite A1 in A; injection A as ->; [|exact (Rep _ _ B1)].
    destruct (Sp j dj Ej) as (k2 & A2 & [B2|[B2 _]]); rewrite A2 in B; injection B as ->; [|exact (Rep _ _ B2)].
    exfalso. apply D. assert (di = dj); [|subst; exact (nth_error_nodup _ i j dj N Ei Ej)].
    clear -Nd B1 B2. induction p as [|[a b] p IH]; [contradiction|]. cbn [map snd] in Nd. inversion Nd as [|? ? Hn Nd']; subst.
    destruct B1 as [B1|B1], B2 as [B2|B2].
    + congruence.
    + injection B1 as -> ->. exfalso. apply Hn. apply in_map_iff. exists (dj, k). auto.
    + injection B2 as -> ->. exfalso. apply Hn. apply in_map_iff. exists (di, k). auto.
    + auto.
Qed.

(** The pattern ConvBNFusion uses: each returned list is a match in the full sense. *)
Theorem C46_convbn_matches : forall G ls, exact (fg G) -> kernels_2d G ->
  search_pattern G (mk_pattern ConvBN false) = SOk ls ->
  forall ns, In ns ls -> exists c b, ns = [n_name c; n_name b] /\ In c (nodes_of (fg G)) /\ In b (nodes_of (fg G)) /\
    small_conv G c /\ normalises b c /\ is_match G ConvBN (asg_of ConvBN ns).
Proof.
  intros G ls HX HK E ns Hin. change (mk_pattern ConvBN false) with CB in *; rewrite (search_convbn G HX HK) in E. injection E as <-.
  apply in_flat_map in Hin as (c & Hc & Hin). unfold convbn_match in Hin.
  destruct (convb G c) eqn:Cb; [|contradiction]. destruct (n_out c) as [|t ro] eqn:Ho; [contradiction|].
  destruct (find (bn_of G t) (occurrences n_in (nodes_of (fg G)) t)) as [k|] eqn:Fi; [|contradiction].
  destruct Hin as [<-|[]]. apply find_some in Fi as [Hocc Hbn].
  apply In_occurrences in Hocc as (b & Hb & <- & Hib).
  unfold bn_of in Hbn. assert (Gb := In_dget _ _ _ _ (ex_nodup _ HX) (nodes_In G HX _ Hb)). rewrite Gb in Hbn.
  apply andb_prop in Hbn as [Hop Hhd]. apply String.eqb_eq in Hop.
  destruct (n_in b) as [|i ri] eqn:Ei; [discriminate|]. apply String.eqb_eq in Hhd. subst i.
  assert (Gc := In_dget _ _ _ _ (ex_nodup _ HX) (nodes_In G HX _ Hc)).
  exists c, b. repeat split; auto.
  - apply convb_spec in Cb. apply Cb.
  - apply convb_spec in Cb. apply Cb.
  - exists t, ro, ri. auto.
  - assert (Fd : feeds c b 0 0) by (exists t; split; cbn; split; try lia; [rewrite Ho|rewrite Ei]; reflexivity).
    intros d [<-|[<-|[]]].
    + exists (n_name c), c. split; [reflexivity|]. split; [exact Gc|]. split.
      { apply is_node_meets. change (is_node G convd c = SOk true). rewrite (conv_is_node G _ _ HK (nodes_In G HX _ Hc) eq_refl), Cb. reflexivity. }
      split; [intros e []|]. intros e [<-|[]]. exists (n_name b), b. split; [reflexivity|]. split; [exact Gb|]. exact Fd.
    + exists (n_name b), b. split; [reflexivity|]. split; [exact Gb|]. split.
      { apply is_node_meets. change (is_node G bnd b = SOk true). rewrite bn_is_node, Hop. reflexivity. }
      split; [|intros e []]. intros e [<-|[]]. exists (n_name c), c. split; [reflexivity|]. split; [exact Gc|]. exact Fd.
Qed.

(** Counterexamples.  [mkg] builds a graph with exact bookkeeping from a node list. *)
Definition mkg (ns : list node) : fgraph :=
  {| fg := update_tensor_relations (mkGraph (map (fun n => (n_name n, n)) ns) [] [] [] [] [] [] []); fattr := fun _ _ => None |}.
Lemma exact_mkg : forall ns, NoDup (map n_name ns) -> NoDup (flat_map n_out ns) -> exact (fg (mkg ns)).
Proof.
  intros ns A B.
  unfold mkg. cbn [fg]. set (g0 := mkGraph _ _ _ _ _ _ _ _).
  assert (Q0 : nodes_of g0 = ns) by (unfold nodes_of; cbn; rewrite map_map; apply map_id).
  destruct (utr_spec g0) as (S1 & S2 & _ & _ & S3 & _).
  assert (Q : nodes_of (update_tensor_relations g0) = ns) by (unfold nodes_of; rewrite S3; exact Q0).
  constructor; rewrite ?Q.
  - intros k n H. rewrite S3 in H. cbn in H. apply in_map_iff in H as (m & E & _). congruence.
  - rewrite S3. unfold dkeys. cbn. rewrite map_map. exact A.
  - intros t. rewrite S1, Q0. reflexivity.
  - intros t. rewrite S2, Q0. reflexivity.
  - exact B.
Qed.
(** a three-step serial pattern A -> B -> C *)
Definition serial3 : list desc := serial_from None ["0"; "1"; "2"] ["A"; "B"; "C"].
Definition g_serial : fgraph := mkg
  [ mkNode "a1" "A" ["x"] ["ta1"]; mkNode "b1" "B" ["ta1"] ["tb1"];
    mkNode "a3" "A" ["x"] ["ta3"; "ua3"]; mkNode "z" "Z" ["x"] ["tz"];
    mkNode "b3" "B" ["ta3"; "tz"] ["tb3"]; mkNode "b2" "B" ["ua3"] ["tb2"];
    mkNode "c1" "C" ["tb3"; "tb2"; "tb1"] ["y"] ].
(** the search from a1 answers (a1, b2, c1) although a1 does not feed b2 *)
Theorem C46_serial_refuted : exists G ls ns, exact (fg G) /\ search_pattern G (mk_pattern serial3 false) = SOk ls /\ In ns ls /\
  ~ is_match G serial3 (asg_of serial3 ns).
Proof.
  exists g_serial. eexists. exists ["a1"; "b2"; "c1"]. split; [|split; [vm_compute; reflexivity|split]].
  - apply exact_mkg; vm_compute; repeat constructor; cbn; intuition discriminate.
  - left; reflexivity.
  - intros M. destruct (M _ (or_introl eq_refl)) as (k & n & A & B & _ & _ & D). cbn in A. injection A as <-.
    vm_compute in B. injection B as <-. destruct (D _ (or_introl eq_refl)) as (k' & n' & A' & B' & t & F1 & F2).
    cbn in A'. injection A' as <-. vm_compute in B'. injection B' as <-. cbn in F1, F2.
    destruct F1 as [<-|[]]. destruct F2 as [F2|[]]. discriminate.
Qed.
(** a pattern node without a counterpart is returned as the placeholder "a" *)
Definition fork : list desc :=
  [ {| d_name := "p"; d_op := OneOp "P"; d_attrs := []; d_in := []; d_out := [ {| e_idx := 0; e_desc := "q"; e_other := 0 |}; {| e_idx := 0; e_desc := "r"; e_other := 0 |} ] |};
    {| d_name := "q"; d_op := OneOp "Q"; d_attrs := []; d_in := [ {| e_idx := 0; e_desc := "p"; e_other := 0 |} ]; d_out := [] |};
    {| d_name := "r"; d_op := OneOp "R"; d_attrs := []; d_in := [ {| e_idx := 0; e_desc := "p"; e_other := 0 |} ]; d_out := [] |} ].
Theorem C46_placeholder_refuted :
  search_pattern (mkg [mkNode "n0" "P" ["x"] ["t"]; mkNode "n1" "Q" ["t"] ["y"]]) (mk_pattern fork false) = SOk [["n0"; "n1"; "a"]].
Proof. vm_compute. reflexivity. Qed.

(** ** C47 *)
(** ConvBN matches are pairwise disjoint and listed once each. *)
Theorem C47_convbn_disjoint : forall G ls, exact (fg G) -> kernels_2d G ->
  search_pattern G (mk_pattern ConvBN false) = SOk ls ->
  forall i j ns ms x, i <> j -> nth_error ls i = Some ns -> nth_error ls j = Some ms -> In x ns -> ~ In x ms.
Proof.
  intros G ls HX HK E i j ns ms x D Hi Hj Hx Hy.
  assert (F := E). change (mk_pattern ConvBN false) with CB in *; rewrite (search_convbn G HX HK) in E. injection E as <-.
  destruct (C46_convbn_matches G _ HX HK F ns (nth_error_In _ _ Hi)) as (c & b & -> & Hc & Hb & Sc & Nb & _).
  destruct (C46_convbn_matches G _ HX HK F ms (nth_error_In _ _ Hj)) as (c' & b' & -> & Hc' & Hb' & Sc' & Nb' & _).
  assert (Inj : forall u w, In u (nodes_of (fg G)) -> In w (nodes_of (fg G)) -> n_name u = n_name w -> u = w).
  { intros u w Hu Hw Q. assert (A := In_dget _ _ _ _ (ex_nodup _ HX) (nodes_In G HX _ Hu)).
    assert (B := In_dget _ _ _ _ (ex_nodup _ HX) (nodes_In G HX _ Hw)). rewrite Q in A. congruence. }
  assert (CC : c <> c').
  { intros <-. assert (Nn : NoDup (nodes_of (fg G))).
    { apply (NoDup_map_inv n_name). unfold nodes_of. rewrite map_map. erewrite map_ext_in; [apply (ex_nodup _ HX)|].
      intros [k n] Hk. cbn. apply (ex_names _ HX _ _ Hk). }
    apply D. clear -Hi Hj Nn Inj.
    assert (Gen : forall l i j b b', NoDup l -> nth_error (flat_map (convbn_match G) l) i = Some [n_name c; b] ->
        nth_error (flat_map (convbn_match G) l) j = Some [n_name c; b'] -> (forall u w, In u l -> In w l -> n_name u = n_name w -> u = w) -> i = j).
    { induction l as [|n l IH]; intros i1 j1 b1 b2 N A B I; [destruct i1; discriminate|]. cbn [flat_map] in A, B.
      inversion N as [|? ? Hn N']; subst.
      assert (Q : forall i b, nth_error (flat_map (convbn_match G) l) i = Some [n_name c; b] -> exists w, In w l /\ n_name w = n_name c).
      { intros i2 b3 H. apply nth_error_In in H. apply in_flat_map in H as (w & Hw & H). exists w. split; [exact Hw|].
        unfold convbn_match in H. destruct (convb G w); [|contradiction]. destruct (n_out w); [contradiction|]. destruct (find _ _); [|contradiction].
        destruct H as [H|[]]. congruence. }
      assert (R : convbn_match G n = [] \/ exists k, convbn_match G n = [[n_name n; k]]).
      { unfold convbn_match. destruct (convb G n); [|auto]. destruct (n_out n); [auto|]. destruct (find _ _); eauto. }
      destruct R as [R|[k0 R]]; rewrite R in A, B; cbn [app] in A, B.
      - eapply IH; eauto. intros; apply I; auto; right; auto.
      - destruct i1 as [|i1], j1 as [|j1]; cbn [nth_error] in A, B.
        + reflexivity.
        + injection A as A1 A2. destruct (Q _ _ B) as (w & Hw & Ew). exfalso. apply Hn.
          replace n with w; auto. apply I; [right; auto|left; auto|congruence].
        + injection B as A1 A2. destruct (Q _ _ A) as (w & Hw & Ew). exfalso. apply Hn.
          replace n with w; auto. apply I; [right; auto|left; auto|congruence].
        + f_equal. eapply IH; eauto. intros; apply I; auto; right; auto. }
    eapply Gen; eauto. }
  destruct Hx as [<-|[<-|[]]], Hy as [Hy|[Hy|[]]].
  - apply CC. symmetry. apply Inj; auto.
  - apply Inj in Hy; auto. subst b'. destruct Sc as [Q1 _], Nb' as [Q2 _]. congruence.
  - apply Inj in Hy; auto. subst c'. destruct Sc' as [Q1 _], Nb as [Q2 _]. congruence.
  - apply Inj in Hy; auto. subst b'. destruct Nb as (_ & t & ro & ri & A & B). destruct Nb' as (_ & t' & ro' & ri' & A' & B').
    rewrite B in B'. injection B' as <- <-.
    assert (P1 := prod_unique G HX _ _ _ Hc A). assert (P2 := prod_unique G HX _ _ _ Hc' A'). rewrite P1 in P2. injection P2 as P2. apply CC, Inj; auto.
Qed.
(** two serial matches that share a node *)
Theorem C47_disjoint_refuted : exists G ls ns ms, exact (fg G) /\
  search_pattern G (mk_pattern (serial_from None ["0"; "1"] ["Relu"; "Add"]) false) = SOk ls /\
  nth_error ls 0 = Some ns /\ nth_error ls 1 = Some ms /\ In "add" ns /\ In "add" ms.
Proof.
  exists (mkg [mkNode "r1" "Relu" ["x"] ["t1"]; mkNode "r2" "Relu" ["y"] ["t2"]; mkNode "add" "Add" ["t1"; "t2"] ["z"]]).
  do 3 eexists. split; [|vm_compute; repeat split; auto].
  apply exact_mkg; vm_compute; repeat constructor; cbn; intuition discriminate.
Qed.

(** ** C63 *)
(** Every small convolution whose first output is normalised by some BatchNormalization is found. *)
Theorem C63_convbn_complete : forall G ls c b, exact (fg G) -> kernels_2d G ->
  search_pattern G (mk_pattern ConvBN false) = SOk ls ->
  In c (nodes_of (fg G)) -> In b (nodes_of (fg G)) -> small_conv G c -> normalises b c ->
  exists k, In [n_name c; k] ls.
Proof.
  intros G ls c b HX HK E Hc Hb Sc (Hop & t & ro & ri & Ho & Hi). change (mk_pattern ConvBN false) with CB in *; rewrite (search_convbn G HX HK) in E. injection E as <-.
  destruct (find (bn_of G t) (occurrences n_in (nodes_of (fg G)) t)) as [k|] eqn:Fi.
  - exists k. apply in_flat_map. exists c. split; [exact Hc|]. unfold convbn_match. rewrite (proj2 (convb_spec G c) Sc), Ho, Fi. left; reflexivity.
  - exfalso. assert (Q := find_none _ _ Fi (n_name b)). cbv beta in Q. unfold bn_of in Q.
    rewrite (In_dget _ _ _ _ (ex_nodup _ HX) (nodes_In G HX _ Hb)), Hop, Hi, !String.eqb_refl in Q.
    assert (In (n_name b) (occurrences n_in (nodes_of (fg G)) t)) by (apply In_occurrences; exists b; rewrite Hi; cbn; auto).
    specialize (Q H). discriminate.
Qed.
(** A serial pattern Relu -> Add is missed when the other operand of Add comes from another operator. *)
Definition g_missed : fgraph := mkg [mkNode "r" "Relu" ["x"] ["t"]; mkNode "e" "Exp" ["x"] ["u"]; mkNode "add" "Add" ["t"; "u"] ["z"]].
Definition serial2 := serial_from None ["0"; "1"] ["Relu"; "Add"].
Theorem C63_serial_refuted : exists G asg, exact (fg G) /\ is_match G serial2 asg /\ search_pattern G (mk_pattern serial2 false) = SOk [].
Proof.
  exists g_missed, (asg_of serial2 ["r"; "add"]). split; [|split; [|vm_compute; reflexivity]].
  - apply exact_mkg; vm_compute; repeat constructor; cbn; intuition discriminate.
  - intros d [<-|[<-|[]]]; eexists; eexists; (split; [reflexivity|]); (split; [reflexivity|]); (split; [apply is_node_meets; reflexivity|]); split; intros e [];
      try contradiction; subst; eexists; eexists; (split; [reflexivity|]); (split; [reflexivity|]); exists "t"; split; cbn; auto.
Qed.

(** ** C64 *)
(** The recursion is never deeper than the number of nodes: the search stops on every input. *)
Theorem C64_terminates : forall G P, search_pattern G P <> SRaise RuntimeErr.
Proof.
  intros G P. unfold search_pattern. apply no_rt_bind; [apply no_rt_dlook|]. intros first F. apply search_from_no_rt. lia.
Qed.
(** On a consistent graph whose kernels are two-dimensional the ConvBN search raises nothing. *)
Theorem C64_convbn_returns : forall G, exact (fg G) -> kernels_2d G -> exists ls, search_pattern G (mk_pattern ConvBN false) = SOk ls.
Proof. intros G HX HK. eexists. apply (search_convbn G HX HK). Qed.
(** A one-dimensional pooling anywhere in the graph makes it raise IndexError. *)
Theorem C64_pool1d_refuted : exists G, exact (fg G) /\ (forall n, In n (nodes_of (fg G)) -> n_op n <> "Conv") /\
  search_pattern G (mk_pattern ConvBN false) = SRaise IndexErr.
Proof.
  exists {| fg := fg (mkg [mkNode "p" "MaxPool" ["x"] ["y"]]); fattr := fun _ a => if String.eqb a "kernel_shape" then Some (AvList [3]) else None |}.
  split; [|split; [intros n [<-|[]]; discriminate|vm_compute; reflexivity]].
  apply exact_mkg; vm_compute; repeat constructor; cbn; intuition discriminate.
Qed.
(** A pattern edge into an input that no node produces (a weight) raises KeyError: the layer
    normalisation pattern on a division by a constant. *)
Definition div_pat : list desc :=
  [ {| d_name := "s"; d_op := OneOp "Sub"; d_attrs := []; d_in := []; d_out := [ {| e_idx := 0; e_desc := "d"; e_other := 0 |} ] |};
    {| d_name := "d"; d_op := OneOp "Div"; d_attrs := []; d_in := [ {| e_idx := 0; e_desc := "s"; e_other := 0 |}; {| e_idx := 1; e_desc := "q"; e_other := 0 |} ]; d_out := [] |};
    {| d_name := "q"; d_op := OneOp "Sqrt"; d_attrs := []; d_in := []; d_out := [ {| e_idx := 0; e_desc := "d"; e_other := 1 |} ] |} ].
Theorem C64_weight_input_refuted :
  search_pattern (mkg [mkNode "n0" "Sub" ["x"; "y"] ["t"]; mkNode "n1" "Div" ["t"; "const"] ["z"]]) (mk_pattern div_pat false) = SRaise KeyErr.
Proof. vm_compute. reflexivity. Qed.

(** The hypotheses of the ConvBN theorems hold of a small network with a match and a non-match. *)
Definition g_cb : fgraph :=
  {| fg := fg (mkg [mkNode "c1" "Conv" ["x"; "w"] ["t1"]; mkNode "b1" "BatchNormalization" ["t1"; "s"; "b"; "m"; "v"] ["t2"];
                    mkNode "c2" "Conv" ["t2"; "w2"] ["t3"]; mkNode "r" "Relu" ["t3"] ["y"]]);
     fattr := fun k a => if String.eqb a "kernel_shape" && (String.eqb k "c1" || String.eqb k "c2") then Some (AvList [3; 3]) else None |}.
Example g_cb_ok : exact (fg g_cb) /\ kernels_2d g_cb /\ search_pattern g_cb (mk_pattern ConvBN false) = SOk [["c1"; "b1"]].
Proof.
  split; [|split; [|vm_compute; reflexivity]].
  - apply exact_mkg; vm_compute; repeat constructor; cbn; intuition discriminate.
  - intros k n H v E. cbn in E. destruct (_ || _)%bool; [|discriminate]. injection E as <-. do 3 eexists; reflexivity.
Qed.
