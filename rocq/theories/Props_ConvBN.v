(** C45: ConvBNFusion. *)
From Coq Require Import Reals Lra Lia.
From Verif Require Import PyBase PyBaseFacts GraphModel ShapeModel EditModel RelSpec RelProofs FusionModel FusionSpec FusionProofs FusionTop Props_Fusion
  ConvBNModel ConvBNSpec ConvBNProofs ConvBNTop.
Open Scope string_scope. Open Scope list_scope.

(** The pass returns; an execution of the old graph is an execution of the new graph, and every
    execution of the new graph is, outside the outputs of the folded convolutions, an execution of
    the old one (so both compute the same values for the same inputs); the folded convolutions and
    nothing else replace the matched pairs; declared outputs not produced by a removed normalisation
    stay declared.  Real arithmetic; any stride, padding, dilation, grouping and any other operators. *)
Theorem C45_fold_preserves_partial : forall patch other s,
  exact (cs_g s) -> NoDup (dkeys (producedby (cs_g s))) -> kernels_2d (fgraph_of s) ->
  (forall c b, In c (nodes_of (cs_g s)) -> In b (nodes_of (cs_g s)) -> small_conv (fgraph_of s) c -> normalises b c ->
     pair_shape s c b /\ pair_private (cs_g s) c b /\ bias_fresh s c) ->
  exists s', ConvBNFusion s = SOk s' /\
    (forall rho, solves patch other rho s -> solves patch other rho s') /\
    (forall rho', solves patch other rho' s' -> exists rho, solves patch other rho s /\
       forall u, (forall c b, In c (nodes_of (cs_g s)) -> In b (nodes_of (cs_g s)) -> small_conv (fgraph_of s) c -> normalises b c -> ~ In u (n_out c)) ->
                 rho u = rho' u) /\
    (forall b c, In b (nodes_of (cs_g s)) -> In c (nodes_of (cs_g s)) -> small_conv (fgraph_of s) c -> normalises b c -> ~ In b (nodes_of (cs_g s'))) /\
    (forall n, In n (nodes_of (cs_g s)) ->
       (forall m, In m (nodes_of (cs_g s)) -> ~ (small_conv (fgraph_of s) n /\ normalises m n) /\ ~ (small_conv (fgraph_of s) m /\ normalises n m)) ->
       In n (nodes_of (cs_g s'))) /\
    (forall o, In o (g_output (cs_g s)) ->
       (forall b c, In b (nodes_of (cs_g s)) -> In c (nodes_of (cs_g s)) -> small_conv (fgraph_of s) c -> normalises b c -> ~ In o (n_out b)) ->
       In o (g_output (cs_g s'))).
Proof.
  intros patch other s HX Np HK HP. assert (L := exact_lite _ HX Np).
  assert (Nn : NoDup (nodes_of (cs_g s))).
  { apply (NoDup_map_inv n_name). unfold nodes_of. rewrite map_map. erewrite map_ext_in; [apply (ex_nodup _ HX)|].
    intros [k n] Hk. cbn. apply (ex_names _ HX _ _ Hk). }
  destruct (convbn_pairs (fgraph_of s) HX HK (nodes_of (cs_g s)) (fun n H => H) Nn) as (ps & E & P & N1 & N2).
  destruct (fuse_pairs_ok patch other ps s L) as (s' & E' & K1 & K2 & K3 & K4); auto.
  { intros c b I. destruct (P c b I) as (Hc & Hb & Sc & Nb). destruct (HP c b Hc Hb Sc Nb) as (A & B & C). constructor; auto. }
  exists s'. split; [|split; [exact K1|split; [|split; [|split]]]].
  - unfold ConvBNFusion. change (mk_pattern ConvBN false) with CB. fold (fgraph_of s). rewrite (search_convbn (fgraph_of s) HX HK).
    cbn [sbind]. change (nodes_of (fg (fgraph_of s))) with (nodes_of (cs_g s)). rewrite E. exact E'.
  - intros rho' H. destruct (K2 rho' H) as (rho & A & B). exists rho. split; [exact A|]. intros u Hu. apply B. intros I.
    apply in_flat_map in I as ([c b] & I & O). destruct (P c b I) as (Hc & Hb & Sc & Nb). exact (Hu c b Hc Hb Sc Nb O).
  - intros b c Hb Hc Sc Nb H. apply K3 in H as [([c0 b0] & I & ->)|(_ & D1 & D2)].
    + cbn [fused fst snd] in Nb. destruct (P c0 b0 I) as (_ & _ & (Q & _) & _). destruct Nb as (Q' & _). cbn in Q'. congruence.
    + destruct (C63_convbn_complete (fgraph_of s) _ c b HX HK (search_convbn (fgraph_of s) HX HK) Hc Hb Sc Nb) as (k & Ik).
      change (nodes_of (fg (fgraph_of s))) with (nodes_of (cs_g s)) in Ik. rewrite E in Ik. apply in_map_iff in Ik as ([c1 b1] & Q & I). cbn [fst snd] in Q. injection Q as Q1 Q2.
      destruct (P c1 b1 I) as (Hc1 & Hb1 & Sc1 & Nb1). assert (c1 = c) by (eapply lite_inj; eauto). subst c1.
      destruct (HP c b1 Hc1 Hb1 Sc Nb1) as (_ & Pv & _). destruct (HP c b Hc Hb Sc Nb) as (Sh & _ & _).
      destruct Sh as (_ & _ & x & w & t & y & gn & ben & mn & vn & W & G & B & M & V & Ic & Uc & Ib & _).
      destruct (Pv b t w Hb) as [Q _]; [rewrite Uc; reflexivity|rewrite Ic; reflexivity|]. rewrite Ib in Q. specialize (Q (or_introl eq_refl)). subst b1.
      apply D2. apply in_map_iff. exists (c, b). auto.
  - intros n Hn D. apply K3. right. split; [exact Hn|]. split; intros I; apply in_map_iff in I as ([c b] & Q & I); cbn in Q; subst;
      destruct (P _ _ I) as (Hc & Hb & Sc & Nb).
    + apply (proj1 (D b Hb)). auto.
    + apply (proj2 (D c Hc)). auto.
  - intros o Ho D. apply K4; [exact Ho|]. intros I. apply in_flat_map in I as ([c b] & I & O). destruct (P c b I) as (Hc & Hb & Sc & Nb). exact (D b c Hb Hc Sc Nb O).
Qed.

(** What the pass does not handle. *)
(** A convolution with a bias operand: whatever the arrays, the pair is not folded and the pass raises. *)
Theorem C45_bias_refuted : forall s cn bn c b x w bias,
  dget (nodemap (cs_g s)) cn = Some c -> dget (nodemap (cs_g s)) bn = Some b ->
  n_in c = [x; w; bias] -> forall s', fuse_pair s cn bn <> SOk s'.
Proof.
  intros s cn bn c b x w bias Hc Hb I s' H. unfold fuse_pair in H. unfold dlook at 1 2 in H. rewrite Hc, Hb in H. cbn [sbind] in H.
  rewrite I in H. cbn [length Nat.eqb] in H.
  repeat (apply sbind_ok in H as (? & _ & H)). discriminate.
Qed.
(** Weights that are read-only views (every weight stored as raw_data): raises ValueError. *)
Theorem C45_readonly_refuted : forall gamma beta mean var eps k w b r, has_elem k = true ->
  fold_bn false gamma beta mean var eps 0 (k :: w) b <> SOk r.
Proof.
  intros gamma beta mean var eps k w b r Hk H. destruct b as [|b0 b]; cbn [fold_bn] in H; [discriminate|].
  apply sbind_ok in H as (? & _ & H). apply sbind_ok in H as (? & _ & H). apply sbind_ok in H as (? & _ & H). apply sbind_ok in H as (? & _ & H).
  rewrite Hk in H. cbn in H. discriminate.
Qed.

(** A small network; every number is 1 except eps = 0. *)
Definition attr33 (ks : list string) : string -> string -> option aval :=
  fun k a => if (String.eqb a "kernel_shape" && existsb (String.eqb k) ks)%bool then Some (AvList [1; 1]%Z) else None.
Definition one_w : tval := TW true [[[[1%R]]]].
Definition with_out (g : graph) (o : list string) : graph :=
  mkGraph (nodemap g) (tensormap g) (producedby g) (consumedby g) (initials g) (dynamics g) (g_input g) o.
Definition net (ns : list node) (outs : list string) (convs : list string) (vals : dict tval) : cstate :=
  {| cs_g := with_out (fg (mkg ns)) outs; cs_attr := attr33 convs; cs_vals := vals; cs_eps := fun _ => 0%R |}.
Definition stats : dict tval := [("w", one_w); ("g", TV [2%R]); ("b", TV [1%R]); ("m", TV [1%R]); ("v", TV [1%R])].
Definition c1 := mkNode "c" "Conv" ["x"; "w"] ["t"].
Definition b1 := mkNode "n" "BatchNormalization" ["t"; "g"; "b"; "m"; "v"] ["y"].
Lemma bn_scale1 : bn_scale 2 1 0 = SOk (2 / sqrt (1 + 0))%R.
Proof. unfold bn_scale. destruct (Rlt_dec _ _); [lra|]. destruct (Req_EM_T _ _); [lra|]. reflexivity. Qed.

(** the hypotheses of the main theorem are met *)
Definition net_ok := net [c1; b1; mkNode "r" "Relu" ["y"] ["z"]] ["z"] ["c"] stats.
Lemma exact_with_out g o : exact g -> exact (with_out g o).
Proof. intros [A B C D E]. constructor; auto. Qed.
Example net_ok_meets : exact (cs_g net_ok) /\ NoDup (dkeys (producedby (cs_g net_ok))) /\ kernels_2d (fgraph_of net_ok) /\
  (forall c b, In c (nodes_of (cs_g net_ok)) -> In b (nodes_of (cs_g net_ok)) -> small_conv (fgraph_of net_ok) c -> normalises b c ->
     pair_shape net_ok c b /\ pair_private (cs_g net_ok) c b /\ bias_fresh net_ok c) /\
  In c1 (nodes_of (cs_g net_ok)) /\ In b1 (nodes_of (cs_g net_ok)) /\ small_conv (fgraph_of net_ok) c1 /\ normalises b1 c1.
Proof.
  assert (NO : nodes_of (cs_g net_ok) = [c1; b1; mkNode "r" "Relu" ["y"] ["z"]]) by (vm_compute; reflexivity).
  split; [|split; [|split; [|split]]].
  - apply exact_with_out, exact_mkg; vm_compute; repeat constructor; cbn; intuition discriminate.
  - vm_compute. repeat constructor; cbn; intuition discriminate.
  - intros k n H v E. unfold fgraph_of, fattr, net_ok, net, cs_attr, attr33 in E. destruct (_ && _)%bool; [|discriminate]. injection E as <-. do 3 eexists; reflexivity.
  - intros c b Hc Hb [Oc _] [Ob _]. rewrite NO in Hc, Hb.
    destruct Hc as [<-|[<-|[<-|[]]]]; try discriminate. destruct Hb as [<-|[<-|[<-|[]]]]; try discriminate.
    split; [|split].
    + split; [reflexivity|]. split; [reflexivity|].
      exists "x", "w", "t", "y", "g", "b", "m", "v", [[[[1%R]]]], [2%R], [1%R], [1%R], [1%R].
      repeat (split; [reflexivity|]). intros [|i] Hi; cbn [length] in Hi; [|lia]. cbn. lra.
    + intros n t w Hn E1 E2. cbn in E1, E2. injection E1 as <-. injection E2 as <-. rewrite NO in Hn.
      destruct Hn as [<-|[<-|[<-|[]]]]; split; cbn; intuition discriminate.
    + split; [reflexivity|]. intros n Hn. rewrite NO in Hn. destruct Hn as [<-|[<-|[<-|[]]]]; cbn; split; intuition discriminate.
  - rewrite NO. split; [left; reflexivity|]. split; [right; left; reflexivity|]. split.
    + split; [reflexivity|]. exists 1%Z, 1%Z, []. split; [reflexivity|]. split; cbv; split; discriminate.
    + split; [reflexivity|]. exists "t", [], ["g"; "b"; "m"; "v"]. split; reflexivity.
Qed.

(** A normalised value that is a declared graph output: the pass returns, and the graph has lost it. *)
Theorem C45_output_refuted : exists s s', exact (cs_g s) /\ kernels_2d (fgraph_of s) /\
  pair_shape s c1 b1 /\ pair_private (cs_g s) c1 b1 /\ bias_fresh s c1 /\
  g_output (cs_g s) = ["y"] /\ ConvBNFusion s = SOk s' /\ g_output (cs_g s') = [].
Proof.
  set (s := net [c1; b1] ["y"] ["c"] stats).
  assert (NO : nodes_of (cs_g s) = [c1; b1]) by (vm_compute; reflexivity).
  assert (HX : exact (cs_g s)) by (apply exact_with_out, exact_mkg; vm_compute; repeat constructor; cbn; intuition discriminate).
  assert (SH : pair_shape s c1 b1).
  { split; [reflexivity|]. split; [reflexivity|].
    exists "x", "w", "t", "y", "g", "b", "m", "v", [[[[1%R]]]], [2%R], [1%R], [1%R], [1%R].
    repeat (split; [reflexivity|]). intros [|i] Hi; cbn [length] in Hi; [|lia]. cbn. lra. }
  assert (FR : bias_fresh s c1).
  { split; [reflexivity|]. intros n Hn. rewrite NO in Hn. destruct Hn as [<-|[<-|[]]]; cbn; split; intuition discriminate. }
  destruct (fuse_pair_step s c1 b1) as (s' & E & SF); auto.
  { apply exact_lite; [exact HX|]. vm_compute. repeat constructor; cbn; intuition discriminate. }
  { rewrite NO; left; reflexivity. }
  { rewrite NO; right; left; reflexivity. }
  exists s, s'. split; [exact HX|]. split; [|split; [exact SH|split; [|split; [exact FR|split; [reflexivity|split]]]]].
  - intros k n H v Ev. unfold fgraph_of, fattr, s, net, cs_attr, attr33 in Ev. destruct (_ && _)%bool; [|discriminate]. injection Ev as <-. do 3 eexists; reflexivity.
  - intros n t w Hn E1 E2. cbn in E1, E2. injection E1 as <-. injection E2 as <-. rewrite NO in Hn.
    destruct Hn as [<-|[<-|[]]]; split; cbn; intuition discriminate.
  - unfold ConvBNFusion. fold (fgraph_of s).
    assert (SP : search_pattern (fgraph_of s) (mk_pattern ConvBN false) = SOk [["c"; "n"]]) by (vm_compute; reflexivity).
    rewrite SP. cbn [sbind fuse_pairs]. change (py_index ["c"; "n"] 0) with (SOk "c"). change (py_index ["c"; "n"] 1) with (SOk "n"). cbn [sbind].
    change "c" with (n_name c1). change "n" with (n_name b1). rewrite E. reflexivity.
  - rewrite (sf_out _ _ _ _ SF). reflexivity.
Qed.

(** A convolution result that another node also reads: the pass returns, and no node of the new graph
    produces the tensor that node reads. *)
Theorem C45_shared_result_refuted : exists s s' r, exact (cs_g s) /\ kernels_2d (fgraph_of s) /\
  pair_shape s c1 b1 /\ bias_fresh s c1 /\ g_input (cs_g s) = [] /\ ConvBNFusion s = SOk s' /\
  In r (nodes_of (cs_g s')) /\ In "t" (n_in r) /\ (exists n, In n (nodes_of (cs_g s)) /\ In "t" (n_out n)) /\
  forall n, In n (nodes_of (cs_g s')) -> ~ In "t" (n_out n).
Proof.
  set (r := mkNode "r" "Relu" ["t"] ["z"]).
  set (s := net [c1; b1; r] ["y"; "z"] ["c"] stats).
  assert (NO : nodes_of (cs_g s) = [c1; b1; r]) by (vm_compute; reflexivity).
  assert (HX : exact (cs_g s)) by (apply exact_with_out, exact_mkg; vm_compute; repeat constructor; cbn; intuition discriminate).
  assert (SH : pair_shape s c1 b1).
  { split; [reflexivity|]. split; [reflexivity|].
    exists "x", "w", "t", "y", "g", "b", "m", "v", [[[[1%R]]]], [2%R], [1%R], [1%R], [1%R].
    repeat (split; [reflexivity|]). intros [|i] Hi; cbn [length] in Hi; [|lia]. cbn. lra. }
  assert (FR : bias_fresh s c1).
  { split; [reflexivity|]. intros n Hn. rewrite NO in Hn. destruct Hn as [<-|[<-|[<-|[]]]]; cbn; split; intuition discriminate. }
  destruct (fuse_pair_step s c1 b1) as (s' & E & SF); auto.
  { apply exact_lite; [exact HX|]. vm_compute. repeat constructor; cbn; intuition discriminate. }
  { rewrite NO; left; reflexivity. }
  { rewrite NO; right; left; reflexivity. }
  exists s, s', r. split; [exact HX|]. split; [|split; [exact SH|split; [exact FR|split; [reflexivity|split; [|split; [|split; [left; reflexivity|split]]]]]]].
  - intros k n H v Ev. unfold fgraph_of, fattr, s, net, cs_attr, attr33 in Ev. destruct (_ && _)%bool; [|discriminate]. injection Ev as <-. do 3 eexists; reflexivity.
  - unfold ConvBNFusion. fold (fgraph_of s).
    assert (SP : search_pattern (fgraph_of s) (mk_pattern ConvBN false) = SOk [["c"; "n"]]) by (vm_compute; reflexivity).
    rewrite SP. cbn [sbind fuse_pairs]. change (py_index ["c"; "n"] 0) with (SOk "c"). change (py_index ["c"; "n"] 1) with (SOk "n"). cbn [sbind].
    change "c" with (n_name c1). change "n" with (n_name b1). rewrite E. reflexivity.
  - apply (sf_nodes _ _ _ _ SF). right. split; [rewrite NO; cbn; auto|split; discriminate].
  - exists c1. split; [rewrite NO; left; reflexivity|left; reflexivity].
  - intros n Hn. apply (sf_nodes _ _ _ _ SF) in Hn. rewrite NO in Hn.
    destruct Hn as [->|([<-|[<-|[<-|[]]]] & D1 & D2)]; try congruence; cbn; intuition discriminate.
Qed.

(** A weight used by two convolutions: folding one of them changes the array the other one reads. *)
Theorem C45_shared_weight_refuted : exists s s' c2, exact (cs_g s) /\ kernels_2d (fgraph_of s) /\
  pair_shape s c1 b1 /\ bias_fresh s c1 /\ ConvBNFusion s = SOk s' /\
  In c2 (nodes_of (cs_g s)) /\ In c2 (nodes_of (cs_g s')) /\ n_in c2 = ["u"; "w"] /\
  dget (cs_vals s) "w" = Some (TW true [[[[1%R]]]]) /\ dget (cs_vals s') "w" = Some (TW true [[[[2%R]]]]).
Proof.
  set (c2 := mkNode "d" "Conv" ["u"; "w"] ["z"]).
  set (s := net [c1; b1; c2] ["y"; "z"] ["c"; "d"] stats).
  assert (NO : nodes_of (cs_g s) = [c1; b1; c2]) by (vm_compute; reflexivity).
  assert (HX : exact (cs_g s)) by (apply exact_with_out, exact_mkg; vm_compute; repeat constructor; cbn; intuition discriminate).
  assert (SH : pair_shape s c1 b1).
  { split; [reflexivity|]. split; [reflexivity|].
    exists "x", "w", "t", "y", "g", "b", "m", "v", [[[[1%R]]]], [2%R], [1%R], [1%R], [1%R].
    repeat (split; [reflexivity|]). intros [|i] Hi; cbn [length] in Hi; [|lia]. cbn. lra. }
  assert (FR : bias_fresh s c1).
  { split; [reflexivity|]. intros n Hn. rewrite NO in Hn. destruct Hn as [<-|[<-|[<-|[]]]]; cbn; split; intuition discriminate. }
  destruct (fuse_pair_step s c1 b1) as (s' & E & SF); auto.
  { apply exact_lite; [exact HX|]. vm_compute. repeat constructor; cbn; intuition discriminate. }
  { rewrite NO; left; reflexivity. }
  { rewrite NO; right; left; reflexivity. }
  exists s, s', c2. split; [exact HX|]. split; [|split; [exact SH|split; [exact FR|split; [|split; [|split; [|split; [reflexivity|split; [reflexivity|]]]]]]]].
  - intros k n H v Ev. unfold fgraph_of, fattr, s, net, cs_attr, attr33 in Ev. destruct (_ && _)%bool; [|discriminate]. injection Ev as <-. do 3 eexists; reflexivity.
  - unfold ConvBNFusion. fold (fgraph_of s).
    assert (SP : search_pattern (fgraph_of s) (mk_pattern ConvBN false) = SOk [["c"; "n"]]) by (vm_compute; reflexivity).
    rewrite SP. cbn [sbind fuse_pairs]. change (py_index ["c"; "n"] 0) with (SOk "c"). change (py_index ["c"; "n"] 1) with (SOk "n"). cbn [sbind].
    change "c" with (n_name c1). change "n" with (n_name b1). rewrite E. reflexivity.
  - rewrite NO; cbn; auto.
  - apply (sf_nodes _ _ _ _ SF). right. split; [rewrite NO; cbn; auto|split; discriminate].
  - destruct (sf_vals _ _ _ _ SF) as (w & W & W' & B' & Ew & Vw & Vw' & _ & LW & _ & _ & x & t & gn & ben & mn & vn & G & B & M & V & Ic & Uc & Ib & Vg & _ & _ & Vv & _ & Spec).
    cbn in Ew. injection Ew as <-. vm_compute in Vw. injection Vw as <-. cbn in Ib. injection Ib as <- <- <- <- <-. vm_compute in Vg, Vv. injection Vg as <-. injection Vv as <-.
    rewrite Vw'. destruct (Spec 0%nat _ eq_refl) as (_ & Q & _). destruct W' as [|k [|? ?]]; try discriminate. cbn [nth_error] in Q. injection Q as ->.
    change (Some (TW true [[[[(2 / sqrt (1 + 0) * 1)%R]]]]) = Some (TW true [[[[2%R]]]])). replace (2 / sqrt (1 + 0) * 1)%R with 2%R; [reflexivity|]. rewrite Rplus_0_r, sqrt_1. lra.
Qed.
