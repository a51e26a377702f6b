(** C108: patterns taken from selected nodes. *)
From Verif Require Import PyBase PyBaseFacts GraphModel ShapeModel RelSpec RelProofs EditModel PartitionModel FusionModel FusionSpec FusionProofs FusionTop FusionMeets FuseProofs RegressProofs DescModel DescSpec DescProofs DescChain Props_Fusion.
From Coq Require Import Lia.
Open Scope string_scope. Open Scope list_scope. Open Scope Z_scope.

(** the descriptors say exactly how the selected nodes are wired to each other *)
Theorem C108_exact_wiring : forall g names, exact g -> NoDup names -> (forall k, In k names -> exists n, dget (nodemap g) k = Some n) ->
  exists ds, create_descs g names = SOk ds /\ Forall2 (describes g names) names ds.
Proof. intros g names X. exact (create_descs_ok g X names). Qed.
(** so the selected nodes themselves are a match of the pattern *)
Theorem C108_own_match : forall G names ds, exact (fg G) -> NoDup names -> (forall k, In k names -> exists n, dget (nodemap (fg G)) k = Some n) ->
  create_descs (fg G) names = SOk ds -> is_match G ds (fun dk => if memb dk names then Some dk else None).
Proof.
  intros G names ds X N K E. destruct (create_descs_ok (fg G) X names N K) as (ds' & E' & D). rewrite E in E'. injection E' as <-. intros d Hd.
  assert (H : exists k, In k names /\ describes (fg G) names k d).
  { clear -D Hd. revert D. generalize (describes (fg G) names). intros R D. induction D as [|k d' l l' R1 _ IH]; [contradiction|]. destruct Hd as [->|Hd]; [exists k; split; [left; reflexivity|exact R1]|]. destruct (IH Hd) as (k' & A & B). exists k'. split; [right; exact A|exact B]. }
  destruct H as (k & Ik & n & Hn & Dn & Do & Da & Din & Dout). exists k, n. rewrite Dn, (proj2 (memb_In k names) Ik). split; [reflexivity|]. split; [exact Hn|]. split; [|split].
  - split; [rewrite Do; right; reflexivity|]. rewrite Da. intros x [].
  - intros e He. apply Din in He as (m & Im & Hm & O0 & I0 & t & A & B). exists (e_desc e), m. rewrite (proj2 (memb_In _ names) Im). split; [reflexivity|]. split; [exact Hm|]. exists t. unfold at_port.
    destruct (Z.eqb_spec (e_other e) (-1)); [lia|]. destruct (Z.eqb_spec (e_idx e) (-1)); [lia|]. auto.
  - intros e He. apply Dout in He as (m & Im & Hm & O0 & I0 & t & A & B). exists (e_desc e), m. rewrite (proj2 (memb_In _ names) Im). split; [reflexivity|]. split; [exact Hm|]. exists t. unfold at_port.
    destruct (Z.eqb_spec (e_other e) (-1)); [lia|]. destruct (Z.eqb_spec (e_idx e) (-1)); [lia|]. auto.
Qed.
Theorem C108_unknown_name : forall g names k, In k names -> dget (nodemap g) k = None -> create_descs g names = SRaise KeyErr.
Proof.
  intros g names k I H. unfold create_descs. assert (E : smap (fun k => let* n := dlook (nodemap g) k in SOk (k, n)) names = SRaise KeyErr); [|rewrite E; reflexivity].
  induction names as [|x l IH]; [contradiction|]. cbn [smap]. unfold dlook at 1. destruct (dget (nodemap g) x) as [n|] eqn:Hx; cbn [sbind]; [|reflexivity]. destruct I as [->|I]; [congruence|]. rewrite (IH I). reflexivity.
Qed.

(** a chain is found again *)
Lemma search_from_has fuel G P first k p SS ns n : forall names ls, search_from fuel G P first names = SOk ls -> In k names -> dget (nodemap (fg G)) k = Some n -> is_node G first n = SOk true ->
  search_node fuel G P (p_first P, k) [] = SOk (true, p, SS) -> place (dkeys (p_desc P)) p (repeat "a" (length (dkeys (p_desc P)))) = SOk ns -> In ns ls.
Proof.
  induction names as [|x l IH]; intros ls E I Hn Is Sn Pl; [contradiction|]. cbn [search_from] in E. apply sbind_ok in E as (nx & Hx & E). apply sbind_ok in E as (b & Hb & E). apply sbind_ok in E as (here & Hh & E). apply sbind_ok in E as (rest & Hr & E). injection E as <-.
  apply in_or_app. destruct I as [->|I]; [left|right; eapply IH; eauto].
  apply dlook_ok in Hx. rewrite Hn in Hx. injection Hx as <-. rewrite Is in Hb. injection Hb as <-. rewrite Sn in Hh. cbn [sbind] in Hh. rewrite Pl in Hh. cbn [sbind] in Hh. injection Hh as <-. left. reflexivity.
Qed.
Lemma place_id keys : NoDup keys -> forall nodes, length nodes = length keys -> place keys (map (fun x => (x, x)) keys) nodes = SOk keys.
Proof.
  intros N nodes L. destruct (place keys (map (fun x => (x, x)) keys) nodes) as [ns|e] eqn:E.
  - destruct (place_spec keys N _ _ _ E L) as (L' & H). f_equal. clear E. apply (nth_ext _ _ "" ""); [exact L'|]. intros i Hi. rewrite L' in Hi.
    destruct (nth_error keys i) as [dk|] eqn:Ek; [|apply nth_error_None in Ek; lia]. destruct (H i dk Ek) as (k & A & [B|(_ & B)]).
    + apply in_map_iff in B as (x & [= <- <-] & _). rewrite (nth_error_nth _ _ _ A), (nth_error_nth _ _ _ Ek). reflexivity.
    + exfalso. apply B. rewrite map_map, map_id. eapply nth_error_In; eauto.
  - exfalso. assert (G : forall p nodes, (forall x y, In (x, y) p -> In x keys) -> exists ns, place keys p nodes = SOk ns).
    { induction p as [|[a b] p IH]; intros nds H; [eexists; reflexivity|]. cbn [place]. destruct (index_of_in a keys (H a b (or_introl eq_refl))) as (i & ->). cbn [sbind]. apply IH. intros x y I. apply (H x y). right. exact I. }
    destruct (G (map (fun x => (x, x)) keys) nodes) as (ns & C); [|congruence]. intros x y I. apply in_map_iff in I as (z & [= <- <-] & I). exact I.
Qed.
Theorem C108_chain_found_partial : forall G names ds ls, exact (fg G) -> NoDup names -> names <> [] -> (forall k, In k names -> exists n, dget (nodemap (fg G)) k = Some n) -> is_chain (fg G) names ->
  create_descs (fg G) names = SOk ds -> search_pattern G (mk_pattern ds false) = SOk ls -> In names ls.
Proof.
  intros G names ds ls X N NE K CH E S0. destruct (create_descs_ok (fg G) X names N K) as (ds' & E' & D). rewrite E in E'. injection E' as <-.
  destruct names as [|k post]; [congruence|]. pose proof (described_names _ _ _ _ D) as DN. assert (PF : p_first (mk_pattern ds false) = k) by (destruct ds as [|d ds]; [discriminate|]; cbn in DN |- *; congruence).
  unfold search_pattern in S0. apply sbind_ok in S0 as (first & F & S0). apply dlook_ok in F. rewrite PF in F.
  destruct (desc_of G (k :: post) N ds D k (or_introl eq_refl)) as (d & Dk & Dd). rewrite Dk in F. injection F as <-.
  destruct (K k (or_introl eq_refl)) as (n & Hn). pose proof (pattern_descs ds false) as PD. rewrite DN in PD. specialize (PD N).
  assert (KEYS : dkeys (p_desc (mk_pattern ds false)) = k :: post) by (rewrite PD; unfold dkeys; rewrite map_map; exact DN).
  eapply (search_from_has _ G (mk_pattern ds false) d k _ _ (k :: post) n _ _ S0).
  - unfold dkeys. apply dget_In in Hn. apply in_map_iff. exists (k, n). auto.
  - exact Hn.
  - exact (desc_is_node G (k :: post) k d n Dd Hn).
  - rewrite PF. apply (search_chain G X (k :: post) N K CH ds D post k []); [reflexivity|].
    assert (L : (length (k :: post) <= length (dkeys (nodemap (fg G))))%nat) by (apply NoDup_incl_length; [exact N|]; intros x Hx; destruct (K x Hx) as (nx & Hnx); apply dget_In in Hnx; apply in_map_iff; exists (x, nx); auto).
    unfold dkeys in L. rewrite map_length in L. cbn [length] in L. lia.
  - rewrite KEYS. apply place_id; [exact N|]. rewrite repeat_length. reflexivity.
Qed.
(** a convolution, its normalisation and an activation, read out of a graph with a residual connection behind them *)
Definition g_chain : fgraph := mkg [mkNode "c" "Conv" ["x"; "w"] ["t1"]; mkNode "b" "BatchNormalization" ["t1"; "s"] ["t2"]; mkNode "r" "Relu" ["t2"] ["t3"]; mkNode "d" "Conv" ["t3"; "v"] ["t4"]; mkNode "e" "Add" ["t4"; "t3"] ["y"]].
Example C108_chain_case : exact (fg g_chain) /\ is_chain (fg g_chain) ["c"; "b"; "r"] /\
  exists ds, create_descs (fg g_chain) ["c"; "b"; "r"] = SOk ds /\ search_pattern g_chain (mk_pattern ds false) = SOk [["c"; "b"; "r"]].
Proof.
  split; [apply exact_mkg; vm_compute; repeat constructor; cbn; intuition discriminate|]. split; [|eexists; split; [vm_compute; reflexivity|]; vm_compute; reflexivity].
  assert (NX : forall a b, next_in ["c"; "b"; "r"] a b -> (a = "c" /\ b = "b") \/ (a = "b" /\ b = "r")).
  { intros a b (pre & post & E). destruct pre as [|x [|y [|z [|]]]]; cbn in E; try discriminate; injection E; intros; subst; auto; try discriminate. }
  assert (N0 : next_in ["c"; "b"; "r"] "c" "b") by (exists [], ["r"]; reflexivity). assert (N1 : next_in ["c"; "b"; "r"] "b" "r") by (exists ["c"], []; reflexivity).
  constructor.
  - intros a b m n H A B. destruct (NX a b H) as [(-> & ->)|(-> & ->)]; vm_compute in A, B; injection A as <-; injection B as <-; exists 0, 0; eexists; (split; [lia|]); (split; [lia|]); split; [reflexivity| |reflexivity|]; split; reflexivity.
  - intros a b m n o i Ia Ib A B (O0 & I0 & t & Ho & Hi). apply nth_error_In in Ho, Hi.
    destruct Ia as [<-|[<-|[<-|[]]]], Ib as [<-|[<-|[<-|[]]]]; vm_compute in A, B; injection A as <-; injection B as <-; cbn in Ho, Hi; auto; exfalso; repeat (destruct Ho as [<-|Ho]; [intuition discriminate|]); exact Ho.
  - intros a b m n o i o' i' H A B (O0 & I0 & t & Ho & Hi) (O0' & I0' & t' & Ho' & Hi').
    destruct (NX a b H) as [(-> & ->)|(-> & ->)]; vm_compute in A, B; injection A as <-; injection B as <-;
      (assert (o = 0 /\ o' = 0) as (-> & ->) by (destruct (Z.to_nat o) as [|[|?]] eqn:Eo; try discriminate; destruct (Z.to_nat o') as [|[|?]] eqn:Eo'; try discriminate; split; lia));
      cbn in Ho, Ho'; injection Ho as <-; injection Ho' as <-; (split; [reflexivity|]);
      destruct (Z.to_nat i) as [|[|[|?]]] eqn:Ei; try discriminate; destruct (Z.to_nat i') as [|[|[|?]]] eqn:Ei'; try discriminate; lia.
Qed.
(** but two selected nodes with the same operator that read the same tensor are confused: the second is never matched, its place holds
    the placeholder "a", and fusing the subgraph between the tensors fails *)
Definition g_siblings : fgraph := mkg [mkNode "p" "Relu" ["x"] ["t"]; mkNode "q" "Exp" ["t"] ["y"]; mkNode "r" "Exp" ["t"] ["z"]].
Theorem C108_siblings_refuted : exact (fg g_siblings) /\ (exists ds, create_descs (fg g_siblings) ["p"; "q"; "r"] = SOk ds /\ search_pattern g_siblings (mk_pattern ds false) = SOk [["p"; "q"; "a"]]) /\
  forall op nm, fuse_iotensors g_siblings ["x"] ["y"; "z"] op nm = None.
Proof.
  split; [apply exact_mkg; vm_compute; repeat constructor; cbn; intuition discriminate|]. split; [eexists; split; [vm_compute; reflexivity|]; vm_compute; reflexivity|]. intros op nm. vm_compute. reflexivity.
Qed.
(** nodes outside the chosen tensors that look alike are fused as well: the pattern, not the selection, is what is fused *)
Example C108_elsewhere : exists g', fuse_iotensors (mkg [mkNode "p" "Relu" ["x"] ["t"]; mkNode "q" "Relu" ["t"] ["y"]]) ["x"] ["t"] "Fused" (fun i _ => if Nat.eqb i 0 then "F_0" else "F_1") = Some g' /\
  map n_op (nodes_of g') = ["Fused"; "Fused"].
Proof. eexists. split; [vm_compute; reflexivity|]. reflexivity. Qed.
