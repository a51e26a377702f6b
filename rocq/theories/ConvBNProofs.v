From Coq Require Import Reals Lra Lia.
From Verif Require Import PyBase PyBaseFacts GraphModel ShapeModel EditModel RelSpec RelProofs FusionModel FusionSpec FusionProofs FusionTop ConvBNModel ConvBNSpec.
Open Scope string_scope. Open Scope list_scope.

(** ** Arithmetic *)
Lemma sumi_scale {A B} (f : nat -> A -> R) (g : nat -> B -> R) (h : A -> B) s l : forall i,
  (forall j a, g j (h a) = (s * f j a)%R) -> sumi g i (map h l) = (s * sumi f i l)%R.
Proof. induction l as [|a l IH]; intros i H; cbn [map sumi]; [lra|]. rewrite H, IH by auto. lra. Qed.
Lemma dot3_scale s k x : dot3 (scale_kernel s k) x = (s * dot3 k x)%R.
Proof.
  unfold dot3, scale_kernel. apply sumi_scale. intros j a. apply sumi_scale. intros u b. apply sumi_scale. intros v w. lra.
Qed.

Lemma fold_bn_ok gamma beta mean var eps : forall w b i,
  length b = length w ->
  (forall j, (j < length w)%nat -> (i + j < length gamma)%nat /\ (i + j < length beta)%nat /\ (i + j < length mean)%nat /\ (i + j < length var)%nat /\
     (0 < nth (i + j) var 0 + eps)%R) ->
  exists w' b', fold_bn true gamma beta mean var eps i w b = SOk (w', b') /\ length w' = length w /\ length b' = length w /\
    forall j k, nth_error w j = Some k ->
      nth_error w' j = Some (scale_kernel (nth (i + j) gamma 0 / sqrt (nth (i + j) var 0 + eps))%R k) /\
      nth j b' 0%R = (nth (i + j) gamma 0 / sqrt (nth (i + j) var 0 + eps) * (nth j b 0 - nth (i + j) mean 0) + nth (i + j) beta 0)%R.
Proof.
  induction w as [|k w IH]; intros b i L H.
  - destruct b; [|discriminate]. exists [], []. cbn. repeat split; auto; destruct j; discriminate.
  - destruct b as [|b0 b]; [discriminate|]. cbn [length] in L. injection L as L.
    destruct (H 0%nat) as (A & B & C & D & E); [cbn; lia|]. rewrite Nat.add_0_r in *.
    destruct (IH b (S i) L) as (w' & b' & F & L1 & L2 & G).
    { intros j Hj. replace (S i + j)%nat with (i + S j)%nat by lia. apply H. cbn. lia. }
    assert (V : forall l, (i < length l)%nat -> vidx l i = SOk (nth i l 0%R)).
    { intros l Hl. unfold vidx. rewrite (nth_error_nth' l 0%R Hl). reflexivity. }
    cbn [fold_bn]. rewrite (V gamma A), (V var D). cbn [sbind].
    unfold bn_scale. destruct (Rlt_dec _ 0); [lra|]. destruct (Req_EM_T _ 0); [lra|]. cbn [sbind].
    rewrite (V beta B). cbn [sbind]. rewrite andb_false_r. rewrite (V mean C). cbn [sbind]. rewrite F. cbn [sbind fst snd].
    eexists; eexists. split; [reflexivity|]. cbn [length]. repeat split; try lia.
    + destruct j as [|j]; cbn [nth_error] in *.
      * rewrite Nat.add_0_r. injection H0 as ->. reflexivity.
      * replace (i + S j)%nat with (S i + j)%nat by lia. apply G; auto.
    + destruct j as [|j]; cbn [nth_error nth] in *.
      * rewrite Nat.add_0_r. reflexivity.
      * replace (i + S j)%nat with (S i + j)%nat by lia. apply (G j k0); auto.
Qed.

(** ** The invariant that survives each step *)
Record lite (g : graph) : Prop := {
  lt_names : forall k n, In (k, n) (nodemap g) -> n_name n = k;
  lt_nodup : NoDup (dkeys (nodemap g));
  lt_prod  : forall n o, In n (nodes_of g) -> In o (n_out n) -> dget (producedby g) o = Some [n_name n];
  lt_prod2 : forall t l, dget (producedby g) t = Some l -> exists n, In n (nodes_of g) /\ l = [n_name n] /\ (In t (n_out n) \/ n_op n = "Conv");
  lt_ndp   : NoDup (dkeys (producedby g)) }.

Lemma nodes_in g n : (forall k n, In (k, n) (nodemap g) -> n_name n = k) -> In n (nodes_of g) <-> In (n_name n, n) (nodemap g).
Proof.
  intros H. unfold nodes_of. split.
  - intros I. apply in_map_iff in I as ([k m] & <- & I). cbn. rewrite (H _ _ I). exact I.
  - intros I. apply in_map_iff. exists (n_name n, n). auto.
Qed.
Lemma lite_get g n : lite g -> In n (nodes_of g) -> dget (nodemap g) (n_name n) = Some n.
Proof. intros L H. apply In_dget; [apply (lt_nodup _ L)|]. apply nodes_in; auto. apply (lt_names _ L). Qed.
Lemma lite_inj g n m : lite g -> In n (nodes_of g) -> In m (nodes_of g) -> n_name n = n_name m -> n = m.
Proof. intros L A B E. apply (lite_get _ _ L) in A. apply (lite_get _ _ L) in B. rewrite E in A. congruence. Qed.
Lemma lite_one g n m o : lite g -> In n (nodes_of g) -> In m (nodes_of g) -> In o (n_out n) -> In o (n_out m) -> n = m.
Proof.
  intros L A B C D. assert (P1 := lt_prod _ L _ _ A C). assert (P2 := lt_prod _ L _ _ B D). rewrite P1 in P2.
  injection P2 as P2. eapply lite_inj; eauto.
Qed.

Lemma exact_lite g : exact g -> NoDup (dkeys (producedby g)) -> lite g.
Proof.
  intros E N. 
  assert (One : forall n o, In n (nodes_of g) -> In o (n_out n) -> occurrences n_out (nodes_of g) o = [n_name n]).
  { intros n o Hn Ho.
    assert (Hlen : length (occurrences n_out (nodes_of g) o) = count o (flat_map n_out (nodes_of g))) by apply occurrences_count.
    assert (C : (count o (flat_map n_out (nodes_of g)) <= 1)%nat).
    { generalize (ex_ssa _ E). clear. intros N. induction N as [|x l Hx N IH]; cbn [count]; [lia|]. destruct (String.eqb_spec o x); [|exact IH]. subst.
      apply count_zero in Hx. lia. }
    assert (I : In (n_name n) (occurrences n_out (nodes_of g) o)) by (apply In_occurrences; eauto).
    destruct (occurrences n_out (nodes_of g) o) as [|x [|z l]]; cbn [length] in *; [contradiction| |lia]. destruct I as [<-|[]]. reflexivity. }
  constructor; auto.
  - apply (ex_names _ E).
  - apply (ex_nodup _ E).
  - intros n o Hn Ho. rewrite (ex_prod _ E), (One n o); auto.
  - intros t l H. rewrite (ex_prod _ E) in H. unfold none_if_empty in H.
    destruct (occurrences n_out (nodes_of g) t) as [|x r] eqn:O; [discriminate|]. 
    assert (I : In x (occurrences n_out (nodes_of g) t)) by (rewrite O; left; reflexivity).
    apply In_occurrences in I as (n & Hn & <- & Ho). rewrite (One n t) in O by auto. injection O as <-. injection H as <-. exists n. auto.
Qed.

Lemma rm_ins_ok nm prod output name : (forall t l, dget prod t = Some l -> exists p q, l = [p] /\ dget nm p = Some q) ->
  forall ins st, exists st', rm_ins nm prod output name ins st = Ok st'.
Proof.
  intros H. induction ins as [|i r IH]; intros [cns nn]; cbn [rm_ins]; [eauto|].
  assert (exists st', rm_in nm prod output name (cns, nn) i = Ok st') as [st' ->]; [|cbn [bind]; apply IH].
  unfold rm_in. destruct (dget cns i) as [l|]; [|eauto].
  destruct (Nat.eqb (length l) 1); [|cbn [bind]; eauto].
  destruct (dget prod i) as [l'|] eqn:P; [|cbn [bind]; eauto]. destruct (H _ _ P) as (p & q & -> & Q).
  unfold dangling. rewrite Q. cbn [bind]. eauto.
Qed.

Lemma in_dset_nodes (nm : dict node) k v n : NoDup (dkeys nm) -> In k (dkeys nm) ->
  In n (map snd (dset nm k v)) <-> n = v \/ exists k', k' <> k /\ In (k', n) nm.
Proof.
  induction nm as [|[k0 v0] nm IH]; intros N I; [contradiction|]. cbn [dset dkeys map fst] in *. inversion N as [|? ? Hn N']; subst.
  destruct (String.eqb_spec k k0) as [->|D].
  - cbn [map snd In]. split.
    + intros [<-|H]; [auto|]. right. apply in_map_iff in H as ([k1 m] & <- & H). exists k1. split; [|right; exact H].
      intros ->. apply Hn. apply in_map_iff. exists (k0, m). auto.
    + intros [->|(k' & A & [B|B])]; [auto|congruence|]. right. apply in_map_iff. exists (k', n). auto.
  - destruct I as [->|I]; [congruence|]. cbn [map snd In]. rewrite (IH N' I). split.
    + intros [<-|[->|(k' & A & B)]]; [right; exists k0; auto|auto|right; exists k'; auto].
    + intros [->|(k' & A & [B|B])]; [auto|left; congruence|right; right; eauto].
Qed.
Lemma in_ddel_pairs {A} (d : dict A) k k' v : NoDup (dkeys d) -> In (k', v) (ddel d k) <-> In (k', v) d /\ k' <> k.
Proof.
  induction d as [|[k0 v0] d IH]; intros N; [cbn; tauto|]. cbn [ddel dkeys map fst] in *. inversion N as [|? ? Hn N']; subst.
  destruct (String.eqb_spec k k0) as [->|D].
  - split.
    + intros H. split; [right; exact H|]. intros ->. apply Hn. apply in_map_iff. exists (k0, v). auto.
    + intros [[E|H] Q]; [congruence|exact H].
  - cbn [In]. rewrite (IH N'). split.
    + intros [E|[H Q]]; [injection E as <- <-; auto|auto].
    + intros [[E|H] Q]; auto.
Qed.

Lemma string_length_append a b : String.length (a ++ b)%string = (String.length a + String.length b)%nat.
Proof. induction a; cbn; auto. Qed.
Lemma append_inj a b c : (a ++ c = b ++ c)%string -> a = b.
Proof.
  revert b; induction a as [|x a IH]; intros [|y b] H.
  - reflexivity.
  - exfalso. cbn in H. apply (f_equal String.length) in H. cbn in H. rewrite string_length_append in H. lia.
  - exfalso. cbn in H. apply (f_equal String.length) in H. cbn in H. rewrite string_length_append in H. lia.
  - cbn in H. injection H as -> H. f_equal. auto.
Qed.

(** ** One pair *)
Definition fused (c b : node) : node := mkNode (n_name c) (n_op c) (n_in c ++ [bias_name (n_name c)]) (n_out b).

Record step_facts (s s' : cstate) (c b : node) : Prop := {
  sf_eps : cs_eps s' = cs_eps s;
  sf_nodes : forall n, In n (nodes_of (cs_g s')) <-> n = fused c b \/ (In n (nodes_of (cs_g s)) /\ n <> c /\ n <> b);
  sf_lite : lite (cs_g s');
  sf_vals : exists w W W' B', nth_error (n_in c) 1 = Some w /\ dget (cs_vals s) w = Some (TW true W) /\
     dget (cs_vals s') w = Some (TW true W') /\ dget (cs_vals s') (bias_name (n_name c)) = Some (TV B') /\
     length W' = length W /\ length B' = length W /\
     (forall u, u <> w -> u <> bias_name (n_name c) -> dget (cs_vals s') u = dget (cs_vals s) u) /\
     exists x t gn ben mn vn G B M V, n_in c = [x; w] /\ n_out c = [t] /\ n_in b = [t; gn; ben; mn; vn] /\
       dget (cs_vals s) gn = Some (TV G) /\ dget (cs_vals s) ben = Some (TV B) /\ dget (cs_vals s) mn = Some (TV M) /\ dget (cs_vals s) vn = Some (TV V) /\
       length G = length W /\
       forall j k, nth_error W j = Some k ->
         (0 < nth j V 0 + cs_eps s (n_name b))%R /\
         nth_error W' j = Some (scale_kernel (nth j G 0 / sqrt (nth j V 0 + cs_eps s (n_name b)))%R k) /\
         nth j B' 0%R = (nth j G 0 / sqrt (nth j V 0 + cs_eps s (n_name b)) * (0 - nth j M 0) + nth j B 0)%R;
  sf_out : g_output (cs_g s') = match n_out b with [y] => if memb y (g_output (cs_g s)) then remove1 y (g_output (cs_g s)) else g_output (cs_g s) | _ => [] end;
  sf_attr : cs_attr s' = cs_attr s }.

Lemma nth_repeat0 j n : nth j (repeat 0%R n) 0%R = 0%R.
Proof. revert j; induction n; intros [|j]; cbn; auto. Qed.

Lemma fuse_pair_step s c b : lite (cs_g s) -> In c (nodes_of (cs_g s)) -> In b (nodes_of (cs_g s)) ->
  pair_shape s c b -> bias_fresh s c ->
  exists s', fuse_pair s (n_name c) (n_name b) = SOk s' /\ step_facts s s' c b.
Proof.
  intros L Hc Hb (Oc & Ob & x & w & t & y & gn & ben & mn & vn & W & G & B & M & V & Ic & Uc & Ib & Ub & Vw & Vg & Vb & Vm & Vv & LG & LB & LM & LV & Pos) [Fr1 Fr2].
  assert (Gc := lite_get _ _ L Hc). assert (Gb := lite_get _ _ L Hb).
  assert (NE : n_name c <> n_name b).
  { intros E. rewrite (lite_inj _ _ _ L Hc Hb E) in Oc. congruence. }
  destruct (fold_bn_ok G B M V (cs_eps s (n_name b)) W (repeat 0%R (length W)) 0) as (W' & B' & F & L1 & L2 & Spec).
  { apply repeat_length. }
  { intros j Hj. cbn [plus]. repeat split; try lia. apply Pos; auto. }
  unfold fuse_pair. unfold dlook at 1 2. rewrite Gc, Gb. cbn [sbind].
  rewrite Ic, Ib. 
  change (py_index [x; w] 1) with (SOk w). cbn [sbind]. unfold dlook at 1. rewrite Vw. cbn [sbind].
  change (py_index [t; gn; ben; mn; vn] 1) with (SOk gn). change (py_index [t; gn; ben; mn; vn] 2) with (SOk ben).
  change (py_index [t; gn; ben; mn; vn] 3) with (SOk mn). change (py_index [t; gn; ben; mn; vn] 4) with (SOk vn). cbn [sbind].
  unfold dlook. rewrite Vg. cbn [sbind]. rewrite Vb. cbn [sbind]. rewrite Vm. cbn [sbind]. rewrite Vv. cbn [sbind length Nat.eqb as_vec].
  rewrite F. cbn [sbind].
  set (g1 := mkGraph _ _ _ _ _ _ _ _).
  assert (Pb : dget (producedby (cs_g s)) y = Some [n_name b]) by (apply (lt_prod _ L b y Hb); rewrite Ub; left; reflexivity).
  set (out' := if memb y (g_output (cs_g s)) then remove1 y (g_output (cs_g s)) else g_output (cs_g s)).
  assert (RM : exists cns, remove_node g1 (n_name b) false = Ok (with_rel g1 (ddel (nodemap (cs_g s)) (n_name b)) (ddel (producedby (cs_g s)) y) cns out')).
  { unfold remove_node, remove_node1. change (nodemap g1) with (nodemap (cs_g s)). rewrite Gb, Ub.
    cbn [rm_outs]. unfold rm_out. change (producedby g1) with (producedby (cs_g s)). change (g_output g1) with (g_output (cs_g s)).
    rewrite Pb. cbn [memb remove1]. rewrite String.eqb_refl. cbn [put_or_pop bind]. fold out'.
    destruct (rm_ins_ok (nodemap (cs_g s)) (ddel (producedby (cs_g s)) y) out' (n_name b)) with (ins := n_in b) (st := (consumedby g1, @nil string)) as [[cns nn] ->].
    - intros t0 l H. destruct (string_dec y t0) as [<-|D].
      + rewrite dget_ddel_eq in H by apply (lt_ndp _ L). discriminate.
      + rewrite dget_ddel_neq in H by auto. destruct (lt_prod2 _ L _ _ H) as (m & Hm & -> & _). exists (n_name m), m. split; [reflexivity|]. apply lite_get; auto.
    - cbn [bind]. eauto. }
  destruct RM as [cns RM]. rewrite RM. cbn [of_res sbind]. rewrite Ub. change (py_index [y] 0) with (SOk y). cbn [sbind]. rewrite Uc. cbn [set_nth0].
  eexists. split; [reflexivity|].
  assert (NDel : NoDup (dkeys (ddel (nodemap (cs_g s)) (n_name b)))) by (apply NoDup_dkeys_ddel, (lt_nodup _ L)).
  assert (Cdel : In (n_name c) (dkeys (ddel (nodemap (cs_g s)) (n_name b)))).
  { apply in_map_iff. exists (n_name c, c). split; [reflexivity|]. apply in_ddel_pairs; [apply (lt_nodup _ L)|]. split; [apply dget_In; exact Gc|exact NE]. }
  assert (FE : mkNode (n_name c) (n_op c) ([x; w] ++ [bias_name (n_name c)]) [y] = fused c b) by (unfold fused; rewrite Ic, Ub; reflexivity).
  rewrite FE.
  assert (Nodes : forall n, In n (map snd (dset (ddel (nodemap (cs_g s)) (n_name b)) (n_name c) (fused c b))) <->
                    n = fused c b \/ (In n (nodes_of (cs_g s)) /\ n <> c /\ n <> b)).
  { intros n. rewrite (in_dset_nodes _ _ _ _ NDel Cdel). split; (intros [->|H]; [left; reflexivity|right]).
    - destruct H as (k' & D & I). apply in_ddel_pairs in I as [I D2]; [|apply (lt_nodup _ L)].
      assert (Q := lt_names _ L _ _ I). split; [unfold nodes_of; apply in_map_iff; exists (k', n); auto|]. split; congruence.
    - destruct H as (I & D1 & D2). exists (n_name n). split.
      + intros E. apply D1. eapply lite_inj; eauto.
      + apply in_ddel_pairs; [apply (lt_nodup _ L)|]. split; [apply nodes_in; auto; apply (lt_names _ L)|]. intros E. apply D2. eapply lite_inj; eauto. }
  constructor; cbn [cs_g cs_eps cs_vals cs_attr].
  - reflexivity.
  - exact Nodes.
  - constructor; cbn [nodemap producedby with_rel].
    + intros k n I. assert (NN := NoDup_dkeys_dset _ (ddel (nodemap (cs_g s)) (n_name b)) (n_name c) (fused c b) NDel).
      assert (GG := In_dget _ _ _ _ NN I). destruct (string_dec (n_name c) k) as [<-|D].
      * rewrite dget_dset_eq in GG. injection GG as <-. reflexivity.
      * rewrite dget_dset_neq in GG by auto. apply dget_In in GG. apply in_ddel_pairs in GG as [GG _]; [|apply (lt_nodup _ L)]. apply (lt_names _ L _ _ GG).
    + apply NoDup_dkeys_dset; auto.
    + intros n o Hn Ho. change (In n (map snd (dset (ddel (nodemap (cs_g s)) (n_name b)) (n_name c) (fused c b)))) in Hn. apply Nodes in Hn.
      rewrite dget_dset. destruct (String.eqb_spec o y) as [->|D].
      * destruct Hn as [->|(I & D1 & D2)]; [reflexivity|]. exfalso. apply D2. eapply (lite_one _ n b y); eauto. rewrite Ub; left; reflexivity.
      * rewrite dget_ddel_neq by auto. destruct Hn as [->|(I & D1 & D2)]; [|apply (lt_prod _ L); auto].
        cbn in Ho. rewrite Ub in Ho. destruct Ho as [->|[]]; congruence.
    + intros t0 l H. rewrite dget_dset in H.
      assert (Inc : forall n, n = fused c b \/ (In n (nodes_of (cs_g s)) /\ n <> c /\ n <> b) ->
        In n (nodes_of (mkGraph (dset (ddel (nodemap (cs_g s)) (n_name b)) (n_name c) (fused c b))
           (tensormap (with_rel g1 (ddel (nodemap (cs_g s)) (n_name b)) (ddel (producedby (cs_g s)) y) cns out'))
           (dset (ddel (producedby (cs_g s)) y) y [n_name c]) cns (initials g1) (dynamics g1) (g_input g1) out'))).
      { intros n Hn. apply Nodes in Hn. exact Hn. }
      destruct (String.eqb_spec t0 y) as [->|D].
      * injection H as <-. exists (fused c b). split; [apply Inc; left; reflexivity|split; [reflexivity|right; exact Oc]].
      * rewrite dget_ddel_neq in H by auto. destruct (lt_prod2 _ L _ _ H) as (m & Hm & -> & Hor).
        destruct (string_dec (n_name m) (n_name c)) as [E|E]; [exists (fused c b); split; [apply Inc; left; reflexivity|split; [rewrite E; reflexivity|right; exact Oc]]|].
        destruct (string_dec (n_name m) (n_name b)) as [E2|E2].
        { exfalso. assert (m = b) by (eapply lite_inj; eauto). subst m. destruct Hor as [Hor|Hor]; [|congruence]. rewrite Ub in Hor. destruct Hor as [Hor|[]]; congruence. }
        exists m. split; [|split; [reflexivity|exact Hor]]. apply Inc. right. repeat split; auto; congruence.
    + apply NoDup_dkeys_dset, NoDup_dkeys_ddel, (lt_ndp _ L).
  - exists w, W, W', B'. rewrite Ic. split; [reflexivity|]. split; [exact Vw|].
    assert (NW : w <> bias_name (n_name c)) by (intros ->; congruence).
    split; [rewrite dget_dset_neq by auto; apply dget_dset_eq|]. split; [apply dget_dset_eq|]. split; [exact L1|]. split; [exact L2|].
    split; [intros u D1 D2; rewrite !dget_dset_neq by auto; reflexivity|].
    exists x, t, gn, ben, mn, vn, G, B, M, V. repeat (split; [first [reflexivity|assumption]|]).
    intros j k Hj. destruct (Spec j k Hj) as [A1 A2]. rewrite nth_repeat0 in A2. cbn [plus] in A1, A2. split; [|split; [exact A1|exact A2]].
    apply Pos. apply nth_error_Some. congruence.
  - rewrite Ub. reflexivity.
  - reflexivity.
Qed.
