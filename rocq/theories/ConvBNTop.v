From Coq Require Import Reals Lra Lia.
From Verif Require Import PyBase PyBaseFacts GraphModel ShapeModel EditModel RelSpec RelProofs FusionModel FusionSpec FusionProofs FusionTop ConvBNModel ConvBNSpec ConvBNProofs.
Open Scope string_scope. Open Scope list_scope.

Lemma fold_arith (g v m b z e : R) : (0 < v + e)%R ->
  (g / sqrt (v + e) * z + (g / sqrt (v + e) * (0 - m) + b) = g * (z - m) / sqrt (v + e) + b)%R.
Proof. intros H. apply sqrt_lt_R0 in H. field. lra. Qed.

Section SEM.
Context (patch : string -> signal -> nat -> nat -> nat -> nat -> nat -> R)
        (other : node -> list (signal * option tval) -> list signal -> Prop).
Notation solves := (solves patch other). Notation node_eq := (node_eq patch other).

(** a node that reads none of the changed arrays and touches no changed signal keeps its equation *)
Lemma node_eq_frame eps rho rho' vals vals' n :
  (forall u, In u (n_in n) -> dget vals' u = dget vals u) ->
  (forall u, In u (n_in n) \/ In u (n_out n) -> rho' u = rho u) ->
  node_eq eps rho vals n -> node_eq eps rho' vals' n.
Proof.
  intros HV HR. unfold ConvBNSpec.node_eq, conv_eq, bn_eq, vget. destruct (String.eqb (n_op n) "Conv").
  - destruct (n_in n) as [|x [|w [|b [|? ?]]]] eqn:Ei; try tauto; destruct (n_out n) as [|y [|? ?]] eqn:Eo; try tauto.
    + intros (wr & W & A & B). exists wr, W. rewrite HV by (cbn; auto). split; [exact A|].
      intros p i k Hk. rewrite !HR by (cbn; auto). eauto.
    + intros (wr & W & Bi & A & A' & Le & B). exists wr, W, Bi. rewrite !HV by (cbn; auto). repeat split; auto.
      intros p i k Hk. rewrite !HR by (cbn; auto). eauto.
  - destruct (String.eqb (n_op n) "BatchNormalization").
    + destruct (n_in n) as [|x [|g [|b [|m [|v [|? ?]]]]]] eqn:Ei; try tauto; destruct (n_out n) as [|y [|? ?]] eqn:Eo; try tauto.
      intros (G & B & M & V & A1 & A2 & A3 & A4 & A5). exists G, B, M, V. rewrite !HV by (cbn; auto 10). repeat split; auto.
      intros p i Hi. rewrite !HR by (cbn; auto). auto.
    + intros H. replace (map (fun t => (rho' t, dget vals' t)) (n_in n)) with (map (fun t => (rho t, dget vals t)) (n_in n)).
      * replace (map rho' (n_out n)) with (map rho (n_out n)); [exact H|]. apply map_ext_in. intros; symmetry; apply HR; auto.
      * apply map_ext_in. intros u Hu. rewrite HR, HV by auto. reflexivity.
Qed.

Definition agree_off (ts : list string) (rho rho' : string -> signal) := forall u, ~ In u ts -> rho u = rho' u.

Lemma step_sound s s' c b : lite (cs_g s) -> In c (nodes_of (cs_g s)) -> In b (nodes_of (cs_g s)) ->
  pair_shape s c b -> pair_private (cs_g s) c b -> bias_fresh s c -> step_facts s s' c b ->
  (forall rho, solves rho s -> solves rho s') /\
  (forall rho', solves rho' s' -> exists rho, solves rho s /\ agree_off (n_out c) rho rho').
Proof.
  intros L Hc Hb (Oc & Ob & SH) Pr [Fr1 Fr2] SF.
  destruct (sf_vals _ _ _ _ SF) as (w & W & W' & B' & Ew & Vw & Vw' & Vb' & LW & LB & Vo & x & t & gn & ben & mn & vn & G & B & M & V & Ic & Uc & Ib & Vg & Vbe & Vm & Vv & LG & Spec).
  destruct SH as (x0 & w0 & t0 & y & gn0 & ben0 & mn0 & vn0 & W0 & G0 & B0 & M0 & V0 & Ic0 & Uc0 & Ib0 & Ub & _).
  clear Ic0 Uc0 Ib0 W0 G0 B0 M0 V0 gn0 ben0 mn0 vn0 x0 w0 t0.
  assert (Et : nth_error (n_out c) 0 = Some t) by (rewrite Uc; reflexivity).
  assert (NEcb : c <> b) by congruence.
  assert (Nt : forall n, In n (nodes_of (cs_g s)) -> In t (n_in n) -> n = b) by (intros n Hn; destruct (Pr n t w Hn Et Ew); auto).
  assert (Nw : forall n, In n (nodes_of (cs_g s)) -> In w (n_in n) -> n = c) by (intros n Hn; destruct (Pr n t w Hn Et Ew); auto).
  assert (OthV : forall n, In n (nodes_of (cs_g s)) -> n <> c -> forall u, In u (n_in n) -> dget (cs_vals s') u = dget (cs_vals s) u).
  { intros n Hn D u Hu. apply Vo; intros ->; [apply D; auto|]. destruct (Fr2 n Hn). contradiction. }
  assert (xt : x <> t). { intros ->. apply NEcb. apply Nt; auto. rewrite Ic. left; reflexivity. }
  assert (yt : y <> t). { intros ->. apply NEcb. eapply (lite_one _ c b t L); eauto; [rewrite Uc|rewrite Ub]; left; reflexivity. }
  assert (Opn : String.eqb (n_op (fused c b)) "Conv" = true) by (cbn; rewrite Oc; reflexivity).
  split.
  - intros rho HS n Hn. apply (sf_nodes _ _ _ _ SF) in Hn. rewrite (sf_eps _ _ _ _ SF). destruct Hn as [->|(Hn & D1 & D2)].
    + assert (Ec := HS c Hc). assert (Eb := HS b Hb). unfold ConvBNSpec.node_eq in Ec, Eb |- *. rewrite Opn.
      rewrite Oc in Ec. change (String.eqb "Conv" "Conv") with true in Ec. cbv iota in Ec.
      rewrite Ob in Eb. change (String.eqb "BatchNormalization" "Conv") with false in Eb. change (String.eqb "BatchNormalization" "BatchNormalization") with true in Eb. cbv iota in Eb.
      unfold conv_eq, vget in Ec |- *. rewrite Ic, Uc in Ec. unfold fused; cbn [n_in n_out n_name]. rewrite Ic, Ub. cbn [app].
      destruct Ec as (wr & W1 & A1 & A2). rewrite Vw in A1. injection A1 as <- <-.
      unfold bn_eq, vget in Eb. rewrite Ib, Ub in Eb. destruct Eb as (G1 & B1 & M1 & V1 & C1 & C2 & C3 & C4 & C5).
      rewrite Vg in C1. rewrite Vbe in C2. rewrite Vm in C3. rewrite Vv in C4. injection C1 as <-. injection C2 as <-. injection C3 as <-. injection C4 as <-.
      exists true, W', B'. split; [exact Vw'|]. split; [exact Vb'|]. split; [congruence|].
      intros p i k' Hk'. assert (Li : (i < length W)%nat) by (rewrite <- LW; apply nth_error_Some; congruence).
      destruct (nth_error W i) as [k|] eqn:Hk; [|apply nth_error_None in Hk; lia].
      destruct (Spec i k Hk) as (Pz & S1 & S2). rewrite S1 in Hk'. injection Hk' as <-.
      rewrite C5 by lia. rewrite (A2 p i k Hk). rewrite dot3_scale, S2. symmetry. apply fold_arith; auto.
    + eapply node_eq_frame; [| |apply HS; exact Hn]; auto. intros u Hu. apply (OthV n Hn D1 u Hu).
  - intros rho' HS.
    set (rho := fun u => if String.eqb u t then (fun p i => match nth_error W i with Some k => dot3 k (patch (n_name c) (rho' x) p i) | None => 0%R end) else rho' u).
    assert (Rt : forall u, u <> t -> rho u = rho' u) by (intros u D; unfold rho; destruct (String.eqb_spec u t); congruence).
    exists rho. split.
    + assert (Ef := HS (fused c b) (proj2 (sf_nodes _ _ _ _ SF _) (or_introl eq_refl))). unfold ConvBNSpec.node_eq in Ef. rewrite Opn in Ef.
      unfold conv_eq, vget, fused in Ef; cbn [n_in n_out n_name] in Ef. rewrite Ic, Ub in Ef. cbn [app] in Ef.
      destruct Ef as (wr & W1 & B1 & A1 & A2 & A3 & A4). rewrite Vw' in A1. injection A1 as <- <-. rewrite Vb' in A2. injection A2 as <-.
      intros n Hn. destruct (string_dec (n_name n) (n_name c)) as [E|E].
      { assert (n = c) by (eapply lite_inj; eauto). subst n. unfold ConvBNSpec.node_eq. rewrite Oc. change (String.eqb "Conv" "Conv") with true. cbv iota.
        unfold conv_eq, vget. rewrite Ic, Uc. exists true, W. split; [exact Vw|]. intros p i k Hk.
        rewrite (Rt x xt). unfold rho at 1. rewrite String.eqb_refl, Hk. reflexivity. }
      destruct (string_dec (n_name n) (n_name b)) as [E2|E2].
      { assert (n = b) by (eapply lite_inj; eauto). subst n. unfold ConvBNSpec.node_eq. rewrite Ob. change (String.eqb "BatchNormalization" "Conv") with false. change (String.eqb "BatchNormalization" "BatchNormalization") with true. cbv iota.
        unfold bn_eq, vget. rewrite Ib, Ub. exists G, B, M, V. repeat (split; [assumption|]). intros p i Hi.
        destruct (nth_error W i) as [k|] eqn:Hk; [|apply nth_error_None in Hk; lia].
        destruct (Spec i k Hk) as (Pz & S1 & S2). rewrite (Rt y yt). rewrite (A4 p i _ S1). rewrite dot3_scale, S2.
        unfold rho. rewrite String.eqb_refl, Hk. apply fold_arith; auto. }
      assert (Dc : n <> c) by congruence. assert (Db : n <> b) by congruence.
      rewrite <- (sf_eps _ _ _ _ SF). eapply node_eq_frame; [| |apply HS; apply (sf_nodes _ _ _ _ SF); right; auto].
      * intros u Hu. symmetry. apply (OthV n Hn Dc u Hu).
      * intros u Hu. apply Rt. intros ->. destruct Hu as [Hu|Hu]; [apply Db, Nt; auto|]. apply Dc. eapply (lite_one _ n c t L); eauto. rewrite Uc. left; reflexivity.
    + intros u Hu. apply Rt. intros ->. apply Hu. rewrite Uc. left; reflexivity.
Qed.

(** ** The loop *)
Record pair_ok (s : cstate) (c b : node) : Prop := {
  po_c : In c (nodes_of (cs_g s)); po_b : In b (nodes_of (cs_g s));
  po_shape : pair_shape s c b; po_priv : pair_private (cs_g s) c b; po_fresh : bias_fresh s c }.

Lemma pair_ok_step s s' c b c2 b2 : lite (cs_g s) -> pair_ok s c b -> pair_ok s c2 b2 -> c2 <> c -> b2 <> b ->
  step_facts s s' c b -> pair_ok s' c2 b2.
Proof.
  intros L [Hc Hb (Oc & Ob & SHx) Pr1 [Fr1 Fr2]] [Hc2 Hb2 SH2 Pr [Fs1 Fs2]] Dc Db SF.
  destruct (sf_vals _ _ _ _ SF) as (w & W & W' & B' & Ew & Vw & Vw' & Vb' & LW & LB & Vo & x & t & gn & ben & mn & vn & G & B & M & V & Ic & Uc & Ib & _).
  assert (Et : nth_error (n_out c) 0 = Some t) by (rewrite Uc; reflexivity).
  destruct SH2 as (Oc2 & Ob2 & SH2).
  assert (c2b : c2 <> b) by congruence. assert (b2c : b2 <> c) by congruence.
  destruct SH2 as (x2 & w2 & t2 & y2 & gn2 & ben2 & mn2 & vn2 & W2 & G2 & B2 & M2 & V2 & Ic2 & Uc2 & Ib2 & Ub2 & Vw2 & Vg2 & Vb2 & Vm2 & Vv2 & Ls & Lb & Lm & Lv & Ps).
  assert (Same : forall n u, In n (nodes_of (cs_g s)) -> n <> c -> In u (n_in n) -> dget (cs_vals s') u = dget (cs_vals s) u).
  { intros n u Hn D Hu. apply Vo; intros ->; [apply D; destruct (Pr1 n t w Hn Et Ew); auto|]. destruct (Fr2 n Hn); contradiction. }
  assert (Et2 : nth_error (n_out c2) 0 = Some t2) by (rewrite Uc2; reflexivity).
  assert (Ew2 : nth_error (n_in c2) 1 = Some w2) by (rewrite Ic2; reflexivity).
  assert (BN : bias_name (n_name c2) <> bias_name (n_name c)).
  { intros E. apply append_inj in E. apply Dc. eapply lite_inj; eauto. }
  constructor.
  - apply (sf_nodes _ _ _ _ SF). right. auto.
  - apply (sf_nodes _ _ _ _ SF). right. auto.
  - split; [exact Oc2|]. split; [exact Ob2|]. exists x2, w2, t2, y2, gn2, ben2, mn2, vn2, W2, G2, B2, M2, V2.
    rewrite (Same c2 w2 Hc2 Dc) by (rewrite Ic2; cbn; auto).
    rewrite (Same b2 gn2 Hb2 b2c), (Same b2 ben2 Hb2 b2c), (Same b2 mn2 Hb2 b2c), (Same b2 vn2 Hb2 b2c) by (rewrite Ib2; cbn; auto 10).
    rewrite (sf_eps _ _ _ _ SF). repeat (split; [assumption|]). assumption.
  - intros n t' w' Hn Et' Ew'. rewrite Et2 in Et'. injection Et' as <-. rewrite Ew2 in Ew'. injection Ew' as <-.
    apply (sf_nodes _ _ _ _ SF) in Hn. destruct Hn as [->|(Hn & D1 & D2)]; [|apply (Pr n t2 w2 Hn Et2 Ew2)].
    cbn [fused n_in]. rewrite in_app_iff, in_app_iff. cbn [In]. destruct (Pr c t2 w2 Hc Et2 Ew2) as [P1 P2].
    split; intros [H|[H|[]]].
    + exfalso. apply b2c. symmetry. auto.
    + exfalso. destruct (Fr2 c2 Hc2) as [_ Q]. apply Q. rewrite H, Uc2. left; reflexivity.
    + exfalso. apply Dc. symmetry. auto.
    + exfalso. destruct (Fr2 c2 Hc2) as [Q _]. apply Q. rewrite H, Ic2. cbn; auto.
  - split.
    + rewrite Vo; auto. intros E. destruct (Fs2 c Hc) as [Q _]. apply Q. rewrite E, Ic. cbn; auto.
    + intros n Hn. apply (sf_nodes _ _ _ _ SF) in Hn. destruct Hn as [->|(Hn & _)]; [|apply Fs2; auto].
      cbn [fused n_in n_out]. split.
      * rewrite in_app_iff. intros [H|[H|[]]]; [destruct (Fs2 c Hc); contradiction|congruence].
      * apply Fs2; auto.
Qed.

Lemma fuse_pairs_ok ps : forall s, lite (cs_g s) -> (forall c b, In (c, b) ps -> pair_ok s c b) ->
  NoDup (map fst ps) -> NoDup (map snd ps) ->
  exists s', fuse_pairs s (map (fun p => [n_name (fst p); n_name (snd p)]) ps) = SOk s' /\
    (forall rho, solves rho s -> solves rho s') /\
    (forall rho', solves rho' s' -> exists rho, solves rho s /\ agree_off (flat_map (fun p => n_out (fst p)) ps) rho rho') /\
    (forall n, In n (nodes_of (cs_g s')) <-> (exists p, In p ps /\ n = fused (fst p) (snd p)) \/
                                             (In n (nodes_of (cs_g s)) /\ ~ In n (map fst ps) /\ ~ In n (map snd ps))) /\
    (forall o, In o (g_output (cs_g s)) -> ~ In o (flat_map (fun p => n_out (snd p)) ps) -> In o (g_output (cs_g s'))).
Proof.
  induction ps as [|[c b] ps IH]; intros s L H N1 N2.
  - exists s. cbn. split; [reflexivity|]. split; [auto|]. split; [intros rho' Hs; exists rho'; split; [exact Hs|intros u _; reflexivity]|]. split; [|auto].
    intros n. split; [auto|]. intros [(p & [] & _)|[Q _]]; auto.
  - cbn [map fst snd] in N1, N2. inversion N1 as [|? ? A1 N1']; subst. inversion N2 as [|? ? A2 N2']; subst.
    destruct (H c b (or_introl eq_refl)) as [Hc Hb SH Pr Fr].
    destruct (fuse_pair_step s c b L Hc Hb SH Fr) as (s1 & E1 & SF).
    destruct (step_sound s s1 c b L Hc Hb SH Pr Fr SF) as [F1 F2].
    assert (OK1 : forall c2 b2, In (c2, b2) ps -> pair_ok s1 c2 b2).
    { intros c2 b2 I. apply (pair_ok_step s s1 c b c2 b2); [exact L|exact (H c b (or_introl eq_refl))|apply H; right; exact I| | |exact SF].
      - intros ->. apply A1. apply in_map_iff. exists (c, b2). auto.
      - intros ->. apply A2. apply in_map_iff. exists (c2, b). auto. }
    destruct (IH s1 (sf_lite _ _ _ _ SF) OK1 N1' N2') as (s' & E' & K1 & K2 & K3 & K4).
    exists s'. cbn [map fuse_pairs fst snd].
    change (py_index [n_name c; n_name b] 0) with (SOk (n_name c)). change (py_index [n_name c; n_name b] 1) with (SOk (n_name b)). cbn [sbind].
    rewrite E1. cbn [sbind]. split; [exact E'|]. split; [auto|]. split; [|split].
    + intros rho' Hs. destruct (K2 rho' Hs) as (rho1 & S1 & G1). destruct (F2 rho1 S1) as (rho & S0 & G0). exists rho. split; [exact S0|].
      intros u Hu. cbn [flat_map fst] in Hu. rewrite in_app_iff in Hu. rewrite G0 by tauto. apply G1. tauto.
    + assert (OpF : n_op (fused c b) = "Conv") by (destruct SH as (Q & _); exact Q).
      assert (Ops : forall p, In p ps -> n_op (fst p) = "Conv" /\ n_op (snd p) = "BatchNormalization" /\ In (fst p) (nodes_of (cs_g s)) /\ In (snd p) (nodes_of (cs_g s))).
      { intros [c2 b2] I. destruct (H c2 b2 (or_intror I)) as [Q1 Q2 (Q3 & Q4 & _) _ _]. auto. }
      intros n. rewrite K3. split.
      * intros [(p & I & ->)|(I & D1 & D2)]; [left; exists p; split; [right; exact I|reflexivity]|].
        apply (sf_nodes _ _ _ _ SF) in I. destruct I as [->|(I & D3 & D4)].
        -- left. exists (c, b). split; [left; reflexivity|reflexivity].
        -- right. cbn [map fst snd In]. split; [exact I|]. split; intros [Q|Q]; congruence.
      * intros [(p & [<-|I] & ->)|(I & D1 & D2)].
        -- right. cbn [fst snd]. split; [apply (sf_nodes _ _ _ _ SF); left; reflexivity|]. split; intros Q; apply in_map_iff in Q as (p & E & I).
           ++ destruct (Ops p I) as (_ & _ & I1 & _). assert (fst p = c) by (eapply lite_inj; eauto; rewrite E; reflexivity).
              apply A1. rewrite <- H0. apply in_map. exact I.
           ++ destruct (Ops p I) as (_ & Q & _). rewrite E, OpF in Q. discriminate.
        -- left. exists p. auto.
        -- right. cbn [map fst snd In] in D1, D2. split; [apply (sf_nodes _ _ _ _ SF); right; split; [exact I|split; intros ->; tauto]|]. tauto.
    + intros o Ho Hn. cbn [flat_map snd] in Hn. rewrite in_app_iff in Hn. apply K4; [|tauto]. rewrite (sf_out _ _ _ _ SF).
      destruct SH as (_ & _ & x & w & t & y & gn & ben & mn & vn & W & G & B & M & V & _ & _ & _ & Ub & _). rewrite Ub in Hn |- *.
      destruct (memb y (g_output (cs_g s))); [|exact Ho]. apply In_remove1_neq; auto. intros ->. apply Hn. left. left. reflexivity.
Qed.

(** ** The whole pass *)
Definition fgraph_of (s : cstate) : fgraph := {| fg := cs_g s; fattr := cs_attr s |}.
Lemma convbn_pairs G : exact (fg G) -> kernels_2d G -> forall ls, (forall n, In n ls -> In n (nodes_of (fg G))) ->
  NoDup ls ->
  exists ps, flat_map (convbn_match G) ls = map (fun p => [n_name (fst p); n_name (snd p)]) ps /\
    (forall c b, In (c, b) ps -> In c ls /\ In b (nodes_of (fg G)) /\ small_conv G c /\ normalises b c) /\ NoDup (map fst ps) /\ NoDup (map snd ps).
Proof.
  intros HX HK. induction ls as [|n ls IH]; intros Hin N.
  - exists []. cbn. repeat split; try constructor; try contradiction.
  - inversion N as [|? ? Hn N']; subst. destruct (IH (fun m Hm => Hin m (or_intror Hm)) N') as (ps & E & P & P1 & P2).
    cbn [flat_map]. rewrite E. unfold convbn_match at 1.
    assert (Keep : exists ps0, [] ++ map (fun p : node * node => [n_name (fst p); n_name (snd p)]) ps = map (fun p => [n_name (fst p); n_name (snd p)]) ps0 /\
       (forall c b, In (c, b) ps0 -> In c (n :: ls) /\ In b (nodes_of (fg G)) /\ small_conv G c /\ normalises b c) /\ NoDup (map fst ps0) /\ NoDup (map snd ps0)).
    { exists ps. split; [reflexivity|]. split; [|auto]. intros c b I. destruct (P c b I) as (Q1 & Q2). split; [right; exact Q1|exact Q2]. }
    destruct (convb G n) eqn:C; [|exact Keep]. destruct (n_out n) as [|t ro] eqn:Ho; [exact Keep|].
    destruct (find (bn_of G t) (occurrences n_in (nodes_of (fg G)) t)) as [k|] eqn:Fi; [|exact Keep]. clear Keep.
    apply find_some in Fi as [Hocc Hbn]. apply In_occurrences in Hocc as (b & Hb & <- & Hib).
    unfold bn_of in Hbn. rewrite (In_dget _ _ _ _ (ex_nodup _ HX) (nodes_In G HX _ Hb)) in Hbn.
    apply andb_prop in Hbn as [Hop Hhd]. apply String.eqb_eq in Hop.
    destruct (n_in b) as [|i ri] eqn:Ei; [discriminate|]. apply String.eqb_eq in Hhd. subst i.
    apply convb_spec in C.
    exists ((n, b) :: ps). cbn [map fst snd app]. split; [reflexivity|]. split; [|split].
    + intros c0 b0 [Q|I]; [injection Q as <- <-; repeat split; auto; [left; reflexivity|exact (proj1 C)|exact (proj2 C)|exists t, ro, ri; auto]|].
      destruct (P c0 b0 I) as (Q1 & Q2). split; [right; exact Q1|exact Q2].
    + constructor; [|exact P1]. intros I. apply in_map_iff in I as ([c0 b0] & E0 & I). cbn in E0. subst c0. destruct (P n b0 I) as (Q & _). contradiction.
    + constructor; [|exact P2]. intros I. apply in_map_iff in I as ([c0 b0] & E0 & I). cbn in E0. subst b0. destruct (P c0 b I) as (Q & _ & _ & (_ & t' & ro' & ri' & Q1 & Q2)).
      rewrite Ei in Q2. injection Q2 as <- <-.
      assert (P3 := prod_unique G HX _ _ _ (Hin n (or_introl eq_refl)) Ho). assert (P4 := prod_unique G HX _ _ _ (Hin c0 (or_intror Q)) Q1). rewrite P3 in P4. injection P4 as P4.
      apply Hn. replace n with c0; [exact Q|].
      assert (A := In_dget _ _ _ _ (ex_nodup _ HX) (nodes_In G HX _ (Hin n (or_introl eq_refl)))).
      assert (B := In_dget _ _ _ _ (ex_nodup _ HX) (nodes_In G HX _ (Hin c0 (or_intror Q)))). rewrite P4 in A. congruence.
Qed.
End SEM.
