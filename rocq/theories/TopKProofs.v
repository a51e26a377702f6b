From Verif Require Import PyBase PyBaseFacts GraphModel CompressSpec RelSpec RelProofs TopSortSpec EditModel EditSpec
  RemoveProofs IoProofs FuseProofs ShapeModel ConvBNModel ComputeSpec ComputeProofs ComputeTop TopKModel TopKSpec.
Local Open Scope string_scope.
Local Open Scope list_scope.
Local Open Scope nat_scope.

(** ---- removing nodes from a graph whose other nodes were rewritten, outputs unchanged ---- *)
Section Lift.
Variable f : node -> node.
Hypothesis Hout : forall n, n_out (f n) = n_out n.
Variables (tm : dict tensor) (ini : list string).
Definition lift (g : graph) : graph :=
  mkGraph (map (fun kn => (fst kn, f (snd kn))) (nodemap g)) tm (producedby g) (consumedby g) ini (dynamics g) (g_input g) (g_output g).
Lemma dget_lift : forall (nm : dict node) k, dget (map (fun kn => (fst kn, f (snd kn))) nm) k = option_map f (dget nm k).
Proof. induction nm as [|[a n] r IH]; intros k; [reflexivity|]. cbn. destruct (String.eqb k a); [reflexivity|apply IH]. Qed.
Lemma ddel_lift : forall (nm : dict node) k, ddel (map (fun kn => (fst kn, f (snd kn))) nm) k = map (fun kn => (fst kn, f (snd kn))) (ddel nm k).
Proof. induction nm as [|[a n] r IH]; intros k; [reflexivity|]. cbn. destruct (String.eqb k a); [reflexivity|cbn; now rewrite IH]. Qed.
Lemma rm_in_lift : forall nm prod output name st i,
  rm_in (map (fun kn => (fst kn, f (snd kn))) nm) prod output name st i = rm_in nm prod output name st i.
Proof.
  intros nm prod output name [cns nn] i. unfold rm_in. destruct (dget cns i) as [l|]; [|reflexivity].
  destruct (Nat.eqb (length l) 1); [|reflexivity]. destruct (dget prod i) as [[|p [|q r]]|]; try reflexivity.
  unfold dangling. rewrite dget_lift. destruct (dget nm p) as [pn|]; cbn [option_map]; [rewrite Hout|]; reflexivity.
Qed.
Lemma rm_ins_lift : forall nm prod output name ins st,
  rm_ins (map (fun kn => (fst kn, f (snd kn))) nm) prod output name ins st = rm_ins nm prod output name ins st.
Proof.
  intros nm prod output name. induction ins as [|i r IH]; intros st; [reflexivity|]. cbn [rm_ins]. rewrite rm_in_lift.
  destruct (rm_in nm prod output name st i); cbn [bind]; auto.
Qed.
Lemma remove_node1_lift : forall g name, (forall n, In (name, n) (nodemap g) -> f n = n) ->
  remove_node1 (lift g) name = match remove_node1 g name with Ok (g', nn) => Ok (lift g', nn) | KeyError => KeyError | ValueError => ValueError | AssertionError => AssertionError end.
Proof.
  intros g name H. unfold remove_node1. cbn [lift nodemap producedby consumedby g_output]. rewrite dget_lift.
  destruct (dget (nodemap g) name) as [n|] eqn:E; cbn [option_map]; [|reflexivity]. rewrite (H n) by (now apply dget_In).
  destruct (rm_outs name (n_out n) (producedby g, g_output g)) as [[prod out]| | |]; cbn [bind]; try reflexivity.
  rewrite rm_ins_lift. destruct (rm_ins (nodemap g) prod out name (n_in n) (consumedby g, [])) as [[cns nn]| | |]; cbn [bind]; try reflexivity.
  unfold lift, with_rel. cbn. now rewrite ddel_lift.
Qed.
Lemma remove_node1_sub : forall g k g' nn, remove_node1 g k = Ok (g', nn) -> incl (nodemap g') (nodemap g).
Proof.
  intros g k g' nn. unfold remove_node1. destruct (dget (nodemap g) k) as [n|]; [|intros E; injection E as <- _; apply incl_refl].
  destruct (rm_outs _ _ _) as [[prod out]| | |]; cbn [bind]; try discriminate.
  destruct (rm_ins _ _ _ _ _ _) as [[cns nn']| | |]; cbn [bind]; try discriminate. intros E. injection E as <- _. cbn.
  intros [a m] I. clear - I. induction (nodemap g) as [|[b x] r IH]; [exact I|]. cbn in I. destruct (String.eqb k b); [right; exact I|].
  destruct I as [I|I]; [left; exact I|right; auto].
Qed.
Lemma remove_nodes_err : forall names (e : res graph), (forall g, e <> Ok g) ->
  fold_left (fun r k => bind r (fun g => bind (remove_node1 g k) (fun '(g', _) => Ok g'))) names e = e.
Proof. induction names as [|k r IH]; intros e H; [reflexivity|]. cbn [fold_left]. destruct e; [exfalso; eapply H; eauto| | |]; cbn [bind]; apply IH; discriminate. Qed.
Lemma remove_nodes_cons : forall g k r, remove_nodes g (k :: r) = bind (remove_node1 g k) (fun '(g', _) => remove_nodes g' r).
Proof.
  intros g k r. unfold remove_nodes. cbn [fold_left bind]. destruct (remove_node1 g k) as [[g' nn]| | |]; cbn [bind]; [reflexivity| | |]; apply remove_nodes_err; discriminate.
Qed.
Lemma remove_nodes_lift : forall names g, (forall k n, In k names -> In (k, n) (nodemap g) -> f n = n) ->
  remove_nodes (lift g) names = bind (remove_nodes g names) (fun g' => Ok (lift g')).
Proof.
  induction names as [|k r IH]; intros g H; [reflexivity|]. rewrite !remove_nodes_cons. rewrite remove_node1_lift by (intros n; apply H; left; reflexivity).
  destruct (remove_node1 g k) as [[g' nn]| | |] eqn:E; cbn [bind]; try reflexivity. apply IH.
  intros k' n I J. apply (H k' n); [right; exact I|]. eapply remove_node1_sub; eauto.
Qed.
End Lift.

Section TopK.
Variable g : graph.
Hypothesis HC : consistent g.
Variable rk : string -> nat.
Hypothesis Hrk : forall a b, feeds (nodemap g) a b -> rk a < rk b.
Hypothesis HR : k_rewritable g.

Lemma not_source : forall t, ~ source g t -> exists ps, dget (producedby g) t = Some ps.
Proof.
  intros t N. destruct (dget (producedby g) t) as [ps|] eqn:E; [eauto|]. exfalso. apply N. intros I. apply out_in in I. destruct I as (k & n & I & O).
  assert (X : In k (glist (producedby g) t)) by (apply (prod_spec g HC); eauto). unfold glist in X. rewrite E in X. destruct X.
Qed.
Lemma reads_count : forall t cs, dget (consumedby g) t = Some cs -> length cs = count t (reads_of (nodes_of g)).
Proof. intros t cs E. rewrite <- (consistent_reads g t HC). unfold glist. now rewrite E. Qed.
Lemma read_table : forall k n t, In (k, n) (nodemap g) -> In t (n_in n) -> exists cs, dget (consumedby g) t = Some cs.
Proof.
  intros k n t I R. assert (X : In k (glist (consumedby g) t)) by (apply (cons_spec g HC); eauto). unfold glist in X. destruct (dget (consumedby g) t); [eauto|destruct X].
Qed.
Lemma visit_k_ok : forall k n, In (k, n) (nodemap g) -> forall ins, incl ins (n_in n) ->
  (forall t, In t ins -> count t (reads_of (nodes_of g)) = 1 -> ~ source g t) -> forall q, visit_k g ins q = SOk (q ++ ups_of g ins).
Proof.
  intros k n Ik. induction ins as [|t r IH]; intros HI HS q; [cbn; now rewrite app_nil_r|]. cbn [visit_k ups_of flat_map]. fold (ups_of g r).
  destruct (read_table k n t Ik (HI t (or_introl eq_refl))) as (cs & E). rewrite E, (reads_count t cs E).
  assert (HI' : incl r (n_in n)) by (intros x X; apply HI; right; exact X).
  assert (HS' : forall t, In t r -> count t (reads_of (nodes_of g)) = 1 -> ~ source g t) by (intros x X; apply HS; right; exact X).
  destruct (Nat.eqb_spec (count t (reads_of (nodes_of g))) 1) as [C|C].
  - destruct (not_source t (HS t (or_introl eq_refl) C)) as (ps & P). rewrite P, IH by assumption. now rewrite <- app_assoc.
  - rewrite IH by assumption. destruct (dget (producedby g) t); reflexivity.
Qed.
Lemma k_only_node : forall p, k_only g p -> exists pn, In (p, pn) (nodemap g).
Proof. intros p H. destruct H as [k n t p pn _ _ _ I _|p k _ (pn & kn & t & I & _)]; eauto. Qed.
Lemma k_chain_ok : forall nm, (forall p, k_only g p -> dget nm p = dget (nodemap g) p) -> forall fuel q rm, (forall p, In p q -> k_only g p) ->
  total g (depth g rk) q <= fuel ->
  exists rm', k_chain fuel g nm q rm = Some (SOk rm') /\ forall x, In x rm' <-> In x rm \/ In x q \/ above g q x.
Proof.
  intros nm Hnm. induction fuel as [|fuel IH]; intros [|k r] rm HQ HF.
  1, 3: exists rm; split; [reflexivity|]; intros x; split; [auto|]; intros [H|[[]|H]]; [exact H|]; exfalso; induction H; auto.
  - exfalso. cbn [total fold_right] in HF. destruct (depth g rk); cbn [visits] in HF; lia.
  - cbn [k_chain]. assert (Kk : k_only g k) by (apply HQ; left; reflexivity). destruct (k_only_node k Kk) as (n & Ik).
    rewrite (Hnm k Kk), (node_at g HC _ _ Ik). destruct HR as [_ HR2]. destruct (HR2 k n Kk Ik) as [_ HS].
    rewrite (visit_k_ok k n Ik (n_in n) (incl_refl _) HS).
    assert (EU : ups_of g (n_in n) = ups g k) by (unfold ups; now rewrite (node_at g HC _ _ Ik)). rewrite EU.
    assert (Kd : In k (dkeys (nodemap g))) by (apply in_map_iff; exists (k, n); auto).
    destruct (IH (r ++ ups g k) (rm ++ [k])) as (rm' & E & H).
    { intros x I. apply in_app_iff in I. destruct I as [I|I]; [apply HQ; right; exact I|]. eapply ko_feed; [exact Kk|]. now apply (In_ups g HC). }
    { rewrite total_app. cbn [total fold_right] in HF. fold (total g (depth g rk) r) in HF.
      rewrite (visits_stable g HC rk Hrk (depth g rk) k (depth_ge g rk k Kd)) in HF. cbn [visits] in HF.
      fold (total g (depth g rk) (ups g k)) in HF. lia. }
    exists rm'. split; [exact E|]. intros x. rewrite H, !in_app_iff, above_step. cbn [In]. tauto.
Qed.

(** the nodemap after the nodes outside [rest] are treated *)
Definition treated (rest : list string) : dict node :=
  map (fun kn => (fst kn, if memb (fst kn) rest then snd kn else with_k fixed_name (snd kn))) (nodemap g).
Lemma dget_treated : forall rest k n, In (k, n) (nodemap g) -> dget (treated rest) k = Some (if memb k rest then n else with_k fixed_name n).
Proof.
  intros rest k n I. apply In_dget.
  - unfold treated, dkeys. rewrite map_map. cbn [fst]. apply (co_nd g HC).
  - unfold treated. apply in_map_iff. exists (k, n). auto.
Qed.
Lemma dset_in_place : forall (nm : dict node) k v, In k (dkeys nm) -> NoDup (dkeys nm) ->
  dset nm k v = map (fun kn => (fst kn, if String.eqb (fst kn) k then v else snd kn)) nm.
Proof.
  induction nm as [|[a n] r IH]; intros k v I ND; [destruct I|]. cbn [dset map fst snd]. cbn [dkeys map fst] in ND. inversion ND as [|? ? N1 N2]; subst.
  rewrite (String.eqb_sym a k). destruct (String.eqb_spec k a) as [->|N].
  - f_equal. clear - N1. induction r as [|[b m] r IH]; [reflexivity|]. cbn [map fst snd] in *. destruct (String.eqb_spec b a) as [->|N]; [exfalso; apply N1; left; reflexivity|].
    f_equal. apply IH. intros X. apply N1. right. exact X.
  - f_equal. apply IH; [|exact N2]. cbn [dkeys map fst In] in I; destruct I as [I|I]; [congruence|exact I].
Qed.
Lemma treated_next : forall rest k n, In (k, n) (nodemap g) -> ~ In k rest -> dset (treated (k :: rest)) k (with_k fixed_name n) = treated rest.
Proof.
  intros rest k n I N. rewrite dset_in_place.
  - unfold treated. rewrite map_map. apply map_ext_in. intros [a m] J. cbn [fst snd]. f_equal. cbn [memb].
    destruct (String.eqb_spec a k) as [->|Na].
    + assert (m = n) by (pose proof (node_at g HC _ _ I); pose proof (node_at g HC _ _ J); congruence). subst m.
      apply memb_nIn in N. rewrite N. reflexivity.
    + reflexivity.
  - unfold treated, dkeys. rewrite map_map. cbn [fst]. apply in_map_iff. exists (k, n). auto.
  - unfold treated, dkeys. rewrite map_map. cbn [fst]. apply (co_nd g HC).
Qed.
Lemma with_k_other : forall n, n_op n <> "TopK" -> with_k fixed_name n = n.
Proof. intros n H. unfold with_k. destruct (n_in n) as [|a [|b r]]; try reflexivity. destruct (String.eqb_spec (n_op n) "TopK"); [contradiction|reflexivity]. Qed.
Lemma treated_skip : forall rest k n, In (k, n) (nodemap g) -> ~ In k rest -> n_op n <> "TopK" -> treated (k :: rest) = treated rest.
Proof.
  intros rest k n I N H. unfold treated. apply map_ext_in. intros [a m] J. cbn [fst snd memb]. f_equal.
  destruct (String.eqb_spec a k) as [->|Na]; [|reflexivity].
  assert (m = n) by (pose proof (node_at g HC _ _ I); pose proof (node_at g HC _ _ J); congruence). subst m.
  apply memb_nIn in N. rewrite N. symmetry. now apply with_k_other.
Qed.
Lemma treated_all : treated (dkeys (nodemap g)) = nodemap g.
Proof.
  unfold treated. rewrite <- (map_id (nodemap g)) at 2. apply map_ext_in. intros [k n] I. cbn [fst snd].
  assert (M : memb k (dkeys (nodemap g)) = true) by (apply memb_In, in_map_iff; exists (k, n); auto). now rewrite M.
Qed.
Lemma set_with_k : forall n t, k_operand n t -> set_in n (ShapeModel.set_nth (n_in n) 1 fixed_name) = with_k fixed_name n.
Proof.
  intros n t [O E]. unfold with_k, set_in. destruct (n_in n) as [|a [|b r]]; try discriminate. rewrite O. reflexivity.
Qed.

Definition starts (k : string) (p : string) : Prop :=
  exists n t pn, In (k, n) (nodemap g) /\ k_operand n t /\ count t (reads_of (nodes_of g)) = 1 /\ In (p, pn) (nodemap g) /\ In t (n_out pn).
Lemma starts_k_only : forall k p, starts k p -> k_only g p.
Proof. intros k p (n & t & pn & A & B & C & D & E). exact (ko_start g k n t p pn A B C D E). Qed.
Lemma k_start_ok : forall k n t, In (k, n) (nodemap g) -> k_operand n t ->
  exists q, k_start g t = SOk q /\ (forall p, In p q <-> starts k p) /\ (q = [] \/ exists p, q = [p]).
Proof.
  intros k n t I K. assert (R : In t (n_in n)) by (destruct K as [_ K]; eapply nth_error_In; eauto).
  destruct (read_table k n t I R) as (cs & E). unfold k_start. rewrite E, (reads_count t cs E).
  destruct HR as [HR1 _]. destruct (HR1 k n I (proj1 K)) as (t' & T & S). destruct K as [K1 K2]. rewrite K2 in T. injection T as <-.
  assert (U : forall n' t', In (k, n') (nodemap g) -> k_operand n' t' -> t' = t).
  { intros n' t' I' [_ K']. assert (n' = n) by (pose proof (node_at g HC _ _ I); pose proof (node_at g HC _ _ I'); congruence). subst n'. congruence. }
  destruct (Nat.eqb_spec (count t (reads_of (nodes_of g))) 1) as [C|C].
  - destruct (not_source t (S C)) as (ps & P). rewrite P. exists [hd "" ps]. split; [reflexivity|]. split; [|right; eauto].
    intros p. split.
    + intros [<-|[]]. destruct (prod_some g HC t ps P) as (pn & P1 & P2). exists n, t, pn. repeat split; auto.
    + intros (n' & t' & pn & A & B & D & F & G). rewrite (U _ _ A B) in *. left. exact (prod_hd g HC t ps p pn P F G).
  - exists []. split; [reflexivity|]. split; [|left; reflexivity]. intros p. split; [intros []|]. intros (n' & t' & pn & A & B & D & _).
    rewrite (U _ _ A B) in D. contradiction.
Qed.
Definition topk_count (kns : list string) : nat :=
  length (filter (fun k => match dget (nodemap g) k with Some n => String.eqb (n_op n) "TopK" | None => false end) kns).
Lemma k_scan_ok : forall fuel, fuel_enough g rk fuel -> forall keys rm c, NoDup keys -> incl keys (dkeys (nodemap g)) ->
  exists rm', k_scan fuel g keys (treated keys) rm c = Some (SOk (treated [], rm', c + topk_count keys)) /\
    forall x, In x rm' <-> In x rm \/ exists k p, In k keys /\ starts k p /\ (x = p \/ above g [p] x).
Proof.
  intros fuel HF. induction keys as [|k r IH]; intros rm c ND HI.
  - exists rm. split; [cbn; now rewrite Nat.add_0_r|]. intros x. split; [auto|]. intros [H|(k & p & [] & _)]. exact H.
  - inversion ND as [|? ? N1 N2]; subst. assert (Kd : In k (dkeys (nodemap g))) by (apply HI; left; reflexivity).
    assert (exists n, In (k, n) (nodemap g)) as (n & Ik) by (apply in_map_iff in Kd; destruct Kd as ([k' n] & E & I); cbn in E; subst; eauto).
    assert (HI' : incl r (dkeys (nodemap g))) by (intros x X; apply HI; right; exact X).
    cbn [k_scan]. rewrite (dget_treated (k :: r) k n Ik). cbn [memb]. rewrite eqb_refl'. cbn [orb].
    unfold topk_count. cbn [filter]. rewrite (node_at g HC _ _ Ik).
    destruct (String.eqb_spec (n_op n) "TopK") as [O|O].
    + destruct HR as [HR1 _]. destruct (HR1 k n Ik O) as (t & T & _). rewrite T.
      assert (KO : k_operand n t) by (split; assumption).
      destruct (k_start_ok k n t Ik KO) as (q & E & Hq & Sq). rewrite E.
      destruct (k_chain_ok (treated (k :: r))) with (fuel := fuel) (q := q) (rm := rm) as (rm1 & E1 & H1).
      { intros p Kp. destruct (k_only_node p Kp) as (pn & Ip). rewrite (dget_treated (k :: r) p pn Ip), (node_at g HC _ _ Ip).
        destruct HR as [_ HR2]. rewrite (with_k_other pn) by (apply (HR2 p pn Kp Ip)). destruct (memb p (k :: r)); reflexivity. }
      { intros p Ip. apply Hq in Ip. eapply starts_k_only; eauto. }
      { destruct Sq as [->|(p & ->)]; [cbn; lia|]. cbn [total fold_right]. rewrite Nat.add_0_r. apply HF.
        assert (SP : starts k p) by (apply Hq; left; reflexivity). destruct SP as (n' & t' & pn & _ & _ & _ & Ip & _). apply in_map_iff. exists (p, pn). auto. }
      rewrite E1, (set_with_k n t KO), (treated_next r k n Ik N1).
      destruct (IH rm1 (S c) N2 HI') as (rm' & E2 & H2). exists rm'. split.
      { rewrite E2. cbn [length]. unfold topk_count. rewrite Nat.add_succ_comm. reflexivity. }
      intros x. rewrite H2, H1. split.
      * intros [[A|[A|A]]|(k' & p & A & B)]; [tauto| | |].
        -- right. exists k, x. split; [left; reflexivity|]. split; [now apply Hq|auto].
        -- destruct Sq as [->|(p & ->)]; [exfalso; induction A; auto|]. right. exists k, p. split; [left; reflexivity|]. split; [apply Hq; left; reflexivity|auto].
        -- right. exists k', p. split; [right; exact A|exact B].
      * intros [A|(k' & p & [<-|A] & B & D)]; [tauto| |].
        -- left. right. apply Hq in B. destruct Sq as [->|(p' & ->)]; [destruct B|]. destruct B as [->|[]]. destruct D as [->|D]; [left; left; reflexivity|right; exact D].
        -- right. exists k', p. auto.
    + rewrite (treated_skip r k n Ik N1 O). destruct (IH rm c N2 HI') as (rm' & E2 & H2). exists rm'. split; [exact E2|].
      intros x. rewrite H2. split.
      * intros [A|(k' & p & A & B)]; [auto|]. right. exists k', p. split; [right; exact A|exact B].
      * intros [A|(k' & p & [<-|A] & B)]; [auto| |right; eauto].
        exfalso. destruct B as [(n' & t & pn & Ik' & [K _] & _) _].
        assert (n' = n) by (pose proof (node_at g HC _ _ Ik); pose proof (node_at g HC _ _ Ik'); congruence). subst n'. contradiction.
Qed.
Lemma starts_above : forall x, (exists k p, In k (dkeys (nodemap g)) /\ starts k p /\ (x = p \/ above g [p] x)) <-> k_only g x.
Proof.
  intros x. split.
  - intros (k & p & _ & S & [->|A]); [eapply starts_k_only; eauto|]. apply starts_k_only in S.
    induction A as [k' p' [<-|[]] U|k' p' A IH U]; eapply ko_feed; eauto; now apply (In_ups g HC).
  - intros H. induction H as [k n t p pn Ik K C Ip O|p k _ IH F].
    + exists k, p. split; [apply in_map_iff; exists (k, n); auto|]. split; [exists n, t, pn; auto|auto].
    + destruct IH as (k' & p' & I & S & D). exists k', p'. split; [exact I|]. split; [exact S|]. right.
      destruct D as [->|D]; [eapply ab_here; [left; reflexivity|now apply (In_ups g HC)]|eapply ab_more; [exact D|now apply (In_ups g HC)]].
Qed.
Definition has_topk : bool := existsb (fun n => String.eqb (n_op n) "TopK") (nodes_of g).
Lemma topk_count_has : Nat.ltb 0 (topk_count (dkeys (nodemap g))) = has_topk.
Proof.
  assert (G : forall l, incl l (nodemap g) -> Nat.ltb 0 (topk_count (dkeys l)) = existsb (fun n => String.eqb (n_op n) "TopK") (map snd l)).
  { induction l as [|[k n] r IH]; intros HI; [reflexivity|]. unfold topk_count in *. cbn [dkeys map fst filter snd existsb].
    rewrite (node_at g HC k n) by (apply HI; left; reflexivity). destruct (String.eqb (n_op n) "TopK"); [reflexivity|]. apply IH. intros x X. apply HI. right. exact X. }
  exact (G (nodemap g) (incl_refl _)).
Qed.
Lemma with_k_out : forall c n, n_out (with_k c n) = n_out n.
Proof. intros c n. unfold with_k. destruct (n_in n) as [|a [|b r]]; try reflexivity. destruct (String.eqb (n_op n) "TopK"); reflexivity. Qed.
Lemma with_k_name : forall c n, n_name (with_k c n) = n_name n.
Proof. intros c n. unfold with_k. destruct (n_in n) as [|a [|b r]]; try reflexivity. destruct (String.eqb (n_op n) "TopK"); reflexivity. Qed.
Lemma topk_ok : forall fuel, fuel_enough g rk fuel ->
  exists g' rm, set_fixed_topk fuel g = Some (SOk g') /\ (forall x, In x rm <-> k_only g x) /\
    nodemap g' = map (fun kn => (fst kn, with_k fixed_name (snd kn))) (outside rm (nodemap g)) /\
    tensormap g' = (if has_topk then dset (tensormap g) fixed_name (mkTensor STATIC [1%Z] 8%Z) else tensormap g) /\
    initials g' = (if has_topk then initials g ++ [fixed_name] else initials g) /\ g_input g' = g_input g /\ dynamics g' = dynamics g /\
    (forall t, In t (g_output g') -> In t (g_output g)) /\ (forall t, In t (g_output g) -> ~ made_inside g rm t -> In t (g_output g')).
Proof.
  intros fuel HF. destruct (k_scan_ok fuel HF (dkeys (nodemap g)) [] 0 (co_nd g HC) (incl_refl _)) as (rm & E & H).
  rewrite treated_all in E. unfold set_fixed_topk. rewrite E. cbn [Nat.add]. rewrite topk_count_has.
  assert (HK : forall x, In x rm <-> k_only g x).
  { intros x. rewrite H, <- starts_above. split; [intros [[]|A]; exact A|auto]. }
  destruct (remove_nodes_ok rm g HC) as (g1 & R & C1 & M1 & T1 & I1 & D1 & GI1 & A1 & A2 & _).
  set (tm := if has_topk then _ else tensormap g). set (ini := if has_topk then _ else initials g).
  assert (L : mkGraph (treated []) tm (producedby g) (consumedby g) ini (dynamics g) (g_input g) (g_output g) = lift (with_k fixed_name) tm ini g) by reflexivity.
  rewrite L. rewrite (remove_nodes_lift (with_k fixed_name) (with_k_out fixed_name)).
  - rewrite R. cbn [bind of_res]. exists (lift (with_k fixed_name) tm ini g1), rm. split; [reflexivity|]. split; [exact HK|].
    cbn. rewrite M1. repeat (split; [first [reflexivity|assumption]|]). exact A2.
  - intros k n Ik In'. apply HK in Ik. apply with_k_other. destruct HR as [_ HR2]. apply (HR2 k n Ik In').
Qed.
End TopK.
