From Verif Require Import PyBase PyBaseFacts GraphModel ShapeModel FusionModel.
From Coq Require Import Lia.
Open Scope string_scope. Open Scope Z_scope.

Section INV.
Context (G : fgraph) (P : pattern).
Let keys := dkeys (nodemap (fg G)).

(** the pair meets the condition of its descriptor *)
Definition good (dn : string * string) : Prop :=
  exists d n, dget (p_desc P) (fst dn) = Some d /\ dget (nodemap (fg G)) (snd dn) = Some n /\ is_node G d n = SOk true.

(** what a piece of the search collected since [searched] was [S0] *)
Definition Inv (S0 : list string) (s : st) : Prop :=
  let '(v, p, SS) := s in
  NoDup SS /\ incl S0 SS /\ incl SS keys /\ Forall good p /\ NoDup (map snd p) /\
  (forall k, In k (map snd p) -> In k SS /\ ~ In k S0).

Definition rec_ok (rec : rec_t) : Prop :=
  forall dn SS s, NoDup SS -> incl SS keys -> ~ In (snd dn) SS -> good dn -> rec dn SS = SOk s -> Inv SS s.

Lemma sbind_ok {A B} (r : sres A) (f : A -> sres B) b : sbind r f = SOk b -> exists a, r = SOk a /\ f a = SOk b.
Proof. destruct r; cbn; intros H; [eauto|discriminate]. Qed.
Lemma dlook_ok {A} (d : dict A) k v : dlook d k = SOk v -> dget d k = Some v.
Proof. unfold dlook. destruct (dget d k); congruence. Qed.

Lemma Inv_flag S0 v v' p SS : Inv S0 (v, p, SS) -> Inv S0 (v', p, SS).
Proof. exact (fun H => H). Qed.
Lemma Inv_start SS v : NoDup SS -> incl SS keys -> Inv SS (v, [], SS).
Proof. intros H K. repeat split; auto; try (apply incl_refl); try constructor; contradiction. Qed.

Lemma Inv_extend S0 v p SS v' q SS' v'' : Inv S0 (v, p, SS) -> Inv SS (v', q, SS') -> Inv S0 (v'', p ++ q, SS')%list.
Proof.
  intros (N & I & K & Gp & Np & M) (N' & I' & K' & Gq & Nq & M'). cbn. repeat split; auto.
  - eapply incl_tran; eauto.
  - apply Forall_app; auto.
  - rewrite map_app. apply NoDup_app_intro; auto. intros x Hx Hy. destruct (M' x Hy) as [_ C]. apply C, M, Hx.
  - rewrite map_app in H. apply in_app_or in H. destruct H as [H|H]; [apply I', M, H|apply M', H].
  - rewrite map_app in H. apply in_app_or in H. destruct H as [H|H]; [apply M, H|]. intros C. destruct (M' k H) as [_ D]. apply D, I, C.
Qed.
Lemma Inv_skip S0 v p SS v' SS' v'' : Inv S0 (v, p, SS) -> Inv SS (v', [], SS') -> Inv S0 (v'', p, SS').
Proof. intros A B. rewrite <- (app_nil_r p). eapply Inv_extend; eauto. Qed.

Definition fail_nil (rec : rec_t) := forall dn SS p SS', rec dn SS = SOk (false, p, SS') -> p = [].

Section STEP.
Context (rec : rec_t) (Hrec : rec_ok rec) (Hfn : fail_nil rec).

Lemma rec_call S0 v p SS dk k nd obj q :
  Inv S0 (v, p, SS) -> dget (p_desc P) dk = Some nd -> dget (nodemap (fg G)) k = Some obj -> is_node G nd obj = SOk true ->
  memb k SS = false -> rec (dk, k) SS = SOk q -> Inv SS q.
Proof.
  intros (N & I & K & _) D O IS M R. eapply Hrec; eauto.
  - cbn. apply memb_nIn; auto.
  - exists nd, obj. auto.
Qed.

Lemma up_producers_inv dk nd other t prods : dget (p_desc P) dk = Some nd -> forall S0 s s',
  Inv S0 s -> up_producers G rec dk nd other t prods s = SOk s' -> Inv S0 s'.
Proof.
  intros D. induction prods as [|k r IH]; intros S0 [[v p] SS] s' H E; cbn [up_producers] in E.
  - injection E as <-. exact H.
  - apply sbind_ok in E as (obj & O & E). apply dlook_ok in O.
    apply sbind_ok in E as (ok & PO & E). destruct ok; [|eapply IH; [|exact E]; exact H].
    apply sbind_ok in E as (isn & IS & E). destruct isn; [|eapply IH; [|exact E]; exact H].
    destruct (memb k SS) eqn:M; cbn [negb] in E; [eapply IH; [|exact E]; exact H|].
    apply sbind_ok in E as ([[v1 p1] S1] & R & E).
    assert (J := rec_call _ _ _ _ _ _ _ _ _ H D O IS M R).
    destruct v1.
    + injection E as <-. eapply Inv_extend; eauto.
    + apply Hfn in R. subst p1. eapply IH; [|exact E]. eapply Inv_skip; eauto.
Qed.
Lemma up_all_inv dk nd other : dget (p_desc P) dk = Some nd -> forall ins S0 s s',
  Inv S0 s -> up_all G rec dk nd other ins s = SOk s' -> Inv S0 s'.
Proof.
  intros D. induction ins as [|t r IH]; intros S0 s s' H E; cbn [up_all] in E.
  - injection E as <-. exact H.
  - destruct (dget (producedby (fg G)) t); [|eapply IH; eauto].
    apply sbind_ok in E as (s1 & E1 & E). eapply IH; [|exact E]. eapply up_producers_inv; eauto.
Qed.
Lemma up_edges_inv n es : forall S0 s s', Inv S0 s -> up_edges G P rec n es s = SOk s' -> Inv S0 s'.
Proof.
  induction es as [|e r IH]; intros S0 s s' H E; cbn [up_edges] in E.
  - injection E as <-. exact H.
  - apply sbind_ok in E as (nd & D & E). apply dlook_ok in D.
    apply sbind_ok in E as (s1 & E1 & E). eapply IH; [|exact E].
    destruct (e_idx e =? -1); [eapply up_all_inv; eauto|].
    destruct (e_idx e <? zlen (n_in n)); [|injection E1 as <-; exact H].
    apply sbind_ok in E1 as (t & T & E1). apply sbind_ok in E1 as (l & L & E1). eapply up_producers_inv; eauto.
Qed.
Lemma down_consumers_inv brk dk nd other t cs : dget (p_desc P) dk = Some nd -> forall S0 s s',
  Inv S0 s -> down_consumers G rec brk dk nd other t cs s = SOk s' -> Inv S0 s'.
Proof.
  intros D. induction cs as [|k r IH]; intros S0 [[v p] SS] s' H E; cbn [down_consumers] in E.
  - injection E as <-. exact H.
  - apply sbind_ok in E as (obj & O & E). apply dlook_ok in O.
    apply sbind_ok in E as (ok & PO & E). destruct ok; [|eapply IH; [|exact E]; exact H].
    apply sbind_ok in E as (isn & IS & E). destruct isn; [|eapply IH; [|exact E]; exact H].
    destruct (memb k SS) eqn:M; cbn [negb] in E.
    + destruct brk; [injection E as <-; exact H|eapply IH; [|exact E]; exact H].
    + apply sbind_ok in E as ([[v1 p1] S1] & R & E).
      assert (J := rec_call _ _ _ _ _ _ _ _ _ H D O IS M R).
      destruct v1.
      * injection E as <-. eapply Inv_extend; eauto.
      * apply Hfn in R. subst p1. eapply IH; [|exact E]. eapply Inv_skip; eauto.
Qed.
Lemma down_all_inv dk nd other : dget (p_desc P) dk = Some nd -> forall outs S0 s s',
  Inv S0 s -> down_all G P rec dk nd other outs s = SOk s' -> Inv S0 s'.
Proof.
  intros D. induction outs as [|t r IH]; intros S0 s s' H E; cbn [down_all] in E.
  - injection E as <-. exact H.
  - destruct (fst (fst s)); [injection E as <-; exact H|].
    destruct (dget (consumedby (fg G)) t); [|eapply IH; eauto].
    destruct (too_many P l); [eapply IH; eauto|].
    apply sbind_ok in E as (s1 & E1 & E). eapply IH; [|exact E]. eapply down_consumers_inv; eauto.
Qed.
Lemma down_edges_inv n es : forall S0 s s', Inv S0 s -> down_edges G P rec n es s = SOk s' -> Inv S0 s'.
Proof.
  induction es as [|e r IH]; intros S0 s s' H E; cbn [down_edges] in E.
  - injection E as <-. exact H.
  - apply sbind_ok in E as (nd & D & E). apply dlook_ok in D.
    apply sbind_ok in E as (s1 & E1 & E). eapply IH; [|exact E].
    destruct (e_idx e =? -1); [eapply down_all_inv; eauto|].
    destruct (e_idx e <? zlen (n_out n)); [|injection E1 as <-; exact H].
    apply sbind_ok in E1 as (t & T & E1).
    destruct (dget (consumedby (fg G)) t); [|injection E1 as <-; exact H].
    destruct (too_many P l); [injection E1 as <-; exact H|]. eapply down_consumers_inv; eauto.
Qed.

Lemma Inv_remove S0 k v p SS : ~ In k S0 -> Inv (S0 ++ [k]) (v, p, SS) -> Inv S0 (false, [], remove1 k SS).
Proof.
  intros Hk (N & I & K & _). cbn. repeat split; try constructor; try contradiction.
  - apply NoDup_remove1; auto.
  - intros x Hx. apply In_remove1_neq; [intros ->; contradiction|]. apply I, in_or_app; auto.
  - intros x Hx. apply K, (In_remove1 _ _ _ Hx).
Qed.

Lemma body_inv : rec_ok (search_body G P rec).
Proof.
  intros dn SS s N K C Gd E. unfold search_body in E.
  apply sbind_ok in E as (d & D & E). apply sbind_ok in E as (n & O & E).
  apply dlook_ok in D. apply dlook_ok in O.
  apply sbind_ok in E as ([[inv ups] S2] & U & E).
  assert (N1 : NoDup (SS ++ [snd dn])) by (apply NoDup_snoc; auto).
  assert (K1 : incl (SS ++ [snd dn]) keys).
  { intros x Hx. apply in_app_or in Hx. destruct Hx as [Hx|[<-|[]]]; [auto|]. eapply dget_Some_keys; eauto. }
  assert (J := up_edges_inv _ _ _ _ _ (Inv_start _ _ N1 K1) U).
  destruct inv; cbn [negb] in E.
  - apply sbind_ok in E as ([[ov downs] S3] & W & E).
    assert (J' := J). destruct J' as (N2 & I2 & K2 & G2 & M2 & Q2).
    assert (JJ := down_edges_inv _ _ _ _ _ (Inv_start _ _ N2 K2) W).
    destruct ov; injection E as <-.
    + assert (HH : Inv SS (true, ups ++ [dn], S2)%list).
      { cbn. repeat split; auto.
        - intros x Hx. apply I2, in_or_app; auto.
        - apply Forall_app; split; auto.
        - rewrite map_app. cbn [map]. apply NoDup_snoc; auto. intros B. destruct (Q2 _ B) as [_ B']. apply B', in_or_app; right; left; reflexivity.
        - rewrite map_app in H. apply in_app_or in H. destruct H as [H|[<-|[]]]; [apply Q2, H|apply I2, in_or_app; right; left; reflexivity].
        - rewrite map_app in H. apply in_app_or in H. destruct H as [H|[<-|[]]]; [|exact C].
          intros B. destruct (Q2 _ H) as [_ B']. apply B', in_or_app; auto. }
      replace (ups ++ dn :: downs)%list with ((ups ++ [dn]) ++ downs)%list by (rewrite <- app_assoc; reflexivity).
      exact (Inv_extend _ _ _ _ _ _ _ _ HH JJ).
    + apply Inv_remove with (v := true) (p := (ups ++ downs)%list); auto. exact (Inv_extend _ _ _ _ _ _ _ true J JJ).
  - injection E as <-. eapply Inv_remove; eauto.
Qed.
Lemma body_fail_nil : fail_nil (search_body G P rec).
Proof.
  intros dn SS p SS' E. unfold search_body in E.
  apply sbind_ok in E as (d & D & E). apply sbind_ok in E as (n & O & E).
  apply sbind_ok in E as ([[inv ups] S2] & U & E). destruct inv; cbn [negb] in E; [|congruence].
  apply sbind_ok in E as ([[ov downs] S3] & W & E). destruct ov; congruence.
Qed.
Lemma body_succ_has_self dn SS p SS' : search_body G P rec dn SS = SOk (true, p, SS') -> In dn p.
Proof.
  intros E. unfold search_body in E.
  apply sbind_ok in E as (d & D & E). apply sbind_ok in E as (n & O & E).
  apply sbind_ok in E as ([[inv ups] S2] & U & E). destruct inv; cbn [negb] in E; [|congruence].
  apply sbind_ok in E as ([[ov downs] S3] & W & E). destruct ov; [|congruence]. injection E as <- <-.
  apply in_or_app; right; left; reflexivity.
Qed.
End STEP.

Lemma search_fail_nil fuel : fail_nil (search_node fuel G P).
Proof. destruct fuel; cbn [search_node]; [intros ? ? ? ? ?; discriminate|apply body_fail_nil]. Qed.
Lemma search_inv fuel : rec_ok (search_node fuel G P).
Proof.
  induction fuel as [|f IH]; cbn [search_node].
  - intros dn SS s _ _ _ _ E. discriminate.
  - apply body_inv; auto. apply search_fail_nil.
Qed.

(** ** Termination: the fuel is never exhausted *)
Definition no_rt {A} (r : sres A) := r <> SRaise RuntimeErr.
Lemma no_rt_bind {A B} (r : sres A) (f : A -> sres B) : no_rt r -> (forall a, r = SOk a -> no_rt (f a)) -> no_rt (sbind r f).
Proof. destruct r; cbn; intros H K; [apply K; reflexivity|]. intros E. apply H. injection E as ->. reflexivity. Qed.
Lemma no_rt_dlook {A} (d : dict A) k : no_rt (dlook d k).
Proof. unfold no_rt, dlook. destruct (dget d k); discriminate. Qed.
Lemma no_rt_index x l : no_rt (index_of x l).
Proof. induction l; cbn; [discriminate|]. destruct (String.eqb x a); [discriminate|]. apply no_rt_bind; auto. intros; discriminate. Qed.
Lemma no_rt_port o l t : no_rt (port_ok o l t).
Proof. unfold port_ok. destruct (o =? -1); [discriminate|]. apply no_rt_bind; [apply no_rt_index|intros; discriminate]. Qed.
Lemma no_rt_pyindex {A} (l : list A) i : no_rt (py_index l i).
Proof. unfold no_rt, py_index. destruct (_ <? 0); [discriminate|]. destruct (nth_error _ _); discriminate. Qed.
Lemma no_rt_logical o v z : no_rt (logical o v z).
Proof. unfold no_rt, logical. destruct v; repeat match goal with |- context [String.eqb ?a ?b] => destruct (String.eqb a b) end; discriminate. Qed.
Lemma no_rt_isnode d n : no_rt (is_node G d n).
Proof.
  unfold is_node. generalize (op_ok (d_op d) (n_op n)). induction (d_attrs d) as [|x r IH]; intros b; cbn [attrs_ok]; [discriminate|].
  apply no_rt_bind; [|intros; apply IH]. unfold attr_call. destruct (fattr G (n_name n) (x_name x)) as [v|]; [|discriminate].
  destruct (x_idx x =? -1); [apply no_rt_logical|]. destruct v; try discriminate.
  apply no_rt_bind; [apply no_rt_pyindex|intros; apply no_rt_logical].
Qed.

Section FUEL.
Context (rec : rec_t) (m : nat).
Context (Hrec : rec_ok rec) (Hfn : fail_nil rec).
Context (Hrt : forall dn SS, ~ In (snd dn) SS -> NoDup SS -> incl SS keys -> (m <= length SS)%nat -> no_rt (rec dn SS)).

Lemma grow S0 v p SS : (m <= length S0)%nat -> NoDup S0 -> Inv S0 (v, p, SS) -> (m <= length SS)%nat.
Proof. intros H N (_ & I & _). apply (NoDup_incl_length N) in I. lia. Qed.

Ltac rt_known := first [apply no_rt_dlook | apply no_rt_port | apply no_rt_isnode | apply no_rt_pyindex].
Lemma up_producers_rt dk nd other t prods S0 : dget (p_desc P) dk = Some nd -> NoDup S0 -> (m <= length S0)%nat -> forall s,
  Inv S0 s -> no_rt (up_producers G rec dk nd other t prods s).
Proof.
  intros D N L. induction prods as [|k r IH]; intros [[v p] SS] H; cbn [up_producers]; [discriminate|].
  apply no_rt_bind; [rt_known|intros obj O]. apply dlook_ok in O.
  apply no_rt_bind; [rt_known|intros ok PO]. destruct ok; [|apply IH; exact H].
  apply no_rt_bind; [rt_known|intros isn IS]. destruct isn; [|apply IH; exact H].
  destruct (memb k SS) eqn:M; cbn [negb]; [apply IH; exact H|].
  apply no_rt_bind.
  - assert (H0 := H). destruct H0 as (N' & I' & K' & H'). apply Hrt; auto; [cbn; apply memb_nIn; exact M|exact (grow S0 _ _ _ L N H)].
  - intros [[v1 p1] S1] R. assert (J := rec_call rec Hrec _ _ _ _ _ _ _ _ _ H D O IS M R).
    destruct v1; [discriminate|]. apply Hfn in R. subst p1. apply IH. eapply Inv_skip; eauto.
Qed.
Lemma up_all_rt dk nd other S0 : dget (p_desc P) dk = Some nd -> NoDup S0 -> (m <= length S0)%nat -> forall ins s,
  Inv S0 s -> no_rt (up_all G rec dk nd other ins s).
Proof.
  intros D N L. induction ins as [|t r IH]; intros s H; cbn [up_all]; [discriminate|].
  destruct (dget (producedby (fg G)) t); [|apply IH; exact H].
  apply no_rt_bind; [eapply up_producers_rt; eauto|]. intros s1 E. apply IH. eapply (up_producers_inv rec Hrec Hfn); eauto.
Qed.
Lemma up_edges_rt n S0 : NoDup S0 -> (m <= length S0)%nat -> forall es s, Inv S0 s -> no_rt (up_edges G P rec n es s).
Proof.
  intros N L. induction es as [|e r IH]; intros s H; cbn [up_edges]; [discriminate|].
  apply no_rt_bind; [rt_known|intros nd D]. apply dlook_ok in D.
  apply no_rt_bind.
  - destruct (e_idx e =? -1); [eapply up_all_rt; eauto|]. destruct (e_idx e <? zlen (n_in n)); [|discriminate].
    apply no_rt_bind; [rt_known|intros t T]. apply no_rt_bind; [rt_known|intros l Ll]. eapply up_producers_rt; eauto.
  - intros s1 E. apply IH. destruct (e_idx e =? -1); [eapply (up_all_inv rec Hrec Hfn); eauto|].
    destruct (e_idx e <? zlen (n_in n)); [|injection E as <-; exact H].
    apply sbind_ok in E as (t & T & E). apply sbind_ok in E as (l & Ll & E). eapply (up_producers_inv rec Hrec Hfn); eauto.
Qed.
Lemma down_consumers_rt brk dk nd other t cs S0 : dget (p_desc P) dk = Some nd -> NoDup S0 -> (m <= length S0)%nat -> forall s,
  Inv S0 s -> no_rt (down_consumers G rec brk dk nd other t cs s).
Proof.
  intros D N L. induction cs as [|k r IH]; intros [[v p] SS] H; cbn [down_consumers]; [discriminate|].
  apply no_rt_bind; [rt_known|intros obj O]. apply dlook_ok in O.
  apply no_rt_bind; [rt_known|intros ok PO]. destruct ok; [|apply IH; exact H].
  apply no_rt_bind; [rt_known|intros isn IS]. destruct isn; [|apply IH; exact H].
  destruct (memb k SS) eqn:M; cbn [negb]; [destruct brk; [discriminate|apply IH; exact H]|].
  apply no_rt_bind.
  - assert (H0 := H). destruct H0 as (N' & I' & K' & H'). apply Hrt; auto; [cbn; apply memb_nIn; exact M|exact (grow S0 _ _ _ L N H)].
  - intros [[v1 p1] S1] R. assert (J := rec_call rec Hrec _ _ _ _ _ _ _ _ _ H D O IS M R).
    destruct v1; [discriminate|]. apply Hfn in R. subst p1. apply IH. eapply Inv_skip; eauto.
Qed.
Lemma down_all_rt dk nd other S0 : dget (p_desc P) dk = Some nd -> NoDup S0 -> (m <= length S0)%nat -> forall outs s,
  Inv S0 s -> no_rt (down_all G P rec dk nd other outs s).
Proof.
  intros D N L. induction outs as [|t r IH]; intros s H; cbn [down_all]; [discriminate|].
  destruct (fst (fst s)); [discriminate|].
  destruct (dget (consumedby (fg G)) t); [|apply IH; exact H]. destruct (too_many P l); [apply IH; exact H|].
  apply no_rt_bind; [eapply down_consumers_rt; eauto|]. intros s1 E. apply IH. eapply (down_consumers_inv rec Hrec Hfn); eauto.
Qed.
Lemma down_edges_rt n S0 : NoDup S0 -> (m <= length S0)%nat -> forall es s, Inv S0 s -> no_rt (down_edges G P rec n es s).
Proof.
  intros N L. induction es as [|e r IH]; intros s H; cbn [down_edges]; [discriminate|].
  apply no_rt_bind; [rt_known|intros nd D]. apply dlook_ok in D.
  apply no_rt_bind.
  - destruct (e_idx e =? -1); [eapply down_all_rt; eauto|]. destruct (e_idx e <? zlen (n_out n)); [|discriminate].
    apply no_rt_bind; [rt_known|intros t T]. destruct (dget (consumedby (fg G)) t); [|discriminate].
    destruct (too_many P l); [discriminate|]. eapply down_consumers_rt; eauto.
  - intros s1 E. apply IH. destruct (e_idx e =? -1); [eapply (down_all_inv rec Hrec Hfn); eauto|].
    destruct (e_idx e <? zlen (n_out n)); [|injection E as <-; exact H].
    apply sbind_ok in E as (t & T & E). destruct (dget (consumedby (fg G)) t); [|injection E as <-; exact H].
    destruct (too_many P l); [injection E as <-; exact H|]. eapply (down_consumers_inv rec Hrec Hfn); eauto.
Qed.
End FUEL.

Lemma body_no_rt rec m : rec_ok rec -> fail_nil rec ->
  (forall dn SS, ~ In (snd dn) SS -> NoDup SS -> incl SS keys -> (S m <= length SS)%nat -> no_rt (rec dn SS)) ->
  forall dn SS, ~ In (snd dn) SS -> NoDup SS -> incl SS keys -> (m <= length SS)%nat -> no_rt (search_body G P rec dn SS).
Proof.
  intros Hrec Hfn Hrt dn SS C N K L. unfold search_body.
  apply no_rt_bind; [apply no_rt_dlook|intros d D]. apply no_rt_bind; [apply no_rt_dlook|intros n O]. apply dlook_ok in D. apply dlook_ok in O.
  assert (N1 : NoDup (SS ++ [snd dn])) by (apply NoDup_snoc; auto).
  assert (K1 : incl (SS ++ [snd dn]) keys).
  { intros x Hx. apply in_app_or in Hx. destruct Hx as [Hx|[<-|[]]]; [auto|]. eapply dget_Some_keys; eauto. }
  assert (L1 : (S m <= length (SS ++ [snd dn]))%nat) by (rewrite app_length; cbn [length]; lia).
  apply no_rt_bind.
  - eapply (up_edges_rt rec (S m)); eauto using Inv_start.
  - intros [[inv ups] S2] U. assert (J := up_edges_inv rec Hrec Hfn _ _ _ _ _ (Inv_start _ _ N1 K1) U).
    assert (L2 := grow (S m) _ _ _ _ L1 N1 J). destruct J as (N2 & I2 & K2 & _).
    destruct inv; cbn [negb]; [|discriminate].
    apply no_rt_bind.
    + eapply (down_edges_rt rec (S m)); eauto using Inv_start.
    + intros [[ov downs] S3] W. destruct ov; discriminate.
Qed.
Lemma search_no_rt fuel : forall dn SS, ~ In (snd dn) SS -> NoDup SS -> incl SS keys ->
  (S (length keys) - fuel <= length SS)%nat -> no_rt (search_node fuel G P dn SS).
Proof.
  induction fuel as [|f IH]; intros dn SS C N K L.
  - exfalso. assert (Q := NoDup_incl_length N K). lia.
  - cbn [search_node]. apply (body_no_rt _ (S (length keys) - S f)%nat); auto using search_inv, search_fail_nil.
    intros dn' SS' C' N' K' L'. apply IH; auto. lia.
Qed.
End INV.
