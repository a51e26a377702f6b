From Verif Require Import PyBase PyBaseFacts GraphModel CompressSpec RelSpec RelProofs TopSortSpec TopSortProofs OrderProofs EditModel EditSpec
  RemoveProofs IoProofs FuseProofs ComputeModel ComputeSpec.
Local Open Scope string_scope.
Local Open Scope list_scope.

(* ---- the consumer table counts reads ---- *)
Lemma length_by_keys : forall ks (l : list string), NoDup ks -> (forall x, In x l -> In x ks) ->
  length l = fold_right (fun k a => count k l + a) 0 ks.
Proof.
  intros ks l ND H.
  assert (G : forall ks, NoDup ks -> fold_right (fun k a => count k l + a) 0 ks = length (filter (fun x => memb x ks) l)).
  { clear ND H ks. induction ks as [|k ks IH]; intros ND; cbn [fold_right].
    - induction l as [|x l IH]; [reflexivity|]. cbn [filter memb]. exact IH.
    - inversion ND as [|? ? N1 N2]; subst. rewrite (IH N2). clear IH N2. induction l as [|x l IH]; [reflexivity|].
      cbn [count filter memb] in *. destruct (String.eqb_spec x k) as [->|N].
      + rewrite String.eqb_refl. assert (memb k ks = false) as Mk by (apply memb_nIn; exact N1). rewrite Mk in *. cbn [length]. lia.
      + assert (String.eqb k x = false) as -> by (apply String.eqb_neq; congruence). destruct (memb x ks); cbn [length]; lia. }
  rewrite (G ks ND). f_equal. clear - H. induction l as [|x l IH]; [reflexivity|]. cbn [filter].
  assert (memb x ks = true) as -> by (apply memb_In, H; left; reflexivity). f_equal. apply IH. intros y I. apply H. right. exact I.
Qed.
Lemma table_length : forall nm R sel t, NoDup (dkeys nm) -> tbl R sel nm "" [] -> length (glist R t) = count t (flat_map (fun kn => sel (snd kn)) nm).
Proof.
  intros nm R sel t ND HT. rewrite (length_by_keys (dkeys nm)); [|exact ND|].
  - assert (E : forall k n, In (k, n) nm -> count k (glist R t) = count t (sel n)).
    { intros k n I. rewrite (tb_cnt _ _ _ _ _ HT). unfold cnt_sel. rewrite (In_dget _ _ _ _ ND I). cbn [count]. destruct (String.eqb k ""); lia. }
    clear HT. revert E. generalize (glist R t). intros l E. clear ND. induction nm as [|[k n] r IH]; [reflexivity|].
    cbn [dkeys map fold_right flat_map fst snd]. rewrite count_app. rewrite (E k n (or_introl eq_refl)). f_equal. apply IH. intros; apply E; right; assumption.
  - intros x I. destruct (tbl_of _ _ _ _ _ _ _ HT I) as (n & E & _). apply dget_In in E. apply in_map_iff. exists (x, n). auto.
Qed.
Lemma flat_map_snd : forall (f : node -> list string) (nm : dict node), flat_map (fun kn => f (snd kn)) nm = flat_map f (map snd nm).
Proof. intros f. induction nm as [|x r IH]; [reflexivity|]. cbn. f_equal. exact IH. Qed.
Lemma consistent_reads : forall g t, consistent g -> length (glist (consumedby g) t) = count t (reads_of (nodes_of g)).
Proof. intros g t HC. rewrite (table_length _ _ _ _ (co_nd g HC) (co_cons g HC)), flat_map_snd. reflexivity. Qed.
Lemma consistent_consumers_exact : forall g, consistent g -> consumers_exact g.
Proof.
  intros g HC t. pose proof (consistent_reads g t HC) as E. unfold glist in E. destruct (dget (consumedby g) t) as [l|] eqn:D; [exact E|].
  apply count_zero. exact (eq_sym E).
Qed.

Section Up.
Variables (g : graph) (calc : list string).
Hypothesis HC : consistent g.

Lemma node_at : forall k n, In (k, n) (nodemap g) -> dget (nodemap g) k = Some n.
Proof. intros k n I. apply In_dget; [apply HC|exact I]. Qed.
Lemma cons_spec : forall t k, In k (glist (consumedby g) t) <-> exists n, In (k, n) (nodemap g) /\ In t (n_in n).
Proof.
  intros t k. split.
  - intros I. destruct (tbl_of _ _ _ _ _ _ _ (co_cons g HC) I) as (n & E & X & _). exists n. split; [now apply dget_In|exact X].
  - intros (n & I & X). apply count_pos. rewrite (tb_cnt _ _ _ _ _ (co_cons g HC)). unfold cnt_sel. rewrite (node_at _ _ I).
    cbn [count]. apply count_pos in X. destruct (String.eqb k ""); lia.
Qed.
Lemma prod_spec : forall t k, In k (glist (producedby g) t) <-> exists n, In (k, n) (nodemap g) /\ In t (n_out n).
Proof.
  intros t k. split.
  - intros I. destruct (tbl_of _ _ _ _ _ _ _ (co_prod g HC) I) as (n & E & X & _). exists n. split; [now apply dget_In|exact X].
  - intros (n & I & X). apply count_pos. rewrite (tb_cnt _ _ _ _ _ (co_prod g HC)). unfold cnt_sel. rewrite (node_at _ _ I).
    cbn [count]. apply count_pos in X. destruct (String.eqb k ""); lia.
Qed.
(** the only producer *)
Lemma one_producer : forall t k n k' n', In (k, n) (nodemap g) -> In t (n_out n) -> In (k', n') (nodemap g) -> In t (n_out n') -> k = k' /\ n = n'.
Proof.
  intros t k n k' n' I1 O1 I2 O2. destruct (co_uniq g HC) as [_ ND].
  assert (E : (k, n) = (k', n')).
  { clear - ND I1 O1 I2 O2. induction (nodemap g) as [|x r IH]; [destruct I1|]. cbn [flat_map] in ND.
    destruct (NoDup_app_inv _ _ _ ND) as (_ & N2 & N3).
    destruct I1 as [->|I1], I2 as [E|I2]; auto.
    - exfalso. apply (N3 t O1). apply in_flat_map. exists (k', n'). auto.
    - exfalso. subst x. apply (N3 t O2). apply in_flat_map. exists (k, n). auto. }
  injection E; auto.
Qed.
Lemma prod_hd : forall t ps k n, dget (producedby g) t = Some ps -> In (k, n) (nodemap g) -> In t (n_out n) -> hd "" ps = k.
Proof.
  intros t ps k n E I O. assert (G : glist (producedby g) t = ps) by (unfold glist; now rewrite E).
  assert (X : In k ps) by (rewrite <- G; apply prod_spec; eauto).
  destruct ps as [|p ps]; [destruct X|]. cbn [hd].
  assert (Y : In p (glist (producedby g) t)) by (rewrite G; left; reflexivity). apply prod_spec in Y. destruct Y as (n' & I' & O').
  apply (one_producer t p n' k n I' O' I O).
Qed.
Lemma prod_some : forall t ps, dget (producedby g) t = Some ps -> exists n, In (hd "" ps, n) (nodemap g) /\ In t (n_out n).
Proof.
  intros t ps E. pose proof (tb_ne _ _ _ _ _ (co_prod g HC) t) as N. destruct ps as [|p r]; [congruence|]. cbn [hd].
  apply prod_spec. unfold glist. rewrite E. left. reflexivity.
Qed.

(** what one visit pushes *)
Definition ups_of (ins : list string) : list string :=
  flat_map (fun t => match dget (producedby g) t with
                     | None => []
                     | Some ps => if Nat.eqb (count t (reads_of (nodes_of g))) 1 then [hd "" ps] else []
                     end) ins.
Definition ups (k : string) : list string := match dget (nodemap g) k with Some n => ups_of (n_in n) | None => [] end.
Definition add_new (l rm : list string) : list string := fold_left (fun rm p => if memb p rm then rm else rm ++ [p]) l rm.
Lemma visit_ok : forall k n, In (k, n) (nodemap g) -> forall ins, incl ins (n_in n) -> forall rm q,
  visit_inputs g ins (rm, q) = Ok (add_new (ups_of ins) rm, q ++ ups_of ins).
Proof.
  intros k n Hk. induction ins as [|t r IH]; intros HI rm q; [cbn; now rewrite app_nil_r|].
  cbn [visit_inputs ups_of flat_map]. fold (ups_of r).
  destruct (dget (producedby g) t) as [ps|]; [|apply IH; intros x X; apply HI; right; exact X].
  assert (X : In k (glist (consumedby g) t)) by (apply cons_spec; exists n; split; [exact Hk|apply HI; left; reflexivity]).
  pose proof (consistent_reads g t HC) as L. unfold glist in X, L.
  destruct (dget (consumedby g) t) as [cs|]; [|destruct X]. rewrite L.
  destruct (Nat.eqb (count t (reads_of (nodes_of g))) 1).
  - cbn [fst snd]. rewrite IH by (intros x Y; apply HI; right; exact Y). cbn [List.app add_new fold_left]. rewrite <- app_assoc. reflexivity.
  - apply IH. intros x Y; apply HI; right; exact Y.
Qed.
Lemma In_ups : forall k p, In p (ups k) <-> sole_feed g p k.
Proof.
  intros k p. unfold ups, sole_feed. split.
  - destruct (dget (nodemap g) k) as [n|] eqn:E; [|intros []]. unfold ups_of. intros I. apply in_flat_map in I. destruct I as (t & T1 & T2).
    destruct (dget (producedby g) t) as [ps|] eqn:P; [|destruct T2]. destruct (Nat.eqb_spec (count t (reads_of (nodes_of g))) 1) as [C|]; [|destruct T2].
    destruct T2 as [<-|[]]. destruct (prod_some t ps P) as (pn & P1 & P2). exists pn, n, t. repeat split; auto. now apply dget_In.
  - intros (pn & kn & t & I1 & I2 & O & R & C). rewrite (node_at _ _ I2). unfold ups_of. apply in_flat_map. exists t. split; [exact R|].
    assert (X : In p (glist (producedby g) t)) by (apply prod_spec; eauto). unfold glist in X.
    destruct (dget (producedby g) t) as [ps|] eqn:P; [|destruct X]. rewrite C. cbn [Nat.eqb]. left. exact (prod_hd t ps p pn P I1 O).
Qed.
Lemma ups_node : forall k p, In p (ups k) -> In p (dkeys (nodemap g)).
Proof. intros k p I. apply In_ups in I. destruct I as (pn & kn & t & I1 & _). apply in_map_iff. exists (p, pn). auto. Qed.
Lemma In_add_new : forall l rm x, In x (add_new l rm) <-> In x rm \/ In x l.
Proof.
  induction l as [|p l IH]; intros rm x; [cbn; tauto|]. unfold add_new. cbn [fold_left]. fold (add_new l (if memb p rm then rm else rm ++ [p])). rewrite IH.
  destruct (memb p rm) eqn:M.
  - apply memb_In in M. cbn [In]. intuition (subst; auto).
  - rewrite in_app_iff. cbn [In]. intuition.
Qed.

(** number of visits the search makes from a node *)
Fixpoint visits (d : nat) (k : string) : nat :=
  match d with O => 1 | S d' => S (fold_right (fun p a => visits d' p + a) 0 (ups k)) end.
Definition total (d : nat) (q : list string) : nat := fold_right (fun p a => visits d p + a) 0 q.
Lemma total_app : forall d a b, total d (a ++ b) = total d a + total d b.
Proof. intros d. induction a as [|x a IH]; intros b; [reflexivity|]. cbn [List.app total fold_right]. fold (total d (a ++ b)) (total d a). rewrite IH. lia. Qed.
Variable rk : string -> nat.
Hypothesis Hrk : forall a b, feeds (nodemap g) a b -> rk a < rk b.
Lemma ups_rank : forall k p, In p (ups k) -> rk p < rk k.
Proof. intros k p I. apply In_ups in I. destruct I as (pn & kn & t & I1 & I2 & O & R & _). apply Hrk. exists pn, kn, t. auto. Qed.
Lemma visits_stable : forall d k, rk k <= d -> visits d k = visits (S d) k.
Proof.
  induction d as [|d IH]; intros k H.
  - cbn. destruct (ups k) as [|p l] eqn:E; [reflexivity|]. pose proof (ups_rank k p). rewrite E in H0. specialize (H0 (or_introl eq_refl)). lia.
  - cbn [visits]. f_equal. assert (G : forall l, incl l (ups k) -> fold_right (fun p a => visits d p + a) 0 l = fold_right (fun p a => visits (S d) p + a) 0 l).
    { induction l as [|p l IHl]; intros HI; [reflexivity|]. cbn [fold_right]. rewrite IHl by (intros x X; apply HI; right; exact X).
      rewrite IH; [reflexivity|]. pose proof (ups_rank k p (HI p (or_introl eq_refl))). lia. }
    apply G. apply incl_refl.
Qed.
Definition depth : nat := fold_right (fun kn a => Nat.max (rk (fst kn)) a) 0 (nodemap g).
Lemma depth_ge : forall k, In k (dkeys (nodemap g)) -> rk k <= depth.
Proof.
  intros k I. apply in_map_iff in I. destruct I as ([k' n] & <- & I). unfold depth. cbn [fst]. clear - I. induction (nodemap g) as [|[a m] r IH]; [destruct I|].
  cbn [fold_right fst]. destruct I as [E|I]; [injection E as -> ->; lia|]. specialize (IH I). lia.
Qed.
(** everything above the queue *)
Inductive above (q : list string) : string -> Prop :=
| ab_here : forall k p, In k q -> In p (ups k) -> above q p
| ab_more : forall k p, above q k -> In p (ups k) -> above q p.
Lemma above_step : forall k r p, above (k :: r) p <-> In p (ups k) \/ above (r ++ ups k) p.
Proof.
  intros k r p. split.
  - intros H. induction H as [k' p [<-|I] U|k' p H IH U]; [left; exact U|right; eapply ab_here; [apply in_app_iff; left; exact I|exact U]|].
    right. destruct IH as [IH|IH]; [eapply ab_here; [apply in_app_iff; right; exact IH|exact U]|eapply ab_more; eauto].
  - intros [U|H]; [eapply ab_here; [left; reflexivity|exact U]|].
    induction H as [k' p I U|k' p H IH U]; [|eapply ab_more; eauto].
    apply in_app_iff in I. destruct I as [I|I]; [eapply ab_here; [right; exact I|exact U]|].
    eapply ab_more; [eapply ab_here; [left; reflexivity|exact I]|exact U].
Qed.
Lemma search_up_ok : forall fuel q rm, incl q (dkeys (nodemap g)) -> total depth q <= fuel ->
  exists rm', search_up fuel g rm q = Some (Ok rm') /\ forall x, In x rm' <-> In x rm \/ above q x.
Proof.
  induction fuel as [|fuel IH]; intros [|k r] rm HQ HF.
  1, 3: exists rm; split; [reflexivity|]; intros x; split; [auto|]; intros [H|H]; [exact H|]; exfalso; induction H; auto.
  - exfalso. cbn [total fold_right] in HF. destruct depth; cbn [visits] in HF; lia.
  - cbn [search_up]. assert (Hk : In k (dkeys (nodemap g))) by (apply HQ; left; reflexivity).
    assert (exists n, In (k, n) (nodemap g)) as (n & In_k) by (apply in_map_iff in Hk; destruct Hk as ([k' n] & E & I); cbn in E; subst; eauto).
    rewrite (node_at _ _ In_k). rewrite (visit_ok k n In_k (n_in n) (incl_refl _)).
    assert (EU : ups_of (n_in n) = ups k) by (unfold ups; now rewrite (node_at _ _ In_k)). rewrite EU.
    destruct (IH (r ++ ups k) (add_new (ups k) rm)) as (rm' & E & H).
    { intros x I. apply in_app_iff in I. destruct I as [I|I]; [apply HQ; right; exact I|apply (ups_node k x I)]. }
    { rewrite total_app. cbn [total fold_right] in HF. fold (total depth r) in HF. rewrite (visits_stable depth k (depth_ge k Hk)) in HF. cbn [visits] in HF.
      fold (total depth (ups k)) in HF. lia. }
    exists rm'. split; [exact E|]. intros x. rewrite H, In_add_new, above_step. tauto.
Qed.

Lemma all_shape_ok : forall cs, (forall c, In c cs -> In c (dkeys (nodemap g))) ->
  all_shape g calc cs = Ok (forallb (fun c => memb c calc) cs).
Proof.
  induction cs as [|c r IH]; intros H; [reflexivity|]. cbn [all_shape forallb].
  destruct (dget (nodemap g) c) eqn:E; [|exfalso; apply dget_None in E; apply E, H; left; reflexivity].
  destruct (memb c calc); [|reflexivity]. apply IH. intros; apply H; right; assumption.
Qed.
Lemma dummy_ok : forall outs acc, dummy_node g calc outs acc =
  Ok (acc && forallb (fun o => match dget (consumedby g) o with Some cs => forallb (fun c => memb c calc) cs | None => false end) outs).
Proof.
  induction outs as [|o r IH]; intros acc; [cbn; now rewrite andb_true_r|]. cbn [dummy_node forallb].
  destruct (dget (consumedby g) o) as [cs|] eqn:E.
  - rewrite all_shape_ok; [cbn [bind]; rewrite IH, andb_assoc; reflexivity|].
    intros c I. assert (X : In c (glist (consumedby g) o)) by (unfold glist; now rewrite E). apply cons_spec in X. destruct X as (n & X & _).
    apply in_map_iff. exists (c, n). auto.
  - rewrite IH. cbn [andb]. now rewrite andb_false_r.
Qed.
Lemma dummy_spec : forall k n, In (k, n) (nodemap g) -> ~ In k calc ->
  dummy_node g calc (n_out n) true = Ok true \/ dummy_node g calc (n_out n) true = Ok false /\ ~ only_for_shapes g calc k.
Proof.
  intros k n I N. rewrite dummy_ok. cbn [andb].
  destruct (forallb (fun o => match dget (consumedby g) o with Some cs => forallb (fun c => memb c calc) cs | None => false end) (n_out n)) eqn:F; [left; reflexivity|].
  right. split; [reflexivity|]. intros (_ & n' & I' & H).
  assert (E : n' = n) by (pose proof (node_at _ _ I); pose proof (node_at _ _ I'); congruence). subst n'.
  apply not_true_iff_false in F. apply F. apply forallb_forall. intros o O. destruct (H o O) as [(m & mn & M1 & M2) A].
  assert (X : In m (glist (consumedby g) o)) by (apply cons_spec; eauto). unfold glist in X.
  destruct (dget (consumedby g) o) as [cs|] eqn:D; [|destruct X]. apply forallb_forall. intros c C.
  assert (Y : In c (glist (consumedby g) o)) by (unfold glist; now rewrite D). apply cons_spec in Y. destruct Y as (cn & Y1 & Y2).
  apply memb_In. eapply A; eauto.
Qed.
Lemma dummy_true : forall k n, In (k, n) (nodemap g) -> ~ In k calc -> dummy_node g calc (n_out n) true = Ok true -> only_for_shapes g calc k.
Proof.
  intros k n I N E. rewrite dummy_ok in E. cbn [andb] in E. injection E as E. split; [exact N|]. exists n. split; [exact I|].
  intros o O. rewrite forallb_forall in E. specialize (E o O). destruct (dget (consumedby g) o) as [cs|] eqn:D; [|discriminate].
  rewrite forallb_forall in E. split.
  - pose proof (tb_ne _ _ _ _ _ (co_cons g HC) o) as NE. destruct cs as [|c r]; [congruence|].
    assert (Y : In c (glist (consumedby g) o)) by (unfold glist; rewrite D; left; reflexivity). apply cons_spec in Y. destruct Y as (cn & Y1 & Y2). eauto.
  - intros m mn M1 M2. assert (X : In m (glist (consumedby g) o)) by (apply cons_spec; eauto). unfold glist in X. rewrite D in X. apply memb_In. auto.
Qed.

Definition fuel_enough (fuel : nat) : Prop := forall k, In k (dkeys (nodemap g)) -> visits depth k <= fuel.
Lemma above_upstream : forall k x, only_for_shapes g calc k -> above [k] x -> upstream g calc x.
Proof.
  intros k x D H. induction H as [k' p [<-|[]] U|k' p H IH U]; [eapply us_feed; [apply us_start, D|]|eapply us_feed; [exact IH|]]; now apply In_ups.
Qed.
Lemma scan_ok : forall fuel, fuel_enough fuel -> forall kns rm, incl kns (nodemap g) ->
  exists rm', scan fuel g calc kns rm = Some (Ok rm') /\
    (forall x, In x rm' <-> In x rm \/ (In x (dkeys kns) /\ In x calc) \/
       (exists k, In k (dkeys kns) /\ only_for_shapes g calc k /\ (x = k \/ above [k] x))).
Proof.
  intros fuel HF. induction kns as [|[k n] r IH]; intros rm HI.
  - exists rm. split; [reflexivity|]. intros x. cbn. firstorder.
  - assert (Ik : In (k, n) (nodemap g)) by (apply HI; left; reflexivity).
    assert (HI' : incl r (nodemap g)) by (intros x X; apply HI; right; exact X).
    cbn [scan]. destruct (memb k calc) eqn:M.
    + apply memb_In in M. destruct (IH (rm ++ [k]) HI') as (rm' & E & H). exists rm'. split; [exact E|]. intros x. rewrite H, in_app_iff. cbn [dkeys map fst In].
      split.
      * intros [[A|[<-|[]]]|[A|(k' & A & B)]]; [tauto|tauto|tauto|]. right. right. exists k'. tauto.
      * intros [A|[[[<-|A] B]|(k' & [<-|A] & B & D)]]; [tauto|tauto|tauto| |].
        { destruct B as [B _]. contradiction. } { right. right. exists k'. tauto. }
    + apply memb_nIn in M. destruct (dummy_spec k n Ik M) as [D|[D ND]].
      * rewrite D. pose proof (dummy_true k n Ik M D) as OF.
        destruct (search_up_ok fuel [k] (rm ++ [k])) as (rm1 & E1 & H1).
        { intros x [<-|[]]. apply in_map_iff. exists (k, n). auto. }
        { cbn [total fold_right]. rewrite Nat.add_0_r. apply HF. apply in_map_iff. exists (k, n). auto. }
        rewrite E1. destruct (IH rm1 HI') as (rm' & E & H). exists rm'. split; [exact E|]. intros x. rewrite H, H1, in_app_iff. cbn [dkeys map fst In]. split.
        -- intros [[[A|[<-|[]]]|A]|[A|(k' & A & B)]]; [tauto| | |tauto|].
           ++ right. right. exists k. tauto.
           ++ right. right. exists k. tauto.
           ++ right. right. exists k'. tauto.
        -- intros [A|[[[<-|A] B]|(k' & [<-|A] & B & D')]]; [tauto|contradiction|tauto| |].
           ++ destruct D' as [->|D']; tauto.
           ++ right. right. exists k'. tauto.
      * rewrite D. destruct (IH rm HI') as (rm' & E & H). exists rm'. split; [exact E|]. intros x. rewrite H. cbn [dkeys map fst In]. split.
        -- intros [A|[A|(k' & A & B)]]; [tauto|tauto|]. right. right. exists k'. tauto.
        -- intros [A|[[[<-|A] B]|(k' & [<-|A] & B & D')]]; [tauto|contradiction|tauto|contradiction|]. right. right. exists k'. tauto.
Qed.
Lemma scan_all : forall fuel, fuel_enough fuel -> (forall k, In k calc -> In k (dkeys (nodemap g))) ->
  exists rm, scan fuel g calc (nodemap g) [] = Some (Ok rm) /\ forall x, In x rm <-> dropped g calc x.
Proof.
  intros fuel HF HK. destruct (scan_ok fuel HF (nodemap g) [] (incl_refl _)) as (rm & E & H). exists rm. split; [exact E|].
  intros x. rewrite H. unfold dropped. split.
  - intros [[]|[[_ A]|(k & A & B & [->|D])]]; [left; exact A|right; now apply us_start|right; eapply above_upstream; eauto].
  - intros [A|A]; [right; left; auto|]. right. right. induction A as [k D|p k A IH F].
    + exists k. split; [|auto]. destruct D as (_ & n & I & _). apply in_map_iff. exists (k, n). auto.
    + destruct IH as (k' & I & D & [->|B]).
      * exists k'. split; [exact I|]. split; [exact D|]. right. eapply ab_here; [left; reflexivity|now apply In_ups].
      * exists k'. split; [exact I|]. split; [exact D|]. right. eapply ab_more; [exact B|now apply In_ups].
Qed.
End Up.

Definition enough_fuel (g : graph) (fuel : nat) : Prop := exists rk, (forall a b, feeds (nodemap g) a b -> rk a < rk b) /\ fuel_enough g rk fuel.
Lemma sum_bound : forall (f : string -> nat) (l : dict node) k n, In (k, n) l -> f k <= fold_right (fun kn a => f (fst kn) + a) 0 l.
Proof. intros f. induction l as [|[a m] r IH]; intros k n I; [destruct I|]. cbn [fold_right fst]. destruct I as [E|I]; [injection E as -> ->; lia|]. specialize (IH _ _ I). lia. Qed.
Lemma enough_exists : forall g, acyclic (nodemap g) -> exists f0, forall fuel, f0 <= fuel -> enough_fuel g fuel.
Proof.
  intros g (rk & H). exists (fold_right (fun kn a => visits g (depth g rk) (fst kn) + a) 0 (nodemap g)). intros fuel L. exists rk. split; [exact H|].
  intros k I. etransitivity; [|exact L]. apply in_map_iff in I. destruct I as ([k' n] & <- & I). exact (sum_bound (visits g (depth g rk)) _ _ _ I).
Qed.
