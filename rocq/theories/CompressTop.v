(** Liveness pass and the end-to-end statements about [plan]. *)
From Verif Require Import PyBase PyBaseFacts GraphModel CompressModel CompressSpec CompressProofs.
Local Open Scope Z_scope.

Lemma fold_mul : forall l a, fold_left Z.mul l a = a * fold_right Z.mul 1 l.
Proof. induction l as [|x r IH]; intros a; cbn [fold_left fold_right]; [ring|]. rewrite IH. ring. Qed.
Lemma memsize_bytes : forall t, get_memsize t = data_bytes t.
Proof.
  intros t. unfold get_memsize, data_bytes, volume. destruct (t_shape t) as [|d r]; [reflexivity|]. rewrite fold_mul. ring.
Qed.

Lemma pad_up_div : forall pad s, (pad | pad_up pad s).
Proof. intros. unfold pad_up. apply Z.divide_factor_r. Qed.

Lemma pad_up_ge : forall pad s, 0 < pad -> s <= pad_up pad s < s + pad.
Proof.
  intros pad s H. unfold pad_up.
  pose proof (Z.div_mod (s + pad - 1) pad ltac:(lia)) as E.
  pose proof (Z.mod_pos_bound (s + pad - 1) pad H) as B. nia.
Qed.

Lemma pad_up_pos : forall pad s, 0 < pad -> (0 < pad_up pad s <-> 0 < s).
Proof.
  intros pad s H. pose proof (pad_up_ge pad s H) as B. pose proof (pad_up_div pad s) as [k E].
  destruct (Z_le_gt_dec k 0); nia.
Qed.

Definition size_entry (g : graph) (pad : Z) (t : string) : option Z :=
  if negb (dhas (producedby g) t) && negb (memb t (g_input g)) then None
  else match dget (tensormap g) t with
       | None => None
       | Some tn => let s := pad_up pad (get_memsize tn) in if 0 <? s then Some s else None
       end.

Lemma fold_entry : forall (h : string -> option Z) l d t,
  dget (fold_left (fun d x => match h x with None => d | Some s => dset d x s end) l d) t =
  if memb t l then match h t with Some s => Some s | None => dget d t end else dget d t.
Proof.
  intros h. induction l as [|x r IH]; intros d t; cbn [fold_left memb]; [reflexivity|].
  rewrite IH. destruct (String.eqb_spec t x) as [<-|N].
  - destruct (h t) as [s|] eqn:E; [rewrite dget_dset_eq|]; destruct (memb t r); reflexivity.
  - destruct (h x) as [s|] eqn:E; [rewrite dget_dset_neq by congruence|]; reflexivity.
Qed.

Lemma fold_left_ext : forall A B (f f' : A -> B -> A) l a, (forall a b, f a b = f' a b) ->
  fold_left f l a = fold_left f' l a.
Proof. induction l as [|x r IH]; simpl; intros a H; [reflexivity|]. rewrite H. auto. Qed.

Lemma tensor_sizes_get : forall g pad t,
  dget (tensor_sizes g pad) t = if memb t (dynamics g) then size_entry g pad t else None.
Proof.
  intros g pad t. unfold tensor_sizes.
  rewrite (fold_left_ext _ _ _ (fun d x => match size_entry g pad x with None => d | Some s => dset d x s end)).
  - rewrite fold_entry. destruct (memb t (dynamics g)); [|reflexivity].
    destruct (size_entry g pad t); reflexivity.
  - intros d x. unfold size_entry.
    destruct (negb (dhas (producedby g) x) && negb (memb x (g_input g))); [reflexivity|].
    destruct (dget (tensormap g) x); [|reflexivity]. cbv zeta.
    destruct (0 <? pad_up pad (get_memsize t0)); reflexivity.
Qed.

Lemma tensor_sizes_spec : forall g pad t s,
  dget (tensor_sizes g pad) t = Some s <->
  In t (dynamics g) /\ (dhas (producedby g) t = true \/ In t (g_input g)) /\
  exists tn, dget (tensormap g) t = Some tn /\ s = pad_up pad (data_bytes tn) /\ 0 < s.
Proof.
  intros g pad t s. rewrite tensor_sizes_get. unfold size_entry.
  setoid_rewrite <- memsize_bytes.
  destruct (memb t (dynamics g)) eqn:D.
  2:{ apply memb_nIn in D. split; [discriminate|tauto]. }
  apply memb_In in D.
  destruct (negb (dhas (producedby g) t) && negb (memb t (g_input g))) eqn:P.
  { apply andb_prop in P. destruct P as [P1 P2]. rewrite negb_true_iff in *. apply memb_nIn in P2.
    split; [discriminate|]. intros (_ & [O|O] & _); [congruence|contradiction]. }
  assert (O : dhas (producedby g) t = true \/ In t (g_input g)).
  { rewrite <- memb_In. destruct (dhas (producedby g) t); [tauto|]. destruct (memb t (g_input g)); [tauto|discriminate]. }
  destruct (dget (tensormap g) t) as [tn|]; cbv zeta.
  2:{ split; [discriminate|]. intros (_ & _ & tn & E & _). discriminate. }
  destruct (0 <? pad_up pad (get_memsize tn)) eqn:B; [apply Z.ltb_lt in B|apply Z.ltb_ge in B].
  - split.
    + intros E. injection E as <-. split; [assumption|]. split; [assumption|]. exists tn. auto.
    + intros (_ & _ & tn' & E1 & E2 & _). congruence.
  - split; [discriminate|]. intros (_ & _ & tn' & E1 & E2 & E3). injection E1 as <-. lia.
Qed.

(* ------------------------------------------------------------------ *)
(** * The liveness pass *)
Section Live.
Variable cons : dict (list string).

Definition cnt (C : dict Z) (t : string) : Z := match dget C t with Some k => k | None => 0 end.

Lemma consume_spec : forall ins R C L C' L',
  (forall t, In t ins -> dget cons t <> None) ->
  (forall t, cnt C t = Z.of_nat (count t R)) ->
  consume cons ins C L = (C', L') ->
  (forall t, cnt C' t = Z.of_nat (count t (R ++ ins)))
  /\ (forall t, In t L' -> In t L)
  /\ (forall t l, In t L -> dget cons t = Some l -> (count t (R ++ ins) < length l)%nat -> In t L')
  /\ (forall t, In t L -> ~ In t ins -> In t L').
Proof.
  induction ins as [|x r IH]; intros R C L C' L' Hc HC E.
  { simpl in E. injection E as <- <-. rewrite app_nil_r. auto. }
  cbn [consume] in E.
  destruct (dget cons x) as [consumers|] eqn:D; [|exfalso; apply (Hc x); [left; reflexivity|assumption]].
  set (c := match dget C x with Some k => k + 1 | None => 1 end) in E.
  assert (Ec : c = Z.of_nat (count x (R ++ [x]))).
  { rewrite count_app. simpl. rewrite String.eqb_refl. specialize (HC x). unfold cnt in HC.
    unfold c. destruct (dget C x); lia. }
  set (L1 := if Z.eqb c _ then _ else L) in E.
  assert (HC1 : forall t, cnt (dset C x c) t = Z.of_nat (count t (R ++ [x]))).
  { intros t. unfold cnt. rewrite dget_dset. destruct (String.eqb_spec t x) as [->|N]; [assumption|].
    rewrite count_app. simpl. apply String.eqb_neq in N. rewrite N, Nat.add_0_r. apply HC. }
  apply (IH (R ++ [x])%list) in E; [|intros t I; apply Hc; right; assumption|assumption].
  destruct E as (E1 & E2 & E3 & E4). rewrite <- app_assoc in *. cbn [app] in *.
  assert (HL1 : forall t, In t L1 -> In t L).
  { intros t I. unfold L1 in I. destruct (Z.eqb c _); [|assumption].
    destruct (memb x L); [eapply In_remove1; eassumption|assumption]. }
  assert (HL2 : forall t, In t L -> t <> x -> In t L1).
  { intros t I N. unfold L1. destruct (Z.eqb c _); [|assumption].
    destruct (memb x L); [apply In_remove1_neq; assumption|assumption]. }
  split; [assumption|]. split; [auto|]. split.
  - intros t l I G Lt. apply (E3 t l); auto.
    destruct (string_dec t x) as [->|N]; [|auto].
    unfold L1. destruct (Z.eqb_spec c (Z.of_nat (length consumers))) as [Eq|Eq]; [|assumption].
    exfalso. assert (l = consumers) as -> by congruence.
    change (R ++ x :: r)%list with (R ++ ([x] ++ r))%list in Lt. rewrite app_assoc, count_app in Lt. lia.
  - intros t I N. apply E4; [|simpl in N; tauto]. apply HL2; [assumption|simpl in N; intuition congruence].
Qed.

Lemma consume_sub : forall ins C L C' L', consume cons ins C L = (C', L') -> forall t, In t L' -> In t L.
Proof.
  induction ins as [|x r IH]; intros C L C' L' E t I; cbn [consume] in E; [injection E as <- <-; assumption|].
  destruct (dget cons x); [|eauto].
  apply (IH _ _ _ _ E) in I.
  destruct (Z.eqb _ _); [|assumption]. destruct (memb x L); [eapply In_remove1; eassumption|assumption].
Qed.

Lemma liveness_length : forall ns C L, length (liveness cons ns C L) = length ns.
Proof.
  induction ns as [|n r IH]; intros; [reflexivity|]. cbn [liveness].
  destruct (consume cons (n_in n) C (L ++ n_out n)). simpl. rewrite IH. reflexivity.
Qed.

Lemma liveness_absent : forall ns C L t, ~ In t L -> ~ In t (outs_of ns) ->
  forall s, In s (liveness cons ns C L) -> ~ In t s.
Proof.
  induction ns as [|n r IH]; intros C L t NL NO s I; [destruct I|]. cbn [liveness] in I.
  destruct (consume cons (n_in n) C (L ++ n_out n)) as [C' L'] eqn:E.
  unfold outs_of in NO. cbn [flat_map] in NO. rewrite in_app_iff in NO.
  assert (~ In t (L ++ n_out n)) as N1 by (rewrite in_app_iff; tauto).
  destruct I as [<-|I]; [assumption|].
  eapply (IH C' L'); eauto. intro X. apply (consume_sub _ _ _ _ _ E) in X. contradiction.
Qed.

Lemma liveness_pfx : forall ns C L t, ~ In t (outs_of ns) -> pfx t (liveness cons ns C L).
Proof.
  induction ns as [|n r IH]; intros C L t NO; [exact Logic.I|].
  destruct (in_dec string_dec t L) as [I|I].
  - cbn [liveness]. destruct (consume cons (n_in n) C (L ++ n_out n)) as [C' L'] eqn:E.
    cbn [pfx]. left. split; [rewrite in_app_iff; tauto|].
    apply IH. unfold outs_of in *. cbn [flat_map] in NO. rewrite in_app_iff in NO. tauto.
  - destruct (liveness cons (n :: r) C L) as [|s l] eqn:E; [exact Logic.I|].
    cbn [pfx]. right. rewrite <- E. apply liveness_absent; assumption.
Qed.

Lemma convex_cons : forall s r, convex r -> (forall t, In t s -> t <> ""%string -> pfx t r) -> convex (s :: r).
Proof.
  intros s r HC HP a s' b t E I N. destruct a as [|x a]; cbn [app] in E.
  - injection E as <- <-. auto.
  - injection E as <- E. eapply HC; eauto.
Qed.

Lemma liveness_convex : forall ns C L,
  (forall t, t <> ""%string -> In t L -> ~ In t (outs_of ns)) -> NoDup (named (outs_of ns)) ->
  convex (liveness cons ns C L).
Proof.
  induction ns as [|n r IH]; intros C L HD HN.
  { intros a s b t E. destruct a; discriminate. }
  cbn [liveness]. destruct (consume cons (n_in n) C (L ++ n_out n)) as [C' L'] eqn:E.
  assert (HNr : NoDup (named (n_out n)) /\ NoDup (named (outs_of r)) /\
                forall t, t <> ""%string -> In t (n_out n) -> ~ In t (outs_of r)).
  { unfold outs_of in HN. cbn [flat_map] in HN. rewrite named_app in HN.
    destruct (NoDup_app_inv _ _ _ HN) as (K1 & K2 & K3). split; [assumption|]. split; [assumption|].
    intros t Nt I1 I2. apply (K3 t); apply In_named; auto. }
  destruct HNr as (_ & HN2 & HN3).
  assert (HD2 : forall t, t <> ""%string -> In t (L ++ n_out n) -> ~ In t (outs_of r)).
  { intros t Nt I. rewrite in_app_iff in I. destruct I as [I|I]; [|auto].
    specialize (HD t Nt I). unfold outs_of in *. cbn [flat_map] in HD. rewrite in_app_iff in HD. tauto. }
  apply convex_cons.
  - apply IH; [|assumption]. intros t Nt I. apply HD2; [assumption|].
    eapply consume_sub; eauto.
  - intros t I Nt. apply liveness_pfx. auto.
Qed.

(** Soundness of the snapshots: what must be alive is in the list. *)
Lemma liveness_sound : forall all ns pre C L,
  (forall t, match dget cons t with
             | Some l => length l = count t (reads_of all)
             | None => ~ In t (reads_of all) end) ->
  all = (pre ++ ns)%list ->
  (forall t, cnt C t = Z.of_nat (count t (reads_of pre))) ->
  forall i s t, nth_error (liveness cons ns C L) i = Some s ->
  In t L \/ In t (outs_of (firstn (S i) ns)) ->
  In t (reads_of (skipn i ns)) \/ ~ In t (reads_of all) ->
  In t s.
Proof.
  intros all. induction ns as [|n r IH]; intros pre C L HX Eall HC i s t E HB HNd.
  { destruct i; discriminate. }
  cbn [liveness] in E. destruct (consume cons (n_in n) C (L ++ n_out n)) as [C' L'] eqn:EC.
  destruct i as [|i]; cbn [nth_error] in E.
  - injection E as <-. apply in_app_iff. destruct HB as [HB|HB]; [tauto|].
    simpl in HB. rewrite app_nil_r in HB. tauto.
  - assert (Hin : forall u, In u (n_in n) -> dget cons u <> None).
    { intros u I G. specialize (HX u). rewrite G in HX. apply HX. subst all.
      unfold reads_of. rewrite flat_map_app. apply in_app_iff. right. cbn [flat_map]. apply in_app_iff. tauto. }
    destruct (consume_spec _ (reads_of pre) _ _ _ _ Hin HC EC) as (K1 & K2 & K3 & K4).
    assert (Epre : reads_of (pre ++ [n]) = (reads_of pre ++ n_in n)%list).
    { unfold reads_of. rewrite flat_map_app. simpl. rewrite app_nil_r. reflexivity. }
    eapply (IH (pre ++ [n])%list C' L'); eauto.
    + rewrite <- app_assoc. exact Eall.
    + intros u. rewrite Epre. apply K1.
    + cbn [firstn] in HB. unfold outs_of in HB. cbn [flat_map] in HB. rewrite in_app_iff in HB.
      cbn [skipn] in HNd.
      assert (HH : In t (L ++ n_out n) \/ In t (outs_of (firstn (S i) r))).
      { rewrite in_app_iff. unfold outs_of. cbn [firstn] in *. tauto. }
      destruct HH as [HH|HH]; [left|right; assumption].
      destruct HNd as [HNd|HNd].
      * specialize (HX t).
        assert (Hr : In t (reads_of r)).
        { clear - HNd. revert HNd. unfold reads_of. rewrite !in_flat_map. intros (x & X1 & X2).
          exists x. split; [|assumption]. rewrite <- (firstn_skipn i r). apply in_app_iff. tauto. }
        destruct (dget cons t) as [l|] eqn:D.
        -- eapply K3; eauto. rewrite HX, Eall. unfold reads_of. rewrite flat_map_app. cbn [flat_map].
           rewrite !count_app. fold (reads_of r). apply count_pos in Hr. unfold reads_of in *. lia.
        -- exfalso. apply HX. rewrite Eall. unfold reads_of. rewrite flat_map_app. apply in_app_iff. right.
           cbn [flat_map]. apply in_app_iff. right. exact Hr.
      * apply K4; [assumption|]. intro I. apply HNd. rewrite Eall. unfold reads_of. rewrite flat_map_app.
        apply in_app_iff. right. cbn [flat_map]. apply in_app_iff. tauto.
Qed.

Lemma liveness_sub : forall ns C L s t, In s (liveness cons ns C L) -> In t s -> In t (L ++ outs_of ns).
Proof.
  induction ns as [|n r IH]; intros C L s t I1 I2; [destruct I1|]. cbn [liveness] in I1.
  destruct (consume cons (n_in n) C (L ++ n_out n)) as [C' L'] eqn:E.
  unfold outs_of. cbn [flat_map]. fold (outs_of r).
  destruct I1 as [<-|I1].
  - rewrite !in_app_iff in *. tauto.
  - specialize (IH _ _ _ _ I1 I2). rewrite !in_app_iff in *. destruct IH as [IH|IH]; [|tauto].
    apply (consume_sub _ _ _ _ _ E) in IH. rewrite in_app_iff in IH. tauto.
Qed.
End Live.

(* ------------------------------------------------------------------ *)
(** * Putting the passes together *)

Lemma sizes_ok_of : forall g pad, 0 < pad -> no_anonymous_data g ->
  forall t s, dget (tensor_sizes g pad) t = Some s -> t <> ""%string /\ 0 < s /\ (pad | s).
Proof.
  intros g pad Hp HA t s H. apply tensor_sizes_spec in H.
  destruct H as (_ & _ & tn & E1 & E2 & E3). subst s. split; [|split; [assumption|apply pad_up_div]].
  intros ->. apply HA in E1. apply pad_up_pos in E3; lia.
Qed.

Lemma live_in_snapshot : forall g i s t, consumers_exact g ->
  nth_error (liveness (consumedby g) (nodes_of g) [] (g_input g)) i = Some s ->
  live_at g i t -> In t s.
Proof.
  intros g i s t HX E (Nt & Hi & HA & HN).
  eapply (liveness_sound (consumedby g) (nodes_of g) (nodes_of g) [] [] (g_input g)); eauto.
  - destruct HA as [HA|(j & n & J1 & J2 & J3)]; [left; assumption|right].
    unfold outs_of. apply in_flat_map. exists n. split; [|assumption].
    apply (nth_error_In _ j). rewrite <- J2.
    clear - J1. revert j i J1. generalize (nodes_of g).
    induction l as [|x r IH]; intros j i J1; [destruct j; reflexivity|].
    destruct j; [reflexivity|]. simpl. destruct i; [lia|]. apply IH. lia.
  - destruct HN as [(k & n & K1 & K2 & K3)|HN]; [left|right; assumption].
    unfold reads_of. apply in_flat_map. exists n. split; [|assumption].
    apply (nth_error_In _ (k - i)). rewrite <- K2.
    clear - K1. revert k i K1. generalize (nodes_of g).
    induction l as [|x r IH]; intros k i K1; [destruct i, k; simpl; try reflexivity; destruct (k-i)%nat; reflexivity|].
    destruct i; [rewrite Nat.sub_0_r; reflexivity|]. destruct k; [lia|]. simpl. apply IH. lia.
Qed.

Record plan_ok (g : graph) (pad : Z) (mem : dict (Z * Z)) (total : Z) : Prop := {
  po_entries : forall t o s, dget mem t = Some (o, s) ->
     exists sz, dget (tensor_sizes g pad) t = Some sz /\ sz <= s /\ 0 <= o /\ (pad | o) /\ (pad | s) /\ o + s <= total;
  po_upper : total <= sum_sizes (tensor_sizes g pad) (dkeys mem);
  po_nonneg : 0 <= total;
  po_div : (pad | total);
  po_nodup : NoDup (dkeys mem);
  po_keys : forall t, dget mem t <> None -> In t (g_input g ++ outs_of (nodes_of g));
  po_snaps : forall snap, In snap (liveness (consumedby g) (nodes_of g) [] (g_input g)) ->
     exists bs, bs_inv pad bs /\ tsize bs <= total /\
       forall t, In t snap -> dget (tensor_sizes g pad) t <> None ->
         exists b, In b bs /\ b_tag b = t /\ dget mem t = Some (b_off b, b_size b)
}.

Lemma plan_correct : forall g pad mem total, 0 < pad -> wf_plan_input g ->
  plan g pad = (mem, total) -> plan_ok g pad mem total.
Proof.
  intros g pad mem total Hp (HS & HX & HA) E. unfold plan in E.
  set (snaps := liveness _ _ _ _) in E. set (sizes := tensor_sizes g pad) in E.
  set (thr := Z.max pad 4096) in E.
  destruct (fold_left (step_node sizes thr) snaps ([], [])) as [bs mem'] eqn:F.
  injection E as <- <-.
  assert (Hthr : 0 < thr) by (unfold thr; lia).
  pose proof (sizes_ok_of g pad Hp HA) as Hso. fold sizes in Hso.
  assert (HI : SInv pad sizes ([], [])).
  { repeat split; simpl; try constructor; try tauto; try lia; discriminate. }
  assert (HF : future_ok [] [] snaps) by (intros t G; simpl in G; congruence).
  unfold single_assignment in HS. rewrite named_app in HS.
  assert (HC : convex snaps).
  { apply liveness_convex.
    - intros t Nt I1 I2.
      assert (J1 : In t (named (g_input g))) by (apply In_named; auto).
      assert (J2 : In t (named (outs_of (nodes_of g)))) by (apply In_named; auto).
      destruct (NoDup_app_inv _ _ _ HS) as (_ & _ & K3). exact (K3 _ J1 J2).
    - apply (NoDup_app_inv _ _ _ HS). }
  destruct (plan_fold_inv pad sizes thr Hthr Hso snaps [] [] HI HF HC _ _ F) as (K1 & K2 & K3 & K4 & K5).
  destruct K1 as (B1 & B2 & B3 & B4 & B5).
  rewrite (compress_size_tiled pad bs (proj1 B1)).
  constructor; auto.
  - exact (tiled_tsize_div pad bs 0 (proj1 B1)).
  - intros t G. destruct (K4 _ G) as [G'|(s & S1 & S2)]; [simpl in G'; congruence|].
    eapply liveness_sub; eauto.
Qed.

(** the planner's own validation block never finds anything *)
Lemma validation_silent : forall g pad, 0 < pad -> wf_plan_input g -> validation_warns g pad = false.
Proof.
  intros g pad Hp HW. unfold validation_warns.
  destruct (plan g pad) as [mem total] eqn:E.
  pose proof (plan_correct g pad mem total Hp HW E) as HP.
  apply not_true_is_false. intro X. apply existsb_exists in X. destruct X as (s & S1 & S2).
  destruct (po_snaps _ _ _ _ HP s S1) as (bs & B1 & B2 & B3).
  apply orb_prop in S2. destruct S2 as [S2|S2].
  - unfold overlap_warning in S2. apply existsb_exists in S2. destruct S2 as (t & T1 & T2).
    destruct (dget mem t) as [[o1 s1]|] eqn:E1; [|discriminate].
    apply existsb_exists in T2. destruct T2 as (u & U1 & U2). apply andb_prop in U2. destruct U2 as [U2 U3].
    rewrite negb_true_iff in U2. apply String.eqb_neq in U2.
    destruct (dget mem u) as [[o2 s2]|] eqn:E2; [|discriminate].
    destruct (po_entries _ _ _ _ HP _ _ _ E1) as (z1 & Z1 & _).
    destruct (po_entries _ _ _ _ HP _ _ _ E2) as (z2 & Z2 & _).
    destruct (B3 t T1 ltac:(congruence)) as (b1 & K1 & K2 & K3).
    destruct (B3 u U1 ltac:(congruence)) as (b2 & M1 & M2 & M3).
    rewrite E1 in K3. injection K3 as -> ->. rewrite E2 in M3. injection M3 as -> ->.
    destruct (tiled_disjoint pad bs 0 b1 b2 (proj1 B1) K1 M1 ltac:(congruence)) as [D|D];
      unfold ranges_clash, b_end in *; cbn [fst snd] in U3;
      destruct (tiled_In pad bs 0 b1 (proj1 B1) K1) as (_ & _ & P1 & _);
      destruct (tiled_In pad bs 0 b2 (proj1 B1) M1) as (_ & _ & P2 & _); lia.
  - unfold size_warning in S2. apply existsb_exists in S2. destruct S2 as (t & T1 & T2).
    destruct (dget mem t) as [[o1 s1]|] eqn:E1; [|discriminate]. cbn [fst snd] in T2.
    destruct (po_entries _ _ _ _ HP _ _ _ E1) as (z1 & Z1 & Z2 & Z3 & Z4 & Z5 & Z6). lia.
Qed.
