From Verif Require Import PyBase PyBaseFacts GraphModel CompressModel CompressSpec CompressProofs CompressTop ExecModel ExecProofs DualModel.
Local Open Scope Z_scope.

Definition restrict (g : graph) (f : string -> bool) : graph :=
  mkGraph (nodemap g) (tensormap g) (producedby g) (consumedby g) (initials g) (filter f (dynamics g)) (g_input g) (g_output g).
Lemma memb_filter : forall f t l, memb t (filter f l) = f t && memb t l.
Proof.
  intros f t. induction l as [|x r IH]; cbn [filter memb]; [now rewrite andb_false_r|].
  destruct (String.eqb_spec t x) as [<-|N].
  - destruct (f t) eqn:F; cbn [memb]; [now rewrite String.eqb_refl|]. exact IH.
  - destruct (f x); cbn [memb]; rewrite ?IH; [|reflexivity]. apply String.eqb_neq in N. now rewrite N.
Qed.
Lemma restrict_sizes : forall g f pad t, dget (tensor_sizes (restrict g f) pad) t = if f t then dget (tensor_sizes g pad) t else None.
Proof.
  intros. rewrite !tensor_sizes_get. cbn [restrict dynamics]. rewrite memb_filter.
  change (size_entry (restrict g f) pad t) with (size_entry g pad t). destruct (f t); reflexivity.
Qed.

(* ---- snapshots have no duplicates ---- *)
Lemma NoDup_named_remove1 : forall x l R, NoDup (named (l ++ R)) -> NoDup (named (remove1 x l ++ R)).
Proof.
  intros x. induction l as [|y l IH]; intros R H; cbn [remove1]; [exact H|].
  cbn [List.app] in H. rewrite named_cons in H.
  destruct (String.eqb_spec x y) as [->|N].
  - destruct (String.eqb y ""); [exact H|]. now inversion H.
  - cbn [List.app]. rewrite named_cons. destruct (String.eqb y "") eqn:Y; [apply IH, H|].
    inversion H as [|? ? H1 H2]; subst. constructor; [|apply IH, H2].
    intros X. apply H1. apply In_named. apply In_named in X. destruct X as [X X2]. split; [|exact X2].
    rewrite in_app_iff in *. destruct X as [X|X]; [left|right; exact X].
    clear - X. induction l as [|z l IH]; cbn [remove1] in X; [destruct X|].
    destruct (String.eqb_spec x z); [right; exact X|]. destruct X as [->|X]; [left; reflexivity|right; auto].
Qed.
Lemma consume_NoDup : forall cons ins C L C' L' R, consume cons ins C L = (C', L') -> NoDup (named (L ++ R)) -> NoDup (named (L' ++ R)).
Proof.
  intros cons. induction ins as [|x r IH]; intros C L C' L' R E H; cbn [consume] in E; [injection E as _ <-; exact H|].
  destruct (dget cons x) as [cs|]; [|eapply IH; eauto].
  eapply IH; [exact E|]. destruct (Z.eqb _ _); [|exact H]. destruct (memb x L); [|exact H]. now apply NoDup_named_remove1.
Qed.
Lemma liveness_NoDup : forall cons ns C L, NoDup (named (L ++ outs_of ns)) -> forall s, In s (liveness cons ns C L) -> NoDup (named s).
Proof.
  intros cons. induction ns as [|n r IH]; intros C L H s I; [destruct I|]. cbn [liveness] in I.
  destruct (consume cons (n_in n) C (L ++ n_out n)) as [C' L'] eqn:E.
  unfold outs_of in H. cbn [flat_map] in H. fold (outs_of r) in H. rewrite app_assoc in H.
  destruct I as [<-|I].
  - rewrite named_app in H. destruct (NoDup_app_inv _ _ _ H) as (X & _). exact X.
  - apply (IH C' L'); [|exact I]. eapply consume_NoDup; eauto.
Qed.

(* ---- the loop without the membership test ---- *)
Lemma best_placed_tags : forall t sz thr bs u,
  In u (tags (match best_fit sz bs 0 None with Some (i, rem) => place_at t sz thr rem i bs | None => append_block t sz bs end)) ->
  u = t \/ u = ""%string \/ In u (tags bs).
Proof.
  intros t sz thr bs u. destruct (best_fit sz bs 0 None) as [[i rem]|].
  - revert i. induction bs as [|b r IH]; intros i; [destruct i; intros []|]. destruct i; cbn [place_at].
    + destruct (thr <=? rem); cbn; intuition.
    + cbn. intros [H|H]; [tauto|]. apply IH in H. tauto.
  - induction bs as [|b r IH]; cbn [append_block]; [cbn; intuition|].
    destruct r as [|c r]; [destruct (is_free b); cbn; intuition|]. cbn. intros [H|H]; [tauto|]. apply IH in H. cbn in H. tauto.
Qed.
Lemma pool_alloc_same : forall sizes thr ts st, NoDup ts -> (forall t, In t ts -> t <> ""%string /\ ~ In t (tags (fst st))) ->
  fold_left (pool_alloc1 sizes thr) ts st = fold_left (alloc1 sizes thr) ts st.
Proof.
  intros sizes thr. induction ts as [|t ts IH]; intros [bs mem] ND H; [reflexivity|]. cbn [fold_left].
  inversion ND as [|? ? N1 N2]; subst. cbn [fst] in H.
  destruct (H t (or_introl eq_refl)) as [H1 H2].
  assert (E : pool_alloc1 sizes thr (bs, mem) t = alloc1 sizes thr (bs, mem) t).
  { unfold pool_alloc1, alloc1. apply memb_nIn in H2. rewrite H2. reflexivity. }
  rewrite E. apply IH; [exact N2|]. intros u I. destruct (H u (or_intror I)) as [U1 U2]. split; [exact U1|].
  unfold alloc1. apply memb_nIn in H2. rewrite H2.
  destruct (dget sizes t) as [sz|]; [|exact U2].
  pose proof (best_placed_tags t sz thr bs u) as P. cbv zeta.
  set (bs' := match best_fit sz bs 0 None with Some (i, rem) => place_at t sz thr rem i bs | None => append_block t sz bs end) in *.
  intros X. assert (In u (tags bs')) as Y by (destruct (find_tag t bs'); exact X).
  destruct (P Y) as [->|[->|Z1]]; tauto.
Qed.
Lemma NoDup_insert_desc : forall sizes t l, NoDup l -> ~ In t l -> NoDup (insert_desc sizes t l).
Proof.
  intros sizes t. induction l as [|x r IH]; intros H N; cbn [insert_desc]; [constructor; [exact N|constructor]|].
  inversion H; subst. destruct (_ <=? _); [constructor; assumption|].
  constructor; [|apply IH; [assumption|intros X; apply N; right; exact X]].
  intros X. apply In_insert_desc in X. destruct X as [->|X]; [apply N; left; reflexivity|contradiction].
Qed.
Lemma NoDup_sort_desc : forall sizes l, NoDup l -> NoDup (sort_desc sizes l).
Proof.
  intros sizes. induction l as [|x r IH]; intros H; cbn; [constructor|]. inversion H; subst.
  apply NoDup_insert_desc; [auto|]. intros X. apply In_sort_desc in X. contradiction.
Qed.
Lemma pool_step_same : forall sizes thr st live, NoDup (named live) -> dget sizes ""%string = None ->
  pool_step sizes thr st live = step_node sizes thr st live.
Proof.
  intros sizes thr [bs mem] live ND H0. unfold pool_step, step_node. apply pool_alloc_same.
  - apply NoDup_sort_desc.
    assert (E : filter (fun t => negb (memb t (tags (release live [] bs))) && dhas sizes t) live
              = filter (fun t => negb (memb t (tags (release live [] bs))) && dhas sizes t) (named live)).
    { clear ND. generalize (tags (release live [] bs)). intros ts. induction live as [|x r IH]; [reflexivity|].
      rewrite named_cons. cbn [filter]. destruct (String.eqb_spec x "") as [->|N].
      - unfold dhas at 1. rewrite H0, andb_false_r. exact IH.
      - cbn [filter]. rewrite IH. reflexivity. }
    rewrite E. now apply NoDup_filter.
  - intros t I. apply In_sort_desc in I. apply filter_In in I. destruct I as [_ I]. apply andb_prop in I. destruct I as [I1 I2].
    split; [|cbn [fst]; rewrite negb_true_iff in I1; now apply memb_nIn].
    intros ->. unfold dhas in I2. rewrite H0 in I2. discriminate.
Qed.

Lemma alloc1_ext : forall s1 s2 thr, (forall t, dget s1 t = dget s2 t) -> forall st t, alloc1 s1 thr st t = alloc1 s2 thr st t.
Proof. intros s1 s2 thr H [bs mem] t. unfold alloc1. rewrite H. reflexivity. Qed.
Lemma sort_ext : forall s1 s2, (forall t, dget s1 t = dget s2 t) -> forall l, sort_desc s1 l = sort_desc s2 l.
Proof.
  intros s1 s2 H. assert (E : forall t l, insert_desc s1 t l = insert_desc s2 t l).
  { intros t. induction l as [|x r IH]; [reflexivity|]. cbn [insert_desc]. unfold size_of. rewrite !H, IH. reflexivity. }
  induction l as [|x r IH]; [reflexivity|]. cbn. rewrite <- E. f_equal. exact IH.
Qed.
Lemma step_ext : forall s1 s2 thr, (forall t, dget s1 t = dget s2 t) -> forall st live, step_node s1 thr st live = step_node s2 thr st live.
Proof.
  intros s1 s2 thr H [bs mem] live. unfold step_node. rewrite (sort_ext s1 s2 H).
  rewrite (filter_ext _ (fun t => negb (memb t (tags (release live [] bs))) && dhas s2 t)) by (intros; unfold dhas; now rewrite H).
  apply fold_left_ext. apply alloc1_ext, H.
Qed.

Definition not_kv (t : string) : bool := negb (String.eqb t "kv_cache").
Definition is_kv (t : string) : bool := String.eqb t "kv_cache".
Lemma split_sizes_get : forall g pad t,
  dget (fst (split_sizes g pad)) t = dget (tensor_sizes (restrict g not_kv) pad) t /\
  dget (snd (split_sizes g pad)) t = dget (tensor_sizes (restrict g is_kv) pad) t.
Proof.
  intros g pad t. rewrite !restrict_sizes, tensor_sizes_get.
  set (h := fun (f : string -> bool) (x : string) => if f x then size_entry g pad x else None).
  assert (E : forall l d kv, fold_left
    (fun '(d, kv) t =>
       if negb (dhas (producedby g) t) && negb (memb t (g_input g)) then (d, kv)
       else match dget (tensormap g) t with
            | None => (d, kv)
            | Some tn =>
                let s := pad_up pad (get_memsize tn) in
                if 0 <? s then (if String.eqb t "kv_cache" then (d, dset kv t s) else (dset d t s, kv)) else (d, kv)
            end) l (d, kv) =
    (fold_left (fun d x => match h not_kv x with None => d | Some s => dset d x s end) l d,
     fold_left (fun d x => match h is_kv x with None => d | Some s => dset d x s end) l kv)).
  { induction l as [|x r IH]; intros d kv; [reflexivity|]. cbn [fold_left]. rewrite <- IH. f_equal.
    unfold h, not_kv, is_kv, size_entry.
    destruct (negb (dhas (producedby g) x) && negb (memb x (g_input g))); [destruct (String.eqb x "kv_cache"); reflexivity|].
    destruct (dget (tensormap g) x); [|destruct (String.eqb x "kv_cache"); reflexivity]. cbv zeta.
    destruct (0 <? pad_up pad (get_memsize t0)); destruct (String.eqb x "kv_cache"); reflexivity. }
  unfold split_sizes. rewrite E. cbn [fst snd]. rewrite !fold_entry. unfold h.
  split; [destruct (not_kv t)|destruct (is_kv t)]; destruct (memb t (dynamics g)); try destruct (size_entry g pad t); reflexivity.
Qed.

Lemma allocate_pool_plan : forall g f pad sizes, 0 < pad -> wf_plan_input g ->
  (forall t, dget sizes t = dget (tensor_sizes (restrict g f) pad) t) ->
  allocate_pool (liveness (consumedby g) (nodes_of g) [] (g_input g)) pad sizes = plan (restrict g f) pad.
Proof.
  intros g f pad sizes Hp (HS & HX & HA) E. unfold allocate_pool, plan. cbn [restrict consumedby g_input].
  change (nodes_of (restrict g f)) with (nodes_of g).
  assert (H0 : dget sizes ""%string = None).
  { rewrite E. destruct (dget (tensor_sizes (restrict g f) pad) "") eqn:G; [|reflexivity].
    apply (sizes_ok_of (restrict g f) pad Hp HA) in G. destruct G as [G _]. congruence. }
  pose proof (liveness_NoDup (consumedby g) (nodes_of g) [] (g_input g) HS) as ND.
  set (snaps := liveness _ _ _ _) in *.
  assert (K : forall st, fold_left (pool_step sizes (Z.max pad 4096)) snaps st
       = fold_left (step_node (tensor_sizes (restrict g f) pad) (Z.max pad 4096)) snaps st).
  { clear - ND H0 E. induction snaps as [|s r IH]; intros st; [reflexivity|]. cbn [fold_left].
    rewrite pool_step_same by (auto using in_eq). rewrite (step_ext _ _ _ E). apply IH. intros s' I. apply ND. right. exact I. }
  rewrite K. reflexivity.
Qed.
Lemma dual_plan_split : forall g pad, 0 < pad -> wf_plan_input g ->
  dual_plan g pad = (plan (restrict g not_kv) pad, plan (restrict g is_kv) pad).
Proof.
  intros g pad Hp HW. unfold dual_plan. destruct (split_sizes g pad) as [a b] eqn:S.
  pose proof (split_sizes_get g pad) as H. rewrite S in H. cbn [fst snd] in H.
  rewrite (allocate_pool_plan g not_kv pad a Hp HW), (allocate_pool_plan g is_kv pad b Hp HW); [reflexivity| |]; intros t; apply H.
Qed.

(* ---- two pools side by side form one plan ---- *)
Definition shift (s : Z) (mem : dict (Z * Z)) : dict (Z * Z) := map (fun kv => (fst kv, (s + fst (snd kv), snd (snd kv)))) mem.
Lemma dget_shift : forall s mem t, dget (shift s mem) t = match dget mem t with Some (o, z) => Some (s + o, z) | None => None end.
Proof.
  intros s. induction mem as [|[k [o z]] r IH]; intros t; [reflexivity|]. cbn [shift map dget fst snd].
  destruct (String.eqb t k); [reflexivity|]. apply IH.
Qed.
Lemma dget_app : forall A (a b : dict A) t, dget (a ++ b) t = match dget a t with Some x => Some x | None => dget b t end.
Proof.
  intros A. induction a as [|[k v] r IH]; intros b t; [reflexivity|]. cbn [List.app dget].
  destruct (String.eqb t k); [reflexivity|]. apply IH.
Qed.
Lemma dkeys_shift : forall s m, dkeys (shift s m) = dkeys m.
Proof. intros. unfold dkeys, shift. rewrite map_map. reflexivity. Qed.

Definition shift_block (s : Z) (b : block) : block := mkB (b_tag b) (s + b_off b) (b_size b).
Lemma tiled_shift : forall pad s bs off, tiled pad off bs -> tiled pad (s + off) (map (shift_block s) bs).
Proof.
  intros pad s. induction bs as [|b r IH]; intros off H; [exact I|]. cbn [tiled map shift_block b_off b_size] in *.
  destruct H as (H1 & H2 & H3 & H4). repeat split; [lia|assumption|assumption|]. rewrite <- Z.add_assoc. apply IH, H4.
Qed.
Lemma tsize_shift : forall s bs, tsize (map (shift_block s) bs) = tsize bs.
Proof. intros s. induction bs as [|b r IH]; [reflexivity|]. cbn. rewrite IH. reflexivity. Qed.

Lemma plan_side_by_side : forall g f h pad m1 s1 m2 s2, 0 < pad -> no_anonymous_data g ->
  (forall t, f t = negb (h t)) ->
  plan_ok (restrict g f) pad m1 s1 -> plan_ok (restrict g h) pad m2 s2 ->
  plan_ok g pad (m1 ++ shift s1 m2) (s1 + s2).
Proof.
  intros g f h pad m1 s1 m2 s2 Hp HA Hfh P1 P2.
  assert (F1 : forall t, dget m1 t <> None -> f t = true /\ exists sz, dget (tensor_sizes g pad) t = Some sz).
  { intros t G. destruct (dget m1 t) as [[o s]|] eqn:E; [|congruence].
    destruct (po_entries _ _ _ _ P1 _ _ _ E) as (z & Z1 & _). rewrite restrict_sizes in Z1. destruct (f t); [eauto|discriminate]. }
  assert (F2 : forall t, dget m2 t <> None -> f t = false /\ exists sz, dget (tensor_sizes g pad) t = Some sz).
  { intros t G. destruct (dget m2 t) as [[o s]|] eqn:E; [|congruence].
    destruct (po_entries _ _ _ _ P2 _ _ _ E) as (z & Z1 & _). rewrite restrict_sizes in Z1. rewrite Hfh.
    destruct (h t); [eauto|discriminate]. }
  assert (X1 : forall t, dget m2 t <> None -> dget m1 t = None).
  { intros t G. destruct (dget m1 t) eqn:E; [|reflexivity]. exfalso.
    destruct (F2 t G) as [A _]. destruct (F1 t ltac:(congruence)) as [B _]. congruence. }
  pose proof (po_nonneg _ _ _ _ P1) as N1. pose proof (po_nonneg _ _ _ _ P2) as N2.
  pose proof (po_div _ _ _ _ P1) as D1. pose proof (po_div _ _ _ _ P2) as D2.
  constructor.
  - intros t o s E. rewrite dget_app, dget_shift in E. destruct (dget m1 t) as [[o1 z1]|] eqn:E1.
    + injection E as -> ->. destruct (po_entries _ _ _ _ P1 _ _ _ E1) as (z & Z1 & Z2 & Z3 & Z4 & Z5 & Z6).
      rewrite restrict_sizes in Z1. destruct (f t); [|discriminate]. exists z. repeat split; auto; lia.
    + destruct (dget m2 t) as [[o2 z2]|] eqn:E2; [|discriminate]. injection E as <- <-.
      destruct (po_entries _ _ _ _ P2 _ _ _ E2) as (z & Z1 & Z2 & Z3 & Z4 & Z5 & Z6).
      rewrite restrict_sizes in Z1. destruct (h t); [|discriminate]. exists z. repeat split; auto; try lia.
      now apply Z.divide_add_r.
  - unfold dkeys. rewrite map_app. fold (dkeys m1) (dkeys (shift s1 m2)). rewrite dkeys_shift, sum_sizes_app.
    pose proof (po_upper _ _ _ _ P1) as U1. pose proof (po_upper _ _ _ _ P2) as U2.
    assert (Q : forall k l, (forall t, In t l -> k t = true) -> sum_sizes (tensor_sizes (restrict g k) pad) l = sum_sizes (tensor_sizes g pad) l).
    { intros k. induction l as [|t l IH]; intros H; [reflexivity|]. cbn [sum_sizes fold_right]. fold (sum_sizes (tensor_sizes (restrict g k) pad) l).
      fold (sum_sizes (tensor_sizes g pad) l). rewrite IH by (intros; apply H; right; assumption).
      unfold size_of. rewrite restrict_sizes, (H t (or_introl eq_refl)). reflexivity. }
    rewrite Q in U1, U2; [lia| |].
    + intros t I. assert (G : dget m2 t <> None) by (intros X; apply dget_None in X; contradiction).
      destruct (F2 t G) as [A _]. rewrite Hfh in A. now destruct (h t).
    + intros t I. assert (G : dget m1 t <> None) by (intros X; apply dget_None in X; contradiction). apply (F1 t G).
  - lia.
  - now apply Z.divide_add_r.
  - unfold dkeys. rewrite map_app. fold (dkeys m1) (dkeys (shift s1 m2)). rewrite dkeys_shift.
    apply NoDup_app_intro; [apply P1|apply P2|].
    intros t I1 I2. assert (G : dget m2 t <> None) by (intros X; apply dget_None in X; contradiction).
    apply X1 in G. apply dget_None in G. contradiction.
  - intros t G. rewrite dget_app, dget_shift in G. destruct (dget m1 t) eqn:E1.
    + apply (po_keys _ _ _ _ P1 t). congruence.
    + apply (po_keys _ _ _ _ P2 t). destruct (dget m2 t); congruence.
  - intros snap I. destruct (po_snaps _ _ _ _ P1 snap I) as (b1 & (T1 & U1) & V1 & W1).
    destruct (po_snaps _ _ _ _ P2 snap I) as (b2 & (T2 & U2) & V2 & W2).
    (* drop blocks whose tag is not of the pool, then fill the gap *)
    set (clean := fun (k : string -> bool) (b : block) => mkB (if k (b_tag b) then b_tag b else ""%string) (b_off b) (b_size b)).
    assert (TC : forall k bs off, tiled pad off bs -> tiled pad off (map (clean k) bs)).
    { intros k. induction bs as [|b r IH]; intros off H; [exact Logic.I|]. cbn [map tiled clean b_off b_size] in *. destruct H as (?&?&?&?). repeat split; auto. }
    assert (SC : forall k bs, tsize (map (clean k) bs) = tsize bs).
    { intros k. induction bs as [|b r IH]; [reflexivity|]. cbn. rewrite IH. reflexivity. }
    assert (NC : forall k bs t, In t (named (tags (map (clean k) bs))) <-> In t (named (tags bs)) /\ k t = true).
    { intros k bs t. rewrite !In_named. unfold tags. rewrite map_map, !in_map_iff. cbn [clean b_tag]. split.
      - intros [(b & B1 & B2) B3]. destruct (k (b_tag b)) eqn:K; [|congruence]. subst t. eauto 6.
      - intros [[(b & B1 & B2) B3] B4]. split; [|exact B3]. exists b. subst t. rewrite B4. auto. }
    assert (DC : forall k bs, NoDup (named (tags bs)) -> NoDup (named (tags (map (clean k) bs)))).
    { intros k. induction bs as [|b r IH]; intros H; [constructor|]. cbn [tags map] in *. fold (tags r) in H. fold (tags (map (clean k) r)).
      rewrite named_cons in *. cbn [clean b_tag].
      assert (H' : NoDup (named (tags r))) by (destruct (String.eqb (b_tag b) ""); [exact H|now inversion H]).
      destruct (k (b_tag b)) eqn:K; [|cbn [String.eqb]; apply IH, H'].
      destruct (String.eqb (b_tag b) "") eqn:Y; [apply IH, H'|]. constructor; [|apply IH, H'].
      intros X. apply NC in X. inversion H; tauto. }
    set (gap := s1 - tsize b1).
    set (fill := if 0 <? gap then [mkB ""%string (tsize b1) gap] else []).
    assert (Dg : (pad | gap)) by (apply Z.divide_sub_r; [exact D1|eapply tiled_tsize_div; eauto]).
    exists (map (clean f) b1 ++ fill ++ map (shift_block s1) (map (clean h) b2)). split; [split|split].
    + apply tiled_app. split; [apply TC, T1|]. rewrite SC, Z.add_0_l. apply tiled_app.
      assert (Ef : tiled pad (tsize b1) fill /\ tsize b1 + tsize fill = s1).
      { unfold fill. destruct (0 <? gap) eqn:Gp; [apply Z.ltb_lt in Gp|apply Z.ltb_ge in Gp]; cbn [tiled tsize b_off b_size]; unfold gap in *; [repeat split; auto; lia|split; [exact Logic.I|lia]]. }
      destruct Ef as [E1 E2]. split; [exact E1|]. rewrite E2. rewrite <- (Z.add_0_r s1) at 1. apply tiled_shift, TC, T2.
    + rewrite !tags_app, !named_app.
      assert (Nf : named (tags fill) = []) by (unfold fill; destruct (0 <? gap); reflexivity). rewrite Nf. cbn [List.app].
      assert (Et : tags (map (shift_block s1) (map (clean h) b2)) = tags (map (clean h) b2)) by (unfold tags; rewrite !map_map; reflexivity).
      rewrite Et. apply NoDup_app_intro; [apply DC, U1|apply DC, U2|].
      intros t I1 I2. apply NC in I1. apply NC in I2. destruct I1 as [_ I1]. destruct I2 as [_ I2]. rewrite Hfh, I2 in I1. discriminate.
    + rewrite !tsize_app, tsize_shift, !SC. unfold fill. destruct (0 <? gap) eqn:Gp; cbn [tsize b_size]; unfold gap in *; [lia|]. apply Z.ltb_ge in Gp. lia.
    + intros t It G. destruct (f t) eqn:Ft.
      * destruct (W1 t It) as (b & B1 & B2 & B3); [rewrite restrict_sizes, Ft; exact G|].
        exists (clean f b). split; [apply in_app_iff; left; now apply in_map|].
        subst t. cbn [clean b_tag b_off b_size]. rewrite Ft. split; [reflexivity|]. rewrite dget_app, B3. reflexivity.
      * assert (Ht : h t = true) by (rewrite Hfh in Ft; now destruct (h t)).
        destruct (W2 t It) as (b & B1 & B2 & B3); [rewrite restrict_sizes, Ht; exact G|].
        exists (shift_block s1 (clean h b)). split; [rewrite !in_app_iff; right; right; now apply in_map, in_map|].
        subst t. cbn [clean shift_block b_tag b_off b_size]. rewrite Ht. split; [reflexivity|].
        rewrite dget_app, dget_shift, B3, (X1 (b_tag b)) by congruence. reflexivity.
Qed.
