From Verif Require Import PyBase PyBaseFacts GraphModel CompressSpec RelSpec RelProofs TopSortSpec TopSortProofs OrderProofs
  EditModel EditSpec RemoveProofs IoProofs PartitionModel PartitionSpec PartitionProofs ShapeModel InferModel InferSpec.
Local Open Scope string_scope.
Local Open Scope list_scope.

Lemma producers_iff : forall g t x, consistent g ->
  (In x (match dget (producedby g) t with Some l => l | None => [] end) <-> exists n, In (x, n) (nodemap g) /\ In t (n_out n)).
Proof.
  intros g t x HC. fold (glist (producedby g) t). split.
  - intros I. destruct (tbl_of _ _ _ _ _ _ _ (co_prod g HC) I) as (n & N1 & N2 & _). exists n. split; [apply dget_In; exact N1|exact N2].
  - intros (n & I & J). apply count_pos. rewrite (tb_cnt _ _ _ _ _ (co_prod g HC)). unfold cnt_sel.
    rewrite (In_dget _ _ _ _ (co_nd g HC) I). apply count_pos in J. cbn [count]. destruct (String.eqb x ""); lia.
Qed.

(** ---- the table ---- *)
Ltac few ins := let five k := idtac in
  destruct ins as [|? [|? [|? [|? [|? [|? ?]]]]]].
Lemma table_spec : forall n t, In t (contains_shape_tensor n) <-> reads_shape_from n t.
Proof.
  intros [nm op ins outs] t. unfold contains_shape_tensor, reads_shape_from. cbn [n_op n_in]. split.
  - unfold shape_table. cbn [dget].
    repeat match goal with |- context [String.eqb ?s op] => destruct (String.eqb_spec s op) as [<-|]
                         | |- context [String.eqb op ?s] => destruct (String.eqb_spec op s) as [->|] end;
    try (intros []);
    few ins; cbn; intros H; repeat (destruct H as [<-|H]); try contradiction;
    first [ exists 0%nat; split; [constructor; lia|reflexivity] | exists 1%nat; split; [constructor; lia|reflexivity]
          | exists 2%nat; split; [constructor; lia|reflexivity] | exists 3%nat; split; [constructor; lia|reflexivity]
          | exists 4%nat; split; [constructor; lia|reflexivity] ].
  - intros (i & H & E). remember (length ins) as len eqn:L. remember op as o eqn:Eo.
    assert (Hi : (i < 5)%nat) by (clear - H; destruct H; lia).
    assert (Hn : (len < 6)%nat) by (clear - H; destruct H; lia).
    few ins; cbn [length] in L; subst len; cbn [length] in Hn; try lia;
    (destruct i as [|[|[|[|[|i]]]]]; [| | | | |lia]);
    inversion H; subst; try (exfalso; lia); cbn in E |- *; try discriminate E; inversion E; subst; tauto.
Qed.

(** ---- the search ---- *)
Section MARKS.
Variable g : graph.
Hypothesis HC : consistent g.
Notation keys := (dkeys (nodemap g)).
Definition back (m k : string) : Prop :=
  exists n t, dget (nodemap g) m = Some n /\ n_op n <> "Shape" /\ In t (n_in n) /\ ~ In t (initials g) /\
    In k (match dget (producedby g) t with Some l => l | None => [] end).
Lemma back_key m k : back m k -> In k keys.
Proof.
  intros (n & t & _ & _ & _ & _ & H). apply producers_iff in H; [|exact HC]. destruct H as (n' & H & _).
  apply in_map_iff. exists (k, n'). auto.
Qed.
Lemma next_of_input_in marks t x : In x (next_of_input g marks t) <->
  ~ In t (initials g) /\ In x (match dget (producedby g) t with Some l => l | None => [] end) /\ ~ In x marks.
Proof.
  unfold next_of_input. destruct (memb t (initials g)) eqn:E.
  - apply memb_In in E. cbn. tauto.
  - apply memb_nIn in E. destruct (dget (producedby g) t).
    + rewrite filter_In, negb_true_iff, memb_nIn. tauto.
    + cbn. tauto.
Qed.
Definition unm (marks : list string) : nat := length (filter (fun k => negb (memb k marks)) keys).
Lemma level_spec : forall level marks next, (forall k, In k level -> In k keys) ->
  exists marks' next', search_level g level (marks, next) = Ok (marks', next') /\
    (forall x, In x marks' <-> In x marks \/ In x level) /\
    (forall x, In x next -> In x next') /\
    (forall x, In x next' -> In x next \/ (~ In x marks /\ exists m, In m level /\ back m x)) /\
    (forall m x, In m level -> back m x -> In x marks' \/ In x next').
Proof.
  induction level as [|k r IH]; intros marks next HK.
  - exists marks, next. cbn. split; [reflexivity|]. repeat split; try tauto; intros; tauto.
  - cbn [search_level]. unfold search_node at 1. assert (Kk : In k keys) by (apply HK; left; reflexivity).
    destruct (dget (nodemap g) k) as [n|] eqn:En; [|apply dget_None in En; contradiction]. cbn [bind fst snd].
    set (m1 := if memb k marks then marks else marks ++ [k]).
    assert (M1 : forall x, In x m1 <-> In x marks \/ x = k).
    { intros x. unfold m1. destruct (memb k marks) eqn:E; [apply memb_In in E|]; [|rewrite in_app_iff; cbn; intuition congruence].
      split; [tauto|]. intros [H| ->]; assumption. }
    set (x1 := if String.eqb (n_op n) "Shape" then next else next ++ flat_map (next_of_input g m1) (n_in n)).
    assert (X1 : forall x, In x x1 <-> In x next \/ (back k x /\ ~ In x m1)).
    { intros x. unfold x1. destruct (String.eqb_spec (n_op n) "Shape") as [Es|Es].
      - split; [tauto|]. intros [H|[(n' & t & G1 & G2 & _) _]]; [exact H|]. congruence.
      - rewrite in_app_iff, in_flat_map. split.
        + intros [H|(t & T1 & T2)]; [tauto|]. apply next_of_input_in in T2 as (T2 & T3 & T4). right. split; [|exact T4].
          exists n, t. auto.
        + intros [H|[(n' & t & G1 & G2 & G3 & G4 & G5) N]]; [tauto|]. right. exists t. assert (n' = n) by congruence. subst n'.
          split; [exact G3|]. apply next_of_input_in. auto. }
    destruct (IH m1 x1) as (marks' & next' & E & H1 & H2 & H3 & H4); [intros; apply HK; right; assumption|].
    exists marks', next'. split; [exact E|]. split; [|split; [|split]].
    + intros x. rewrite H1, M1. cbn [In]. intuition congruence.
    + intros x Hx. apply H2, X1. tauto.
    + intros x Hx. apply H3 in Hx. rewrite X1 in Hx. destruct Hx as [[Hx|[Hx Hn]]|[Hn (m & Hm & Hb)]]; [tauto| |].
      * right. split; [intros N; apply Hn, M1; tauto|]. exists k. split; [left; reflexivity|exact Hx].
      * right. split; [intros N; apply Hn, M1; tauto|]. exists m. split; [right; exact Hm|exact Hb].
    + intros m x [<-|Hm] Hb; [|apply (H4 m); assumption].
      destruct (in_dec string_dec x m1) as [I1|I1]; [left; apply H1; tauto|]. right. apply H2, X1. tauto.
Qed.

Lemma filter_le : forall (p q : string -> bool) l, (forall x, In x l -> q x = true -> p x = true) -> (length (filter q l) <= length (filter p l))%nat.
Proof.
  intros p q l. induction l as [|a l IH]; intros H; [apply le_n|]. cbn [filter]. assert (HI := IH (fun x I => H x (or_intror I))).
  destruct (q a) eqn:Q; [rewrite (H a (or_introl eq_refl) Q); cbn [length]; lia|]. destruct (p a); cbn [length]; lia.
Qed.
Lemma filter_lt : forall (p q : string -> bool) l y, (forall x, In x l -> q x = true -> p x = true) -> In y l -> p y = true -> q y = false ->
  (length (filter q l) < length (filter p l))%nat.
Proof.
  intros p q l y. induction l as [|a l IH]; intros H I P Q; [contradiction|]. cbn [filter]. destruct I as [->|I].
  - rewrite P, Q. cbn [length]. pose proof (filter_le p q l (fun x I => H x (or_intror I))). lia.
  - assert (HI := IH (fun x I => H x (or_intror I)) I P Q). destruct (q a) eqn:Qa; [rewrite (H a (or_introl eq_refl) Qa); cbn [length]; lia|].
    destruct (p a); cbn [length]; lia.
Qed.
Definition fresh (marks level : list string) : bool := existsb (fun k => negb (memb k marks)) level.
Lemma fresh_false marks level : fresh marks level = false <-> forall k, In k level -> In k marks.
Proof.
  unfold fresh. split.
  - intros H k I. apply memb_In. destruct (memb k marks) eqn:E; [reflexivity|]. exfalso. apply Bool.not_true_iff_false in H. apply H.
    apply existsb_exists. exists k. rewrite E. auto.
  - intros H. apply Bool.not_true_iff_false. intros T. apply existsb_exists in T as (k & I & E). apply H, memb_In in I. rewrite I in E. discriminate.
Qed.

(** what is closed under going back, except for the pending level *)
Definition closed (marks level : list string) : Prop := forall m k, In m marks -> back m k -> In k marks \/ In k level.
Definition need (marks level : list string) : nat :=
  match level with [] => 0%nat | _ => (2 * unm marks + (if fresh marks level then 0 else 1))%nat end.
Lemma search_spec : forall fuel marks level, (need marks level <= fuel)%nat ->
  (forall k, In k marks -> In k keys) -> (forall k, In k level -> In k keys) -> closed marks level ->
  exists marks', search fuel g marks level = Some (Ok marks') /\ (forall k, In k marks' -> In k keys) /\
    (forall k, In k marks -> In k marks') /\ (forall k, In k level -> In k marks') /\ closed marks' [] /\
    forall P : string -> Prop, (forall k, In k marks -> P k) -> (forall k, In k level -> P k) -> (forall m k, P m -> back m k -> P k) ->
      forall k, In k marks' -> P k.
Proof.
  assert (Hnil : forall fuel marks, search fuel g marks [] = Some (Ok marks)) by (intros [|f] marks; reflexivity).
  assert (Hpos : forall marks level, level <> [] -> (forall k, In k level -> In k keys) -> (0 < need marks level)%nat).
  { intros marks level NE HK. unfold need. destruct level as [|a l]; [congruence|]. destruct (fresh marks (a :: l)) eqn:F; [|lia].
    unfold fresh in F. apply existsb_exists in F as (y & Y1 & Y2).
    assert (L : (length (filter (fun k => negb (memb k keys)) keys) < unm marks)%nat).
    { apply (filter_lt _ _ _ y); [|apply HK, Y1|exact Y2|apply negb_false_iff, memb_In, HK, Y1].
      intros x Ix T. apply memb_In in Ix. rewrite Ix in T. discriminate. }
    lia. }
  induction fuel as [|f IH]; intros marks level HF HM HL HCl; destruct level as [|k0 r] eqn:El;
    try (specialize (Hpos marks (k0 :: r) ltac:(discriminate) HL); lia).
  - exists marks. rewrite Hnil. split; [reflexivity|]. split; [exact HM|]. split; [tauto|]. split; [intros k []|]. split; [exact HCl|]. auto.
  - exists marks. cbn [search]. split; [reflexivity|]. split; [exact HM|]. split; [tauto|]. split; [intros k []|]. split; [exact HCl|]. auto.
  - rewrite <- El in *. assert (Es : search (S f) g marks level =
      match search_level g level (marks, []) with Ok (m', nx) => search f g m' nx | KeyError => Some KeyError | ValueError => Some ValueError | AssertionError => Some AssertionError end)
      by (rewrite El; reflexivity).
    rewrite Es. clear Es. destruct (level_spec level marks [] HL) as (m1 & x1 & E & H1 & H2 & H3 & H4). rewrite E.
    assert (X1k : forall k, In k x1 -> In k keys).
    { intros k Hk. apply H3 in Hk as [[]|(_ & m & _ & Hb)]. exact (back_key _ _ Hb). }
    assert (M1k : forall k, In k m1 -> In k keys) by (intros k Hk; apply H1 in Hk as [Hk|Hk]; auto).
    destruct (IH m1 x1) as (m2 & E2 & I1 & I2 & I3 & I4 & I5).
    + assert (LE : (unm m1 <= unm marks)%nat).
      { apply filter_le. intros x _. rewrite !negb_true_iff, !memb_nIn. intros N I0. apply N, H1. tauto. }
      assert (HF' : (2 * unm marks + (if fresh marks level then 0 else 1) <= S f)%nat).
      { unfold need in HF. rewrite El in HF |- *. exact HF. }
      unfold need. destruct x1 as [|y x1'] eqn:Ex; [lia|]. rewrite <- Ex in *. assert (Y : In y x1) by (rewrite Ex; left; reflexivity).
      destruct (fresh marks level) eqn:F.
      * assert (LT : (unm m1 < unm marks)%nat).
        { unfold fresh in F. apply existsb_exists in F as (z & Y1 & Y2). apply (filter_lt _ _ _ z).
          - intros x _. rewrite !negb_true_iff, !memb_nIn. intros N I0. apply N, H1. tauto.
          - apply HL, Y1.
          - exact Y2.
          - apply negb_false_iff, memb_In, H1. tauto. }
        destruct (fresh m1 x1); lia.
      * destruct (fresh m1 x1) eqn:F1; [lia|].
        exfalso. destruct (H3 y Y) as [[]|(N & _)].
        apply N. rewrite fresh_false in F, F1. apply F1, H1 in Y. destruct Y as [Y|Y]; [exact Y|]. apply F, Y.
    + exact M1k.
    + exact X1k.
    + intros m k Hm Hb. apply H1 in Hm as [Hm|Hm].
      * left. apply H1. exact (HCl m k Hm Hb).
      * exact (H4 m k Hm Hb).
    + exists m2. split; [exact E2|]. split; [exact I1|]. split; [|split; [|split; [exact I4|]]].
      * intros k Hk. apply I2, H1. tauto.
      * intros k Hk. apply I2, H1. tauto.
      * intros P P1 P2 P3. apply I5; [|intros k Hk|exact P3].
        -- intros k Hk. apply H1 in Hk as [Hk|Hk]; auto.
        -- apply H3 in Hk as [[]|(_ & m & Hm & Hb)]. apply (P3 m); auto.
Qed.

Lemma unm_le marks : (unm marks <= length keys)%nat.
Proof. unfold unm. clear HC. induction keys as [|a l IH]; [apply le_n|]. cbn [filter]. destruct (negb (memb a marks)); cbn [length]; lia. Qed.
Lemma all_spec : forall ts fuel marks, (2 * length (nodemap g) + 1 <= fuel)%nat ->
  (forall k, In k marks -> In k keys) -> closed marks [] ->
  exists marks', search_all fuel g ts marks = Some (Ok marks') /\ (forall k, In k marks' -> In k keys) /\
    (forall k, In k marks -> In k marks') /\ closed marks' [] /\
    (forall t k, In t ts -> computes g k t -> In k marks') /\
    forall P : string -> Prop, (forall k, In k marks -> P k) -> (forall t k, In t ts -> computes g k t -> P k) -> (forall m k, P m -> back m k -> P k) ->
      forall k, In k marks' -> P k.
Proof.
  induction ts as [|t r IH]; intros fuel marks HF HM HCl.
  - exists marks. cbn [search_all]. split; [reflexivity|]. split; [exact HM|]. split; [tauto|]. split; [exact HCl|]. split; [intros t k []|]. auto.
  - cbn [search_all]. destruct (memb t (initials g)) eqn:Mt.
    + apply memb_In in Mt. destruct (IH fuel marks HF HM HCl) as (m' & E & H1 & H2 & H3 & H4 & H5). exists m'. split; [exact E|].
      split; [exact H1|]. split; [exact H2|]. split; [exact H3|]. split.
      * intros u k [<-|Hu] Hc; [destruct Hc; contradiction|]. exact (H4 u k Hu Hc).
      * intros P P1 P2 P3. apply H5; [exact P1| |exact P3]. intros u k Hu. apply P2. right. exact Hu.
    + apply memb_nIn in Mt. destruct (dget (producedby g) t) as [ps|] eqn:Ep.
      * assert (Hps : forall k, In k ps <-> computes g k t).
        { intros k. pose proof (producers_iff g t k HC) as Hi. rewrite Ep in Hi. rewrite Hi. unfold computes. tauto. }
        assert (Kps : forall k, In k ps -> In k keys).
        { intros k Hk. apply Hps in Hk as [_ (n & Hn & _)]. apply in_map_iff. exists (k, n). auto. }
        destruct (search_spec fuel marks ps) as (m1 & E1 & A1 & A2 & A3 & A4 & A5).
        { unfold need. pose proof (unm_le marks) as Hu. unfold dkeys in Hu. rewrite map_length in Hu. destruct ps; [lia|]. destruct (fresh marks _); lia. }
        { exact HM. } { exact Kps. } { intros m k Hm Hb. destruct (HCl m k Hm Hb) as [?|[]]. left. assumption. }
        rewrite E1. destruct (IH fuel m1 HF A1 A4) as (m' & E & H1 & H2 & H3 & H4 & H5). exists m'. split; [exact E|].
        split; [exact H1|]. split; [intros k Hk; apply H2, A2, Hk|]. split; [exact H3|]. split.
        -- intros u k [<-|Hu] Hc; [|exact (H4 u k Hu Hc)]. apply H2, A3, Hps, Hc.
        -- intros P P1 P2 P3. apply H5; [| |exact P3].
           ++ apply A5; [exact P1| |exact P3]. intros k Hk. apply (P2 t); [left; reflexivity|]. apply Hps, Hk.
           ++ intros u k Hu. apply P2. right. exact Hu.
      * destruct (IH fuel marks HF HM HCl) as (m' & E & H1 & H2 & H3 & H4 & H5). exists m'. split; [exact E|].
        split; [exact H1|]. split; [exact H2|]. split; [exact H3|]. split.
        -- intros u k [<-|Hu] Hc; [|exact (H4 u k Hu Hc)]. exfalso. destruct Hc as [_ Hc].
           apply (producers_iff g t k HC) in Hc. rewrite Ep in Hc. exact Hc.
        -- intros P P1 P2 P3. apply H5; [exact P1| |exact P3]. intros u k Hu. apply P2. right. exact Hu.
Qed.

Lemma shape_tensors_in t : In t (shape_tensors g) <-> exists m n, In (m, n) (nodemap g) /\ reads_shape_from n t.
Proof.
  unfold shape_tensors, nodes_of. rewrite in_flat_map. split.
  - intros (n & Hn & Ht). apply in_map_iff in Hn as ([m n'] & <- & Hm). exists m, n'. split; [exact Hm|]. apply table_spec, Ht.
  - intros (m & n & Hm & Ht). exists n. split; [|apply table_spec, Ht]. apply in_map_iff. exists (m, n). auto.
Qed.
Theorem marks_correct : forall fuel order, (2 * length (nodemap g) + 1 <= fuel)%nat ->
  (forall t, In t order <-> In t (shape_tensors g)) ->
  exists marks, find_shape_tensors fuel g order = Some (Ok marks) /\ forall k, In k marks <-> value_needed g k.
Proof.
  intros fuel order HF HO. unfold find_shape_tensors.
  destruct (all_spec order fuel [] HF) as (m & E & H1 & _ & H3 & H4 & H5); [intros k []|intros a b []|].
  exists m. split; [exact E|]. intros k. split.
  - apply H5; [intros x []| |].
    + intros t x Ht Hc. apply HO, shape_tensors_in in Ht as (a & n & Ha & Hr). exact (vn_operand g x t a n Ha Hr Hc).
    + intros a x Ha (n & t & G1 & G2 & G3 & G4 & G5). apply producers_iff in G5; [|exact HC].
      apply (vn_feed g x t a n Ha (dget_In _ _ _ _ G1) G2 G3). split; [exact G4|exact G5].
  - induction 1 as [k t a n Ha Hr Hc|k t a n Hv IH Ha Hs Ht Hc].
    + apply (H4 t k); [|exact Hc]. apply HO, shape_tensors_in. eauto.
    + destruct (H3 a k IH) as [?|[]]; [|assumption]. exists n, t. destruct Hc as [C1 C2].
      split; [apply In_dget; [exact (co_nd g HC)|exact Ha]|]. split; [exact Hs|]. split; [exact Ht|]. split; [exact C1|].
      apply producers_iff; [exact HC|exact C2].
Qed.
End MARKS.
