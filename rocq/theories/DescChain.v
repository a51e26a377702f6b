From Verif Require Import PyBase PyBaseFacts GraphModel ShapeModel RelSpec RelProofs EditModel PartitionModel FusionModel FusionSpec FusionProofs FusionTop FusionMeets FuseProofs RegressProofs DescModel DescSpec DescProofs.
From Coq Require Import Lia.
Open Scope string_scope. Open Scope list_scope. Open Scope Z_scope.

Lemma pattern_descs ds inpl : NoDup (map d_name ds) -> p_desc (mk_pattern ds inpl) = map (fun d => (d_name d, d)) ds.
Proof.
  intros N. unfold mk_pattern. cbn [p_desc]. assert (Gen : forall l d0, NoDup (dkeys d0 ++ map d_name l) -> fold_left (fun m d => dset m (d_name d) d) l d0 = d0 ++ map (fun d => (d_name d, d)) l).
  { induction l as [|d l IH]; intros d0 Nd; [cbn; rewrite app_nil_r; reflexivity|]. cbn [fold_left map]. cbn [map] in Nd.
    assert (Nk : ~ In (d_name d) (dkeys d0)) by (intros I; apply NoDup_remove_2 in Nd; apply Nd; apply in_or_app; auto).
    rewrite dset_new by exact Nk. rewrite IH; [rewrite <- app_assoc; reflexivity|]. unfold dkeys in *. rewrite map_app, <- app_assoc. exact Nd. }
  apply Gen. exact N.
Qed.
Lemma dget_self {A} (f : A -> string) l a : NoDup (map f l) -> In a l -> dget (map (fun d => (f d, d)) l) (f a) = Some a.
Proof. intros N I. apply In_dget; [unfold dkeys; rewrite map_map; exact N|]. apply in_map_iff. eauto. Qed.
Lemma only_producer g m t : exact g -> In m (nodes_of g) -> In t (n_out m) -> dget (producedby g) t = Some [n_name m].
Proof.
  intros X I T. rewrite (ex_prod g X). assert (L : length (occurrences n_out (nodes_of g) t) = count t (flat_map n_out (nodes_of g))) by apply occurrences_count.
  assert (C : (count t (flat_map n_out (nodes_of g)) <= 1)%nat).
  { generalize (ex_ssa g X). clear. intros N. induction N as [|x l Hx N IH]; cbn [count]; [lia|]. destruct (String.eqb_spec t x); [|exact IH]. subst.
    assert (Z0 : count x l = 0%nat); [|lia]. clear -Hx. induction l as [|y l IH]; [reflexivity|]. cbn [count]. destruct (String.eqb_spec x y); [subst; exfalso; apply Hx; left; reflexivity|]. apply IH. intros H. apply Hx. right. exact H. }
  assert (Ho : In (n_name m) (occurrences n_out (nodes_of g) t)) by (apply In_occurrences; eauto).
  destruct (occurrences n_out (nodes_of g) t) as [|a [|b r]]; [contradiction| |cbn in L; lia]. destruct Ho as [->|[]]. reflexivity.
Qed.
Lemma once_index g n t b : In n (nodes_of g) -> n_name n = b -> NoDup (map n_name (nodes_of g)) -> occurrences n_in (nodes_of g) t = [b] -> forall i, nth_error (n_in n) i = Some t -> index_of t (n_in n) = SOk (Z.of_nat i).
Proof.
  intros I <- N O i Hi. assert (F : (length (filter (String.eqb t) (n_in n)) <= 1)%nat).
  { unfold occurrences in O. assert (G : forall l, In n l -> (length (filter (String.eqb t) (n_in n)) <= length (flat_map (fun n0 => map (fun _ => n_name n0) (filter (String.eqb t) (n_in n0))) l))%nat).
    { induction l as [|x l IH]; intros H; [contradiction|]. cbn [flat_map]. rewrite app_length, map_length. destruct H as [->|H]; [lia|specialize (IH H); lia]. }
    specialize (G _ I). rewrite O in G. exact G. }
  clear -F Hi. revert i Hi. induction (n_in n) as [|y l IH]; intros i Hi; [destruct i; discriminate|]. cbn [index_of]. cbn [filter] in F. destruct (String.eqb_spec t y) as [->|D].
  - destruct i as [|i]; [reflexivity|]. exfalso. cbn in Hi, F. assert (In y (filter (String.eqb y) l)) by (apply filter_In; split; [eapply nth_error_In; eauto|apply String.eqb_refl]). destruct (filter (String.eqb y) l); [contradiction|cbn in F; lia].
  - destruct i as [|i]; [cbn in Hi; congruence|]. rewrite (IH F i Hi). cbn [sbind]. f_equal. lia.
Qed.
Lemma py_index_some {A} (l : list A) i x : 0 <= i -> nth_error l (Z.to_nat i) = Some x -> py_index l i = SOk x.
Proof. intros H E. unfold py_index. rewrite (proj2 (Z.ltb_ge i 0) H). rewrite (proj2 (Z.ltb_ge i 0) H). rewrite E. reflexivity. Qed.
Lemma next_unique l a b c : NoDup l -> next_in l a b -> next_in l a c -> b = c.
Proof.
  intros N (p1 & q1 & E1) (p2 & q2 & E2). subst l. revert p2 E2. induction p1 as [|x p1 IH]; intros p2 E2; destruct p2 as [|y p2]; cbn in E2.
  - injection E2. auto.
  - injection E2 as <- E. exfalso. cbn in N. inversion N as [|? ? Hn _]; subst. apply Hn. rewrite E. apply in_or_app. right. left. reflexivity.
  - injection E2 as -> E. exfalso. cbn in N. inversion N as [|? ? Hn _]; subst. apply Hn. apply in_or_app. right. left. reflexivity.
  - injection E2 as <- E. cbn in N. inversion N; subst. eapply IH; eauto.
Qed.
Lemma prev_unique l a b c : NoDup l -> next_in l a c -> next_in l b c -> a = b.
Proof.
  intros N (p1 & q1 & E1) (p2 & q2 & E2).
  assert (D : forall p x y q, l = p ++ x :: y :: q -> nth_error l (S (length p)) = Some y /\ nth_error l (length p) = Some x).
  { intros p x y q ->. split; rewrite nth_error_app2 by lia; [replace (S (length p) - length p)%nat with 1%nat by lia|rewrite Nat.sub_diag]; reflexivity. }
  destruct (D _ _ _ _ E1) as (A1 & B1). destruct (D _ _ _ _ E2) as (A2 & B2).
  assert (S (length p1) = S (length p2)) as L by (apply (proj1 (NoDup_nth_error l) N); [apply nth_error_Some; congruence|congruence]). injection L as L. rewrite L in B1. congruence.
Qed.
Lemma next_nth l x y : next_in l x y -> exists j, nth_error l j = Some x /\ nth_error l (S j) = Some y.
Proof. intros (p & q & ->). exists (length p). split; rewrite nth_error_app2 by lia; [rewrite Nat.sub_diag|replace (S (length p) - length p)%nat with 1%nat by lia]; reflexivity. Qed.
Lemma pred_in_prefix pre k post p : NoDup (pre ++ k :: post) -> next_in (pre ++ k :: post) p k -> In p pre.
Proof.
  intros N H. apply next_nth in H as (j & A & B). assert (C : nth_error (pre ++ k :: post) (length pre) = Some k) by (rewrite nth_error_app2, Nat.sub_diag by lia; reflexivity).
  assert (S j = length pre) as L by (apply (proj1 (NoDup_nth_error _) N); [apply nth_error_Some; congruence|congruence]). rewrite nth_error_app1 in A by lia. eapply nth_error_In; eauto.
Qed.
Lemma last_no_next pre k q : NoDup (pre ++ [k]) -> ~ next_in (pre ++ [k]) k q.
Proof.
  intros N H. apply next_nth in H as (j & A & B). assert (C : nth_error (pre ++ [k]) (length pre) = Some k) by (rewrite nth_error_app2, Nat.sub_diag by lia; reflexivity).
  assert (j = length pre) as L by (apply (proj1 (NoDup_nth_error _) N); [apply nth_error_Some; congruence|congruence]). subst j. assert (S (length pre) < length (pre ++ [k]))%nat by (apply nth_error_Some; congruence). rewrite app_length in H. cbn in H. lia.
Qed.
Lemma next_members l a b : next_in l a b -> In a l /\ In b l.
Proof. intros (p & q & ->). split; apply in_or_app; right; cbn; auto. Qed.
Lemma next_neq l a b : NoDup l -> next_in l a b -> a <> b.
Proof. intros N (p & q & ->) ->. apply NoDup_remove_2 in N. apply N. apply in_or_app. right. left. reflexivity. Qed.

Lemma described_names g ns l ds : Forall2 (describes g ns) l ds -> map d_name ds = l.
Proof. induction 1 as [|k d l l' (n & _ & E & _) _ IH]; [reflexivity|]. cbn. rewrite E, IH. reflexivity. Qed.
Lemma described_in g ns l ds k : Forall2 (describes g ns) l ds -> In k l -> exists d, In d ds /\ describes g ns k d.
Proof.
  induction 1 as [|k' d l l' D _ IH]; intros H; [contradiction|]. destruct H as [->|H]; [exists d; split; [left; reflexivity|exact D]|]. destruct (IH H) as (d' & I & D'). exists d'. split; [right; exact I|exact D'].
Qed.
Section CHAIN.
Context (G : fgraph) (X : exact (fg G)) (names : list string) (ND : NoDup names) (known : forall k, In k names -> exists n, dget (nodemap (fg G)) k = Some n)
        (CH : is_chain (fg G) names) (ds : list desc) (DD : Forall2 (describes (fg G) names) names ds).
Let P := mk_pattern ds false.
Lemma names_of_descs : map d_name ds = names.
Proof. exact (described_names _ _ _ _ DD). Qed.
Lemma desc_of k : In k names -> exists d, dget (p_desc P) k = Some d /\ describes (fg G) names k d.
Proof.
  intros H. assert (E : exists d, In d ds /\ describes (fg G) names k d).
  { exact (described_in _ _ _ _ k DD H). }
  destruct E as (d & I & D). exists d. split; [|exact D]. unfold P. rewrite pattern_descs by (rewrite names_of_descs; exact ND). destruct D as (n & _ & <- & _). apply dget_self; [rewrite names_of_descs; exact ND|exact I].
Qed.
Lemma desc_is_node k d n : describes (fg G) names k d -> dget (nodemap (fg G)) k = Some n -> is_node G d n = SOk true.
Proof. intros (n' & E & _ & Eo & Ea & _) H. rewrite E in H. injection H as ->. unfold is_node. rewrite Eo, Ea. cbn [attrs_ok op_ok]. destruct (String.eqb (n_op n) "Any"); [reflexivity|]. rewrite String.eqb_refl. reflexivity. Qed.
Lemma names_nodup : NoDup (map n_name (nodes_of (fg G))).
Proof.
  unfold nodes_of. rewrite map_map. erewrite map_ext_in; [apply (ex_nodup _ X)|]. intros [k n] Hk. cbn. apply (ex_names _ X _ _ Hk).
Qed.
Lemma up_ok k n p es : forall searched ups b, dget (nodemap (fg G)) k = Some n -> next_in names p k -> In p searched ->
  (forall e, In e es -> exists m, e_desc e = p /\ dget (nodemap (fg G)) p = Some m /\ wire m (e_other e) n (e_idx e)) -> (es <> [] \/ b = true) ->
  forall rec, up_edges G P rec n es (b, ups, searched) = SOk (true, ups, searched).
Proof.
  induction es as [|e es IH]; intros searched ups b Hn NX Ip HE B rec.
  - cbn [up_edges]. destruct B as [B|B]; [congruence|]. rewrite B. reflexivity.
  - cbn [up_edges]. destruct (HE e (or_introl eq_refl)) as (m & Ed & Hm & O0 & I0 & t & Ho & Hi). rewrite Ed. destruct (next_members _ _ _ NX) as (Ip' & Ik').
    destruct (desc_of p Ip') as (d & D1 & D2). unfold dlook at 1. rewrite D1. cbn [sbind].
    destruct (Z.eqb_spec (e_idx e) (-1)); [lia|]. assert (LT : e_idx e < zlen (n_in n)) by (assert (Z.to_nat (e_idx e) < length (n_in n))%nat by (apply nth_error_Some; congruence); unfold zlen; lia).
    rewrite (proj2 (Z.ltb_lt _ _) LT). rewrite (py_index_some _ _ _ I0 Hi). cbn [sbind].
    assert (Im : In m (nodes_of (fg G))) by (apply dget_In in Hm; apply in_map_iff; exists (p, m); auto). assert (Nm : n_name m = p) by (apply dget_In in Hm; exact (ex_names _ X _ _ Hm)).
    unfold dlook at 1. rewrite (only_producer _ _ _ X Im (nth_error_In _ _ Ho)), Nm. cbn [sbind up_producers]. unfold dlook. rewrite Hm. cbn [sbind].
    assert (PO : port_ok (e_other e) (n_out m) t = SOk true).
    { unfold port_ok. destruct (Z.eqb_spec (e_other e) (-1)); [reflexivity|]. assert (No : NoDup (n_out m)).
      { pose proof (out_nodup (fg G) X names known p Ip') as N0. unfold node_at in N0. rewrite Hm in N0. exact N0. }
      rewrite (index_unique _ _ _ No Ho). cbn [sbind]. rewrite Z2Nat.id by lia. rewrite Z.eqb_refl. reflexivity. }
    rewrite PO. cbn [sbind]. rewrite (desc_is_node p d m D2 Hm). cbn [sbind]. rewrite (proj2 (memb_In p searched) Ip). cbn [negb sbind]. apply IH; auto. intros e' He'. apply HE. right. exact He'.
Qed.
Lemma down_ok k n q es (rec : rec_t) r searched2 : forall searched, dget (nodemap (fg G)) k = Some n -> next_in names k q -> ~ In q searched -> In q searched2 ->
  rec (q, q) searched = SOk (true, r, searched2) -> es <> [] ->
  (forall e, In e es -> exists m, e_desc e = q /\ dget (nodemap (fg G)) q = Some m /\ wire n (e_idx e) m (e_other e)) ->
  down_edges G P rec n es (false, [], searched) = SOk (true, r, searched2).
Proof.
  intros searched Hn NX Nq Iq R NE HE. destruct (next_members _ _ _ NX) as (Ik' & Iq'). destruct (desc_of q Iq') as (d & D1 & D2).
  assert (ST : forall e s, In e es -> down_edges G P rec n (e :: []) s = down_edges G P rec n (e :: []) s) by reflexivity. clear ST.
  destruct (known q Iq') as (m0 & Hm0). destruct (ch_link _ _ CH k q n m0 NX Hn Hm0) as (o & i & t & O0 & I0 & Ho & Hi & Occ).
  assert (Wo : wire n o m0 i) by (split; [exact O0|]; split; [exact I0|]; eauto).
  assert (EE : forall e, In e es -> e_desc e = q /\ e_idx e = o /\ e_other e = i).
  { intros e He. destruct (HE e He) as (m & Ed & Hm & W). rewrite Hm0 in Hm. injection Hm as <-. destruct (ch_one _ _ CH k q n m0 _ _ _ _ NX Hn Hm0 W Wo) as (-> & ->). auto. }
  assert (Im : In m0 (nodes_of (fg G))) by (apply dget_In in Hm0; apply in_map_iff; exists (q, m0); auto). assert (Nm : n_name m0 = q) by (apply dget_In in Hm0; exact (ex_names _ X _ _ Hm0)).
  assert (LT : o < zlen (n_out n)) by (assert (Z.to_nat o < length (n_out n))%nat by (apply nth_error_Some; congruence); unfold zlen; lia).
  assert (PO : port_ok i (n_in m0) t = SOk true).
  { unfold port_ok. destruct (Z.eqb_spec i (-1)); [reflexivity|]. rewrite (once_index (fg G) m0 t q Im Nm names_nodup Occ _ Hi). cbn [sbind]. rewrite Z2Nat.id by lia. rewrite Z.eqb_refl. reflexivity. }
  assert (STEP : forall e es' b downs s, In e es -> down_edges G P rec n (e :: es') (b, downs, s) = let* s' := (if negb (memb q s) then let* w := rec (q, q) s in let '(v, p, s2) := w in if v then SOk (true, downs ++ p, s2) else SOk (false, downs, s2) else SOk (true, downs, s)) in down_edges G P rec n es' s').
  { intros e es' b downs s He. destruct (EE e He) as (E1 & E2 & E3). cbn [down_edges]. rewrite E1, E2, E3. unfold dlook at 1. rewrite D1. cbn [sbind]. destruct (Z.eqb_spec o (-1)); [lia|]. rewrite (proj2 (Z.ltb_lt _ _) LT). rewrite (py_index_some _ _ _ O0 Ho). cbn [sbind].
    rewrite (ex_cons _ X), Occ. cbn [none_if_empty]. unfold too_many. cbn [P mk_pattern p_append andb down_consumers]. unfold dlook. rewrite Hm0. cbn [sbind]. rewrite PO. cbn [sbind]. rewrite (desc_is_node q d m0 D2 Hm0). cbn [sbind].
    destruct (negb (memb q s)); [|reflexivity]. destruct (rec (q, q) s) as [[[v p] s2]|er]; [|reflexivity]. cbn [sbind]. destruct v; reflexivity. }
  destruct es as [|e es]; [congruence|]. rewrite (STEP e es) by (left; reflexivity). rewrite (proj2 (memb_nIn q searched) Nq). cbn [negb]. rewrite R. cbn [sbind List.app].
  assert (REST : forall es', (forall e', In e' es' -> In e' (e :: es)) -> down_edges G P rec n es' (true, r, searched2) = SOk (true, r, searched2)).
  { induction es' as [|e' es' IH]; intros Sub; [reflexivity|]. rewrite (STEP e' es') by (apply Sub; left; reflexivity). rewrite (proj2 (memb_In q searched2) Iq). cbn [negb sbind]. apply IH. intros x Hx. apply Sub. right. exact Hx. }
  apply REST. intros x Hx. right. exact Hx.
Qed.
Lemma search_chain : forall post k pre fuel, names = pre ++ k :: post -> (length post < fuel)%nat ->
  search_node fuel G P (k, k) pre = SOk (true, map (fun x => (x, x)) (k :: post), names).
Proof.
  induction post as [|q post IH]; intros k pre fuel E F; (destruct fuel as [|fuel]; [cbn in F; lia|]); cbn [search_node]; unfold search_body; cbn [fst snd].
  all: assert (Ik : In k names) by (rewrite E; apply in_or_app; right; left; reflexivity).
  all: destruct (desc_of k Ik) as (d & D1 & D2); pose proof D2 as (n & Hn & Dn & Do & Da & Din & Dout); unfold dlook at 1; rewrite D1; cbn [sbind]; unfold dlook at 1; rewrite Hn; cbn [sbind].
  all: assert (UP : forall rec, up_edges G P rec n (d_in d) (match d_in d with [] => true | _ => false end, [], pre ++ [k]) = SOk (true, [], pre ++ [k])).
  1, 3: intros rec; destruct (d_in d) as [|e0 es0] eqn:Ed; [reflexivity|]; rewrite <- Ed;
        (assert (I0 : In e0 (d_in d)) by (rewrite Ed; left; reflexivity)); rewrite <- Ed in Din; apply Din in I0 as (m0 & Ip & Hm0 & W0);
        pose proof (ch_only _ _ CH _ _ _ _ _ _ Ip Ik Hm0 Hn W0) as NX; apply (up_ok k n (e_desc e0)); auto;
        [ apply in_or_app; left; rewrite E in ND, NX; exact (pred_in_prefix _ _ _ _ ND NX)
        | intros e He; apply Din in He as (m & Ip' & Hm & W); pose proof (ch_only _ _ CH _ _ _ _ _ _ Ip' Ik Hm Hn W) as NX'; rewrite <- (prev_unique _ _ _ _ ND NX NX') in *; eauto
        | left; rewrite Ed; discriminate ].
  all: rewrite UP; cbn [sbind negb].
  - assert (d_out d = []) as ->.
    { destruct (d_out d) as [|e0 es0] eqn:Ed; [reflexivity|]. exfalso. assert (I0 : In e0 (d_out d)) by (rewrite Ed; left; reflexivity). rewrite <- Ed in Dout. apply Dout in I0 as (m0 & Iq & Hm0 & W0).
      pose proof (ch_only _ _ CH _ _ _ _ _ _ Ik Iq Hn Hm0 W0) as NX. rewrite E in ND, NX. exact (last_no_next _ _ _ ND NX). }
    cbn [down_edges sbind map List.app]. rewrite <- E. reflexivity.
  - assert (NX : next_in names k q) by (exists pre, post; exact E). destruct (next_members _ _ _ NX) as (_ & Iq). destruct (known q Iq) as (m0 & Hm0). destruct (ch_link _ _ CH k q n m0 NX Hn Hm0) as (o & i & t & O0 & I0 & Ho & Hi & Occ).
    assert (NE : d_out d <> []).
    { assert (I1 : In {| e_idx := o; e_desc := q; e_other := i |} (d_out d)) by (apply Dout; exists m0; cbn [e_desc e_idx e_other]; split; [exact Iq|]; split; [exact Hm0|]; split; [exact O0|]; split; [exact I0|]; eauto). intros C. rewrite C in I1. exact I1. }
    replace (match d_out d with [] => true | _ => false end) with false by (destruct (d_out d); congruence).
    rewrite (down_ok k n q (d_out d) (search_node fuel G P) (map (fun x => (x, x)) (q :: post)) names (pre ++ [k])); auto.
    + intros H. rewrite E in ND. replace (pre ++ k :: q :: post) with ((pre ++ [k]) ++ q :: post) in ND by (rewrite <- app_assoc; reflexivity). apply NoDup_remove_2 in ND. apply ND. apply in_or_app. left. exact H.
    + apply IH; [rewrite E, <- app_assoc; reflexivity|cbn in F; lia].
    + intros e He. apply Dout in He as (m & Ip' & Hm & W). pose proof (ch_only _ _ CH _ _ _ _ _ _ Ik Ip' Hn Hm W) as NX'. rewrite <- (next_unique _ _ _ _ ND NX NX') in *. eauto.
Qed.
End CHAIN.
