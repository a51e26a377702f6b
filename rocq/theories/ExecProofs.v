From Verif Require Import PyBase PyBaseFacts GraphModel CompressModel CompressSpec CompressProofs CompressTop ExecModel.
Local Open Scope Z_scope.

(* ---- static consequences of plan_ok ---- *)
Lemma plan_no_overlap : forall g pad mem total i t1 t2 o1 s1 o2 s2,
  consumers_exact g -> plan_ok g pad mem total ->
  live_at g i t1 -> live_at g i t2 -> t1 <> t2 ->
  dget mem t1 = Some (o1, s1) -> dget mem t2 = Some (o2, s2) ->
  o1 + s1 <= o2 \/ o2 + s2 <= o1.
Proof.
  intros g pad mem total i t1 t2 o1 s1 o2 s2 HX HP L1 L2 N E1 E2.
  destruct L1 as (N1 & Hi & R1). destruct L2 as (N2 & _ & R2).
  pose proof (liveness_length (consumedby g) (nodes_of g) [] (g_input g)) as HL.
  destruct (nth_error (liveness (consumedby g) (nodes_of g) [] (g_input g)) i) as [s|] eqn:S.
  2:{ apply nth_error_None in S. lia. }
  assert (I1 : In t1 s) by (eapply live_in_snapshot; eauto; repeat split; auto; apply R1).
  assert (I2 : In t2 s) by (eapply live_in_snapshot; eauto; repeat split; auto; apply R2).
  destruct (po_snaps _ _ _ _ HP s (nth_error_In _ _ S)) as (bs & B1 & B2 & B3).
  destruct (po_entries _ _ _ _ HP _ _ _ E1) as (z1 & Z1 & _).
  destruct (po_entries _ _ _ _ HP _ _ _ E2) as (z2 & Z2 & _).
  destruct (B3 t1 I1 ltac:(congruence)) as (b1 & K1 & K2 & K3).
  destruct (B3 t2 I2 ltac:(congruence)) as (b2 & M1 & M2 & M3).
  rewrite E1 in K3. injection K3 as -> ->. rewrite E2 in M3. injection M3 as -> ->.
  apply (tiled_disjoint pad bs 0 b1 b2 (proj1 B1) K1 M1). congruence.
Qed.

Lemma pad_up_round_up : forall pad s, pad_up pad s = round_up pad s.
Proof. reflexivity. Qed.

Lemma size_of_padded : forall g pad t sz,
  dget (tensor_sizes g pad) t = Some sz -> size_of (tensor_sizes g pad) t = padded_bytes g pad t.
Proof.
  intros g pad t sz H. unfold size_of, padded_bytes. rewrite H. apply tensor_sizes_spec in H.
  destruct H as (_ & _ & tn & E1 & E2 & _). rewrite E1, E2. reflexivity.
Qed.

Lemma named_cons : forall x l, named (x :: l) = if String.eqb x "" then named l else x :: named l.
Proof. intros. unfold named. simpl. destruct (String.eqb x ""); reflexivity. Qed.

Lemma sumZ_remove1 : forall (f : string -> Z) x l, In x l -> sumZ f l = f x + sumZ f (remove1 x l).
Proof.
  intros f x. induction l as [|y l IH]; simpl; intros I; [tauto|].
  destruct (String.eqb_spec x y) as [->|N]; [reflexivity|]. simpl.
  destruct I as [I|I]; [congruence|]. rewrite (IH I). lia.
Qed.

Lemma remove1_notin : forall x l, ~ In x l -> remove1 x l = l.
Proof.
  induction l as [|y l IH]; simpl; intros I; [reflexivity|].
  destruct (String.eqb_spec x y) as [->|N]; [tauto|]. f_equal. apply IH. tauto.
Qed.

Lemma sum_blocks : forall (f : string -> Z) pad bs l off, tiled pad off bs -> NoDup (named (tags bs)) -> NoDup l ->
  (forall t, In t l -> t <> ""%string /\ exists b, In b bs /\ b_tag b = t /\ f t <= b_size b) -> sumZ f l <= tsize bs.
Proof.
  intros f pad. induction bs as [|x r IH]; intros l off HT HN ND H.
  - destruct l as [|t l]; [simpl; lia|]. destruct (H t (or_introl eq_refl)) as (_ & b & [] & _).
  - cbn [tiled] in HT. destruct HT as (T1 & T2 & T3 & T4).
    cbn [tags map] in HN. rewrite named_cons in HN.
    assert (HN' : NoDup (named (tags r))).
    { destruct (String.eqb (b_tag x) ""); [assumption|inversion HN; assumption]. }
    assert (Hr : forall t, In t (remove1 (b_tag x) l) ->
      t <> ""%string /\ exists b, In b r /\ b_tag b = t /\ f t <= b_size b).
    { intros t I. apply In_remove1_NoDup in I; [|assumption]. destruct I as [I Nt].
      destruct (H t I) as (Ne & b & [->|B1] & B2 & B3); [congruence|]. split; [assumption|]. exists b; auto. }
    specialize (IH _ _ T4 HN' (NoDup_remove1 (b_tag x) l ND) Hr). cbn [tsize].
    destruct (in_dec string_dec (b_tag x) l) as [I|I].
    + rewrite (sumZ_remove1 f _ _ I).
      destruct (H _ I) as (Ne & b & [<-|B1] & B2 & B3); [lia|].
      exfalso. apply String.eqb_neq in Ne. rewrite Ne in HN. apply String.eqb_neq in Ne. inversion HN as [|? ? N1 N2]; subst.
      apply N1. apply In_named. split; [|assumption]. rewrite <- B2. unfold tags. apply in_map. assumption.
    + rewrite (remove1_notin _ _ I) in IH. lia.
Qed.

Lemma plan_lower : forall g pad mem total i l,
  consumers_exact g -> plan_ok g pad mem total -> 0 < pad -> NoDup l ->
  (forall t, In t l -> live_at g i t /\ exists b, planned_bytes g t b) ->
  sumZ (padded_bytes g pad) l <= total.
Proof.
  intros g pad mem total i l HX HP Hpad ND H.
  destruct l as [|t0 l0]; [simpl; apply (po_nonneg _ _ _ _ HP)|].
  set (l := t0 :: l0) in *.
  destruct (H t0 (or_introl eq_refl)) as ((_ & Hi & _) & _).
  pose proof (liveness_length (consumedby g) (nodes_of g) [] (g_input g)) as HL.
  destruct (nth_error (liveness (consumedby g) (nodes_of g) [] (g_input g)) i) as [s|] eqn:S.
  2:{ apply nth_error_None in S. lia. }
  destruct (po_snaps _ _ _ _ HP s (nth_error_In _ _ S)) as (bs & (B1 & B1') & B2 & B3).
  transitivity (tsize bs); [|assumption].
  apply (sum_blocks (padded_bytes g pad) pad bs l 0 B1 B1' ND).
  intros t I. destruct (H t I) as (HLv & b & P1 & P2 & tn & P3 & P4 & P5).
  split; [apply HLv|].
  assert (Hsz : dget (tensor_sizes g pad) t = Some (pad_up pad (data_bytes tn))).
  { apply tensor_sizes_spec. repeat split; auto. exists tn. repeat split; auto. apply pad_up_pos; lia. }
  destruct (B3 t) as (bk & K1 & K2 & K3); [eapply live_in_snapshot; eauto|congruence|].
  exists bk. split; [assumption|]. split; [assumption|].
  destruct (po_entries _ _ _ _ HP _ _ _ K3) as (z & Z1 & Z2 & _).
  unfold padded_bytes. rewrite P3. change (round_up pad (data_bytes tn)) with (pad_up pad (data_bytes tn)).
  congruence || (rewrite Hsz in Z1; injection Z1 as <-; assumption).
Qed.

Lemma plan_upper : forall g pad mem total,
  plan_ok g pad mem total -> total <= sumZ (padded_bytes g pad) (dkeys mem).
Proof.
  intros g pad mem total HP. pose proof (po_upper _ _ _ _ HP) as U.
  assert (forall l, (forall t, In t l -> dget (tensor_sizes g pad) t <> None) ->
     sum_sizes (tensor_sizes g pad) l = sumZ (padded_bytes g pad) l) as E.
  { induction l as [|t l IH]; intros H; [reflexivity|]. simpl.
    rewrite IH by (intros; apply H; right; assumption).
    destruct (dget (tensor_sizes g pad) t) as [z|] eqn:G; [|exfalso; apply (H t); simpl; auto].
    rewrite (size_of_padded _ _ _ _ G). reflexivity. }
  rewrite <- E; [assumption|].
  intros t I. destruct (dget mem t) as [[o s]|] eqn:G.
  - destruct (po_entries _ _ _ _ HP _ _ _ G) as (z & Z1 & _). congruence.
  - apply dget_None in G. contradiction.
Qed.

Lemma plan_coverage : forall g pad mem total i t b,
  consumers_exact g -> plan_ok g pad mem total -> 0 < pad ->
  live_at g i t -> planned_bytes g t b -> exists o s, dget mem t = Some (o, s).
Proof.
  intros g pad mem total i t b HX HP Hpad HLv (P1 & P2 & tn & P3 & P4 & P5).
  pose proof HLv as (_ & Hi & _).
  pose proof (liveness_length (consumedby g) (nodes_of g) [] (g_input g)) as HL.
  destruct (nth_error (liveness (consumedby g) (nodes_of g) [] (g_input g)) i) as [s|] eqn:S.
  2:{ apply nth_error_None in S. lia. }
  destruct (po_snaps _ _ _ _ HP s (nth_error_In _ _ S)) as (bs & _ & _ & B3).
  assert (Hsz : dget (tensor_sizes g pad) t = Some (pad_up pad (data_bytes tn))).
  { apply tensor_sizes_spec. repeat split; auto. exists tn. repeat split; auto. apply pad_up_pos; lia. }
  destruct (B3 t) as (bk & K1 & K2 & K3); [eapply live_in_snapshot; eauto|congruence|].
  eauto.
Qed.

Lemma plan_entry_bytes : forall g pad mem total t o s,
  0 < pad -> plan_ok g pad mem total -> dget mem t = Some (o, s) ->
  exists b, planned_bytes g t b /\ round_up pad b <= s /\ 0 <= o /\ (pad | o) /\ (pad | s) /\ o + s <= total.
Proof.
  intros g pad mem total t o s Hpad HP E.
  destruct (po_entries _ _ _ _ HP _ _ _ E) as (z & Z1 & Z2 & Z3 & Z4 & Z5 & Z6).
  apply tensor_sizes_spec in Z1. destruct Z1 as (D & O & tn & E1 & E2 & E3).
  exists (data_bytes tn). split; [|subst z; repeat split; auto].
  repeat split; auto. exists tn. repeat split; auto. apply (pad_up_pos pad); [assumption|lia].
Qed.

(* ---- store lemmas ---- *)
Lemma read_write_same : forall st o v, read_range (write_range st o v) o (length v) = v.
Proof.
  intros st o v. unfold read_range.
  apply (nth_ext _ _ 0 0); [now rewrite map_length, seq_length|].
  intros n Hn. rewrite map_length, seq_length in Hn.
  rewrite (nth_indep _ 0 (write_range st o v (o + Z.of_nat 0%nat))) by (now rewrite map_length, seq_length).
  rewrite (map_nth (fun k => write_range st o v (o + Z.of_nat k)) (seq 0 (length v)) 0%nat).
  rewrite seq_nth by assumption. simpl. unfold write_range.
  replace (o <=? o + Z.of_nat n) with true by lia.
  replace (o + Z.of_nat n <? o + Z.of_nat (length v)) with true by lia. simpl.
  f_equal. lia.
Qed.

Lemma read_write_disjoint : forall st o v o' n,
  o + Z.of_nat (length v) <= o' \/ o' + Z.of_nat n <= o ->
  read_range (write_range st o v) o' n = read_range st o' n.
Proof.
  intros st o v o' n H. unfold read_range. apply map_ext_in. intros k Hk. apply in_seq in Hk.
  unfold write_range.
  destruct ((o <=? o' + Z.of_nat k) && (o' + Z.of_nat k <? o + Z.of_nat (length v))) eqn:E; [lia|reflexivity].
Qed.

(* ---- refinement ---- *)
Section Refine.
Variable g : graph.
Variable pad : Z.
Variables (mem : dict (Z * Z)) (total : Z).
Hypothesis Hpad : 0 < pad.
Hypothesis HS : single_assignment g.
Hypothesis HX : consumers_exact g.
Hypothesis HP : plan_ok g pad mem total.
Hypothesis HTop : topologically_ordered g.
Variable sem : node -> list bytes -> list bytes.
Variable size : string -> nat.
(** tensor sizes are those of the graph *)
Hypothesis Hsize : forall t tn, dget (tensormap g) t = Some tn -> dget mem t <> None -> Z.of_nat (size t) = data_bytes tn.
(** operators return one value per output, of the size of the tensor *)
Hypothesis Hsem_len : forall n ins, In n (nodes_of g) -> length (sem n ins) = length (n_out n).
Hypothesis Hsem_size : forall n ins t v, In n (nodes_of g) -> In (t, v) (combine (n_out n) (sem n ins)) ->
  dget mem t <> None -> length v = size t.

Local Notation lookP := (look_pool mem size).

Lemma entry_nonempty : dget mem ""%string = None -> True. Proof. auto. Qed.

Lemma size_le : forall t o s, dget mem t = Some (o, s) -> Z.of_nat (size t) <= s.
Proof.
  intros t o s E. destruct (plan_entry_bytes g pad mem total t o s Hpad HP E) as (b & (D & O & tn & E1 & E2 & E3) & R & _).
  rewrite (Hsize t tn E1) by congruence. unfold round_up in R.
  pose proof (pad_up_ge pad b Hpad) as G. unfold pad_up in G. lia.
Qed.

(** [safe t us]: writing any of [us] leaves [t]'s bytes alone *)
Definition apart (t u : string) : Prop :=
  t <> u /\ forall o1 s1 o2 s2, dget mem t = Some (o1, s1) -> dget mem u = Some (o2, s2) -> o1 + s1 <= o2 \/ o2 + s2 <= o1.

Lemma look_write_other : forall p t u v,
  (dget mem u <> None -> length v = size u) -> (t = ""%string \/ apart t u) -> lookP (write_pool mem p (u, v)) t = lookP p t.
Proof.
  intros p t u v Hv [->|[N A]]; [reflexivity|]. unfold look_pool, write_pool. cbn [fst snd].
  destruct (String.eqb t ""); [reflexivity|].
  destruct (dget mem t) as [[o1 s1]|] eqn:E1; destruct (dget mem u) as [[o2 s2]|] eqn:E2; cbn [p_store p_env]; auto.
  - apply read_write_disjoint. pose proof (size_le _ _ _ E1). pose proof (size_le _ _ _ E2).
    rewrite Hv by congruence. specialize (A _ _ _ _ eq_refl eq_refl). lia.
  - unfold upd. apply String.eqb_neq in N. rewrite N. reflexivity.
Qed.

Lemma look_write_same : forall p t v,
  (dget mem t <> None -> length v = size t) -> t <> ""%string -> lookP (write_pool mem p (t, v)) t = v.
Proof.
  intros p t v Hv N. unfold look_pool, write_pool. cbn [fst snd].
  apply String.eqb_neq in N. rewrite N.
  destruct (dget mem t) as [[o s]|] eqn:E; cbn [p_store p_env].
  - rewrite <- Hv by congruence. apply read_write_same.
  - unfold upd. rewrite String.eqb_refl. reflexivity.
Qed.

Lemma writes_other : forall tvs p t,
  (forall u v, In (u, v) tvs -> (dget mem u <> None -> length v = size u) /\ (t = ""%string \/ apart t u)) ->
  lookP (fold_left (write_pool mem) tvs p) t = lookP p t.
Proof.
  induction tvs as [|[u v] r IH]; intros p t H; [reflexivity|]. cbn [fold_left].
  rewrite IH by (intros; apply H; right; assumption).
  destruct (H u v (or_introl eq_refl)). apply look_write_other; assumption.
Qed.

Lemma writes_private_other : forall tvs e t, ~ In t (map fst tvs) -> fold_left write_private tvs e t = e t.
Proof.
  induction tvs as [|[u v] r IH]; intros e t H; [reflexivity|]. cbn [fold_left map fst] in *.
  simpl in H. rewrite IH by tauto. unfold write_private, upd. cbn [fst snd].
  destruct (String.eqb_spec t u); [subst; tauto|reflexivity].
Qed.

(** writing a batch of pairwise-apart named values: each is read back *)
Lemma writes_get : forall tvs p e t,
  NoDup (named (map fst tvs)) -> t <> ""%string -> In t (map fst tvs) ->
  (forall u v, In (u, v) tvs -> dget mem u <> None -> length v = size u) ->
  (forall u, In u (map fst tvs) -> u <> t -> apart t u) ->
  lookP (fold_left (write_pool mem) tvs p) t = fold_left write_private tvs e t.
Proof.
  induction tvs as [|[u v] r IH]; intros p e t ND Nt I Hv HA; [destruct I|].
  cbn [fold_left]. cbn [map fst] in *.
  rewrite named_cons in ND.
  destruct (in_dec string_dec t (map fst r)) as [Ir|Ir].
  - apply IH; auto.
    + destruct (String.eqb u ""); [assumption|inversion ND; assumption].
    + intros u' v' I'. apply (Hv u' v'). right. assumption.
    + intros u' I' N'. apply HA; [right; assumption|assumption].
  - destruct I as [->|I]; [|contradiction].
    rewrite writes_other.
    + rewrite writes_private_other by assumption.
      unfold write_private, upd. cbn [fst snd]. rewrite String.eqb_refl.
      apply look_write_same; [|assumption]. apply (Hv t v). left. reflexivity.
    + intros u' v' I'. split; [apply (Hv u' v'); right; assumption|]. right.
      assert (In u' (map fst r)) by (apply in_map_iff; exists (u', v'); auto).
      apply HA; [right; assumption|]. intro; subst. contradiction.
Qed.

(** [t] has a value when the first [i] nodes have run *)
Definition avail_before (i : nat) (t : string) : Prop :=
  In t (g_input g) \/ exists j n, (j < i)%nat /\ nth_error (nodes_of g) j = Some n /\ In t (n_out n).

Definition constant_tensor (t : string) : Prop := ~ In t (g_input g ++ outs_of (nodes_of g)).

Definition agree (i : nat) (p : pstate) (e : env) : Prop :=
  forall t, t <> ""%string -> (avail_before i t /\ needed_from g i t) \/ constant_tensor t -> lookP p t = e t.

Lemma needed_mono : forall i j t, (i <= j)%nat -> needed_from g j t -> needed_from g i t.
Proof.
  intros i j t L [(k & n & K1 & K2)|H]; [left; exists k, n; split; [lia|assumption]|right; assumption].
Qed.

Lemma const_unplanned : forall t, constant_tensor t -> dget mem t = None.
Proof.
  intros t H. destruct (dget mem t) eqn:E; [|reflexivity]. exfalso. apply H.
  apply (po_keys _ _ _ _ HP). congruence.
Qed.

Lemma outs_in : forall i n t, nth_error (nodes_of g) i = Some n -> In t (n_out n) -> In t (outs_of (nodes_of g)).
Proof. intros i n t E I. unfold outs_of. apply in_flat_map. exists n. split; [eapply nth_error_In; eauto|assumption]. Qed.

(** under single assignment, the producer position is unique *)
Lemma outs_unique : forall ns i j n m t, NoDup (named (outs_of ns)) -> t <> ""%string ->
  nth_error ns i = Some n -> nth_error ns j = Some m -> In t (n_out n) -> In t (n_out m) -> i = j.
Proof.
  induction ns as [|x r IH]; intros i j n m t ND Nt Ei Ej In1 In2; [destruct i; discriminate|].
  unfold outs_of in ND. cbn [flat_map] in ND. rewrite named_app in ND.
  destruct (NoDup_app_inv _ _ _ ND) as (N1 & N2 & N3).
  assert (forall k q, nth_error r k = Some q -> In t (n_out q) -> In t (named (flat_map n_out r))) as HR.
  { intros k q E I. apply In_named. split; [|assumption]. apply in_flat_map. exists q. split; [eapply nth_error_In; eauto|assumption]. }
  destruct i as [|i], j as [|j]; cbn [nth_error] in *; auto.
  - injection Ei as ->. exfalso. apply (N3 t); [apply In_named; auto|eapply HR; eauto].
  - injection Ej as ->. exfalso. apply (N3 t); [apply In_named; auto|eapply HR; eauto].
  - f_equal. eapply IH; eauto.
Qed.

Lemma ND_outs : NoDup (named (outs_of (nodes_of g))).
Proof. unfold single_assignment in HS. rewrite named_app in HS. apply (NoDup_app_inv _ _ _ HS). Qed.

Lemma in_out_disj : forall t, t <> ""%string -> In t (g_input g) -> ~ In t (outs_of (nodes_of g)).
Proof.
  intros t Nt I J. unfold single_assignment in HS. rewrite named_app in HS.
  destruct (NoDup_app_inv _ _ _ HS) as (_ & _ & K). apply (K t); apply In_named; auto.
Qed.

Lemma NoDup_node_outs : forall i n, nth_error (nodes_of g) i = Some n -> NoDup (named (n_out n)).
Proof.
  intros i n E. pose proof ND_outs as H. apply nth_error_split in E. destruct E as (A & B & E & _).
  rewrite E in H. unfold outs_of in H. rewrite flat_map_app in H. cbn [flat_map] in H.
  rewrite !named_app in H. apply NoDup_app_inv in H. destruct H as (_ & H & _).
  apply NoDup_app_inv in H. apply H.
Qed.

(** outputs of node [i] are alive at [i] *)
Lemma out_live : forall i n t, nth_error (nodes_of g) i = Some n -> In t (n_out n) -> t <> ""%string -> live_at g i t.
Proof.
  intros i n t E I Nt. split; [assumption|]. split; [apply nth_error_Some; congruence|].
  split; [right; exists i, n; auto|].
  destruct (in_dec string_dec t (reads_of (nodes_of g))) as [R|R]; [left|right; assumption].
  unfold reads_of in R. apply in_flat_map in R. destruct R as (m & M1 & M2).
  apply In_nth_error in M1. destruct M1 as (k & Ek).
  destruct (HTop k m t Ek M2 Nt) as [A|[(j & q & J1 & J2 & J3)|A]].
  - exfalso. apply (in_out_disj t Nt A). exact (outs_in i n t E I).
  - assert (j = i) by (eapply (outs_unique (nodes_of g)); eauto; apply ND_outs). subst j.
    exists k, m. split; [lia|auto].
  - exfalso. apply A. apply in_app_iff. right. exact (outs_in i n t E I).
Qed.

Lemma live_apart : forall i t u, live_at g i t -> live_at g i u -> t <> u -> apart t u.
Proof.
  intros i t u L1 L2 N. split; [assumption|]. intros o1 s1 o2 s2 E1 E2. exact (plan_no_overlap g pad mem total i t u o1 s1 o2 s2 HX HP L1 L2 N E1 E2).
Qed.

Lemma unplanned_apart : forall t u, t <> u -> dget mem t = None -> apart t u.
Proof. intros t u N E. split; [assumption|]. intros; congruence. Qed.

Lemma mem_no_empty : no_anonymous_data g -> dget mem ""%string = None.
Proof.
  intros HA. destruct (dget mem "") as [[o s]|] eqn:E; [|reflexivity]. exfalso.
  destruct (po_entries _ _ _ _ HP _ _ _ E) as (z & Z1 & _).
  apply (sizes_ok_of g pad Hpad HA) in Z1. destruct Z1 as [Z1 _]. congruence.
Qed.

Hypothesis HAn : no_anonymous_data g.

Lemma operands_equal : forall i n p e, agree i p e -> nth_error (nodes_of g) i = Some n ->
  map (lookP p) (n_in n) = map (look_private e) (n_in n).
Proof.
  intros i n p e HA E. apply map_ext_in. intros t I.
  destruct (string_dec t "") as [->|Nt]; [reflexivity|].
  unfold look_private. pose proof Nt as Nt'. apply String.eqb_neq in Nt'. rewrite Nt'.
  apply HA; [assumption|].
  destruct (HTop i n t E I Nt) as [A|[A|A]]; [left|left|right; exact A].
  - split; [left; assumption|]. left. exists i, n. split; [lia|auto].
  - split; [right; destruct A as (j & m & J1 & J2 & J3); exists j, m; auto|]. left. exists i, n. split; [lia|auto].
Qed.

Lemma agree_step : forall i n p e, agree i p e -> nth_error (nodes_of g) i = Some n ->
  agree (S i) (step_pool sem mem size p n) (step_private sem e n).
Proof.
  intros i n p e HA E t Nt Ht. unfold step_pool, step_private.
  rewrite (operands_equal i n p e HA E).
  set (ins := map (look_private e) (n_in n)).
  assert (Hn : In n (nodes_of g)) by (eapply nth_error_In; eauto).
  set (tvs := combine (n_out n) (sem n ins)).
  assert (Hfst : map fst tvs = n_out n).
  { unfold tvs. pose proof (Hsem_len n ins Hn) as HL. revert HL. generalize (n_out n) as a, (sem n ins) as b.
    induction a as [|x a IH]; intros [|y b] HL; simpl in *; try discriminate; [reflexivity|]. f_equal. apply IH. lia. }
  assert (Hv : forall u v, In (u, v) tvs -> dget mem u <> None -> length v = size u).
  { intros u v I. eapply Hsem_size; eauto. }
  destruct (in_dec string_dec t (n_out n)) as [I|I].
  - apply (writes_get tvs); [rewrite Hfst; eapply NoDup_node_outs; eauto|assumption|rewrite Hfst; assumption|assumption|].
    + intros u Iu Nu. rewrite Hfst in Iu.
      destruct (string_dec u "") as [->|Ne].
      * split; [assumption|]. intros o1 s1 o2 s2 _ G. rewrite (mem_no_empty HAn) in G. discriminate.
      * apply (live_apart i); [eapply out_live; eauto|eapply out_live; eauto|congruence].
  - rewrite writes_private_other by (rewrite Hfst; assumption).
    rewrite writes_other.
    + apply HA; [assumption|]. destruct Ht as [[A B]|C]; [left|right; assumption].
      split; [|eapply needed_mono; [|exact B]; lia].
      destruct A as [A|(j & m & J1 & J2 & J3)]; [left; assumption|right].
      exists j, m. split; [|auto]. destruct (Nat.eq_dec j i) as [->|]; [|lia]. congruence.
    + intros u v Iu. split; [apply (Hv u v Iu)|right].
      assert (Iu' : In u (n_out n)) by (rewrite <- Hfst; apply in_map_iff; exists (u, v); auto).
      assert (Ntu : t <> u) by (intro; subst; contradiction).
      destruct Ht as [[A B]|C].
      * destruct (string_dec u "") as [->|Ne].
        { split; [assumption|]. intros o1 s1 o2 s2 _ G. rewrite (mem_no_empty HAn) in G. discriminate. }
        apply (live_apart i); [|eapply out_live; eauto|assumption].
        split; [assumption|]. split; [apply nth_error_Some; congruence|].
        split; [|eapply needed_mono; [|exact B]; lia].
        destruct A as [A|(j & m & J1 & J2 & J3)]; [left; assumption|right]. exists j, m. split; [lia|auto].
      * apply unplanned_apart; [assumption|apply const_unplanned; assumption].
Qed.

Lemma agree_load : forall p e, nodes_of g <> [] ->
  (forall t, constant_tensor t -> p_env p t = e t) ->
  (forall t, In t (g_input g) -> dget mem t <> None -> length (e t) = size t) ->
  agree 0 (load_pool mem p e (g_input g)) e.
Proof.
  intros p e Hne Hc Hl t Nt Ht. unfold load_pool.
  set (tvs := map (fun t => (t, e t)) (g_input g)).
  assert (Hfst : map fst tvs = g_input g) by (unfold tvs; rewrite map_map; simpl; apply map_id).
  assert (Hv : forall u v, In (u, v) tvs -> dget mem u <> None -> length v = size u).
  { intros u v I. unfold tvs in I. apply in_map_iff in I. destruct I as (x & X1 & X2). injection X1 as <- <-. auto. }
  assert (Hpv : forall l e', (forall u, e' u = e u) -> fold_left write_private (map (fun t => (t, e t)) l) e' t = e t).
  { induction l as [|x l IH]; intros e' He; [apply He|]. cbn [map fold_left]. apply IH.
    intros u. unfold write_private, upd. cbn [fst snd]. destruct (String.eqb_spec u x); [subst; reflexivity|apply He]. }
  assert (Hlive : forall u, In u (g_input g) -> u <> ""%string -> live_at g 0 u).
  { intros u Iu Nu. split; [assumption|]. split; [destruct (nodes_of g); [congruence|simpl; lia]|].
    split; [left; assumption|].
    destruct (in_dec string_dec u (reads_of (nodes_of g))) as [R|R]; [left|right; assumption].
    unfold reads_of in R. apply in_flat_map in R. destruct R as (m & M1 & M2).
    apply In_nth_error in M1. destruct M1 as (k & Ek). exists k, m. split; [lia|auto]. }
  destruct Ht as [[A B]|C].
  - destruct A as [A|(j & m & J1 & _)]; [|lia].
    rewrite <- (Hpv (g_input g) e (fun _ => eq_refl)). fold tvs.
    apply (writes_get tvs); [|assumption|rewrite Hfst; assumption|assumption|].
    + rewrite Hfst. unfold single_assignment in HS. rewrite named_app in HS. apply (NoDup_app_inv _ _ _ HS).
    + intros u Iu Nu. rewrite Hfst in Iu.
      destruct (string_dec u "") as [->|Ne].
      * split; [assumption|]. intros o1 s1 o2 s2 _ G. rewrite (mem_no_empty HAn) in G. discriminate.
      * apply (live_apart 0); auto.
  - rewrite writes_other.
    + unfold look_pool. pose proof Nt as Nt'. apply String.eqb_neq in Nt'. rewrite Nt'.
      rewrite (const_unplanned t C). apply Hc. assumption.
    + intros u v Iu. split; [apply (Hv u v Iu)|right]. apply unplanned_apart; [|apply const_unplanned; assumption].
      intro; subst u. apply C. apply in_app_iff. left. rewrite <- Hfst. apply in_map_iff. exists (t, v). auto.
Qed.

Lemma agree_run : forall k p e, agree 0 p e -> (k <= length (nodes_of g))%nat ->
  agree k (run_pool sem mem size p (firstn k (nodes_of g))) (run_private sem e (firstn k (nodes_of g))).
Proof.
  induction k as [|k IH]; intros p e HA HL; [exact HA|].
  destruct (nth_error (nodes_of g) k) as [n|] eqn:E.
  2:{ apply nth_error_None in E. lia. }
  assert (firstn (S k) (nodes_of g) = firstn k (nodes_of g) ++ [n])%list as ->.
  { clear - E. revert k E. induction (nodes_of g) as [|x r IH]; intros k E; [destruct k; discriminate|].
    destruct k; cbn [nth_error] in E; [injection E as ->; reflexivity|]. cbn [firstn app]. f_equal. apply IH. assumption. }
  unfold run_pool, run_private. rewrite !fold_left_app. cbn [fold_left].
  apply agree_step; [|assumption]. apply IH; [assumption|lia].
Qed.

Theorem pool_refines_private : forall p e,
  (forall t, constant_tensor t -> p_env p t = e t) ->
  (forall t, In t (g_input g) -> dget mem t <> None -> length (e t) = size t) ->
  (forall i n, nth_error (nodes_of g) i = Some n ->
     map (lookP (run_pool sem mem size (load_pool mem p e (g_input g)) (firstn i (nodes_of g)))) (n_in n)
     = map (look_private (run_private sem e (firstn i (nodes_of g)))) (n_in n))
  /\ (nodes_of g <> [] -> forall t, t <> ""%string -> In t (g_input g ++ outs_of (nodes_of g)) ->
        ~ In t (reads_of (nodes_of g)) ->
        lookP (run_pool sem mem size (load_pool mem p e (g_input g)) (nodes_of g)) t
        = run_private sem e (nodes_of g) t).
Proof.
  intros p e Hc Hl. split.
  - intros i n E.
    assert (Hne : nodes_of g <> []) by (intro X; rewrite X in E; destruct i; discriminate).
    pose proof (agree_load p e Hne Hc Hl) as A0.
    assert (Hi : (i <= length (nodes_of g))%nat) by (apply Nat.lt_le_incl, nth_error_Some; congruence).
    eapply operands_equal; [apply agree_run; eauto|assumption].
  - intros Hne t Nt I NR.
    pose proof (agree_load p e Hne Hc Hl) as A0.
    pose proof (agree_run (length (nodes_of g)) _ _ A0 (Nat.le_refl _)) as A1.
    rewrite firstn_all in A1. apply A1; [assumption|]. left. split; [|right; assumption].
    apply in_app_iff in I. destruct I as [I|I]; [left; assumption|right].
    unfold outs_of in I. apply in_flat_map in I. destruct I as (m & M1 & M2).
    apply In_nth_error in M1. destruct M1 as (k & Ek). exists k, m. split; [|auto].
    apply nth_error_Some. congruence.
Qed.
End Refine.
