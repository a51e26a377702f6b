(** Saving a loaded graph and loading it again. *)
From Verif Require Import PyBase PyBaseFacts GraphModel CompressSpec RelSpec RelProofs TopSortSpec OrderProofs
  EditModel EditSpec RemoveProofs IoProofs PartitionModel PartitionSpec PartitionProofs ConstProofs RegressModel LoadModel LoadSpec LoadNames LoadLoop LoadProofs LoadFinal LoadFold.
Local Open Scope nat_scope.
Local Open Scope list_scope.

Section INITS.
Context {D V : Type}.
Variable g : graph.
Variable tm : dict (@ltensor D V).
(** state after scanning the operands [ts] *)
Record inits_inv (seen : list string) (st : list (string * D) * list string) : Prop := {
  ii_enq : forall t, In t (snd st) <-> In t seen /\ In t (initials g);
  ii_out : forall t d, In (t, d) (fst st) <-> In t seen /\ In t (initials g) /\ data_of tm t = Some d;
  ii_once : NoDup (map fst (fst st))
}.
Lemma init_in_inv seen st t : inits_inv seen st -> inits_inv (seen ++ [t]) (init_in g tm st t).
Proof.
  intros [A B C]. unfold init_in. destruct (memb t (initials g)) eqn:M; cbn [andb].
  - apply memb_In in M. destruct (memb t (snd st)) eqn:Q; cbn [negb].
    + apply memb_In in Q. assert (S := proj1 (proj1 (A t) Q)). constructor; [| |exact C].
      * intros x. rewrite A, in_app_iff. cbn. intuition (subst; auto).
      * intros x d. rewrite B, in_app_iff. cbn. intuition (subst; auto).
    + apply memb_nIn in Q. constructor; cbn [fst snd].
      * intros x. rewrite !in_app_iff, A. cbn. intuition (subst; auto).
      * intros x d. destruct (data_of tm t) as [e|] eqn:E.
        -- rewrite !in_app_iff, B. cbn. split.
           ++ intros [H|[H|[]]]; [tauto|]. injection H as <- <-. auto.
           ++ intros ([H|[<-|[]]] & H2 & H3); [auto|]. right. left. congruence.
        -- rewrite in_app_iff, B. cbn. split; [tauto|]. intros ([H|[<-|[]]] & H2 & H3); [auto|congruence].
      * destruct (data_of tm t) as [e|]; [|exact C]. rewrite map_app. cbn. apply NoDup_snoc; [exact C|]. intros I. apply in_map_iff in I as ([u d] & <- & I). apply B in I.
        apply Q. apply A. tauto.
  - apply memb_nIn in M. constructor; [| |exact C].
    + intros x. rewrite A, in_app_iff. cbn. intuition (subst; contradiction || auto).
    + intros x d. rewrite B, in_app_iff. cbn. intuition (subst; contradiction || auto).
Qed.
Lemma init_fold ts : forall seen st, inits_inv seen st -> inits_inv (seen ++ ts) (fold_left (init_in g tm) ts st).
Proof. induction ts as [|t r IH]; intros seen st H; cbn [fold_left]; [rewrite app_nil_r; exact H|]. apply (init_in_inv _ _ t) in H. apply IH in H. rewrite <- app_assoc in H. exact H. Qed.
Lemma inits_fold ns : forall seen st, inits_inv seen st -> inits_inv (seen ++ reads_of ns) (fold_left (fun st n => fold_left (init_in g tm) (n_in n) st) ns st).
Proof.
  induction ns as [|n r IH]; intros seen st H; cbn [fold_left reads_of flat_map]; [rewrite app_nil_r; exact H|].
  apply (init_fold (n_in n)) in H. apply IH in H. rewrite <- app_assoc in H. exact H.
Qed.
Lemma get_initials_spec ns : (forall t d, In (t, d) (get_initials g tm ns) <-> In t (reads_of ns) /\ In t (initials g) /\ data_of tm t = Some d) /\
  NoDup (map fst (get_initials g tm ns)).
Proof.
  assert (H : inits_inv ([] ++ reads_of ns) (fold_left (fun st n => fold_left (init_in g tm) (n_in n) st) ns ([], []))).
  { apply inits_fold. constructor; cbn; try tauto. constructor. }
  destruct H as [_ B C]. split; [exact B|exact C].
Qed.
End INITS.

Lemma dget_In_all {A} (l : dict A) t v : (forall w, In (t, w) l -> w = v) -> In t (map fst l) -> dget l t = Some v.
Proof.
  intros H I. destruct (dget l t) as [w|] eqn:E; [apply dget_In in E; rewrite (H w E); reflexivity|]. apply dget_None in E. contradiction.
Qed.
Lemma firsts_ext f h l : (forall x, In x l -> f x = h x) -> firsts (filter f l) = firsts (filter h l).
Proof. intros H. f_equal. apply filter_ext_in. exact H. Qed.

Section SAVED.
Context {D V : Type}.
Variable info_of : D -> V.
Variable v0 : V.
Variable eval : node -> list (option D) -> nat -> option D.
Variable p : @proto D V.
Variable cfg : config.
Hypothesis HV : valid_file p.
Hypothesis HF : c_fold cfg = false.
Hypothesis HK : c_keep_outputs cfg = true.
Let ns := named_from (c_rename cfg) 0 (p_nodes p).
Hypothesis HN : NoDup (map n_name ns).
Variable g : graph.
Variable tm : dict (@ltensor D V).
Hypothesis HD : described_by info_of v0 p cfg g tm.
Let q := save_graph v0 g tm.

Lemma q_nodes : p_nodes q = ns.
Proof. unfold q, save_graph. cbn [p_nodes]. unfold nodes_of. rewrite (db_nodes _ _ _ _ _ _ HD). apply keyed_nodes. Qed.
Lemma q_named : named_from false 0 (p_nodes q) = ns.
Proof. rewrite q_nodes. apply named_kept. apply named_all_named. Qed.
Lemma q_wiring : map wiring (p_nodes q) = map wiring (p_nodes p).
Proof. rewrite q_nodes. apply ns_wiring. Qed.
Lemma q_made t : made (p_nodes q) t <-> made (p_nodes p) t.
Proof. rewrite <- !made_outs, (wiring_outs _ _ q_wiring). tauto. Qed.
Lemma q_read t : read (p_nodes q) t <-> read (p_nodes p) t.
Proof. rewrite <- !read_reads, (wiring_reads _ _ q_wiring). tauto. Qed.
Lemma p_stored_data t : stored_in p t <-> exists d, dget (p_init p) t = Some d.
Proof. rewrite <- stored_get. unfold dhas. destruct (dget (p_init p) t) as [d|]; split; eauto; try discriminate. intros [d X]. discriminate. Qed.
Lemma tm_data t d : stored_in p t -> (data_of tm t = Some d <-> dget (p_init p) t = Some d).
Proof.
  intros S. unfold data_of. assert (H := proj2 (db_tensors _ _ _ _ _ _ HD t) (or_introl S)). unfold dhas in H. destruct (dget tm t) as [x|] eqn:E; [|discriminate].
  destruct (db_payload _ _ _ _ _ _ HD t x E) as [P _]. rewrite P. tauto.
Qed.
Lemma q_init t d : In (t, d) (p_init q) <-> read (p_nodes p) t /\ dget (p_init p) t = Some d.
Proof.
  unfold q, save_graph. cbn [p_init]. rewrite (proj1 (get_initials_spec g tm (nodes_of g))). rewrite (db_initials _ _ _ _ _ _ HD).
  assert (NE : nodes_of g = ns) by (unfold nodes_of; rewrite (db_nodes _ _ _ _ _ _ HD); apply keyed_nodes). rewrite NE. unfold ns. rewrite ns_reads, read_reads. fold (stored_in p t).
  split.
  - intros (R & S & E). split; [exact R|]. apply tm_data; assumption.
  - intros (R & E). assert (S : stored_in p t) by (apply p_stored_data; eauto). split; [exact R|]. split; [exact S|]. apply tm_data; assumption.
Qed.
Lemma q_init_once : NoDup (map fst (p_init q)).
Proof. unfold q, save_graph. cbn [p_init]. apply get_initials_spec. Qed.
Lemma q_stored t : stored_in q t <-> stored_in p t /\ read (p_nodes p) t.
Proof.
  unfold stored_in at 1. rewrite in_map_iff. split.
  - intros ([u d] & <- & I). apply q_init in I as [R E]. split; [apply p_stored_data; eauto|exact R].
  - intros [S R]. apply p_stored_data in S as [d E]. exists (t, d). split; [reflexivity|]. apply q_init. auto.
Qed.
Lemma q_init_get t : read (p_nodes p) t -> dget (p_init q) t = dget (p_init p) t.
Proof.
  intros R. destruct (dget (p_init p) t) as [d|] eqn:E.
  - apply In_dget; [apply q_init_once|]. apply q_init. auto.
  - apply dget_None. intros I. change (stored_in q t) in I. apply q_stored in I as [S _]. apply p_stored_data in S as [d X]. congruence.
Qed.
(** every description written to the file is the tensor's *)
Lemma known_desc t w l : In (t, w) (flat_map (value_if_known tm) l) -> t <> ""%string /\ In t l /\ exists x, dget tm t = Some x /\ w = lt_info x.
Proof.
  intros I. apply in_flat_map in I as (u & U & I). unfold value_if_known, value_proto in I. destruct (dget tm u) as [x|] eqn:E; [|destruct I].
  destruct (String.eqb_spec u "") as [->|N]; [destruct I|]. destruct I as [I|[]]. injection I as <- <-. eauto.
Qed.
Lemma known_desc_in t l : In t l -> t <> ""%string -> dhas tm t = true -> In t (map fst (flat_map (value_if_known tm) l)).
Proof.
  intros I N H. unfold dhas in H. destruct (dget tm t) as [x|] eqn:E; [|discriminate]. apply in_map_iff. exists (t, lt_info x). split; [reflexivity|].
  apply in_flat_map. exists t. split; [exact I|]. unfold value_if_known, value_proto. rewrite E. destruct (String.eqb_spec t ""); [contradiction|]. left. reflexivity.
Qed.
Lemma input_known t : In t (g_input g) -> dhas tm t = true.
Proof. intros I. apply (db_input _ _ _ _ _ _ HD) in I. apply (db_tensors _ _ _ _ _ _ HD). tauto. Qed.
Lemma q_in : p_in q = flat_map (value_if_known tm) (g_input g) ++ flat_map (value_if_known tm) (filter (fun t => negb (memb t (map fst (p_init q)))) (initials g)).
Proof.
  unfold q, save_graph at 1. cbn [p_in]. f_equal. assert (H := input_known). induction (g_input g) as [|t l IH]; [reflexivity|]. cbn [flat_map]. rewrite IH by (intros; apply H; right; assumption).
  specialize (H t (or_introl eq_refl)). unfold dhas in H. unfold value_if_known at 2. destruct (dget tm t); [reflexivity|discriminate].
Qed.
Lemma q_desc t w : In (t, w) (p_in q) \/ In (t, w) (p_out q) \/ In (t, w) (p_vi q) -> t <> ""%string /\ exists x, dget tm t = Some x /\ w = lt_info x.
Proof.
  rewrite q_in, in_app_iff. unfold q, save_graph. cbn [p_out p_vi].
  intros [[H|H]|[H|H]]; apply known_desc in H as (A & _ & B); auto.
Qed.
Lemma q_told t : told q t = None \/ exists x, dget tm t = Some x /\ told q t = Some (lt_info x).
Proof.
  unfold told. destruct (dget (p_in q) t) as [v|] eqn:E1.
  { apply dget_In in E1. right. destruct (q_desc t v (or_introl E1)) as (_ & x & E & ->). eauto. }
  destruct (dget (p_out q) t) as [v|] eqn:E2.
  { apply dget_In in E2. right. destruct (q_desc t v (or_intror (or_introl E2))) as (_ & x & E & ->). eauto. }
  destruct (dget (p_vi q) t) as [v|] eqn:E3; [|auto].
  apply dget_In in E3. right. destruct (q_desc t v (or_intror (or_intror E3))) as (_ & x & E & ->). eauto.
Qed.
Lemma q_told_some t : In t (dynamics g) -> t <> ""%string -> told q t <> None.
Proof.
  intros I N. assert (K : dhas tm t = true). { apply (db_tensors _ _ _ _ _ _ HD). apply (db_dynamics _ _ _ _ _ _ HD) in I. tauto. }
  unfold told. destruct (dget (p_in q) t) as [v|] eqn:E1; [discriminate|]. apply dget_None in E1. destruct (dget (p_out q) t) as [v|] eqn:E2; [discriminate|]. apply dget_None in E2.
  intros E3. apply dget_None in E3. rewrite q_in in E1. unfold dkeys in *. rewrite map_app, in_app_iff in E1.
  destruct (in_dec string_dec t (g_input g)) as [A|A]; [apply E1; left; apply known_desc_in; assumption|].
  destruct (in_dec string_dec t (g_output g)) as [B|B]; [apply E2; unfold q, save_graph; cbn [p_out]; apply known_desc_in; assumption|].
  apply E3. unfold q, save_graph. cbn [p_vi]. apply known_desc_in; auto. apply filter_In. split; [exact I|]. apply negb_true_iff, orb_false_iff. split; apply memb_nIn; assumption.
Qed.

Lemma q_valid : valid_file q.
Proof.
  constructor.
  - rewrite (wiring_outs _ _ q_wiring). apply HV.
  - apply q_init_once.
  - intros t S M. apply q_stored in S as [S _]. apply q_made in M. exact (vf_init _ HV t S M).
  - intros M. apply q_made in M. exact (vf_out_named _ HV M).
  - unfold declared. rewrite !in_app_iff. intros [H|H].
    + change (stored_in q ""%string) in H. apply q_stored in H as [H _]. apply (vf_decl_named _ HV). unfold declared. apply in_app_iff. left. exact H.
    + assert (X : exists w, In (""%string, w) (p_in q) \/ In (""%string, w) (p_out q) \/ In (""%string, w) (p_vi q)).
      { destruct H as [H|[H|H]]; apply in_map_iff in H as ([u w] & E & H); cbn in E; subst u; exists w; auto. }
      destruct X as [w X]. apply q_desc in X as [X _]. congruence.
  - destruct (vf_acyclic _ HV) as [rk R]. exists rk. intros n t u I A B. destruct (wiring_In _ _ _ q_wiring I) as (m & M & _ & E1 & E2). rewrite <- E1 in B. rewrite <- E2 in A. eauto.
Qed.
Lemma q_runtime t : read (p_nodes p) t \/ made (p_nodes p) t -> (at_runtime q t <-> at_runtime p t).
Proof.
  intros U. split.
  - intros H. revert U. induction H as [t N1 N2 N3|n t I O T|n t u I R H IH T]; intros U.
    + rewrite q_made in N3. rewrite q_stored in N2. apply ar_free; tauto.
    + destruct (wiring_In _ _ _ q_wiring I) as (m & M & E0 & E1 & E2). apply (ar_dequant p m); congruence.
    + destruct (wiring_In _ _ _ q_wiring I) as (m & M & E0 & E1 & E2). apply (ar_made p m t u); try congruence. apply IH. left. exists m. rewrite E1. auto.
  - intros H. revert U. induction H as [t N1 N2 N3|n t I O T|n t u I R H IH T]; intros U.
    + apply ar_free; [exact N1|rewrite q_stored; tauto|rewrite q_made; exact N3].
    + destruct (wiring_In _ _ _ (eq_sym q_wiring) I) as (m & M & E0 & E1 & E2). apply (ar_dequant q m); congruence.
    + destruct (wiring_In _ _ _ (eq_sym q_wiring) I) as (m & M & E0 & E1 & E2). apply (ar_made q m t u); try congruence. apply IH. left. exists n. auto.
Qed.
Lemma q_info t : read (p_nodes p) t \/ made (p_nodes p) t -> info_in info_of v0 q t = info_in info_of v0 p t /\ data_in q t = data_in p t.
Proof.
  intros U. unfold info_in, data_in.
  assert (X : dget (p_init q) t = dget (p_init p) t).
  { destruct U as [R|M]; [apply q_init_get; exact R|]. assert (A : dget (p_init p) t = None).
    { apply dget_None. intros I. exact (vf_init _ HV t I M). }
    rewrite A. apply dget_None. intros I. change (stored_in q t) in I. apply q_stored in I as [I _]. exact (vf_init _ HV t I M). }
  rewrite X. split; [|reflexivity]. destruct (dget (p_init p) t) as [d|] eqn:E; [reflexivity|].
  assert (ND : In t (dynamics g)).
  { apply (db_dynamics _ _ _ _ _ _ HD). destruct U as [U|U]; [right; split; [exact U|]|left; exact U]. intros S. apply p_stored_data in S as [d S]. congruence. }
  destruct (q_told t) as [N|(x & Ex & N)].
  - destruct (string_dec t "") as [->|NE]; [|exfalso; exact (q_told_some t ND NE N)]. rewrite N, (told_named p HV). reflexivity.
  - rewrite N. destruct (db_payload _ _ _ _ _ _ HD t x Ex) as [_ P]. unfold info_in in P. rewrite E in P. exact P.
Qed.

Record same_as_before (g2 : graph) (tm2 : dict (@ltensor D V)) : Prop := {
  sb_nodes : nodemap g2 = nodemap g;
  sb_input : g_input g2 = g_input g;
  sb_output : g_output g2 = filter (fun t => dhas tm t && negb (String.eqb t "")) (g_output g);
  sb_initials : forall t, In t (initials g2) <-> In t (initials g) /\ read (nodes_of g) t;
  sb_dynamics : forall t, In t (dynamics g2) <-> In t (dynamics g);
  sb_tensors : forall t, read (nodes_of g) t \/ made (nodes_of g) t -> dget tm2 t = dget tm t;
  sb_only : forall t, dhas tm2 t = true -> read (nodes_of g) t \/ made (nodes_of g) t
}.
Lemma value_names l : map fst (flat_map (value_if_known tm) l) = filter (fun t => dhas tm t && negb (String.eqb t "")) l.
Proof.
  induction l as [|t l IH]; [reflexivity|]. cbn [flat_map filter]. rewrite map_app, IH. unfold value_if_known at 1, value_proto, dhas. destruct (dget tm t); [|reflexivity].
  destruct (String.eqb t ""); reflexivity.
Qed.
Theorem reload : exists fuel0, forall fuel, fuel0 <= fuel -> exists g2 tm2,
  load_graph info_of v0 eval fuel default_cfg q = Some (Ok (g2, tm2)) /\ same_as_before g2 tm2.
Proof.
  assert (HN2 : NoDup (map n_name (named_from (c_rename default_cfg) 0 (p_nodes q)))) by (cbn [default_cfg c_rename]; rewrite q_named; exact HN).
  destruct (loaded_plain info_of v0 eval q default_cfg q_valid HN2 eq_refl) as [f0 H]. exists f0. intros fuel L. destruct (H fuel L) as (g2 & tm2 & E & DB). clear H.
  exists g2, tm2. split; [exact E|].
  assert (NE : nodes_of g = ns) by (unfold nodes_of; rewrite (db_nodes _ _ _ _ _ _ HD); apply keyed_nodes).
  assert (RD : forall t, read (nodes_of g) t <-> read (p_nodes p) t) by (intros t; rewrite NE, <- q_nodes; apply q_read).
  assert (MD : forall t, made (nodes_of g) t <-> made (p_nodes p) t) by (intros t; rewrite NE, <- q_nodes; apply q_made).
  constructor.
  - rewrite (db_nodes _ _ _ _ _ _ DB), (db_nodes _ _ _ _ _ _ HD). cbn [default_cfg c_rename]. rewrite q_named. reflexivity.
  - destruct (db_input_order _ _ _ _ _ _ DB) as (f & F1 & F2). destruct (db_input_order _ _ _ _ _ _ HD) as (h & H1 & H2). rewrite F2, H2, (wiring_reads _ _ q_wiring).
    apply firsts_ext. intros t I. apply read_reads in I. specialize (H1 t I). specialize (F1 t (proj2 (q_read t) I)). rewrite q_made, q_stored in F1.
    destruct (f t), (h t); try reflexivity; exfalso.
    + assert (X : false = true) by (apply H1; split; [apply (proj1 F1 eq_refl)|]; intros S; apply (proj1 F1 eq_refl); auto). discriminate.
    + assert (X : false = true) by (apply F1; split; [apply (proj1 H1 eq_refl)|]; intros [S _]; apply (proj1 H1 eq_refl); auto). discriminate.
  - rewrite (db_output _ _ _ _ _ _ DB eq_refl). unfold q, save_graph. cbn [p_out]. apply value_names.
  - intros t. rewrite (db_initials _ _ _ _ _ _ DB), (db_initials _ _ _ _ _ _ HD), RD. exact (q_stored t).
  - intros t. rewrite (db_dynamics _ _ _ _ _ _ DB), (db_dynamics _ _ _ _ _ _ HD), q_made, q_read, q_stored. tauto.
  - intros t U. rewrite RD, MD in U.
    assert (K : dhas tm t = true) by (apply (db_tensors _ _ _ _ _ _ HD); tauto). assert (K2 : dhas tm2 t = true) by (apply (db_tensors _ _ _ _ _ _ DB); rewrite q_made, q_read; tauto).
    unfold dhas in K, K2. destruct (dget tm t) as [[k d v]|] eqn:E1; [|discriminate]. destruct (dget tm2 t) as [[k2 d2 v2]|] eqn:E2; [|discriminate].
    destruct (db_payload _ _ _ _ _ _ HD t _ E1) as [P1 P2]. destruct (db_payload _ _ _ _ _ _ DB t _ E2) as [Q1 Q2]. cbn [lt_data lt_info] in *.
    destruct (q_info t U) as [W1 W2]. assert (Z1 := db_kind _ _ _ _ _ _ HD t _ E1 U). assert (U' : read (p_nodes q) t \/ made (p_nodes q) t) by (rewrite q_read, q_made; exact U).
    assert (Z2 := db_kind _ _ _ _ _ _ DB t _ E2 U'). cbn [lt_kind] in *. rewrite (q_runtime t U) in Z2. f_equal.
    assert (k2 = k). { destruct k, k2; auto; [assert (X : DYNAMIC = STATIC) by (apply Z2, Z1; reflexivity)|assert (X : DYNAMIC = STATIC) by (apply Z1, Z2; reflexivity)]; discriminate. }
    congruence.
  - intros t K. rewrite RD, MD. apply (db_tensors _ _ _ _ _ _ DB) in K. rewrite q_made, q_read, q_stored in K. tauto.
Qed.
End SAVED.
