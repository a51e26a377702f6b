(** C48, C49, C66, C67, C68: the profile report. *)
From Coq Require Import Reals Lra Lia Permutation.
From Flocq Require Import Core.
From Verif Require Import PyBase PyBaseFacts GraphModel ShapeModel FloatPy FusionModel FusionProofs CompressSpec RelProofs ProfileModel ProfileProofs.
Open Scope Z_scope. Open Scope list_scope.

(** ** C48 *)
(** One row per node whose operator is not excluded, and the totals are the sums of the rows (the
    float MAC total is exact as long as it does not exceed 2^53). *)
Theorem C48_totals : forall nprof g exclude r, NoDup (dkeys (nodemap g)) -> profiles nprof g exclude r ->
  NoDup (map r_name (rp_rows r)) /\
  (forall k, In k (map r_name (rp_rows r)) <-> covered g exclude k) /\
  rp_params r = sum_list (map r_params (rp_rows r)) /\
  rp_memory r = sum_list (map r_memory (rp_rows r)) /\
  (Forall (fun w => 0 <= r_macs w) (rp_rows r) -> sum_list (map r_macs (rp_rows r)) <= 2 ^ 53 ->
     rp_macs r = IZR (sum_list (map r_macs (rp_rows r)))).
Proof.
  intros nprof g exclude r Nd (keys & IO & P). destruct (profile_with_spec _ _ _ _ P) as (F & S1 & S2 & S3 & _).
  assert (E : map r_name (rp_rows r) = keys).
  { clear -F. induction F as [|k w ks ws H F IH]; [reflexivity|]. cbn. rewrite IH. destruct (row_of _ _ _ _ H) as (n & _ & -> & _). reflexivity. }
  assert (C : NoDup keys /\ forall k, In k keys <-> covered g exclude k).
  { unfold iteration_order in IO. destruct exclude as [|x e]; [|exact IO]. subst keys. split; [exact Nd|]. intros k. unfold covered, dkeys. rewrite in_map_iff. split.
    - intros ([k' n] & <- & I). exists n. cbn. auto.
    - intros (n & I & _). exists (k, n). auto. }
  rewrite E. destruct C as [C1 C2]. repeat (split; [assumption|]). intros NN B. rewrite S3. rewrite <- (Z.add_0_l (sum_list _)).
  apply (float_sum (rp_rows r) 0 NN); lia.
Qed.
(** What the Total row prints is the sum of the printed rows. *)
Theorem C48_printed_totals : forall nprof g exclude r factor, NoDup (dkeys (nodemap g)) -> profiles nprof g exclude r ->
  factor = 1 \/ factor = 2 ->
  Forall (fun w => 0 <= r_macs w /\ 0 <= r_params w /\ 0 <= r_memory w) (rp_rows r) ->
  sum_list (map r_macs (rp_rows r)) * factor <= 2 ^ 53 -> sum_list (map r_params (rp_rows r)) <= 2 ^ 53 -> sum_list (map r_memory (rp_rows r)) <= 2 ^ 53 ->
  total_macs factor r = sum_list (map (row_macs factor) (rp_rows r)) /\
  total_params r = sum_list (map r_params (rp_rows r)) /\ total_memory r = sum_list (map r_memory (rp_rows r)).
Proof.
  intros nprof g exclude r f Nd P Hf NN B1 B2 B3. destruct (C48_totals _ _ _ _ Nd P) as (_ & _ & S1 & S2 & S3).
  assert (N1 : 0 <= sum_list (map r_macs (rp_rows r))) by (apply sum_nonneg; rewrite Forall_map; eapply Forall_impl; [|exact NN]; cbn; tauto).
  assert (N2 : 0 <= sum_list (map r_params (rp_rows r))) by (apply sum_nonneg; rewrite Forall_map; eapply Forall_impl; [|exact NN]; cbn; tauto).
  assert (N3 : 0 <= sum_list (map r_memory (rp_rows r))) by (apply sum_nonneg; rewrite Forall_map; eapply Forall_impl; [|exact NN]; cbn; tauto).
  split; [|split].
  - unfold total_macs. rewrite S3; [|eapply Forall_impl; [|exact NN]; cbn; tauto|lia]. rewrite py_round_int, printed_scaled by lia.
    clear. induction (rp_rows r) as [|w l IH]; [unfold sum_list; cbn; lia|]. cbn [map]. rewrite !sum_cons. unfold row_macs at 1. lia.
  - unfold total_params. rewrite S1. apply printed_int. lia.
  - unfold total_memory. rewrite S2. apply printed_int. lia.
Qed.
(** Above 2^53 the total depends on the iteration order of a Python set (hash randomisation). *)
Definition big_prof (n : node) (_ _ : list tensor) : sres (Z * Z * Z) := SOk (if String.eqb (n_name n) "big" then 2 ^ 54 else 1, 0, 0).
Definition big_graph : graph :=
  mkGraph (map (fun k => (k, mkNode k "MatMul" [] [])) ["big"; "a"; "b"; "c"; "d"]%string) [] [] [] [] [] [] [].
Lemma ulp_big : ulp radix2 b64exp (IZR (2 ^ 54)) = 4%R.
Proof. change (IZR (2 ^ 54)) with (bpow radix2 54). rewrite ulp_bpow. unfold b64exp, FLT_exp. change (Z.max (54 + 1 - 53) (-1074)) with 2. reflexivity. Qed.
Lemma rnd_big : rnd (IZR (2 ^ 54) + 1) = IZR (2 ^ 54).
Proof.
  assert (G : generic_format radix2 b64exp (IZR (2 ^ 54))).
  { change (IZR (2 ^ 54)) with (bpow radix2 54). apply generic_format_bpow. unfold b64exp, FLT_exp. lia. }
  apply Rle_antisym.
  - apply round_N_le_midp; [apply b64_valid|exact G|]. rewrite succ_eq_pos by (apply IZR_le; vm_compute; discriminate).
    rewrite ulp_big. lra.
  - apply Rle_trans with (rnd (IZR (2 ^ 54))); [right; symmetry; unfold rnd; apply round_generic; [apply valid_rnd_N|exact G]|]. apply rnd_le. lra.
Qed.
Theorem C48_order_refuted : exists nprof g exclude r1 r2, NoDup (dkeys (nodemap g)) /\
  profiles nprof g exclude r1 /\ profiles nprof g exclude r2 /\ rp_macs r1 <> rp_macs r2.
Proof.
  exists big_prof, big_graph, ["Relu"]%string.
  assert (Io : forall keys, Permutation ["big"; "a"; "b"; "c"; "d"]%string keys -> iteration_order big_graph ["Relu"]%string keys).
  { intros keys Pm. split.
    - eapply Permutation_NoDup; [exact Pm|]. repeat constructor; cbn; intuition discriminate.
    - intros k. split.
      + intros I. apply (Permutation_in _ (Permutation_sym Pm)) in I. exists (mkNode k "MatMul" [] []). cbn in *. split; [|intuition discriminate].
        intuition (subst; auto).
      + intros (n & I & _). eapply Permutation_in; [exact Pm|]. cbn in *. intuition congruence. }
  eexists. eexists. split; [repeat constructor; cbn; intuition discriminate|]. split; [|split].
  - exists ["big"; "a"; "b"; "c"; "d"]%string. split; [apply Io; apply Permutation_refl|]. cbv -[fadd IZR Z.pow Z.add R0]. reflexivity.
  - exists ["a"; "b"; "c"; "d"; "big"]%string. split; [apply Io; apply (Permutation_cons_append ["a"; "b"; "c"; "d"]%string "big"%string)|]. cbv -[fadd IZR Z.pow Z.add R0]. reflexivity.
  - cbn [rp_macs].
    assert (Q : forall a b, Z.abs (a + b) <= 2 ^ 53 -> fadd (IZR a) (IZR b) = IZR (a + b)) by (intros a b H; unfold fadd; rewrite <- plus_IZR; apply rnd_int; exact H).
    assert (B0 : fadd 0 (IZR (2 ^ 54)) = IZR (2 ^ 54)).
    { unfold fadd. rewrite Rplus_0_l. unfold rnd. apply round_generic; [apply valid_rnd_N|]. change (IZR (2 ^ 54)) with (bpow radix2 54). apply generic_format_bpow. unfold b64exp, FLT_exp. lia. }
    assert (B1 : fadd (IZR (2 ^ 54)) 1 = IZR (2 ^ 54)) by exact rnd_big.
    assert (B4 : fadd 4 (IZR (2 ^ 54)) = IZR (2 ^ 54 + 4)).
    { unfold fadd. rewrite <- plus_IZR. unfold rnd. apply round_generic; [apply valid_rnd_N|].
      apply generic_format_FLT. exists (Float radix2 (2 ^ 52 + 1) 2); [unfold F2R; cbn -[IZR]; rewrite <- mult_IZR; reflexivity|reflexivity|cbn; lia]. }
    rewrite B0, !B1, (Q 0 1) by (vm_compute; discriminate). rewrite (Q (0 + 1) 1) by (vm_compute; discriminate).
    rewrite (Q (0 + 1 + 1) 1) by (vm_compute; discriminate). rewrite (Q (0 + 1 + 1 + 1) 1) by (vm_compute; discriminate).
    change (0 + 1 + 1 + 1 + 1) with 4. rewrite B4. apply IZR_neq. lia.
Qed.

(** ** C66 *)
(** With nothing hidden, the parameter total counts a weight once per use: it exceeds the
    de-duplicated total by exactly the size the sharing notice reports. *)
Theorem C66_sharing_partial : forall nprof g r, profiles nprof g [] r ->
  NoDup (dkeys (nodemap g)) -> NoDup (dkeys (tensormap g)) -> NoDup (initials g) -> consumers_exact g ->
  (forall k n x, dget (nodemap g) k = Some n -> In x (n_in n) -> (is_weight g x <-> In x (initials g))) ->
  rp_params r = rp_dedup r + shared_size g /\
  ((forall k t, dget (tensormap g) k = Some t -> 0 <= volume (t_shape t)) -> rp_dedup r <= rp_params r).
Proof.
  intros nprof g r (keys & IO & P) Nk Nt Ni Cx Hw. unfold iteration_order in IO. subst keys.
  destruct (profile_with_spec _ _ _ _ P) as (F & S1 & _ & _ & D).
  assert (E1 : rp_params r = sum_list (map (fun k => Z.of_nat (count k (reads_of (nodes_of g))) * weight_size g k) (initials g))).
  { rewrite S1, (params_sum _ _ _ _ F Hw), reads_by_key, sum_counts by assumption. reflexivity. }
  assert (E2 : rp_dedup r = sum_list (map (fun k => if Nat.ltb 0 (count k (reads_of (nodes_of g))) then weight_size g k else 0) (initials g))).
  { unfold dedup_params in D. apply sbind_ok in D as (l & L & D). injection D as <-. apply smap_F2 in L. clear -L Cx. revert l L.
    induction (initials g) as [|x xs IH]; intros l L; inversion L; subst; [reflexivity|]. cbn [map]. rewrite !sum_cons, (IH _ H3). f_equal. clear IH H3 L.
    specialize (Cx x). destruct (dget (consumedby g) x) as [c|] eqn:C.
    - destruct c as [|c0 c]; cbn in Cx; rewrite <- Cx; cbn.
      + injection H1 as <-. reflexivity.
      + apply sbind_ok in H1 as (t & T & H1). injection H1 as <-. apply dlook_ok in T. unfold weight_size. rewrite T. reflexivity.
    - injection H1 as <-. rewrite (proj2 (count_zero x _) Cx). reflexivity. }
  assert (E3 : shared_size g = sum_list (map (fun k => Z.of_nat (count k (reads_of (nodes_of g)) - 1) * weight_size g k) (initials g))).
  { set (f := fun k => if memb k (initials g) then Z.of_nat (count k (reads_of (nodes_of g)) - 1) * weight_size g k else 0).
    transitivity (sum_list (map f (dkeys (tensormap g)))).
    - unfold shared_size, dkeys. rewrite map_map. apply sum_map_ext. intros [k t] I. cbn [fst snd]. unfold f, weight_size.
      rewrite (In_dget _ _ _ _ Nt I). specialize (Cx k). destruct (dget (consumedby g) k) as [l|].
      + unfold zlen. destruct (memb k (initials g)); cbn [andb]; [|reflexivity]. destruct (Z.ltb_spec 1 (Z.of_nat (length l))); rewrite <- Cx.
        * rewrite Nat2Z.inj_sub by lia. cbn. lia.
        * replace (length l - 1)%nat with 0%nat by lia. reflexivity.
      + rewrite (proj2 (count_zero k _) Cx). cbn. destruct (memb k (initials g)); reflexivity.
    - rewrite (sum_support f (dkeys (tensormap g)) (initials g) Nt Ni).
      + apply sum_map_ext. intros k K. unfold f. rewrite (proj2 (memb_In k _) K). reflexivity.
      + intros x _ N. unfold f. rewrite (proj2 (memb_nIn x _) N). reflexivity.
      + intros x _ N. unfold f, weight_size. destruct (dget (tensormap g) x) as [t|] eqn:T.
        * exfalso. apply N. unfold dkeys. apply in_map_iff. exists (x, t). split; [reflexivity|apply dget_In; exact T].
        * destruct (memb x (initials g)); lia. }
  assert (Sh : rp_params r = rp_dedup r + shared_size g).
  { rewrite E1, E2, E3, <- sum_map_add. apply sum_map_ext. intros k _. destruct (count k (reads_of (nodes_of g))) as [|c]; [reflexivity|].
    replace (S c - 1)%nat with c by lia. rewrite Nat2Z.inj_succ. change (0 <? S c)%nat with true. cbv iota. ring. }
  split; [exact Sh|]. intros V. rewrite Sh.
  assert (0 <= shared_size g); [|lia]. rewrite E3. apply sum_nonneg. rewrite Forall_map. apply Forall_forall. intros k _.
  unfold weight_size. destruct (dget (tensormap g) k) as [t|] eqn:T; [|lia]. specialize (V _ _ T). nia.
Qed.
(** two MatMuls sharing the 100x50 weight w, and a Gather (hidden by default) reading e *)
Definition rel_demo : graph := update_consumer_producer (mkGraph
  [("n1", mkNode "n1" "MatMul" ["x"; "w"] ["a"]); ("n2", mkNode "n2" "MatMul" ["x"; "w"] ["b"]); ("n3", mkNode "n3" "Gather" ["e"; "a"] ["c"])]%string
  [("x", mkTensor DYNAMIC [1; 100] 4); ("w", mkTensor STATIC [100; 50] 4); ("a", mkTensor DYNAMIC [1; 50] 4); ("b", mkTensor DYNAMIC [1; 50] 4);
   ("e", mkTensor STATIC [1000; 8] 4); ("c", mkTensor DYNAMIC [1; 50; 8] 4)]%string
  [] [] ["w"; "e"]%string [] ["x"]%string ["b"; "c"]%string).
Definition zero_core (_ : node) (_ _ : list tensor) : sres Z := SOk 0.
Example C66_applies : exists r, profiles (base_profile zero_core) rel_demo [] r /\ rp_params r = 18000 /\ rp_dedup r = 13000 /\
  NoDup (dkeys (nodemap rel_demo)) /\ NoDup (dkeys (tensormap rel_demo)) /\ NoDup (initials rel_demo) /\ consumers_exact rel_demo /\
  (forall k n x, dget (nodemap rel_demo) k = Some n -> In x (n_in n) -> (is_weight rel_demo x <-> In x (initials rel_demo))).
Proof.
  eexists. split; [exists ["n1"; "n2"; "n3"]%string; split; [reflexivity|cbv -[fadd IZR]; reflexivity]|]. split; [reflexivity|]. split; [reflexivity|].
  split; [repeat constructor; cbn; intuition discriminate|]. split; [repeat constructor; cbn; intuition discriminate|]. split; [repeat constructor; cbn; intuition discriminate|].
  split; [apply ucp_consumers_exact|]. intros k n x G X. apply dget_In in G. vm_compute in G.
  assert (C : (x = "x" \/ x = "w" \/ x = "e" \/ x = "a")%string) by (destruct G as [G|[G|[G|[]]]]; injection G as <- <-; cbn in X; intuition).
  clear G X. split.
  - intros (_ & t & T & K). destruct C as [C|[C|[C|C]]]; subst x; vm_compute in T; injection T as <-; try discriminate K; cbn; auto.
  - intros I. cbn in I. destruct I as [<-|[<-|[]]]; (split; [discriminate|]); eexists; split; reflexivity.
Qed.
(** With operators hidden (Gather is hidden by default) "Dedup Params" can exceed "Params". *)
Theorem C66_hidden_refuted : exists nprof g r, profiles nprof g NoMacsOps r /\ consumers_exact g /\ NoDup (dkeys (nodemap g)) /\ NoDup (initials g) /\
  0 < rp_params r < rp_dedup r.
Proof.
  exists (base_profile zero_core), rel_demo. eexists. split; [|split; [apply ucp_consumers_exact|]].
  - exists ["n1"; "n2"]%string. split; [|cbv -[fadd IZR]; reflexivity]. split; [repeat constructor; cbn; intuition discriminate|].
    intros k. split.
    + intros [<-|[<-|[]]]; eexists; (split; [cbn; tauto|cbn; intuition discriminate]).
    + intros (n & I & N). cbn in I. destruct I as [I|[I|[I|[]]]]; injection I as <- <-; [left; reflexivity|right; left; reflexivity|]. exfalso. apply N. cbn. tauto.
  - split; [repeat constructor; cbn; intuition discriminate|]. split; [repeat constructor; cbn; intuition discriminate|]. cbn. lia.
Qed.

(** ** C49 *)
(** After any history of calls, a call with default [hidden_ops] hides exactly: the built-in list,
    what this call excludes, and what every earlier default call excluded. *)
Theorem C49_hidden_after_history : forall h c op, pc_hidden c = None ->
  (In op (fst (call_hidden (run_calls NoMacsOps h) c)) <->
   In op NoMacsOps \/ In op (pc_exclude c) \/ exists e, In e h /\ pc_hidden e = None /\ In op (pc_exclude e)).
Proof.
  assert (G : forall h gl op, In op (run_calls gl h) <-> In op gl \/ exists e, In e h /\ pc_hidden e = None /\ In op (pc_exclude e)).
  { induction h as [|e h IH]; intros gl op; cbn [run_calls]; [split; [auto|intros [H|(e & [] & _)]; exact H]|].
    rewrite IH. unfold call_hidden. destruct (pc_hidden e) as [l|] eqn:E; cbn [snd].
    - split; [intros [H|(x & I & X)]; [auto|right; exists x; split; [right; exact I|exact X]]|].
      intros [H|(x & [<-|I] & X)]; [auto|destruct X; congruence|right; exists x; auto].
    - rewrite in_app_iff. split.
      + intros [[H|H]|(x & I & X)]; [auto|right; exists e; split; [left; reflexivity|auto]|right; exists x; split; [right; exact I|exact X]].
      + intros [H|(x & [<-|I] & X)]; [auto|destruct X; auto|right; exists x; auto]. }
  intros h c op N. unfold call_hidden. rewrite N. cbn [fst]. rewrite in_app_iff, G. tauto.
Qed.
(** The hidden set alone decides the report: equal sets, equal sets of possible reports. *)
Theorem C49_report_by_set : forall nprof g e1 e2, e1 <> [] -> e2 <> [] -> (forall op, In op e1 <-> In op e2) ->
  forall r, profiles nprof g e1 r <-> profiles nprof g e2 r.
Proof.
  assert (C : forall g e1 e2 k, (forall op, In op e1 <-> In op e2) -> covered g e1 k -> covered g e2 k).
  { intros g e1 e2 k S (n & I & N). exists n. split; [exact I|]. rewrite <- S. exact N. }
  assert (D : forall g e1 e2 keys, e1 <> [] -> e2 <> [] -> (forall op, In op e1 <-> In op e2) -> iteration_order g e1 keys -> iteration_order g e2 keys).
  { intros g e1 e2 keys N1 N2 Sm. destruct e1 as [|a e1]; [contradiction|]. destruct e2 as [|b e2]; [contradiction|]. intros [Nd H]. split; [exact Nd|].
    intros k. rewrite H. split; apply C; intros; rewrite Sm; tauto. }
  intros nprof g e1 e2 N1 N2 Sm r. split; intros (keys & IO & P); exists keys; (split; [|exact P]).
  - apply (D _ e1 e2); assumption.
  - apply (D _ e2 e1); auto. intros op. symmetry. apply Sm.
Qed.
(** Hence: if no earlier default call excluded anything, the history is invisible. *)
Theorem C49_independent_partial : forall nprof g h c r, pc_hidden c = None ->
  (forall e, In e h -> pc_hidden e = None -> pc_exclude e = []) ->
  (profiles nprof g (fst (call_hidden (run_calls NoMacsOps h) c)) r <-> profiles nprof g (fst (call_hidden NoMacsOps c)) r).
Proof.
  intros nprof g h c r N H. apply C49_report_by_set.
  - intros E. assert (I : In "Cast"%string (fst (call_hidden (run_calls NoMacsOps h) c))) by (apply C49_hidden_after_history; [exact N|left; cbn; tauto]). rewrite E in I. exact I.
  - intros E. assert (I : In "Cast"%string (fst (call_hidden (run_calls NoMacsOps []) c))) by (apply C49_hidden_after_history; [exact N|left; cbn; tauto]). cbn [run_calls] in I. rewrite E in I. exact I.
  - intros op. rewrite (C49_hidden_after_history h c op N), (C49_hidden_after_history [] c op N). split.
    + intros [A|[A|(e & I & K & X)]]; auto. rewrite (H e I K) in X. destruct X.
    + intros [A|[A|(e & [] & _)]]; auto.
Qed.
(** Calls that pass their own [hidden_ops] never depend on the history. *)
Theorem C49_explicit_hidden : forall h c l, pc_hidden c = Some l ->
  fst (call_hidden (run_calls NoMacsOps h) c) = fst (call_hidden NoMacsOps c).
Proof. intros h c l E. unfold call_hidden. rewrite E. reflexivity. Qed.
(** In general the claim is false: excluding MatMul once removes it from all later default profiles. *)
Theorem C49_history_refuted : exists nprof g first second r0 r1, first <> second /\ pc_exclude second = [] /\
  profiles nprof g (fst (call_hidden NoMacsOps second)) r0 /\
  profiles nprof g (fst (call_hidden (run_calls NoMacsOps [first]) second)) r1 /\
  rp_params r0 = 10000 /\ rp_params r1 = 0.
Proof.
  exists (base_profile zero_core), rel_demo, {| pc_exclude := ["MatMul"%string]; pc_hidden := None |}, {| pc_exclude := []; pc_hidden := None |}. do 2 eexists.
  split; [discriminate|]. split; [reflexivity|]. split; [|split; [|split]].
  - exists ["n1"; "n2"]%string. split; [|cbv -[fadd IZR]; reflexivity]. split; [repeat constructor; cbn; intuition discriminate|].
    intros k. split.
    + intros [<-|[<-|[]]]; eexists; (split; [cbn; tauto|cbn; intuition discriminate]).
    + intros (n & I & N). cbn in I. destruct I as [I|[I|[I|[]]]]; injection I as <- <-; [left; reflexivity|right; left; reflexivity|]. exfalso. apply N. cbn. tauto.
  - exists []. split; [|cbv -[fadd IZR]; reflexivity]. split; [constructor|].
    intros k. split; [intros []|]. intros (n & I & N). cbn in I. destruct I as [I|[I|[I|[]]]]; injection I as <- <-; apply N; cbn; tauto.
  - reflexivity.
  - reflexivity.
Qed.

(** ** C67 *)
(** Reported node memory = bytes of the outputs + bytes of the static inputs, provided all outputs
    have the element size of the first output and all static inputs that of the first input
    (operators without their own [profile] method). *)
Theorem C67_memory_partial : forall core g k w, profile_node (base_profile core) g k = SOk w ->
  exists n its ots, dget (nodemap g) k = Some n /\ smap (dlook (tensormap g)) (n_in n) = SOk its /\ smap (dlook (tensormap g)) (n_out n) = SOk ots /\
  ((forall t t', In t ots -> In t' ots -> t_esize t = t_esize t') ->
   (forall p t0, In p (combine (n_in n) its) -> is_static p = true -> hd_error its = Some t0 -> t_esize (snd p) = t_esize t0) ->
   r_memory w = sum_list (map get_memsize ots) + sum_list (map (fun p => get_memsize (snd p)) (filter is_static (combine (n_in n) its)))).
Proof.
  intros core g k w H. unfold profile_node in H. apply sbind_ok in H as (n & G & H). apply dlook_ok in G.
  apply sbind_ok in H as (its & I & H). apply sbind_ok in H as (ots & O & H). apply sbind_ok in H as ([[a b] c] & B & H). injection H as <-.
  exists n, its, ots. repeat (split; [assumption|]). intros U V. cbn [r_memory].
  unfold base_profile in B. apply sbind_ok in B as (m & _ & B). injection B as <- <- <-.
  assert (X : forall {A} (f : A -> tensor) es l, (forall x, In x l -> t_esize (f x) = es) -> sum_list (map (fun x => volume (t_shape (f x))) l) * es = sum_list (map (fun x => get_memsize (f x)) l)).
  { intros A f es l. induction l as [|x l IH]; intros Hl; [reflexivity|]. cbn [map]. rewrite !sum_cons, Z.mul_add_distr_r, IH by (intros y Y; apply Hl; right; exact Y).
    unfold get_memsize. rewrite (Hl x (or_introl eq_refl)). reflexivity. }
  f_equal.
  - apply (X tensor (fun t => t)). intros t T. destruct ots as [|t0 ots]; [destruct T|]. apply U; [exact T|left; reflexivity].
  - apply (X (string * tensor)%type snd). intros p Hp. apply filter_In in Hp as [Ip Sp]. destruct its as [|t0 its].
    + destruct (n_in n); destruct Ip.
    + apply (V p t0 Ip Sp eq_refl).
Qed.
Definition mixed_demo (esz : Z) : graph := mkGraph [("n1", mkNode "n1" "Foo" ["x"; "w"] ["a"])]%string
  [("x", mkTensor DYNAMIC [1; 100] 4); ("w", mkTensor STATIC [100; 50] esz); ("a", mkTensor DYNAMIC [1; 50] 4)]%string [] [] ["w"]%string [] ["x"]%string ["a"]%string.
Example C67_applies : exists w, profile_node (base_profile zero_core) (mixed_demo 4) "n1" = SOk w /\ r_memory w = 4 * 50 + 4 * 5000.
Proof. eexists. split; [reflexivity|]. reflexivity. Qed.
(** An int8 weight under a float32 activation is counted at 4 bytes per element. *)
Theorem C67_mixed_refuted : exists w, profile_node (base_profile zero_core) (mixed_demo 1) "n1" = SOk w /\
  get_memsize (mkTensor DYNAMIC [1; 50] 4) + get_memsize (mkTensor STATIC [100; 50] 1) = 5200 /\ r_memory w = 20200.
Proof. eexists. split; [reflexivity|]. split; reflexivity. Qed.

(** ** C68 *)
(** A reader of comma separated values without quoting: pieces between separators. *)
Fixpoint pieces (sep : ascii) (s : string) : list string :=
  match s with
  | EmptyString => [""%string]
  | String c r => if Ascii.eqb c sep then ""%string :: pieces sep r
                  else match pieces sep r with p :: ps => String c p :: ps | [] => [String c ""] end
  end.
Fixpoint has_char (a : ascii) (s : string) : bool := match s with EmptyString => false | String c r => Ascii.eqb c a || has_char a r end.
Definition read_csv (text : string) : list (list string) := map (pieces ","%char) (removelast (pieces newline text)).
Lemma pieces_app sep a : has_char sep a = false -> forall b, pieces sep (a ++ String sep b)%string = a :: pieces sep b.
Proof.
  induction a as [|c a IH]; intros H b; cbn [append pieces has_char] in *; [rewrite Ascii.eqb_refl; reflexivity|].
  apply orb_false_iff in H as [H1 H2]. rewrite H1, (IH H2). reflexivity.
Qed.
Lemma pieces_one sep a : has_char sep a = false -> pieces sep a = [a].
Proof. induction a as [|c a IH]; intros H; cbn in *; [reflexivity|]. apply orb_false_iff in H as [H1 H2]. rewrite H1, (IH H2). reflexivity. Qed.
Lemma has_app a s t : has_char a (s ++ t)%string = has_char a s || has_char a t.
Proof. induction s as [|c s IH]; cbn; [reflexivity|]. rewrite IH. apply orb_assoc. Qed.
Theorem C68_csv_reads_back_partial : forall rows,
  Forall (fun cells => cells <> [] /\ Forall (fun c => has_char ","%char c = false /\ has_char newline c = false) cells) rows ->
  read_csv (csv_text rows) = rows.
Proof.
  intros rows H.
  assert (L : forall cells, cells <> [] -> Forall (fun c => has_char ","%char c = false /\ has_char newline c = false) cells ->
    pieces ","%char (csv_line cells) = cells /\ has_char newline (csv_line cells) = false).
  { induction cells as [|c cells IH]; intros N F; [contradiction|]. inversion F as [|? ? [F1 F2] F3]; subst. destruct cells as [|d cells].
    - cbn. split; [apply pieces_one; exact F1|exact F2].
    - destruct (IH ltac:(discriminate) F3) as [A B]. change (csv_line (c :: d :: cells)) with (c ++ String ","%char (csv_line (d :: cells)))%string.
      rewrite (pieces_app _ _ F1), A. split; [reflexivity|]. rewrite has_app, F2. cbn [has_char orb]. exact B. }
  unfold read_csv.
  assert (E : pieces newline (csv_text rows) = map csv_line rows ++ [""%string]).
  { induction H as [|cells rows [N F] _ IH]; [reflexivity|]. cbn [csv_text map app]. change (String newline "" ++ csv_text rows)%string with (String newline (csv_text rows)).
    rewrite pieces_app by (apply L; assumption). rewrite IH. reflexivity. }
  rewrite E, removelast_last, map_map. rewrite (map_ext_in _ (fun x => x)); [apply map_id|]. intros cells I. rewrite Forall_forall in H. destruct (H _ I) as [N F]. apply L; assumption.
Qed.
Example C68_applies : read_csv (csv_text [["Name"; "Type"; "MACs"]; ["/layer/conv1"; "Conv"; "118013952"]; ["Total"; "_"; "118013952"]]%string)
  = [["Name"; "Type"; "MACs"]; ["/layer/conv1"; "Conv"; "118013952"]; ["Total"; "_"; "118013952"]]%string.
Proof. reflexivity. Qed.
(** A node name with a comma shifts the columns. *)
Theorem C68_comma_refuted : exists rows, Forall (fun cells => length cells = 2%nat) rows /\ read_csv (csv_text rows) = [["conv(3"; "3)"; "118013952"]]%string.
Proof. exists [["conv(3,3)"; "118013952"]]%string. split; [repeat constructor|reflexivity]. Qed.
