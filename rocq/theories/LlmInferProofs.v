(** Inference on a built graph gives the shapes the builder records. *)
From Verif Require Import PyBase PyBaseFacts GraphModel CompressSpec ShapeModel ShapeModel2 FloatPy WindowProofs SliceProofs FusionModel FusionProofs RegressModel RegressProofs LlmModel LlmProofs LlmSpec LlmNames LlmBuild LlmLayers LlmGraphProofs
  LlmCost LlmCostSpec LlmCostProofs LlmCostOps LlmCostTop LlmRel InferModel LlmInfer.
Open Scope string_scope. Open Scope Z_scope.

(** ** Operators *)
Lemma slice_dim d : 0 <= d < 2 ^ 53 - 1 -> slice_size (0, d, 1) = SOk d.
Proof.
  intros H. unfold slice_size. change (0 <? 1) with true. cbn match. rewrite Z.sub_0_r. destruct (Z.leb_spec d 0); [f_equal; lia|]. rewrite ceil_fdiv by lia. rewrite Z.div_1_r. f_equal. lia.
Qed.
Lemma slice_range b s w off m : 0 <= b < 2 ^ 53 - 1 -> 0 <= s < 2 ^ 53 - 1 -> 0 <= w < 2 ^ 53 - 1 -> 0 <= off -> 0 <= m -> off + m <= w ->
  slice_shape [b; s; w] [off] [off + m] (Some [2]) (Some [1]) = SOk [b; s; m].
Proof.
  intros Hb Hs Hw Ho Hm L. unfold slice_shape. change (axes_neg2pos (Z.of_nat (length [b; s; w])) [2]) with [2]. cbn [slice_loop].
  change (py_index [off] 0) with (SOk off). change (py_index [off + m] 0) with (SOk (off + m)). change (py_index [1] 0) with (SOk 1). change (py_index [b; s; w] 2) with (SOk w). cbn [sbind].
  unfold eff_slice. destruct (Z.ltb_spec off 0); [lia|]. destruct (Z.ltb_spec (off + m) 0); [lia|]. change (1 <? 0) with false. cbn match.
  rewrite !Z.min_l, !Z.max_r by lia. cbn [map].
  change (py_store [(0, b, 1); (0, s, 1); (0, w, 1)] 2 (off, off + m, 1)) with (SOk [(0, b, 1); (0, s, 1); (off, off + m, 1)]). cbn [sbind smap].
  rewrite !slice_dim by assumption. cbn [sbind].
  unfold slice_size. change (0 <? 1) with true. cbn match. replace (off + m - off) with m by ring. destruct (Z.leb_spec m 0).
  - cbn [sbind]. replace m with 0 by lia. reflexivity.
  - rewrite ceil_fdiv by lia. rewrite Z.div_1_r, Z.opp_involutive. reflexivity.
Qed.
Lemma bcast_same d : bcast_dim [d; d] = SOk d.
Proof.
  unfold bcast_dim. cbn [zmax_list fold_left zmem existsb forallb]. rewrite Z.max_id, Z.eqb_refl. rewrite !andb_true_r. cbn [orb andb].
  destruct (Z.eqb_spec 0 d) as [<-|N]; cbn; [reflexivity|]. reflexivity.
Qed.
Lemma smap_cols (a : list Z) : forall k, smap bcast_dim (map (fun i => [nth i (repeat 0 k ++ a) 0; nth i (repeat 0 k ++ a) 0]) (seq k (length a))) = SOk a.
Proof.
  induction a as [|d a IH]; intros k; [reflexivity|]. cbn [length seq map smap].
  rewrite app_nth2 by (rewrite repeat_length; lia). rewrite repeat_length, Nat.sub_diag. cbn [nth]. rewrite bcast_same. cbn [sbind].
  assert (E : smap bcast_dim (map (fun i => [nth i (repeat 0 k ++ d :: a) 0; nth i (repeat 0 k ++ d :: a) 0]) (seq (S k) (length a))) = smap bcast_dim (map (fun i => [nth i (repeat 0 (S k) ++ a) 0; nth i (repeat 0 (S k) ++ a) 0]) (seq (S k) (length a)))).
  { f_equal. apply map_ext_in. intros i Hi. apply in_seq in Hi. rewrite !app_nth2 by (rewrite ?repeat_length; lia). rewrite !repeat_length. replace (i - k)%nat with (S (i - S k)) by lia. reflexivity. }
  rewrite E, IH. reflexivity.
Qed.
Lemma bcast_shape_same a : broadcast_shape [a; a] = SOk a.
Proof.
  assert (M : max_rank [a; a] = length a).
  { unfold max_rank. cbn [fold_left]. destruct (Nat.ltb_spec 0 (length a)); destruct (Nat.ltb_spec (length a) (length a)); try lia. destruct (Nat.ltb_spec 0 (length a)); lia. }
  unfold broadcast_shape. rewrite M. cbn [map]. unfold pad_left. rewrite Nat.ltb_irrefl. unfold columns. cbn [map]. apply (smap_cols a 0).
Qed.
Lemma nonneg_vol3 (sh : list Z) : Forall (fun d => 0 <= d) sh -> 0 <= volume sh.
Proof.
  intros F. unfold volume. destruct sh as [|d r]; [lia|]. assert (G : forall l z, Forall (fun d => 0 <= d) l -> 0 <= z -> 0 <= fold_left Z.mul l z).
  { induction l as [|y l IH]; intros z Fl Hz; [exact Hz|]. inversion Fl; subst. cbn. apply IH; [assumption|nia]. }
  apply G; [assumption|lia].
Qed.
Lemma softcap_shape sh : Forall (fun d => 0 <= d) sh -> max_shape [sh; []] = SOk sh.
Proof.
  intros F. pose proof (nonneg_vol3 sh F) as H. unfold max_shape. cbn [fold_left].
  assert (E : max_shape_step sh sh = sh). { unfold max_shape_step. rewrite Z.ltb_irrefl. destruct (_ && _); reflexivity. }
  rewrite E. unfold max_shape_step. change (volume []) with 0. destruct (Z.ltb_spec (volume sh) 0); [lia|]. change (length (@nil Z)) with 0%nat. destruct (Nat.ltb_spec (length sh) 0); [lia|]. rewrite andb_false_r. reflexivity.
Qed.
Lemma pw_one sh : max_shape [sh] = SOk sh.
Proof. unfold max_shape. cbn [fold_left]. unfold max_shape_step. rewrite Z.ltb_irrefl. destruct (_ && _); reflexivity. Qed.
Lemma matmul3 b s k n : 0 <= b -> matmul_shape [b; s; k] [k; n] = SOk [b; s; n].
Proof.
  intros H. unfold matmul_shape. cbn [length Nat.ltb Nat.leb orb]. change (py_index [b; s; k] (-2)) with (SOk s). change (py_index [k; n] (-1)) with (SOk n). cbn [sbind].
  unfold drop_last2, pick_batch. cbn [length Nat.sub firstn]. change (volume []) with 0. rewrite vol1. destruct (Z.leb_spec 0 b); [reflexivity|lia].
Qed.

Definition fits_dims (sh : list Z) : Prop := Forall (fun d => 0 <= d < 2 ^ 53 - 1) sh.
(** the rules that look at shapes only *)
Definition rule_s (hidden : Z) (op : string) (ss : list (list Z)) : sres (list (list Z)) :=
  if String.eqb op "Gather" then let* x := operand ss 0 in let* i := operand ss 1 in SOk [gather_shape 0 x i]
  else if String.eqb op "MatMul" then let* x := operand ss 0 in let* w := operand ss 1 in let* y := matmul_shape x w in SOk [y]
  else if String.eqb op "LayerNormalization" || String.eqb op "Rope" || String.eqb op "MoE" || String.eqb op "MLA" then let* x := operand ss 0 in SOk [x]
  else if String.eqb op "Silu" || String.eqb op "Gelu" || String.eqb op "LogitSoftCapping" then let* y := pw_shape ss in SOk [y]
  else if String.eqb op "GeGelu" then let* x := operand ss 0 in match rev x with d :: r => SOk [rev (d / 2 :: r)] | [] => SRaise IndexErr end
  else if String.eqb op "Add" || String.eqb op "Mul" then let* y := npmath_shape ss in SOk [y]
  else if String.eqb op "SDPA" then let* q := operand ss 0 in SOk [sdpa_shape q]
  else if String.eqb op "GDN" then let* q := operand ss 0 in let* b := operand q 0 in let* s := operand q 1 in SOk [[b; s; hidden]]
  else SRaise NotImplErr.
Lemma rule_shapes hid n ins : n_op n <> "Slice" -> builder_shape_rule hid n ins = rule_s hid (n_op n) (map tr_shape ins).
Proof.
  intros NS. unfold builder_shape_rule, rule_s. destruct (String.eqb_spec (n_op n) "Slice"); [contradiction|]. unfold operand. rewrite !nth_error_map.
  repeat match goal with |- context [if ?q then _ else _] => destruct q end; try reflexivity;
    destruct (nth_error ins 0); try reflexivity; destruct (nth_error ins 1); reflexivity.
Qed.
Lemma tail3 (pre : list Z) x b s d : (pre ++ [x])%list = [b; s; d] -> pre = [b; s] /\ x = d.
Proof. intros E. apply (app_inj_tail pre [b; s]). exact E. Qed.
Lemma rule_typed hid op ss b s d : typed op ss [b; s; d] -> op <> "Slice" -> (op = "GDN" -> d = hid) -> fits_dims [b; s; d] -> rule_s hid op ss = SOk [[b; s; d]].
Proof.
  intros T NS NG F'. assert (B0 : 0 <= b) by (inversion F'; lia). assert (Hn : Forall (fun d => 0 <= d) [b; s; d]) by (eapply Forall_impl; [|exact F']; cbn; lia).
  inversion T; subst; clear T; unfold rule_s;
    repeat match goal with H : (_ ++ [_])%list = [_; _; _] |- _ => apply tail3 in H as [-> ->] end;
    repeat match goal with H : _ = _ \/ _ = _ |- _ => destruct H as [->| ->] end;
    try contradiction; cbn [String.eqb Ascii.eqb Bool.eqb orb operand nth_error sbind app]; unfold pw_shape, npmath_shape;
    rewrite ?pw_one, ?bcast_shape_same, ?matmul3 by assumption; cbn [sbind]; try reflexivity.
  - cbn [rev app]. rewrite <- (Z.mul_1_l d) at 1 2. rewrite <- Z.mul_add_distr_r. change (1 + 1) with 2. rewrite (Z.mul_comm 2), Z.div_mul by lia. reflexivity.
  - rewrite NG by reflexivity. reflexivity.
  - rewrite softcap_shape by assumption. reflexivity.
Qed.

(** ** The graphs of two related runs *)
Section PAIR.
Context (b1 s1 b2 s2 : Z).
(** the same tensor, up to the two sizes *)
Definition tensor_rel (t u : tensor) : Prop :=
  t = u \/ (exists d, t = act [b1; s1; d] /\ u = act [b2; s2; d]) \/ (t = idt [b1; s1] /\ u = idt [b2; s2]).
Definition entry_rel (x y : string * tensor) : Prop := fst x = fst y /\ tensor_rel (snd x) (snd y).
Lemma dset_rel d e k t u : Forall2 entry_rel d e -> tensor_rel t u -> Forall2 entry_rel (dset d k t) (dset e k u).
Proof.
  intros F T. induction F as [|[k1 v1] [k2 v2] d e [E R] F IH]; cbn [dset]; [constructor; [split; [reflexivity|exact T]|constructor]|]. cbn [fst snd] in *. subst k2.
  destruct (String.eqb k k1); constructor; auto; split; auto.
Qed.
Record graph_rel (g h : graph) : Prop := { gr_nodes : nodemap g = nodemap h; gr_init : initials g = initials h; gr_in : g_input g = g_input h; gr_tm : Forall2 entry_rel (tensormap g) (tensormap h) }.
Lemma replay_rel l1 l2 : Forall2 (evR b1 s1 b2 s2) l1 l2 -> forall g h, graph_rel g h -> graph_rel (fold_left replay_step l1 g) (fold_left replay_step l2 h).
Proof.
  induction 1 as [|e f l1 l2 E F IH]; intros g h G; [exact G|]. cbn [fold_left]. apply IH. destruct G as [A C D T]. destruct E; constructor; cbn [replay_step nodemap initials g_input tensormap]; try congruence.
  - apply dset_rel; [exact T|left; reflexivity].
  - apply dset_rel; [exact T|right; right; auto].
  - assert (X : forall os d1 e, Forall2 entry_rel d1 e -> Forall2 entry_rel (fold_left (fun d0 o0 => dset d0 o0 (act [b1; s1; d])) os d1) (fold_left (fun d0 o0 => dset d0 o0 (act [b2; s2; d])) os e)).
    { clear. induction os as [|o os IH]; intros a e F; [exact F|]. cbn [fold_left]. apply IH. apply dset_rel; [exact F|right; left; eauto]. }
    apply X. exact T.
Qed.
Lemma entry_get d e k : Forall2 entry_rel d e -> match dget d k, dget e k with Some t, Some u => tensor_rel t u | None, None => True | _, _ => False end.
Proof.
  induction 1 as [|[k1 v1] [k2 v2] d e [E R] F IH]; cbn [dget]; [exact Logic.I|]. cbn [fst snd] in *. subst k2. destruct (String.eqb k k1); [exact R|exact IH].
Qed.
End PAIR.

(** ** One run *)
Lemma NoDup_wide l : NoDup (map fst (statics l)) -> NoDup (wide l).
Proof.
  unfold wide. induction (statics l) as [|p r IH]; intros N; [constructor|]. cbn [filter map] in *. inversion N as [|a q Hn Hr]; subst. destruct (_ =? 8); [|auto]. cbn [map]. constructor; [|auto].
  intros I. apply Hn. apply in_map_iff in I as (y & <- & I). apply filter_In in I as [I _]. apply in_map. exact I.
Qed.
Lemma stored_keys r : map fst (stored_numbers r) = flat_map (fun p => operands (fst p)) r.
Proof. unfold stored_numbers. induction r as [|[n [a b]] r IH]; [reflexivity|]. cbn [flat_map fst operands app map]. do 4 f_equal. exact IH. Qed.
Lemma stored_get r n a b : NoDup (map fst (stored_numbers r)) -> In (n, (a, b)) r ->
  dget (stored_numbers r) (n ++ ".start") = Some ([1], [a]) /\ dget (stored_numbers r) (n ++ ".end") = Some ([1], [b]) /\
  dget (stored_numbers r) (n ++ ".axis") = Some ([1], [2]) /\ dget (stored_numbers r) (n ++ ".step") = Some ([1], [1]).
Proof.
  intros N I. repeat split; (apply In_dget; [exact N|]; unfold stored_numbers; apply in_flat_map; exists (n, (a, b)); split; [exact I|cbn; tauto]).
Qed.
Definition ev_inputs (e : ev) : list (string * tensor) := match e with EInput n t => [(n, t)] | _ => [] end.
Lemma replay_inputs l : forall g, g_input (fold_left replay_step l g) = (g_input g ++ map fst (flat_map ev_inputs l))%list.
Proof.
  induction l as [|e l IH]; intros g; cbn [fold_left flat_map map]; [symmetry; apply app_nil_r|]. rewrite IH. destruct e; cbn [replay_step g_input ev_inputs app map fst]; try reflexivity. rewrite <- app_assoc. reflexivity.
Qed.
Section RUN.
Context (m : dict flags) (c : config) (b s : Z) (wm : dict (dict string)) (root : string) (fl : flags) (g : graph).
Context (HA : arch_config m c = SOk fl) (HN : names_ok fl wm root) (HP : flag_or fl "pos_embedding" false = true -> flag_or fl "qk_rope" true = false).
Record facts (ranges : list (string * (Z * Z))) : Prop := {
  f_ranges : built_ranges m c b s wm root = SOk ranges;
  f_ex : executable_graph g;
  f_node : sane fl c -> forall n, In n (nodes_of g) -> exists o ins d, n_out n = [o] /\ Forall2 (has_shape g) (n_in n) ins /\ has_shape g o [b; s; d] /\
    typed (n_op n) ins [b; s; d] /\ (n_op n = "GDN" -> d = c_hidden c);
  f_slice : sane fl c -> forall n, In n (nodes_of g) -> n_op n = "Slice" -> exists inp off w k o,
    n_in n = [inp; n_name n ++ ".start"; n_name n ++ ".end"; n_name n ++ ".axis"; n_name n ++ ".step"] /\ n_out n = [o] /\ has_shape g o [b; s; k] /\
    has_shape g inp [b; s; w] /\ In (n_name n, (off, off + k)) ranges /\ 0 <= off /\ 0 <= k /\ off + k <= w;
  f_in : forall t, In t (g_input g) -> has_shape g t [b; s];
  f_init : forall t, In t (initials g) -> exists x, dget (tensormap g) t = Some x /\ t_kind x = STATIC;
  f_keys : NoDup (map fst (stored_numbers ranges));
  f_stored : forall k, In k (map fst (stored_numbers ranges)) -> In k (initials g)
}.
Lemma run_facts : built m c b s wm root = SOk g -> exists ranges, facts ranges.
Proof.
  intros HB. pose proof (build_ok fl c b s wm root True (fun _ => Logic.I) HN HP) as H1.
  pose (x := Build_extra None None None None None None None None 0).
  pose proof (build_K fl c x b s wm root [] 0 (or_introl (conj eq_refl eq_refl))) as H2. pose proof (build_rel b s b s fl c wm root bst0 bst0) as H3. unfold wp in H1, H2. unfold built in HB.
  assert (H4 : built_ranges m c b s wm root = built_ranges m c b s wm root) by reflexivity. unfold built_ranges at 2 in H4.
  rewrite HA in HB, H4. cbn [sbind] in HB, H4.
  destruct (build_graph fl c b s wm root bst0) as [[o st]|e]; cbn [sbind fst snd] in *; [|discriminate]. injection HB as Eg.
  destruct H1 as (W & _ & _ & _ & (A & A2 & D)). destruct H2 as (w & J & _). destruct J as [_ (cs & B1 & _) _ _ _ _ _ SL].
  destruct H3 as [_ [RL _ _ _ RW]]. { constructor; try reflexivity. constructor. }
  assert (WG : executable_graph g) by (rewrite <- Eg; destruct W; constructor; assumption).
  assert (NG : nodes_of g = map fst (lnodes (log st))).
  { rewrite <- Eg. unfold nodes_of. change (nodemap (replay (log st) o)) with (nodemap (fold_left replay_step (log st) g0)). rewrite A, map_map. reflexivity. }
  assert (TG : tensormap g = tensormap (fold_left replay_step (log st) g0)) by (rewrite <- Eg; reflexivity).
  assert (IG : initials g = map fst (statics (log st))) by (rewrite <- Eg; exact A2).
  assert (ACT : forall e, In e (lnodes (log st)) -> exists d, snd e = act [b; s; d]).
  { clear -RL. intros e Ie. unfold lnodes in Ie. apply in_flat_map in Ie as (v & Iv & Ie). clear - RL Iv Ie. induction RL as [|v1 v2 l1 l2 E F IH]; [contradiction|]. destruct Iv as [->|Iv]; [|auto].
    destruct E; cbn in Ie; try contradiction. destruct Ie as [<-|[]]. cbn. eauto. }
  assert (OUT : forall e o', In e (lnodes (log st)) -> n_out (fst e) = [o'] -> has_shape g o' (t_shape (snd e))).
  { intros e o' Ie Eo. exists (snd e). split; [|reflexivity]. rewrite TG. apply (D (o', snd e)). unfold defs, lnodes in *. apply in_flat_map in Ie as (v & Iv & Ie). apply in_flat_map. exists v. split; [exact Iv|].
    destruct v; cbn in Ie; try contradiction. destruct Ie as [<-|[]]. cbn [fst snd] in *. cbn. rewrite Eo. left. reflexivity. }
  assert (OK : forall e, In e (lnodes (log st)) -> exists k, node_ok fl c x b s [] (defs (log st)) e k).
  { intros e Ie. clear -B1 Ie. induction B1 as [|e' k es ks H F IH]; [contradiction|]. destruct Ie as [->|Ie]; eauto. }
  exists (bounds st). constructor; auto.
  - intros Sn n Hn. rewrite NG in Hn. apply in_map_iff in Hn as (e & <- & Ie). destruct (OK e Ie) as (k & its & F1 & Ty & _ & _ & _ & _ & (o' & Eo) & (_ & _ & GD)). destruct (ACT e Ie) as (d & Ed).
    pose proof (OUT e o' Ie Eo) as HO. specialize (Ty Sn). rewrite Ed in *. cbn [t_shape act] in *.
    exists o', (map t_shape its), d. split; [exact Eo|]. split; [|split; [exact HO|split; [exact Ty|]]].
    + clear -F1 D TG. induction F1 as [|a t ns ts [I _] F1 IH]; [constructor|]. constructor; [|exact IH]. exists t. split; [rewrite TG; apply (D (a, t) I)|reflexivity].
    + intros E. specialize (GD E). injection GD as ->. reflexivity.
  - intros Sn n Hn Eo. rewrite NG in Hn. apply in_map_iff in Hn as (e & <- & Ie). destruct (SL e Ie Eo) as (inp & off & w0 & k & X1 & X2 & X3 & X4 & X5). destruct (X5 Sn) as (Y1 & Y2 & Y3).
    destruct (OK e Ie) as (kk & its & _ & _ & _ & _ & _ & _ & (o' & Eo') & _). pose proof (OUT e o' Ie Eo') as HO. rewrite X3 in HO.
    exists inp, off, w0, k, o'. split; [exact X1|]. split; [exact Eo'|]. split; [exact HO|]. split; [|auto]. exists (act [b; s; w0]). split; [rewrite TG; apply (D _ X2)|reflexivity].
  - intros t It. rewrite <- Eg in It. change (g_input (replay (log st) o)) with (g_input (fold_left replay_step (log st) g0)) in It. rewrite replay_inputs in It. cbn [app g0 g_input] in It.
    apply in_map_iff in It as ([t' x'] & <- & It). apply in_flat_map in It as (v & Iv & It). destruct v as [ | n0 t0 | ]; cbn in It; try contradiction. destruct It as [It|[]]. injection It as <- <-.
    assert (X : t0 = idt [b; s]). { clear -RL Iv. induction RL as [|v1 v2 l1 l2 E F IH]; [contradiction|]. destruct Iv as [->|Iv]; [|auto]. inversion E; subst; reflexivity. }
    exists t0. split; [|rewrite X; reflexivity]. rewrite TG. apply (D (n0, t0)). unfold defs. apply in_flat_map. exists (EInput n0 t0). split; [exact Iv|left; reflexivity].
  - intros t It. rewrite IG in It. apply in_map_iff in It as ([t' x'] & <- & It). unfold statics in It. apply in_flat_map in It as (v & Iv & It). destruct v as [n0 t0| |]; cbn in It; try contradiction. destruct It as [It|[]]. injection It as <- <-.
    exists t0. split; [rewrite TG; apply (D (n0, t0)); unfold defs; apply in_flat_map; exists (EStatic n0 t0); split; [exact Iv|left; reflexivity]|].
    clear -RL Iv. induction RL as [|v1 v2 l1 l2 E F IH]; [contradiction|]. destruct Iv as [->|Iv]; [|auto]. inversion E; subst; reflexivity.
  - rewrite stored_keys, <- RW. apply NoDup_wide. rewrite <- IG. pose proof (eg_once _ WG) as N. unfold tensor_names in N. apply NoDup_app_inv in N as (_ & N & _). apply NoDup_app_inv in N as (N & _). exact N.
  - intros k Hk. rewrite stored_keys, <- RW in Hk. rewrite IG. unfold wide in Hk. apply in_map_iff in Hk as (y & <- & I). apply filter_In in I as [I _]. apply in_map. exact I.
Qed.
End RUN.

(** ** The inference loop *)
Lemma has_shape_fun g t a b : has_shape g t a -> has_shape g t b -> a = b.
Proof. intros (x & E & <-) (y & F & <-). rewrite E in F. injection F as <-. reflexivity. Qed.
Lemma typed_slice ss sh : typed "Slice" ss sh -> exists b s w k, ss = [[b; s; w]; [1]; [1]; [1]; [1]] /\ sh = [b; s; k].
Proof. intros T. inversion T; subst; try (match goal with H : _ \/ _ |- _ => destruct H; discriminate end). eauto 10. Qed.
Section LOOP.
Context (m : dict flags) (c : config) (b1 s1 b2 s2 : Z) (wm : dict (dict string)) (root : string) (fl : flags) (g h : graph) (ranges : list (string * (Z * Z))).
Context (HG : graph_rel b1 s1 b2 s2 g h) (HF : facts m c b2 s2 wm root fl h ranges) (Sn : sane fl c).
Context (Hfit : forall t sh, has_shape h t sh -> fits_dims sh).
Notation trec := (trec (V := iarr)).
Record Inv (done : list node) (tm : dict trec) : Prop := {
  i_keys : forall t, In t (dkeys tm) <-> In t (dkeys (tensormap h));
  i_shape : forall t, In t (g_input h) \/ In t (initials h) \/ (exists n, In n done /\ In t (n_out n)) -> exists r, dget tm t = Some r /\ has_shape h t (tr_shape r);
  i_num : forall k v, dget (stored_numbers ranges) k = Some v -> exists r, dget tm k = Some r /\ tr_num r = Some v }.
Lemma lookup_shapes (tm : dict trec) names : forall ss, Forall2 (has_shape h) names ss -> (forall t, In t names -> exists r, dget tm t = Some r /\ has_shape h t (tr_shape r)) ->
  exists ins, lookup_all tm names = SOk ins /\ map tr_shape ins = ss /\ Forall2 (fun t r => dget tm t = Some r) names ins.
Proof.
  induction names as [|t names IH]; intros ss F H; inversion F; subst.
  - exists []. repeat split; auto.
  - destruct (H t (or_introl eq_refl)) as (r & Er & Hr). destruct (IH l' ltac:(assumption)) as (ins & E1 & E2 & E3); [intros; apply H; right; assumption|].
    exists (r :: ins). cbn [lookup_all map]. rewrite Er, E1. cbn [sbind]. split; [reflexivity|]. split; [|constructor; auto]. rewrite E2. f_equal. eapply has_shape_fun; eauto.
Qed.
Lemma set_one (tm : dict trec) done n o r sh : Inv done tm -> n_out n = [o] -> dget tm o = Some r -> has_shape h o sh -> Inv (done ++ [n]) (dset tm o (mkT sh (tr_num r))).
Proof.
  intros [A B C] En Er Hs. constructor.
  - intros t. rewrite In_dkeys_dset, A. assert (In o (dkeys (tensormap h))) by (apply A; apply dget_In in Er; apply (in_map fst) in Er; exact Er). split; [intros [H1|H1]; subst; auto|auto].
  - intros t Ht. destruct (string_dec t o) as [->|N].
    + rewrite dget_dset_eq. eexists. split; [reflexivity|exact Hs].
    + rewrite dget_dset_neq by auto. apply B. destruct Ht as [Ht|[Ht|(n' & I & O)]]; auto. right. right. apply in_app_or in I as [I|[<-|[]]]; [eauto|]. rewrite En in O. destruct O as [->|[]]. contradiction.
  - intros k v Ek. destruct (C k v Ek) as (r' & E1 & E2). destruct (string_dec k o) as [->|N].
    + rewrite dget_dset_eq. eexists. split; [reflexivity|]. cbn. congruence.
    + rewrite dget_dset_neq by auto. eauto.
Qed.
Lemma step_infer (tm : dict trec) done n : Inv done tm -> In n (nodes_of h) -> (forall t, In t (n_in n) -> In t (g_input h) \/ In t (initials h) \/ exists n', In n' done /\ In t (n_out n')) ->
  exists tm', infer_node fst (builder_shape_rule (c_hidden c)) (fun _ _ => SRaise NotImplErr) [] tm n = SOk tm' /\ Inv (done ++ [n]) tm'.
Proof.
  intros J Hn Rd. destruct (f_node _ _ _ _ _ _ _ _ _ HF Sn n Hn) as (o & ss & d & Eo & FS & HO & Ty & GD).
  destruct (lookup_shapes tm (n_in n) ss FS) as (ins & L1 & L2 & L3); [intros t Ht; apply (i_shape _ _ J); auto|].
  assert (exists r, dget tm o = Some r) as (r & Er).
  { assert (I : In o (dkeys tm)) by (apply (i_keys _ _ J); destruct HO as (x & E & _); apply dget_In in E; apply (in_map fst) in E; exact E).
    destruct (dget tm o) as [r|] eqn:E; [eauto|]. exfalso. apply dhas_keys in I. unfold dhas in I. rewrite E in I. discriminate. }
  assert (RULE : builder_shape_rule (c_hidden c) n ins = SOk [[b2; s2; d]]).
  { destruct (string_dec (n_op n) "Slice") as [ES|NS].
    - destruct (f_slice _ _ _ _ _ _ _ _ _ HF Sn n Hn ES) as (inp & off & w & k & o' & Ei & Eo' & HO' & HI & IR & Z1 & Z2 & Z3).
      rewrite Eo in Eo'. injection Eo' as <-. pose proof (has_shape_fun _ _ _ _ HO HO') as E. injection E as ->. rewrite ES in Ty. apply typed_slice in Ty as (b' & s' & w' & k' & ESS & ESH). injection ESH as <- <- <-. subst ss.
      rewrite Ei in FS, L3. inversion FS as [|? ? ? ? F0 F1]; subst. pose proof (has_shape_fun _ _ _ _ F0 HI) as E. injection E as ->.
      destruct ins as [|i0 [|i1 [|i2 [|i3 [|i4 [|? ?]]]]]]; try discriminate L2. cbn [map] in L2. injection L2 as E0 E1 E2 E3 E4.
      inversion L3 as [|? ? ? ? G0 L4]; subst. inversion L4 as [|? ? ? ? G1 L5]; subst. inversion L5 as [|? ? ? ? G2 L6]; subst. inversion L6 as [|? ? ? ? G3 L7]; subst. inversion L7 as [|? ? ? ? G4 L8]; subst.
      destruct (stored_get ranges (n_name n) off (off + k) (f_keys _ _ _ _ _ _ _ _ _ HF) IR) as (V1 & V2 & V3 & V4).
      destruct (i_num _ _ J _ _ V1) as (q1 & Q1 & N1). destruct (i_num _ _ J _ _ V2) as (q2 & Q2 & N2). destruct (i_num _ _ J _ _ V3) as (q3 & Q3 & N3). destruct (i_num _ _ J _ _ V4) as (q4 & Q4 & N4).
      rewrite G1 in Q1. injection Q1 as <-. rewrite G2 in Q2. injection Q2 as <-. rewrite G3 in Q3. injection Q3 as <-. rewrite G4 in Q4. injection Q4 as <-.
      assert (FT := Hfit _ _ HI). inversion FT as [|? ? P1 P1']; subst. inversion P1' as [|? ? P2 P2']; subst. inversion P2' as [|? ? P3 P3']; subst.
      unfold builder_shape_rule. rewrite ES. cbn [String.eqb Ascii.eqb Bool.eqb orb].
      unfold numbers. rewrite N1, N2, N3, N4, E1, E2, E3, E4. cbn [fst snd]. destruct (list_eq_dec Z.eq_dec [1] [1]) as [_|X]; [|contradiction].
      rewrite E0. rewrite slice_range by (assumption || lia). reflexivity.
    - rewrite rule_shapes by exact NS. rewrite L2. apply rule_typed; auto. apply (Hfit _ _ HO). }
  unfold infer_node. rewrite L1, Eo. cbn [sbind lookup_all memb existsb]. rewrite Er. cbn [sbind]. unfold memb. cbn [existsb]. rewrite RULE. cbn [set_shapes]. rewrite Er.
  eexists. split; [reflexivity|]. eapply set_one; eauto.
Qed.
Lemma loop_infer rest : forall done tm, nodes_of h = (done ++ rest)%list -> Inv done tm ->
  exists tm', infer_nodes fst (builder_shape_rule (c_hidden c)) (fun _ _ => SRaise NotImplErr) [] rest tm = SOk tm' /\ Inv (nodes_of h) tm'.
Proof.
  induction rest as [|n rest IH]; intros done tm E J.
  - rewrite app_nil_r in E. exists tm. rewrite E. auto.
  - cbn [infer_nodes]. assert (In n (nodes_of h)) as Hn by (rewrite E; apply in_or_app; right; left; reflexivity).
    destruct (step_infer tm done n J Hn) as (tm' & E1 & J1).
    + intros t Ht. assert (Ei : nth_error (nodes_of h) (length done) = Some n) by (rewrite E, nth_error_app2, Nat.sub_diag by lia; reflexivity).
      destruct (eg_ready _ (f_ex _ _ _ _ _ _ _ _ _ HF) (length done) n t Ei Ht) as [X|[X|(j & n' & L & Ej & O)]]; auto. right. right. exists n'. split; [|exact O].
      rewrite E, nth_error_app1 in Ej by lia. eapply nth_error_In; eauto.
    + rewrite E1. cbn [sbind]. apply (IH (done ++ [n])%list); [rewrite <- app_assoc; exact E|exact J1].
Qed.
Lemma finish (tm : dict trec) : Inv (nodes_of h) tm -> forall t, option_map tr_shape (dget tm t) = option_map t_shape (dget (tensormap h) t).
Proof.
  intros J t. pose proof (i_keys _ _ J t) as K. destruct (dget (tensormap h) t) as [x|] eqn:E.
  - assert (I : In t (tensor_names h)) by (apply (eg_known _ (f_ex _ _ _ _ _ _ _ _ _ HF)); unfold dhas; rewrite E; reflexivity).
    unfold tensor_names in I. rewrite !in_app_iff in I. destruct (i_shape _ _ J t) as (r & Er & (x' & Ex & Hx)).
    { destruct I as [I|[I|I]]; auto. right. right. unfold outs_of in I. apply in_flat_map in I. exact I. }
    rewrite Er. cbn. congruence.
  - destruct (dget tm t) as [r|] eqn:Er; [|reflexivity]. exfalso. assert (X : In t (dkeys tm)) by (apply dhas_keys; unfold dhas; rewrite Er; reflexivity). apply K, dhas_keys in X. unfold dhas in X. rewrite E in X. discriminate.
Qed.
(** the start *)
Context (inputs : list (string * iarr)).
Context (HI1 : forall k v, In (k, v) inputs -> In k (g_input g) /\ fst v = [b2; s2]).
Context (HI2 : (b1 = b2 /\ s1 = s2) \/ forall k, In k (g_input g) -> In k (map fst inputs)).
Lemma built_get r t : dget (built_tensors g r) t = option_map (fun x => mkT (t_shape x) (dget (stored_numbers r) t)) (dget (tensormap g) t).
Proof.
  unfold built_tensors. induction (tensormap g) as [|[k v] d IH]; [reflexivity|]. cbn [map dget fst snd]. destruct (String.eqb_spec t k) as [->|N]; [reflexivity|exact IH].
Qed.
Lemma update_keys ins : forall (tm : dict trec) t, In t (dkeys (update_input_by_map fst ins tm)) <-> In t (dkeys tm).
Proof.
  unfold update_input_by_map. induction ins as [|[k v] ins IH]; intros tm t; [reflexivity|]. cbn [fold_left fst snd]. rewrite IH. destruct (dhas tm k) eqn:E; [|reflexivity].
  rewrite In_dkeys_dset. apply dhas_keys in E. split; [intros [->|X]; auto|auto].
Qed.
Lemma update_other ins : forall (tm : dict trec) t, ~ In t (map fst ins) -> dget (update_input_by_map fst ins tm) t = dget tm t.
Proof.
  unfold update_input_by_map. induction ins as [|[k v] ins IH]; intros tm t N; [reflexivity|]. cbn [fold_left fst snd map In] in *. rewrite IH by tauto. destruct (dhas tm k); [|reflexivity]. apply dget_dset_neq. intros ->. tauto.
Qed.
Lemma update_given ins : forall (tm : dict trec) t, In t (map fst ins) -> In t (dkeys tm) -> (forall k v, In (k, v) ins -> fst v = [b2; s2]) ->
  exists r, dget (update_input_by_map fst ins tm) t = Some r /\ tr_shape r = [b2; s2].
Proof.
  induction ins as [|[k v] ins IH]; intros tm t I K H; [contradiction|]. change (update_input_by_map fst ((k, v) :: ins) tm) with (update_input_by_map fst ins (if dhas tm k then dset tm k (update_tensor fst v) else tm)).
  destruct (in_dec string_dec t (map fst ins)) as [J|J].
  - apply IH; [exact J| |intros; eapply H; right; eassumption]. destruct (dhas tm k); [apply In_dkeys_dset; auto|exact K].
  - destruct I as [<-|I]; [|contradiction]. rewrite update_other by exact J. cbn [fst]. pose proof K as K'. cbn [fst] in K'. apply dhas_keys in K'. rewrite K'. rewrite dget_dset_eq. eexists. split; [reflexivity|]. cbn. apply (H k v). left. reflexivity.
Qed.
Lemma start_inv : Inv [] (update_input_by_map fst inputs (built_tensors g ranges)).
Proof.
  destruct HG as [GN GI GIn GT].
  assert (W := f_ex _ _ _ _ _ _ _ _ _ HF). pose proof (eg_once _ W) as ND. unfold tensor_names in ND. apply NoDup_app_inv in ND as (_ & ND2 & ND3). apply NoDup_app_inv in ND2 as (_ & _ & ND5).
  assert (KG : forall t, In t (dkeys (built_tensors g ranges)) <-> In t (dkeys (tensormap h))).
  { intros t. unfold built_tensors, dkeys. rewrite map_map. change (map (fun x : string * tensor => fst (fst x, mkT (t_shape (snd x)) (dget (stored_numbers ranges) (fst x)))) (tensormap g)) with (map fst (tensormap g)). assert (E : map fst (tensormap g) = map fst (tensormap h)) by (clear -GT; induction GT as [|? ? ? ? [E _] F IH]; cbn; [reflexivity|congruence]). rewrite E. tauto. }
  assert (NI : forall t, In t (initials h) -> ~ In t (map fst inputs)).
  { intros t It I. apply in_map_iff in I as ([k v] & <- & I). apply HI1 in I as [I _]. rewrite GIn in I. apply (ND3 k I). apply in_or_app. auto. }
  assert (TI : forall t, In t (initials h) -> exists x, dget (tensormap g) t = Some x /\ has_shape h t (t_shape x)).
  { intros t It. destruct (f_init _ _ _ _ _ _ _ _ _ HF t It) as (x & Ex & Kx). pose proof (entry_get b1 s1 b2 s2 _ _ t GT) as R. rewrite Ex in R. destruct (dget (tensormap g) t) as [y|]; [|contradiction].
    exists y. split; [reflexivity|]. exists x. split; [exact Ex|]. destruct R as [->|[(d & -> & ->)|[-> ->]]]; [reflexivity|discriminate Kx|discriminate Kx]. }
  constructor.
  - intros t. rewrite update_keys. apply KG.
  - intros t [It|[It|(n & [] & _)]].
    + pose proof (f_in _ _ _ _ _ _ _ _ _ HF t It) as HS. destruct (in_dec string_dec t (map fst inputs)) as [J|J].
      * destruct (update_given inputs (built_tensors g ranges) t J) as (r & E & F).
        { apply KG. destruct HS as (x & Ex & _). apply dget_In in Ex. apply (in_map fst) in Ex. exact Ex. }
        { intros k v I. apply (HI1 k v I). }
        exists r. split; [exact E|]. rewrite F. exact HS.
      * rewrite update_other by exact J. destruct HI2 as [[E1 E2]|HI]; [|exfalso; apply J; apply HI; rewrite GIn; exact It]. rewrite built_get. pose proof (entry_get b1 s1 b2 s2 _ _ t GT) as R.
        destruct HS as (x & Ex & Sx). rewrite Ex in R. destruct (dget (tensormap g) t) as [y|]; [|contradiction]. cbn [option_map]. eexists. split; [reflexivity|]. cbn [tr_shape]. exists x. split; [exact Ex|].
        destruct R as [->|[(d & -> & ->)|[-> ->]]]; cbn; subst; reflexivity.
    + rewrite update_other by (apply NI; exact It). rewrite built_get. destruct (TI t It) as (x & E & F). rewrite E. cbn [option_map]. eexists. split; [reflexivity|exact F].
  - intros k v E. assert (Ik : In k (initials h)). { apply (f_stored _ _ _ _ _ _ _ _ _ HF). apply dget_In in E. apply (in_map fst) in E. exact E. }
    rewrite update_other by (apply NI; exact Ik). rewrite built_get. destruct (TI k Ik) as (x & E' & _). rewrite E'. cbn [option_map]. eexists. split; [reflexivity|]. cbn. exact E.
Qed.
Lemma check_ok names tm : (forall t, In t names -> exists r, dget tm t = Some r /\ has_shape h t (tr_shape r)) -> check_inputs (V := iarr) names tm = SOk true.
Proof.
  induction names as [|t names IH]; intros H; [reflexivity|]. cbn [check_inputs]. destruct (H t (or_introl eq_refl)) as (r & E & F). rewrite E.
  assert (X : forallb (fun d => 0 <=? d) (tr_shape r) = true). { apply forallb_forall. intros d Hd. apply Hfit in F. unfold fits_dims in F. rewrite Forall_forall in F. apply F in Hd. apply Z.leb_le. lia. }
  rewrite X. apply IH. intros t' I. apply H. right. exact I.
Qed.
Lemma reinfer_ok : exists tm, reinfer c g ranges inputs = SOk tm /\ forall t, option_map tr_shape (dget tm t) = option_map t_shape (dget (tensormap h) t).
Proof.
  pose proof start_inv as J. unfold reinfer, graph_shape_infer. set (tm1 := update_input_by_map fst inputs (built_tensors g ranges)) in *.
  rewrite check_ok. 2: { intros t It. apply (i_shape _ _ J). left. rewrite <- (gr_in _ _ _ _ _ _ HG). exact It. }
  cbn [sbind]. assert (EN : nodes_of g = nodes_of h) by (unfold nodes_of; rewrite (gr_nodes _ _ _ _ _ _ HG); reflexivity). rewrite EN.
  destruct (loop_infer (nodes_of h) [] tm1 eq_refl J) as (tm' & E & J'). exists tm'. split; [exact E|]. apply finish. exact J'.
Qed.
End LOOP.
