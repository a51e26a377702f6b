(** The graph under construction stays executable. *)
From Coq Require Import Permutation.
From Verif Require Import PyBase PyBaseFacts GraphModel CompressSpec ShapeModel FusionModel FusionProofs RegressModel RegressProofs LlmModel LlmSpec LlmNames.
Open Scope Z_scope. Open Scope string_scope.

Definition g0 : graph := mkGraph [] [] [] [] [] [] [] [].
Definition gr (s : bst) : graph := fold_left replay_step (log s) g0.

Lemma dhas_keys {A} (d : dict A) k : dhas d k = true <-> In k (dkeys d).
Proof.
  unfold dhas. destruct (dget d k) eqn:E; split; intros H; auto; try discriminate.
  - eapply dget_Some_keys; eauto.
  - apply dget_None in E. contradiction.
Qed.
Lemma perm_mid {A} (a b : list A) x : Permutation (a ++ [x] ++ b) (a ++ b ++ [x]).
Proof. apply Permutation_app_head. apply Permutation_app_comm. Qed.
Lemma names_snoc_static g n t : Permutation (tensor_names (replay_step g (EStatic n t))) (tensor_names g ++ [n]).
Proof. unfold tensor_names, nodes_of. cbn. rewrite <- !app_assoc. apply Permutation_app_head. apply perm_mid. Qed.
Lemma names_snoc_input g n t : Permutation (tensor_names (replay_step g (EInput n t))) (tensor_names g ++ [n]).
Proof. unfold tensor_names, nodes_of. cbn. rewrite <- !app_assoc. rewrite (app_assoc (initials g)). apply perm_mid. Qed.
Lemma nodes_snoc g n t : ~ In (n_name n) (map fst (nodemap g)) -> nodemap (replay_step g (ENode n t)) = (nodemap g ++ [(n_name n, n)])%list.
Proof. intros H. cbn. apply dset_new. exact H. Qed.
Lemma names_snoc_node g n t : ~ In (n_name n) (map fst (nodemap g)) -> tensor_names (replay_step g (ENode n t)) = (tensor_names g ++ n_out n)%list.
Proof.
  intros H. unfold tensor_names, nodes_of. rewrite (nodes_snoc g n t H). cbn. rewrite map_app, <- !app_assoc. do 2 f_equal.
  unfold outs_of. rewrite flat_map_app. cbn. rewrite app_nil_r. reflexivity.
Qed.
Lemma NoDup_perm {A} (a b : list A) : Permutation a b -> NoDup b -> NoDup a.
Proof. intros P. apply Permutation_NoDup. symmetry. exact P. Qed.

Lemma wf_static g n t : executable_graph g -> ~ In n (tensor_names g) -> n <> "" -> executable_graph (replay_step g (EStatic n t)).
Proof.
  intros W N E. pose proof (names_snoc_static g n t) as P. destruct W as [W1 W2 W3 W4 W5 W6]. constructor.
  - exact W1.
  - exact W2.
  - eapply NoDup_perm; [exact P|]. apply NoDup_snoc; assumption.
  - intros i m x H I. destruct (W4 i m x H I) as [J|[J|J]]; [left; exact J|right; left|right; right; exact J]. cbn. apply in_or_app. auto.
  - intros x. cbn. rewrite dhas_keys, In_dkeys_dset, <- dhas_keys, W5. split; intros H.
    + eapply Permutation_in; [symmetry; exact P|]. apply in_or_app. cbn. destruct H; auto.
    + apply (Permutation_in _ P) in H. apply in_app_or in H. cbn in H. destruct H as [H|[H|[]]]; auto.
  - intros H. apply (Permutation_in _ P) in H. apply in_app_or in H. cbn in H. destruct H as [H|[H|[]]]; auto.
Qed.
Lemma wf_input g n t : executable_graph g -> ~ In n (tensor_names g) -> n <> "" -> executable_graph (replay_step g (EInput n t)).
Proof.
  intros W N E. pose proof (names_snoc_input g n t) as P. destruct W as [W1 W2 W3 W4 W5 W6]. constructor.
  - exact W1.
  - exact W2.
  - eapply NoDup_perm; [exact P|]. apply NoDup_snoc; assumption.
  - intros i m x H I. destruct (W4 i m x H I) as [J|[J|J]]; [left|right; left; exact J|right; right; exact J]. cbn. apply in_or_app. auto.
  - intros x. cbn. rewrite dhas_keys, In_dkeys_dset, <- dhas_keys, W5. split; intros H.
    + eapply Permutation_in; [symmetry; exact P|]. apply in_or_app. cbn. destruct H; auto.
    + apply (Permutation_in _ P) in H. apply in_app_or in H. cbn in H. destruct H as [H|[H|[]]]; auto.
  - intros H. apply (Permutation_in _ P) in H. apply in_app_or in H. cbn in H. destruct H as [H|[H|[]]]; auto.
Qed.
Lemma wf_node g name op ins o t : executable_graph g -> ~ In name (map fst (nodemap g)) -> ~ In o (tensor_names g) -> o <> "" ->
  (forall x, In x ins -> In x (tensor_names g)) -> executable_graph (replay_step g (ENode (mkNode name op ins [o]) t)).
Proof.
  intros W K N E D. set (n := mkNode name op ins [o]). pose proof (names_snoc_node g n t K) as P. pose proof (nodes_snoc g n t K) as Q. destruct W as [W1 W2 W3 W4 W5 W6]. constructor.
  - rewrite Q, map_app. apply NoDup_snoc; assumption.
  - intros k m I. rewrite Q in I. apply in_app_or in I as [I|[I|[]]]; [auto|]. injection I as <- <-. reflexivity.
  - rewrite P. apply NoDup_snoc; assumption.
  - intros i m x H I. unfold nodes_of in *. rewrite Q, map_app in H |- *. cbn [map] in *.
    assert (Hm : forall y, In y (tensor_names g) -> In y (g_input g) \/ In y (initials g) \/ exists j u, (j < length (map snd (nodemap g)))%nat /\ nth_error (map snd (nodemap g)) j = Some u /\ In y (n_out u)).
    { intros y Iy. unfold tensor_names in Iy. apply in_app_or in Iy as [Iy|Iy]; [auto|]. apply in_app_or in Iy as [Iy|Iy]; [auto|]. right. right.
      unfold outs_of, nodes_of in Iy. apply in_flat_map in Iy as (u & Iu & Iy). apply In_nth_error in Iu as (j & Ej). exists j, u. repeat split; auto. apply nth_error_Some. congruence. }
    destruct (Nat.lt_ge_cases i (length (map snd (nodemap g)))) as [L|L].
    + rewrite nth_error_app1 in H by exact L. destruct (W4 i m x H I) as [J|[J|(j & u & J1 & J2 & J3)]]; [left; exact J|right; left; exact J|].
      right. right. exists j, u. rewrite nth_error_app1 by lia. auto.
    + rewrite nth_error_app2 in H by exact L. destruct (i - length (map snd (nodemap g)))%nat as [|z] eqn:Z; [|destruct z; discriminate]. cbn in H. injection H as <-.
      destruct (Hm x (D x I)) as [J|[J|(j & u & J1 & J2 & J3)]]; [left; exact J|right; left; exact J|].
      right. right. exists j, u. rewrite nth_error_app1 by exact J1. split; [lia|auto].
  - intros x. rewrite P. change (tensormap (replay_step g (ENode n t))) with (dset (tensormap g) o t). rewrite dhas_keys, In_dkeys_dset, <- dhas_keys, W5. split; intros H.
    + apply in_or_app. cbn. destruct H; auto.
    + apply in_app_or in H. cbn in H. destruct H as [H|[H|[]]]; auto.
  - rewrite P. intros H. apply in_app_or in H. cbn in H. destruct H as [H|[H|[]]]; auto.
Qed.
Lemma wf_empty : executable_graph g0.
Proof.
  constructor.
  - constructor.
  - intros k n [].
  - constructor.
  - intros [|i] n t H; discriminate.
  - intros t. split; [discriminate|intros []].
  - intros [].
Qed.

(** what the log says *)
Definition ev_defs (e : ev) : list (string * tensor) :=
  match e with EStatic n t | EInput n t => [(n, t)] | ENode nd t => map (fun o => (o, t)) (n_out nd) end.
Definition defs (l : list ev) : list (string * tensor) := flat_map ev_defs l.
Definition ev_nodes (e : ev) : list (node * tensor) := match e with ENode nd t => [(nd, t)] | _ => [] end.
Definition lnodes (l : list ev) : list (node * tensor) := flat_map ev_nodes l.
Definition ev_statics (e : ev) : list (string * tensor) := match e with EStatic n t => [(n, t)] | _ => [] end.
Definition statics (l : list ev) : list (string * tensor) := flat_map ev_statics l.
Lemma defs_snoc l e : defs (l ++ [e]) = (defs l ++ ev_defs e)%list.
Proof. unfold defs. rewrite flat_map_app. cbn. rewrite app_nil_r. reflexivity. Qed.
Lemma lnodes_snoc l e : lnodes (l ++ [e]) = (lnodes l ++ ev_nodes e)%list.
Proof. unfold lnodes. rewrite flat_map_app. cbn. rewrite app_nil_r. reflexivity. Qed.
Lemma statics_snoc l e : statics (l ++ [e]) = (statics l ++ ev_statics e)%list.
Proof. unfold statics. rewrite flat_map_app. cbn. rewrite app_nil_r. reflexivity. Qed.
(** every logged node and tensor is in the graph: nothing was overwritten *)
Definition faithful (l : list ev) : Prop :=
  let g := fold_left replay_step l g0 in
  nodemap g = map (fun e => (n_name (fst e), fst e)) (lnodes l) /\
  initials g = map fst (statics l) /\
  forall d, In d (defs l) -> dget (tensormap g) (fst d) = Some (snd d).
Lemma faithful_static l n t : executable_graph (fold_left replay_step l g0) -> ~ In n (tensor_names (fold_left replay_step l g0)) -> faithful l -> faithful (l ++ [EStatic n t]).
Proof.
  intros W F (A & A2 & C). unfold faithful. rewrite fold_left_app, lnodes_snoc, defs_snoc, statics_snoc. cbn [fold_left]. set (g := fold_left replay_step l g0) in *.
  cbn [replay_step nodemap tensormap initials ev_nodes ev_defs ev_statics]. rewrite app_nil_r. split; [exact A|]. split; [rewrite map_app, A2; reflexivity|]. intros d H. apply in_app_or in H as [H|[<-|[]]].
  - pose proof (C d H) as G. rewrite dget_dset_neq; [exact G|]. intros E. apply F. apply (eg_known _ W). unfold dhas. rewrite ?E, G. reflexivity.
  - cbn. apply dget_dset_eq.
Qed.
Lemma faithful_input l n t : executable_graph (fold_left replay_step l g0) -> ~ In n (tensor_names (fold_left replay_step l g0)) -> faithful l -> faithful (l ++ [EInput n t]).
Proof.
  intros W F (A & A2 & C). unfold faithful. rewrite fold_left_app, lnodes_snoc, defs_snoc, statics_snoc. cbn [fold_left]. set (g := fold_left replay_step l g0) in *.
  cbn [replay_step nodemap tensormap initials ev_nodes ev_defs ev_statics]. rewrite !app_nil_r. split; [exact A|]. split; [exact A2|]. intros d H. apply in_app_or in H as [H|[<-|[]]].
  - pose proof (C d H) as G. rewrite dget_dset_neq; [exact G|]. intros E. apply F. apply (eg_known _ W). unfold dhas. rewrite ?E, G. reflexivity.
  - cbn. apply dget_dset_eq.
Qed.
Lemma faithful_node l n op ins o t : executable_graph (fold_left replay_step l g0) -> ~ In n (map fst (nodemap (fold_left replay_step l g0))) -> ~ In o (tensor_names (fold_left replay_step l g0)) ->
  faithful l -> faithful (l ++ [ENode (mkNode n op ins [o]) t]).
Proof.
  intros W FN F (A & A2 & C). unfold faithful. rewrite fold_left_app, lnodes_snoc, defs_snoc, statics_snoc. cbn [fold_left]. set (g := fold_left replay_step l g0) in *.
  pose proof (nodes_snoc g (mkNode n op ins [o]) t FN) as PN. rewrite PN. cbn [replay_step tensormap initials ev_nodes ev_defs ev_statics n_out n_name fold_left]. rewrite app_nil_r.
  split; [rewrite map_app, A; reflexivity|]. split; [exact A2|]. intros d H. apply in_app_or in H as [H|[<-|[]]].
  - pose proof (C d H) as G. rewrite dget_dset_neq; [exact G|]. intros E. apply F. apply (eg_known _ W). unfold dhas. rewrite ?E, G. reflexivity.
  - cbn. apply dget_dset_eq.
Qed.

(** ** Weakest preconditions *)
Section WP.
Context (Fail : Prop).
Definition wp {A} (m : B A) (Q : A -> bst -> Prop) (s : bst) : Prop := match m s with SOk x => Q (fst x) (snd x) | SRaise _ => Fail end.
Lemma wp_bind {A C} (m : B A) (f : A -> B C) Q s : wp m (fun a s' => wp (f a) Q s') s -> wp (bind m f) Q s.
Proof. unfold wp, bind, sbind. destruct (m s) as [x|e]; auto. Qed.
Lemma wp_ret {A} (a : A) (Q : A -> bst -> Prop) s : Q a s -> wp (ret a) Q s.
Proof. auto. Qed.
Lemma wp_lift {A} (r : sres A) (Q : A -> bst -> Prop) s : (forall a, r = SOk a -> Q a s) -> (forall e, r = SRaise e -> Fail) -> wp (lift r) Q s.
Proof. unfold wp, lift, sbind. destruct r as [a|e]; cbn; eauto. Qed.
Lemma wp_mono {A} (m : B A) (Q Q' : A -> bst -> Prop) s : (forall a s', Q a s' -> Q' a s') -> wp m Q s -> wp m Q' s.
Proof. unfold wp. destruct (m s); auto. Qed.

Context (norope : Prop).
(** nodes within [N], tensors within [T], the tensors [D] present with their shapes *)
Record I (N T : string -> Prop) (D : list tref) (s : bst) : Prop := {
  i_wf : executable_graph (gr s);
  i_n : forall k, In k (map fst (nodemap (gr s))) -> N k;
  i_t : forall t, In t (tensor_names (gr s)) -> T t;
  i_d : forall r, In r D -> In (fst r) (tensor_names (gr s)) /\ exists tn, dget (tensormap (gr s)) (fst r) = Some tn /\ t_shape tn = snd r;
  i_res : T "rope.cos" /\ T "rope.sin" /\ T "position" /\ T "";
  i_rope : if rope_done s then In "rope.cos" (tensor_names (gr s)) /\ In "rope.sin" (tensor_names (gr s))
           else ~ In "rope.cos" (tensor_names (gr s)) /\ ~ In "rope.sin" (tensor_names (gr s));
  i_pos : if pos_done s then In "position" (tensor_names (gr s)) else norope \/ ~ In "position" (tensor_names (gr s));
  i_log : faithful (log s)
}.
Lemma I_note N T D s bo : I N T D s -> I N T D {| log := log s; rope_done := rope_done s; pos_done := pos_done s; bounds := bo |}.
Proof. intros [W A B C R E F FA]. constructor; assumption. Qed.
Definition orp (P : string -> Prop) (x : string) : string -> Prop := fun y => P y \/ y = x.
Lemma I_weaken N T D s (N' T' : string -> Prop) D' : I N T D s -> (forall x, N x -> N' x) -> (forall x, T x -> T' x) -> incl D' D -> I N' T' D' s.
Proof. intros [W A B C R E F FA] HN HT HD. constructor; auto. destruct R as (R1 & R2 & R3 & R4). auto. Qed.

Lemma gr_snoc s e rd pd bo : gr {| log := (log s ++ [e])%list; rope_done := rd; pos_done := pd; bounds := bo |} = replay_step (gr s) e.
Proof. unfold gr. cbn [log]. rewrite fold_left_app. reflexivity. Qed.

Lemma tm_fresh g r n tn : executable_graph g -> In (fst r) (tensor_names g) -> ~ In n (tensor_names g) ->
  (exists t, dget (tensormap g) (fst r) = Some t /\ t_shape t = snd r) -> exists t, dget (dset (tensormap g) n tn) (fst r) = Some t /\ t_shape t = snd r.
Proof. intros W J N (t & G & S). exists t. split; [|exact S]. rewrite dget_dset_neq; [exact G|]. intros ->. contradiction. Qed.

Lemma wp_static_gen esz N T D s n sh (Q : string -> bst -> Prop) : I N T D s -> ~ T n ->
  (forall s', I N (orp T n) ((n, sh) :: D) s' -> Q n s') -> wp (do _ <- tell (EStatic n (mkTensor STATIC sh esz)); ret n) Q s.
Proof.
  intros J F K. unfold wp, bind, tell, ret, sbind. cbn [fst snd]. apply K. destruct J as [W A B C R E G FA]. destruct R as (R1 & R2 & R3 & R4).
  assert (NI : ~ In n (tensor_names (gr s))) by (intros X; apply F; auto).
  assert (NE : n <> "") by (intros ->; contradiction).
  set (e := EStatic n (mkTensor STATIC sh esz)).
  pose proof (names_snoc_static (gr s) n (mkTensor STATIC sh esz)) as P. fold e in P.
  assert (X : forall x, In x (tensor_names (replay_step (gr s) e)) <-> In x (tensor_names (gr s)) \/ x = n).
  { intros x. split; intros H.
    - apply (Permutation_in _ P) in H. apply in_app_or in H. cbn in H. destruct H as [H|[H|[]]]; auto.
    - eapply Permutation_in; [symmetry; exact P|]. apply in_or_app. cbn. destruct H; auto. }
  constructor; rewrite ?gr_snoc; cbn [rope_done pos_done].
  - apply wf_static; assumption.
  - exact A.
  - intros t H. apply X in H as [H|H]; [left; auto|right; exact H].
  - intros r [<-|H]; cbn [fst snd].
    + split; [apply X; auto|]. exists (mkTensor STATIC sh esz). cbn. rewrite dget_dset_eq. auto.
    + destruct (C r H) as [C1 C2]. split; [apply X; auto|]. cbn. apply tm_fresh; auto.
  - unfold orp. auto.
  - destruct (rope_done s); rewrite !X; [tauto|]. destruct E as [E1 E2]. split; intros [H|H]; auto; subst n; contradiction.
  - destruct (pos_done s); rewrite X; [tauto|]. destruct G as [G|G]; [tauto|]. right. intros [H|H]; auto; subst n; contradiction.
  - cbn [log]. apply faithful_static; assumption.
Qed.
Definition wp_static := wp_static_gen 4.
Definition wp_static8 := wp_static_gen 8.
Lemma wp_emit N T D s n op ins sh (Q : tref -> bst -> Prop) : I N T D s -> ~ N n -> ~ T (n ++ ".output") -> (forall x, In x ins -> In x (map fst D)) ->
  (forall s', I (orp N n) (orp T (n ++ ".output")) ((n ++ ".output", sh) :: D) s' -> Q (n ++ ".output", sh) s') -> wp (emit n op ins sh) Q s.
Proof.
  intros J FN F HI K. unfold wp, emit, bind, tell, ret, sbind. cbn [fst snd]. apply K. destruct J as [W A B C R E G FA]. destruct R as (R1 & R2 & R3 & R4).
  set (o := n ++ ".output") in *.
  assert (NI : ~ In o (tensor_names (gr s))) by (intros X; apply F; auto).
  assert (NK : ~ In n (map fst (nodemap (gr s)))) by (intros X; apply FN; auto).
  assert (NE : o <> "") by (intros X; rewrite X in F; contradiction).
  set (e := ENode (mkNode n op ins [o]) (mkTensor DYNAMIC sh 4)).
  pose proof (names_snoc_node (gr s) (mkNode n op ins [o]) (mkTensor DYNAMIC sh 4) NK) as P. fold e in P. cbn [n_out] in P.
  pose proof (nodes_snoc (gr s) (mkNode n op ins [o]) (mkTensor DYNAMIC sh 4) NK) as PN. fold e in PN. cbn [n_name] in PN.
  assert (X : forall x, In x (tensor_names (replay_step (gr s) e)) <-> In x (tensor_names (gr s)) \/ x = o).
  { intros x. rewrite P. rewrite in_app_iff. cbn. intuition auto. }
  constructor; rewrite ?gr_snoc; cbn [rope_done pos_done].
  - apply wf_node; try assumption. intros x Ix. apply HI in Ix. apply in_map_iff in Ix as (r & <- & Ir). apply C. exact Ir.
  - intros k H. rewrite PN, map_app in H. apply in_app_or in H as [H|[H|[]]]; [left; auto|right; symmetry; exact H].
  - intros t H. apply X in H as [H|H]; [left; auto|right; exact H].
  - intros r [<-|H]; cbn [fst snd].
    + split; [apply X; auto|]. exists (mkTensor DYNAMIC sh 4). cbn. rewrite dget_dset_eq. auto.
    + destruct (C r H) as [C1 C2]. split; [apply X; auto|]. cbn. apply tm_fresh; auto.
  - unfold orp. auto.
  - destruct (rope_done s); rewrite !X; [tauto|]. destruct E as [E1 E2]. split; intros [H|H]; auto; rewrite <- H in F; contradiction.
  - destruct (pos_done s); rewrite X; [tauto|]. destruct G as [G|G]; [tauto|]. right. intros [H|H]; auto; rewrite <- H in F; contradiction.
  - cbn [log]. apply faithful_node; assumption.
Qed.

(** ** Tensors named after base names *)
Definition special (t : string) : bool := String.eqb t "ids" || String.eqb t "position" || String.eqb t "".
Lemma special_nodot t : special t = true -> has_dot t = false.
Proof. unfold special. intros H. apply orb_prop in H as [H|H]; [apply orb_prop in H as [H|H]|]; apply String.eqb_eq in H; subst t; reflexivity. Qed.
Definition TP (P : string -> Prop) (t : string) : Prop := special t = true \/ exists b e, P b /\ In e exts /\ t = b ++ e.
Definition Inv (P : string -> Prop) := I P (TP P).
Lemma TP_fresh P b e : ~ P b -> In e exts -> ~ TP P (b ++ e).
Proof.
  intros F Ie [H|(b' & e' & Hb & Ie' & E)].
  - apply special_nodot in H. rewrite ext_has_dot in H by exact Ie. discriminate.
  - destruct (ext_inj _ _ _ _ Ie Ie' E) as [-> _]. contradiction.
Qed.
(** tensors within [TP P], or [b] with one of the extensions [es] *)
Definition TE (P : string -> Prop) (b : string) (es : list string) (t : string) : Prop := TP P t \/ exists e, In e es /\ t = b ++ e.
Lemma TE_fresh P b es e : ~ P b -> incl es exts -> In e exts -> ~ In e es -> ~ TE P b es (b ++ e).
Proof.
  intros F S Ie N [H|(e' & I' & E)]; [eapply TP_fresh; eauto|]. destruct (ext_inj _ _ _ _ Ie (S _ I') E) as [_ ->]. contradiction.
Qed.
Lemma open_base P D s b : Inv P D s -> I P (TE P b []) D s.
Proof. intros J. eapply I_weaken; [exact J|auto|left; assumption|apply incl_refl]. Qed.
Lemma static_base esz P b es e D s sh (Q : string -> bst -> Prop) : I P (TE P b es) D s -> ~ P b -> incl es exts -> In e exts -> ~ In e es ->
  (forall s', I P (TE P b (e :: es)) ((b ++ e, sh) :: D) s' -> Q (b ++ e) s') -> wp (do _ <- tell (EStatic (b ++ e) (mkTensor STATIC sh esz)); ret (b ++ e)) Q s.
Proof.
  intros J F S Ie N K. eapply wp_static_gen; [exact J|apply TE_fresh; assumption|]. intros s' J'. apply K. eapply I_weaken; [exact J'|auto| |apply incl_refl].
  intros x [[H|(e' & I' & ->)]| ->]; [left; exact H|right; exists e'; cbn; auto|right; exists e; cbn; auto].
Qed.
Lemma close_base P b es D s : incl es exts -> I P (TE P b es) D s -> Inv (orp P b) D s.
Proof.
  intros S J. eapply I_weaken; [exact J|left; assumption| |apply incl_refl].
  intros x [[H|(b' & e & Hb & Ie & ->)]|(e & Ie & ->)]; [left; exact H|right; exists b', e; unfold orp; auto|right; exists b, e; unfold orp; auto].
Qed.
Lemma emit_base P b es D s op ins sh (Q : tref -> bst -> Prop) : I P (TE P b es) D s -> ~ P b -> incl es exts -> ~ In ".output" es -> (forall x, In x ins -> In x (map fst D)) ->
  (forall s', Inv (orp P b) ((b ++ ".output", sh) :: D) s' -> Q (b ++ ".output", sh) s') -> wp (emit b op ins sh) Q s.
Proof.
  intros J F S N HI K. eapply wp_emit; [exact J|exact F|apply TE_fresh; auto; cbn; auto|exact HI|]. intros s' J'. apply K.
  eapply I_weaken; [exact J'|auto| |apply incl_refl].
  intros x [[[H|(b' & e & Hb & Ie & ->)]|(e & Ie & ->)]| ->]; [left; exact H|right; exists b', e; unfold orp; auto|right; exists b, e; unfold orp; auto|].
  right. exists b, ".output". unfold orp. cbn. auto.
Qed.
Lemma Inv_weaken P D s (P' : string -> Prop) D' : Inv P D s -> (forall x, P x -> P' x) -> incl D' D -> Inv P' D' s.
Proof. intros J H HD. eapply I_weaken; [exact J|exact H| |exact HD]. intros x [X|(b & e & Hb & Ie & ->)]; [left; exact X|right; exists b, e; auto]. Qed.
Lemma In_fst (r : tref) D : In r D -> In (fst r) (map fst D).
Proof. apply in_map. Qed.

Section OPS.
Context (fl : flags) (c : config) (batch seq_len : Z).
Ltac ins := intros x Hx; cbn in Hx; cbn [map fst]; repeat (destruct Hx as [<-|Hx]; [cbn; auto 12 using In_fst|]); try contradiction.
Ltac okincl := let x := fresh in let H := fresh in intros x H; cbn in H |- *; repeat (destruct H as [<-|H]; [clear; tauto|]); contradiction.
Ltac okin := cbn; clear; tauto.
Ltac oknot := cbn; clear; intuition discriminate.
Ltac st := apply wp_bind; eapply static_base; [eassumption|eassumption|okincl|okin|oknot|]; intros ? ?.

Ltac em := eapply emit_base; [eassumption|eassumption|okincl|oknot|ins|].
Ltac fin K := let s' := fresh "s" in let J := fresh "J" in let x := fresh "x" in let Hx := fresh "Hx" in
  intros s' J; apply K; eapply Inv_weaken; [exact J|auto|]; intros x Hx; cbn in Hx |- *; intuition auto.

Lemma embedding_ok P D s inp insize b (Q : tref -> bst -> Prop) : Inv P D s -> ~ P b -> In inp D ->
  (forall s', Inv (orp P b) ((b ++ ".output", [batch; seq_len; c_hidden c]) :: D) s' -> Q (b ++ ".output", [batch; seq_len; c_hidden c]) s') ->
  wp (add_embedding c batch seq_len inp insize b) Q s.
Proof. intros J F Hi K. apply open_base with (b := b) in J. unfold add_embedding, static. st. em. fin K. Qed.

Context (wm : dict (dict string)) (HF : ~ buildable fl c wm -> Fail).
Lemma flag_ok k (Q : bool -> bst -> Prop) s : In k ["mlp_gate"; "norm_scale"; "norm_bias"; "fuse_qkv"; "qkv_bias"; "o_bias"; "mlp_bias"; "lm_head_bias"] ->
  (forall b, flag fl k = SOk b -> Q b s) -> wp (lift (flag fl k)) Q s.
Proof.
  intros H K. apply wp_lift; [exact K|]. intros e E. apply HF. intros (Hb & _). specialize (Hb k H). unfold flag, dlook in E. unfold dhas in Hb. destruct (dget fl k); discriminate.
Qed.
Lemma wkey_ok sec k (Q : string -> bst -> Prop) s :
  (buildable fl c wm -> given wm sec k <> []) -> (forall n, wkey wm sec k = SOk n -> Q n s) -> wp (lift (wkey wm sec k)) Q s.
Proof.
  intros H K. apply wp_lift; [exact K|]. intros e E. apply HF. intros Hb. specialize (H Hb). unfold given in H. rewrite E in H. contradiction.
Qed.
Lemma layernorm_ok P D s inp b (Q : tref -> bst -> Prop) : Inv P D s -> ~ P b -> In inp D ->
  (forall s', Inv (orp P b) ((b ++ ".output", snd inp) :: D) s' -> Q (b ++ ".output", snd inp) s') ->
  wp (add_layernorm fl c inp b) Q s.
Proof.
  intros J F Hi K. apply open_base with (b := b) in J. unfold add_layernorm, static.
  destruct (negb (c_rms c) && negb (c_lneps c)) eqn:E.
  { apply wp_lift; [discriminate|]. intros _ _. apply HF. intros (_ & _ & _ & H & _). destruct H as [H|[H _]]; rewrite H in E; [discriminate|]. rewrite andb_false_r in E. discriminate. }
  apply wp_bind. apply flag_ok; [okin|]. intros [|] _.
  - st. apply wp_bind. apply flag_ok; [okin|]. intros [|] _.
    + st. em. fin K.
    + em. fin K.
  - em. fin K.
Qed.
Lemma act_ok P D s inp act b (Q : tref -> bst -> Prop) : Inv P D s -> ~ P b -> In inp D -> (buildable fl c wm -> dhas ActMap act = true) ->
  (forall s', Inv (orp P b) ((b ++ ".output", snd inp) :: D) s' -> Q (b ++ ".output", snd inp) s') ->
  wp (add_act inp act b) Q s.
Proof.
  intros J F Hi A K. apply open_base with (b := b) in J. unfold add_act. apply wp_bind. apply wp_lift.
  - intros op _. em. fin K.
  - intros e E. apply HF. intros Hb. specialize (A Hb). unfold dlook in E. unfold dhas in A. destruct (dget ActMap act); discriminate.
Qed.
Lemma eltop_ok P D s inp inp1 op b (Q : tref -> bst -> Prop) : Inv P D s -> ~ P b -> In inp D -> In inp1 D -> snd inp = snd inp1 ->
  (forall s', Inv (orp P b) ((b ++ ".output", snd inp) :: D) s' -> Q (b ++ ".output", snd inp) s') ->
  wp (add_eltop inp inp1 op b) Q s.
Proof.
  intros J F Hi Hi1 E K. apply open_base with (b := b) in J. unfold add_eltop. apply wp_bind. rewrite <- E.
  assert (M : max_shape [snd inp; snd inp] = SOk (snd inp)).
  { unfold max_shape, max_shape_step. cbn [fold_left]. repeat (rewrite ?Z.ltb_irrefl, ?Nat.ltb_irrefl, ?andb_false_r). reflexivity. }
  rewrite M. apply wp_lift; [|discriminate]. intros a [= <-]. em. fin K.
Qed.
Lemma mm_ok P D s inp fin fout bias b (Q : tref -> bst -> Prop) : Inv P D s -> ~ P b -> In inp D ->
  (forall s', Inv (orp P b) ((b ++ ".output", [batch; seq_len; fout]) :: D) s' -> Q (b ++ ".output", [batch; seq_len; fout]) s') ->
  wp (add_mm batch seq_len inp fin fout bias b) Q s.
Proof.
  intros J F Hi K. apply open_base with (b := b) in J. unfold add_mm, static. st. destruct bias.
  - st. em. fin K.
  - em. fin K.
Qed.
Lemma mha_ok P D s q k v b (Q : tref -> bst -> Prop) : Inv P D s -> ~ P b -> In q D -> In k D -> In v D ->
  (forall s', Inv (orp P b) ((b ++ ".output", [batch; seq_len; q_width c]) :: D) s' -> Q (b ++ ".output", [batch; seq_len; q_width c]) s') ->
  wp (add_mha c batch seq_len [q; k; v] b) Q s.
Proof. intros J F H1 H2 H3 K. apply open_base with (b := b) in J. unfold add_mha. em. fin K. Qed.
Lemma slice_ok P D s inp off size d0 d1 d2 b (Q : tref -> bst -> Prop) : Inv P D s -> ~ P b -> In inp D -> snd inp = [d0; d1; d2] ->
  (forall s', Inv (orp P b) ((b ++ ".output", [d0; d1; size]) :: D) s' -> Q (b ++ ".output", [d0; d1; size]) s') ->
  wp (add_slice inp off size b) Q s.
Proof.
  intros J F Hi E K. apply open_base with (b := b) in J. unfold add_slice, static8. st. st. st. st. apply wp_bind. unfold wp at 1, note at 1. cbn [fst snd].
  match goal with |- wp _ _ {| log := log ?s0; rope_done := _; pos_done := _; bounds := ?bo |} => match goal with J : I _ _ _ s0 |- _ => apply (I_note _ _ _ s0 bo) in J end end. rewrite E.
  apply wp_bind. apply wp_lift; [|discriminate]. intros a [= <-]. em. fin K.
Qed.
Lemma qk_norm_ok P D s inp b (Q : tref -> bst -> Prop) : Inv P D s -> ~ P b -> In inp D -> (buildable fl c wm -> c_rms c = true) ->
  (forall s', Inv (orp P b) ((b ++ ".output", snd inp) :: D) s' -> Q (b ++ ".output", snd inp) s') ->
  wp (add_qk_norm c inp b) Q s.
Proof.
  intros J F Hi R K. apply open_base with (b := b) in J. unfold add_qk_norm, static. destruct (c_rms c).
  - st. em. fin K.
  - apply wp_lift; [discriminate|]. intros _ _. apply HF. intros Hb. discriminate (R Hb).
Qed.
Lemma softcap_ok P D s inp b (Q : tref -> bst -> Prop) : Inv P D s -> ~ P b -> In inp D ->
  (forall s', Inv (orp P b) ((b ++ ".output", snd inp) :: D) s' -> Q (b ++ ".output", snd inp) s') ->
  wp (add_softcapping inp b) Q s.
Proof. intros J F Hi K. apply open_base with (b := b) in J. unfold add_softcapping, static. st. em. fin K. Qed.
Lemma emit_ok P D s op ins sh b (Q : tref -> bst -> Prop) : Inv P D s -> ~ P b -> (forall x, In x ins -> In x (map fst D)) ->
  (forall s', Inv (orp P b) ((b ++ ".output", sh) :: D) s' -> Q (b ++ ".output", sh) s') ->
  wp (emit b op ins sh) Q s.
Proof. intros J F Hi K. apply open_base with (b := b) in J. eapply emit_base; [exact J|exact F|okincl|oknot|exact Hi|exact K]. Qed.
(** a weight with a base name of its own *)
Lemma weight_ok P D s n sh b (Q : string -> bst -> Prop) : Inv P D s -> ~ P b -> n = b ++ ".weight" ->
  (forall s', Inv (orp P b) ((n, sh) :: D) s' -> Q n s') ->
  wp (static n sh) Q s.
Proof.
  intros J F -> K. apply open_base with (b := b) in J. unfold static. eapply static_base; [exact J|exact F|okincl|okin|oknot|]. intros s' J'. apply K.
  eapply close_base; [|exact J']. intros x [<-|[]]. cbn. auto.
Qed.
(** the shared position tables and the position input *)
Lemma names_static g n t x : In x (tensor_names (replay_step g (EStatic n t))) <-> In x (tensor_names g) \/ x = n.
Proof.
  pose proof (names_snoc_static g n t) as P. split; intros H.
  - apply (Permutation_in _ P) in H. apply in_app_or in H. cbn in H. destruct H as [H|[H|[]]]; auto.
  - eapply Permutation_in; [symmetry; exact P|]. apply in_or_app. cbn. destruct H; auto.
Qed.
Lemma names_input g n t x : In x (tensor_names (replay_step g (EInput n t))) <-> In x (tensor_names g) \/ x = n.
Proof.
  pose proof (names_snoc_input g n t) as P. split; intros H.
  - apply (Permutation_in _ P) in H. apply in_app_or in H. cbn in H. destruct H as [H|[H|[]]]; auto.
  - eapply Permutation_in; [symmetry; exact P|]. apply in_or_app. cbn. destruct H; auto.
Qed.
Lemma I_know N T D s t : I N T D s -> In t (tensor_names (gr s)) -> exists sh, I N T ((t, sh) :: D) s.
Proof.
  intros J H. pose proof (proj2 (eg_known _ (i_wf _ _ _ _ J) t) H) as K. unfold dhas in K. destruct (dget (tensormap (gr s)) t) as [tn|] eqn:E; [|discriminate].
  exists (t_shape tn). destruct J as [W A B C R X Y FA]. constructor; auto. intros r [<-|Hr]; [cbn; split; [exact H|eauto]|auto].
Qed.
Lemma rope_tables_ok P D s (Q : unit -> bst -> Prop) : Inv P D s ->
  (forall s' a b, Inv P (("rope.cos", a) :: ("rope.sin", b) :: D) s' -> Q tt s') -> wp (add_rope_tables c) Q s.
Proof.
  intros J K. unfold add_rope_tables, wp. destruct (rope_done s) eqn:RD.
  - cbn. pose proof (i_rope _ _ _ _ J) as R. rewrite RD in R. destruct R as [R1 R2]. destruct (I_know _ _ _ _ _ J R2) as (b & J2). destruct (I_know _ _ _ _ _ J2 R1) as (a & J1).
    eapply K. exact J1.
  - unfold static, bind, tell, ret, sbind. cbn [fst snd log rope_done pos_done].
    set (sh := [1; 1; getattr (c_max_pos c) 4096; getattr (c_rotary_dim c) (head_size c) / 2]). set (tn := mkTensor STATIC sh 4).
    eapply (K _ sh sh). destruct J as [W A B C R X Y FA]. rewrite RD in X. destruct X as [X1 X2].
    assert (G : forall rd pd bo, gr {| log := ((log s ++ [EStatic "rope.cos" tn]) ++ [EStatic "rope.sin" tn])%list; rope_done := rd; pos_done := pd; bounds := bo |} = replay_step (replay_step (gr s) (EStatic "rope.cos" tn)) (EStatic "rope.sin" tn)).
    { intros. unfold gr. cbn [log]. rewrite !fold_left_app. reflexivity. }
    assert (W1 : executable_graph (replay_step (gr s) (EStatic "rope.cos" tn))) by (apply wf_static; [exact W|exact X1|discriminate]).
    constructor; rewrite ?G; cbn [rope_done pos_done].
    + apply wf_static; [exact W1| |discriminate]. rewrite names_static. intros [H|H]; [contradiction|discriminate].
    + exact A.
    + intros t H. rewrite !names_static in H. destruct R as (R1 & R2 & _). destruct H as [[H| ->]| ->]; auto.
    + intros r [<-|[<-|Hr]]; cbn [fst snd].
      * rewrite !names_static. split; [auto|]. exists tn. cbn. rewrite dget_dset_neq by discriminate. rewrite dget_dset_eq. auto.
      * rewrite !names_static. split; [auto|]. exists tn. cbn. rewrite dget_dset_eq. auto.
      * destruct (C r Hr) as [C1 (t & C2 & C3)]. rewrite !names_static. split; [auto|]. exists t. cbn. rewrite !dget_dset_neq; [auto| |]; intros E; rewrite <- E in C1; contradiction.
    + exact R.
    + rewrite !names_static. auto.
    + destruct (pos_done s); rewrite !names_static; [tauto|]. destruct Y as [Y|Y]; [auto|]. right. intros [[H|H]|H]; [contradiction|discriminate|discriminate].
    + cbn [log]. apply faithful_static; [rewrite fold_left_app; exact W1| |apply faithful_static; assumption]. rewrite fold_left_app. cbn [fold_left]. rewrite names_static. intros [H|H]; [contradiction|discriminate].
Qed.
Lemma position_ok P D s (Q : unit -> bst -> Prop) : ~ norope -> Inv P D s ->
  (forall s' a, Inv P (("position", a) :: D) s' -> Q tt s') -> wp (add_position batch seq_len) Q s.
Proof.
  intros NR J K. unfold add_position, wp. destruct (pos_done s) eqn:PD.
  - cbn. pose proof (i_pos _ _ _ _ J) as R. rewrite PD in R. destruct (I_know _ _ _ _ _ J R) as (a & J1). eapply K. exact J1.
  - unfold bind, tell, sbind. cbn [fst snd log rope_done pos_done]. set (tn := mkTensor DYNAMIC [batch; seq_len] 8).
    eapply (K _ [batch; seq_len]). destruct J as [W A B C R X Y FA]. rewrite PD in Y. destruct Y as [Y|Y]; [contradiction|].
    constructor; rewrite ?gr_snoc; cbn [rope_done pos_done].
    + apply wf_input; [exact W|exact Y|discriminate].
    + exact A.
    + intros t H. rewrite names_input in H. destruct H as [H| ->]; [auto|]. left. reflexivity.
    + intros r [<-|Hr]; cbn [fst snd].
      * rewrite names_input. split; [auto|]. exists tn. cbn. auto using dget_dset_eq.
      * destruct (C r Hr) as [C1 (t & C2 & C3)]. rewrite names_input. split; [auto|]. exists t. cbn. rewrite dget_dset_neq; [auto|]; intros E; rewrite <- E in C1; contradiction.
    + exact R.
    + destruct (rope_done s); rewrite !names_input; [tauto|]. destruct X as [X1 X2]. split; intros [H|H]; try contradiction; discriminate.
    + rewrite names_input. auto.
    + cbn [log]. apply faithful_input; assumption.
Qed.
Lemma rope_ok P D s inp b (Q : tref -> bst -> Prop) : ~ norope -> Inv P D s -> ~ P b -> In inp D ->
  (forall s', Inv (orp P b) ((b ++ ".output", snd inp) :: D) s' -> Q (b ++ ".output", snd inp) s') ->
  wp (add_rope c batch seq_len inp b) Q s.
Proof.
  intros NR J F Hi K. unfold add_rope. apply wp_bind. eapply rope_tables_ok; [exact J|]. intros s1 x y J1. apply wp_bind. eapply position_ok; [exact NR|exact J1|]. intros s2 z J2.
  eapply emit_ok; [exact J2|exact F| |].
  - intros w Hw. cbn in Hw. cbn [map fst]. destruct Hw as [<-|[<-|[<-|[<-|[]]]]]; cbn; auto using In_fst.
  - fin K.
Qed.
End OPS.
End WP.
