(** C110: model_subgraph and model_opfusion never deliver. *)
From Coq Require Import String List Arith Bool Lia.
From Verif Require Import PyBase PyBaseFacts ApiModel.
Import ListNotations.
Local Open Scope list_scope.
Local Open Scope string_scope.
Local Open Scope nat_scope.

(** when a Python call is accepted: not too many positional arguments, no keyword twice, every keyword names a parameter
    not already given by position, and every parameter is given or has a default *)
Definition accepted (s : signature) (c : pycall) : Prop :=
  pc_positional c <= List.length s /\ NoDup (pc_keywords c) /\
  (forall k, In k (pc_keywords c) -> exists i d, pc_positional c <= i /\ nth_error s i = Some (k, d)) /\
  (forall i k d, nth_error s i = Some (k, d) -> i < pc_positional c \/ In k (pc_keywords c) \/ d = true).
Lemma distinct_ok l : distinct l = true <-> NoDup l.
Proof.
  induction l as [|x r IH]; cbn [distinct]; [split; [constructor|reflexivity]|]. rewrite andb_true_iff, negb_true_iff, memb_nIn, IH. split.
  - intros [A B]. constructor; assumption.
  - intros H. inversion_clear H. auto.
Qed.
Lemma nth_skipn {A} (l : list A) n i : nth_error (skipn n l) i = nth_error l (n + i).
Proof. revert l. induction n as [|n IH]; intros l; [reflexivity|]. destruct l; [destruct i; reflexivity|]. exact (IH l). Qed.
Theorem C110_binding : forall s c, binds s c = true <-> accepted s c.
Proof.
  intros s c. unfold binds, accepted. rewrite !andb_true_iff, Nat.leb_le, distinct_ok, !forallb_forall. split.
  - intros [[[A B] C] E]. split; [exact A|]. split; [exact B|]. split.
    + intros k I. specialize (C k I). apply memb_In, in_map_iff in C as ([k' d] & <- & J). apply In_nth_error in J as [i J]. rewrite nth_skipn in J. exists (pc_positional c + i), d. split; [lia|exact J].
    + intros i k d N. destruct (Nat.lt_ge_cases i (pc_positional c)) as [L|L]; [auto|]. right.
      assert (J : In (k, d) (skipn (pc_positional c) s)). { apply (nth_error_In _ (i - pc_positional c)). rewrite nth_skipn. rewrite <- N. f_equal. lia. }
      specialize (E _ J). cbn in E. apply orb_true_iff in E as [E|E]; [auto|]. left. apply memb_In. exact E.
  - intros (A & B & C & E). repeat split; [exact A|exact B| |].
    + intros k I. destruct (C k I) as (i & d & L & N). apply memb_In, in_map_iff. exists (k, d). split; [reflexivity|].
      apply (nth_error_In _ (i - pc_positional c)). rewrite nth_skipn. rewrite <- N. f_equal. lia.
    + intros [k d] J. apply In_nth_error in J as [i J]. rewrite nth_skipn in J. cbn. apply orb_true_iff. destruct (E _ _ _ J) as [X|[X|X]]; [lia|right; apply memb_In; exact X|left; exact X].
Qed.
Example C110_binding_case : accepted sig_graph_save (mkCall 1 ["rawmodel"]) /\ ~ accepted sig_fuse_names (mkCall 1 ["nodeop"; "name"; "keep_attr"]).
Proof. split; [apply C110_binding; reflexivity|]. intros H. apply C110_binding in H. discriminate. Qed.

Section PROPS.
Context {M GP G : Type}.
Variable load : ending M.
Variable levels : M -> list string -> list string -> ending (list string * list string * list string).
Variable by_names : M -> list string -> ending GP.
Variable make_graph : GP -> ending G.
Variable save_graph : G -> string -> run unit.
Variable fuse_io : M -> list string -> list string -> ending M.
Variable fuse_names : M -> list string -> ending M.
Variable save_model : M -> string -> run unit.

(** Claim: with both tensor lists or a node list given, model_opfusion writes the fused model.  It never does, for no
    model and no request: the internal functions have no parameter called name *)
Theorem C110_opfusion_refuted : forall m file ins outs names, load = Returned m ->
  ((exists i o, ins = Some i /\ outs = Some o) \/ (exists ns, names = Some ns)) ->
  model_opfusion load fuse_io fuse_names save_model file ins outs names = ([], Raised "TypeError").
Proof.
  intros m file ins outs names L H. unfold model_opfusion, quiet. rewrite L. cbn [seq].
  destruct ins as [i|], outs as [o|]; cbn [call binds]; destruct names as [ns|]; try reflexivity;
  (destruct H as [(a & b & X & Y)|(c & X)]; discriminate).
Qed.
(** Claim: model_subgraph writes the extracted sub-models.  It writes nothing, for no model and no request: either an
    earlier step raises or building a Graph without a configuration does *)
Theorem C110_subgraph_refuted : forall ins outs names,
  ((exists i o, ins = Some i /\ outs = Some o) \/ (exists ns, names = Some ns)) ->
  exists e, model_subgraph load levels by_names make_graph save_graph ins outs names = ([], Raised e).
Proof.
  intros ins outs names H. unfold model_subgraph, quiet. destruct load as [m|e]; cbn [seq]; [|eauto].
  assert (NM : names = None -> exists i o, ins = Some i /\ outs = Some o) by (intros ->; destruct H as [H|(ns & X)]; [exact H|discriminate]). clear H.
  destruct ins as [i|]; [destruct outs as [o|]|]; cbn [call binds].
  - unfold call at 1. cbn [binds]. change (binds sig_get_subgraph (mkCall 0 ["inputs"; "outputs"])) with true. cbn [negb].
    unfold get_subgraph, quiet. destruct (levels m i o) as [[[a b] c]|e]; cbn [seq]; [|eauto]. destruct (by_names m a) as [ga|e]; cbn [seq]; [|eauto].
    unfold call at 1. change (binds sig_Graph (mkCall 1 [])) with false. cbn. eauto.
  - destruct names as [ns|]; [|destruct (NM eq_refl) as (? & ? & ? & ?); discriminate]. cbn [ret seq]. unfold call at 1. change (binds sig_by_names (mkCall 1 [])) with true.
    destruct (by_names m ns) as [gp|e]; cbn [seq]; [|eauto]. unfold call at 1. change (binds sig_Graph (mkCall 1 [])) with false. cbn. eauto.
  - destruct names as [ns|]; [|destruct (NM eq_refl) as (? & ? & ? & ?); discriminate]. cbn [ret seq]. unfold call at 1. change (binds sig_by_names (mkCall 1 [])) with true.
    destruct (by_names m ns) as [gp|e]; cbn [seq]; [|eauto]. unfold call at 1. change (binds sig_Graph (mkCall 1 [])) with false. cbn. eauto.
Qed.
(** ... and TypeError it is when the steps before succeed *)
Theorem C110_subgraph_error_refuted : forall m names, load = Returned m -> (exists gp, by_names m names = Returned gp) ->
  model_subgraph load levels by_names make_graph save_graph None None (Some names) = ([], Raised "TypeError").
Proof. intros m names L [gp B]. unfold model_subgraph, quiet. rewrite L. cbn [seq ret]. unfold call at 1. change (binds sig_by_names (mkCall 1 [])) with true. rewrite B. reflexivity. Qed.
(** asked for nothing, both do nothing *)
Theorem C110_nothing_asked : forall m file ins outs, load = Returned m -> (ins = None \/ outs = None) ->
  model_opfusion load fuse_io fuse_names save_model file ins outs None = ([], Returned tt) /\
  model_subgraph load levels by_names make_graph save_graph ins outs None = ([], Returned tt).
Proof. intros m file ins outs L H. unfold model_opfusion, model_subgraph, quiet. rewrite L. cbn [seq]. destruct ins, outs; destruct H; try discriminate; split; reflexivity. Qed.
End PROPS.
Example C110_case : model_opfusion (M := nat) (Returned 3) (fun m _ _ => Returned m) (fun m _ => Returned m) (fun _ f => ([f], Returned tt)) "out.onnx" None None (Some ["conv1"; "relu1"]) = ([], Raised "TypeError").
Proof. reflexivity. Qed.
