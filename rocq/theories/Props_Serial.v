(** Properties C39-C42: the binary formats of serialization.py can be read back. *)
From Coq Require Import Reals Lra.
From Flocq Require Import Core IEEE754.Binary IEEE754.Bits.
From Verif Require Import PyBase GraphModel ShapeModel SerialModel SerialSpec SerialFits SerialProofs.
Open Scope Z_scope.
Open Scope string_scope.

(** C39: the graph writer succeeds on every graph within the ranges of the format and one reader recovers nodes in
    order, their operator, inputs, outputs and attributes, and the constants with type, shape and bytes *)
Theorem C39_graph_file_partial : forall g, graph_fits g ->
  exists b v, serialize_graph g = SOk b /\ parse read_graph b = Some v /\ graph_as g v.
Proof. exact graph_roundtrip. Qed.
Print Assumptions C39_graph_file_partial.
(** floating-point attributes representable in binary32 are recovered exactly *)
Theorem C39_float_exact : forall f g, nearest_f32 f g -> is_finite 53 1024 f = true ->
  generic_format radix2 (FLT_exp (-149) 24) (B2R 53 1024 f) -> B2R 24 128 g = B2R 53 1024 f.
Proof. exact float_exact. Qed.
(** two graphs with the same file have a common reading *)
Theorem C39_graph_injective : forall g1 g2 b, graph_fits g1 -> graph_fits g2 ->
  serialize_graph g1 = SOk b -> serialize_graph g2 = SOk b -> exists v, graph_as g1 v /\ graph_as g2 v.
Proof.
  intros g1 g2 b F1 F2 E1 E2. destruct (graph_roundtrip g1 F1) as (b1 & v1 & S1 & P1 & A1).
  destruct (graph_roundtrip g2 F2) as (b2 & v2 & S2 & P2 & A2).
  rewrite E1 in S1. rewrite E2 in S2. injection S1 as <-. injection S2 as <-. rewrite P1 in P2. injection P2 as <-. eauto.
Qed.
Definition half : binary64 := b64_of_bits 4602678819172646912. (* 0.5 *)
Lemma small_range : forall f, (Rabs (B2R 53 1024 f) <= bpow radix2 127)%R -> f32_range f.
Proof.
  intros f H _. apply Rle_lt_trans with (bpow radix2 127); [|apply bpow_lt; lia].
  apply abs_round_le_generic; auto; [apply FLT_exp_valid; reflexivity|apply valid_rnd_N|].
  apply generic_format_bpow. unfold FLT_exp. simpl. lia.
Qed.
Definition demo_graph : sgraph :=
  {| sg_nodes := [("conv0", {| sn_op := "Conv"; sn_in := ["x"; "w"]; sn_out := ["y"];
        sn_attr := [("kernel_shape", AList [PyInt 3; PyInt 3]); ("auto_pad", AScalar (PyBytes (list_ascii_of_string "SAME_UPPER")))] |});
      ("act0", {| sn_op := "LeakyRelu"; sn_in := ["y"]; sn_out := ["z"]; sn_attr := [("alpha", AScalar (PyFloat half))] |})];
     sg_initials := ["w"];
     sg_values := [("w", Some {| nd_dtype := I8; nd_shape := [2; 1]; nd_data := ["255"; "000"]%char |})] |}.
Ltac nulfree := unfold nul_free; simpl; intuition discriminate.
Example C39_case : graph_fits demo_graph.
Proof.
  unfold graph_fits. split; [simpl; lia|]. split; [simpl; lia|]. split.
  - assert (HR : f32_range half).
    { apply small_range. unfold half. unfold b64_of_bits, binary_float_of_bits. rewrite B2R_FF2B. cbn -[bpow].
      unfold F2R. simpl. rewrite Rabs_pos_eq; lra. }
    assert (N1 : forall x : string, nul_free x -> Forall nul_free [x]) by (intros; constructor; [auto|constructor]).
    constructor; [|constructor; [|constructor]]; unfold node_fits; cbn [fst snd sn_op sn_in sn_out sn_attr].
    + split; [nulfree|]. split; [nulfree|]. split; [constructor; [nulfree|apply N1; nulfree]|]. split; [simpl; lia|].
      split; [apply N1; nulfree|]. split; [simpl; lia|]. split; [simpl; lia|].
      intros k a [H|[H|[]]]; injection H as <- <-; (split; [nulfree|]); unfold attr_fits; cbn [attr_elems];
        (split; [discriminate|]; split; [simpl; lia|]; split).
      * constructor; [|constructor; [|constructor]]; unfold value_fits, int32; lia.
      * intros v w [<-|[<-|[]]] [<-|[<-|[]]]; reflexivity.
      * constructor; [|constructor]. unfold value_fits; simpl. intuition discriminate.
      * intros v w [<-|[]] [<-|[]]; reflexivity.
    + split; [nulfree|]. split; [nulfree|]. split; [apply N1; nulfree|]. split; [simpl; lia|].
      split; [apply N1; nulfree|]. split; [simpl; lia|]. split; [simpl; lia|].
      intros k a [H|[]]; injection H as <- <-; (split; [nulfree|]); unfold attr_fits; cbn [attr_elems];
        (split; [discriminate|]; split; [simpl; lia|]; split).
      * constructor; [exact HR|constructor].
      * intros v w [<-|[]] [<-|[]]; reflexivity.
  - intros k [<-|[]]. split; [nulfree|]. eexists. split; [reflexivity|]. split; [|split].
    + exists 5, 1%nat. split; reflexivity.
    + simpl; lia.
    + repeat constructor; unfold int32; lia.
Qed.
(** what is missing: objects the writer drops or confuses *)
Definition one_attr (a : attrval) : sgraph :=
  {| sg_nodes := [("n", {| sn_op := "Op"; sn_in := []; sn_out := ["y"]; sn_attr := [("value", a)] |})]; sg_initials := []; sg_values := [] |}.
Theorem C39_tensor_attribute_refuted : forall n m, exists b,
  serialize_graph (one_attr (AScalar (PyOther n))) = SOk b /\ serialize_graph (one_attr (AScalar (PyOther m))) = SOk b /\
  parse read_graph b = None.
Proof. intros n m. eexists. split; [vm_compute; reflexivity|]. split; vm_compute; reflexivity. Qed.
Theorem C39_scalar_or_list_refuted : exists b, serialize_graph (one_attr (AScalar (PyInt 1))) = SOk b /\
  serialize_graph (one_attr (AList [PyInt 1])) = SOk b.
Proof. eexists. split; vm_compute; reflexivity. Qed.
Theorem C39_int64_attribute_refuted : serialize_graph (one_attr (AList [PyInt (2 ^ 63 - 1)])) = SRaise OverflowErr.
Proof. vm_compute. reflexivity. Qed.
Theorem C39_empty_list_refuted : serialize_graph (one_attr (AList [])) = SRaise IndexErr.
Proof. vm_compute. reflexivity. Qed.
Theorem C39_array_type_refuted : forall g k a, In k (sg_initials g) -> dget (sg_values g) k = Some (Some a) ->
  array_type (nd_dtype a) = None -> exists e, serialize_graph g = SRaise e.
Proof.
  intros g k a I D T. unfold serialize_graph.
  assert (W : exists e, wall (write_initial (sg_values g)) (sg_initials g) = SRaise e).
  { induction (sg_initials g) as [|x l IH]; [contradiction|]. cbn [wall]. destruct I as [->|I].
    - unfold write_initial at 1. rewrite D. unfold write_ndarray.
      assert (E : write_npdtype (nd_dtype a) = SRaise ValueErr) by (destruct (nd_dtype a); try discriminate T; reflexivity).
      rewrite E. cbn. eauto.
    - destruct (IH I) as (e & ->). destruct (write_initial (sg_values g) x); cbn; eauto. }
  destruct W as (e & ->).
  destruct (write_len (sg_nodes g) 4); [|cbn; eauto]. destruct (wall write_node (sg_nodes g)); [|cbn; eauto].
  destruct (write_len (sg_initials g) 4); cbn; eauto.
Qed.

(** C40: the shape engine file, exactly for coefficients of at most 24 bits *)
Theorem C40_engine_file_partial : forall en, engine_fits en ->
  exists b v, serialize_engine en = SOk b /\ parse read_engine b = Some v /\ engine_as en v.
Proof. exact engine_roundtrip. Qed.
(** an engine file that is written is never wrong, if its coefficients are exact in binary32 *)
Theorem C40_success_faithful_partial : forall en b, serialize_engine en = SOk b -> engine_shape en -> exists v, parse read_engine b = Some v /\ engine_as en v.
Proof.
  intros en b H F. destruct (engine_roundtrip en (engine_success_fits en b H F)) as (b' & v & S & R & A). rewrite H in S. injection S as <-. eauto.
Qed.
Definition demo_engine : engine :=
  {| en_vars := [("seq", 0); ("v1", 0)]; en_desc := [("x", [PyInt 1; PyStr "seq"]); ("y", [PyStr "v1"; PyInt 768])];
     en_expr := [("v1", ("seq", {| e_alpha := 2; e_beta := -3; e_factor := 0; e_trunc := 0 |}))] |}.
Example C40_case : engine_fits demo_engine.
Proof.
  unfold engine_fits. split; [simpl; lia|]. split; [simpl; lia|]. split; [simpl; lia|]. split; [|split].
  - intros k v [H|[H|[]]]; injection H as <- <-; nulfree.
  - intros k d [H|[H|[]]]; injection H as <- <-; (split; [nulfree|]; split; [simpl; lia|]);
      repeat constructor; unfold desc_fits, int32, nul_free; try lia; simpl; intuition discriminate.
  - intros k s e [H|[]]. injection H as <- <- <-. split; [nulfree|]. split; [nulfree|]. unfold expr_fits, int32; simpl; lia.
Qed.
Definition engine_with_beta (b : Z) : engine :=
  {| en_vars := []; en_desc := []; en_expr := [("v", ("s", {| e_alpha := 1; e_beta := b; e_factor := 0; e_trunc := 0 |}))] |}.
Theorem C40_large_coefficient_refuted : exists b, serialize_engine (engine_with_beta (2 ^ 24)) = SOk b /\
  serialize_engine (engine_with_beta (2 ^ 24 + 1)) = SOk b.
Proof. eexists. split; vm_compute; reflexivity. Qed.

(** C41: the memory plan file *)
Theorem C41_plan_file : forall p, plan_fits p -> exists b, serialize_plan p = SOk b /\
  parse read_plan b = Some {| pv_total := pf_total p; pv_blocks := pf_blocks p; pv_max := pf_max p |}.
Proof. exact plan_roundtrip. Qed.
Print Assumptions C41_plan_file.
(** a plan file that is written is never wrong: numbers that do not fit raise instead of being truncated *)
Theorem C41_success_faithful : forall p b, serialize_plan p = SOk b ->
  (forall k o s, In (k, (o, s)) (pf_blocks p) -> nul_free k) -> (forall k v, In (k, v) (pf_max p) -> nul_free k) ->
  parse read_plan b = Some {| pv_total := pf_total p; pv_blocks := pf_blocks p; pv_max := pf_max p |}.
Proof.
  intros p b H NB NM. destruct (plan_roundtrip p (plan_success_fits p b H NB NM)) as (b' & S & R). rewrite H in S. injection S as <-. exact R.
Qed.
Example C41_case : plan_fits {| pf_total := 4096; pf_blocks := [("a", (0, 1024)); ("b", (1024, 3072))]; pf_max := [("seq", 512)] |}.
Proof.
  unfold plan_fits, int64; simpl. split; [lia|]. split; [lia|]. split; [lia|]. split.
  - intros k o s [H|[H|[]]]; injection H as <- <- <-; (split; [nulfree|lia]).
  - intros k v [H|[]]; injection H as <- <-; (split; [nulfree|lia]).
Qed.

(** C42: NUL-free name sequences *)
Theorem C42_names_injective_partial : forall l l' b, (forall s, In s l -> nul_free s) -> (forall s, In s l' -> nul_free s) ->
  wall write_str l = SOk b -> wall write_str l' = SOk b -> l = l'.
Proof. exact names_prefix. Qed.
Example C42_case : (forall s, In s ["a"; ""; "bc"] -> nul_free s) /\ exists b, wall write_str ["a"; ""; "bc"] = SOk b.
Proof. split; [|eexists; vm_compute; reflexivity]. intros s [<-|[<-|[<-|[]]]]; nulfree. Qed.
Theorem C42_nul_refuted : exists s t b, s <> t /\ write_str s = SOk b /\ write_str t = SOk b.
Proof. exists "a", (String "a" (String NUL "")), ["a"; NUL]%char. split; [discriminate|]. split; reflexivity. Qed.
