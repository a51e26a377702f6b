(** Properties C32-C34 and C60: the symbolic shapes inferred by Graph.shape_regress. *)
From Coq Require Import Reals Lra.
From Verif Require Import PyBase PyBaseFacts GraphModel FloatPy ShapeModel SerialModel RegressModel RegressProofs RegressMulti RegressOrder RegressDiv WindowProofs.
Open Scope Z_scope.
Open Scope string_scope.

(** ** C32: integer-linear dimensions *)
(** the expression fitted to samples of [a*x+b] over any increasing range is [a*x+b] everywhere *)
Theorem C32_linear_expression_exact : forall s samples a b, s < last samples s -> 1 <= a <= 2 ^ 53 ->
  exists e, build_expr (s :: samples) (map (fun x => a * x + b) (s :: samples)) = SOk e /\
    forall x, expr_call e x = SOk (a * x + b).
Proof. intros s samples a b L A. eexists. split; [apply build_linear; auto|]. intros x. apply call_linear. Qed.
Print Assumptions C32_linear_expression_exact.
Example C32_case : exists e, build_expr [1; 256; 512] [7; 772; 1540] = SOk e /\ forall x, expr_call e x = SOk (3 * x + 4).
Proof. apply (C32_linear_expression_exact 1 [256; 512] 3 4); simpl; lia. Qed.

(** a graph of one variable: the shapes of its tensors in production order and the inputs of each producer *)
Definition one_var (key : string) (shapes : Z -> sres (dict (list Z))) (prod : list (string * list string)) : rgraph :=
  {| rg_infer := fun vars => match dget vars key with Some x => shapes x | None => SRaise KeyErr end;
     rg_producer := fun t => dget prod t |}.
(** the engine's answer for tensor [t] at value [x] *)
Definition shape_query (en : sengine) (key : string) (x : Z) (t : string) : sres (list Z) :=
  let* en' := update_variables (update_variable en key x) in get_tensorshape en' t.

(** but shape_regress fits the dimension of a node's output against that of its first computed input:
    t = Concat(x, x, x) has size 3x, u = Concat(t, x) has size 4x, and 4x is not an integer multiple of 3x *)
Definition cc (x : Z) : sres (dict (list Z)) :=
  let* t := concat_shape 0 [[x]; [x]; [x]] in let* u := concat_shape 0 [t; [x]] in SOk [("x", [x]); ("t", t); ("u", u)].
Definition cc_graph : rgraph := one_var "n" cc [("t", ["x"; "x"; "x"]); ("u", ["t"; "x"])].
Lemma cc_shapes : forall x, cc x = SOk [("x", [x]); ("t", [3 * x]); ("u", [4 * x])].
Proof.
  intros x. unfold cc. assert (A : concat_shape 0 [[x]; [x]; [x]] = SOk [x + x + x]) by reflexivity. rewrite A. cbn [sbind].
  assert (B : concat_shape 0 [[x + x + x]; [x]] = SOk [x + x + x + x]) by reflexivity. rewrite B. cbn [sbind].
  replace (x + x + x + x) with (4 * x) by lia. replace (x + x + x) with (3 * x) by lia. reflexivity.
Qed.
Theorem C32_relative_fit_refuted : exists en, shape_regress cc_graph [("x", [DV "n"])] [("n", (1, 9))] = SOk en /\
  shape_query en "n" 1 "u" = SOk [12] /\ shape_query en "n" 5 "u" = SOk [24] /\
  (exists s1 s5, cc 1 = SOk s1 /\ dget s1 "u" = Some [4] /\ cc 5 = SOk s5 /\ dget s5 "u" = Some [20]).
Proof.
  assert (B1 : build_expr [1; 5; 9] [3; 15; 27] = SOk {| e_alpha := 3; e_beta := 0; e_factor := 0; e_trunc := 0 |}).
  { apply (build_linear 1 [5; 9] 3 0); simpl; lia. }
  assert (B2 : build_expr [3; 15; 27] [4; 20; 36] = SOk {| e_alpha := 1; e_beta := 9; e_factor := 0; e_trunc := 1 |}).
  { unfold build_expr. cbn [zlen length Z.of_nat py_index]. lazy -[fdiv_int py_round]. rewrite (round_near 32 24 1) by lia. reflexivity. }
  eexists. split; [|split; [|split]].
  - unfold shape_regress. cbn [fold_left fst snd].
    change (rg_infer cc_graph) with (fun vars => match dget vars "n" with Some x => cc x | None => SRaise KeyErr end).
    lazy beta. cbn [new_engine fold_left fst snd se_vars update_variable dset String.eqb Ascii.eqb Bool.eqb dget].
    rewrite !cc_shapes. cbn [sbind].
    lazy -[build_expr cc]. change (cc 5) with (cc 5). rewrite (cc_shapes 5). lazy -[build_expr cc]. rewrite (cc_shapes 9). lazy -[build_expr cc]. rewrite B1. lazy -[build_expr cc]. rewrite B2. lazy -[build_expr cc]. reflexivity.
  - vm_compute. reflexivity.
  - vm_compute. reflexivity.
  - rewrite !cc_shapes. do 2 eexists. repeat split; reflexivity.
Qed.

(** ** C33: the engine reproduces shape inference *)
(** every graph of one variable whose dimensions are a*x+b with non-negative slopes, and whose computed input
    slopes divide those of the outputs they feed (or are the variable itself): the regression succeeds and every
    answer of the engine is the inferred shape, at every value at which inference has that form *)
Theorem C33_one_variable_partial : forall g input_desc key mn mx dyn rank slope offset dom,
  linear_graph g input_desc key mn mx dyn rank slope offset dom ->
  exists en, shape_regress g input_desc [(key, (mn, mx))] = SOk en /\
    forall x, dom x -> forall vars m t s, dget vars key = Some x -> rg_infer g vars = SOk m -> In t dyn -> ~ In t (dkeys input_desc) ->
      dget m t = Some s -> shape_query en key x t = SOk s.
Proof.
  intros g input_desc key mn mx dyn rank slope offset dom G. destruct (regress_single _ _ _ _ _ _ _ _ _ _ G) as (en & R & H).
  exists en. split; [exact R|]. intros x D vars m t s V I T NT E. destruct (H x) as (en' & U & Q).
  unfold shape_query. rewrite U. cbn [sbind]. rewrite (Q t T NT).
  rewrite (lg_infer _ _ _ _ _ _ _ _ _ _ G vars x V D) in I. injection I as <-.
  assert (X : dget (shapes dyn rank slope offset x) t = Some (shape_at rank slope offset t x)) by (apply dget_shapes; auto).
  unfold shapes in X. rewrite X in E. injection E as <-. reflexivity.
Qed.
(** a case: t = Concat(x, x) of size 2x, u = Pad(t, 1) of size 2x + 2, v = Concat(u, u, u) of size 6x + 6 *)
Definition chain (x : Z) : sres (dict (list Z)) :=
  let* t := concat_shape 0 [[x]; [x]] in let* u := pad_shape (Some [1; 1]) t in let* v := concat_shape 0 [u; u; u] in
  SOk [("x", [x]); ("t", t); ("u", u); ("v", v)].
Definition chain_graph : rgraph := one_var "n" chain [("t", ["x"; "x"]); ("u", ["t"]); ("v", ["u"; "u"; "u"])].
Definition chain_form (t : string) : Z * Z :=
  if String.eqb t "x" then (1, 0) else if String.eqb t "t" then (2, 0) else if String.eqb t "u" then (2, 2) else (6, 6).
Example C33_case : linear_graph chain_graph [("x", [DV "n"])] "n" 1 512 ["x"; "t"; "u"; "v"] (fun _ => 1%nat)
  (fun t _ => fst (chain_form t)) (fun t _ => snd (chain_form t)) (fun x => 0 <= x).
Proof.
  constructor.
  - intros vars x V D. cbn [rg_infer chain_graph one_var]. rewrite V. unfold chain.
    assert (A : concat_shape 0 [[x]; [x]] = SOk [x + x]) by reflexivity. rewrite A. cbn [sbind].
    assert (B : pad_shape (Some [1; 1]) [x + x] = SOk [x + x + 1 + 1]) by (vm_compute; reflexivity || (unfold pad_shape; simpl; do 2 f_equal; lia)).
    rewrite B. cbn [sbind].
    set (w := x + x + 1 + 1). assert (C : concat_shape 0 [[w]; [w]; [w]] = SOk [w + w + w]) by reflexivity. rewrite C. cbn [sbind].
    unfold w. cbn [map seq chain_form String.eqb Ascii.eqb Bool.eqb fst snd].
    replace (1 * x + 0) with x by lia. replace (2 * x + 0) with (x + x) by lia. replace (2 * x + 2) with (x + x + 1 + 1) by lia.
    replace (6 * x + 6) with (x + x + 1 + 1 + (x + x + 1 + 1) + (x + x + 1 + 1)) by lia. reflexivity.
  - repeat constructor; simpl; intuition discriminate.
  - intros t i [<-|[<-|[<-|[<-|[]]]]]; vm_compute; intuition discriminate.
  - repeat constructor; simpl; intuition.
  - intros t d e [E|[]] I. injection E as <- <-. destruct I as [<-|[]]. right. reflexivity.
  - reflexivity.
  - lia.
  - repeat split; vm_compute; discriminate.
  - intros t [<-|[<-|[<-|[<-|[]]]]] N; [simpl in N; tauto| | |]; (eexists; split; [reflexivity|]);
      intros u i j Iu Du Nu Li Lj S1 S2 NE; simpl in Iu; destruct Iu as [<-|Iu];
      try (exfalso; apply Nu; simpl; tauto);
      try (destruct Iu as [<-|Iu]; try (exfalso; apply Nu; simpl; tauto); try destruct Iu as [<-|[]]; try destruct Iu);
      try (exists 1; reflexivity); try (exists 3; reflexivity).
Qed.
Example C33_chain : exists en, shape_regress chain_graph [("x", [DV "n"])] [("n", (1, 512))] = SOk en /\
  forall x, 0 <= x -> shape_query en "n" x "v" = SOk [6 * x + 6].
Proof.
  destruct (C33_one_variable_partial _ _ _ _ _ _ _ _ _ _ C33_case) as (en & R & H). exists en. split; [exact R|].
  intros x D. destruct (regress_single _ _ _ _ _ _ _ _ _ _ C33_case) as (en1 & R1 & _).
  eapply (H x D [("n", x)]); [reflexivity| |simpl; auto|simpl; intuition discriminate|].
  - apply (lg_infer _ _ _ _ _ _ _ _ _ _ C33_case); [reflexivity|exact D].
  - reflexivity.
Qed.
(** ** Several variables *)
(** the engine's answer for tensor [t] once every variable has been set *)
Definition shape_query_all (en : sengine) (ranges : dict (Z * Z)) (val : string -> Z) (t : string) : sres (list Z) :=
  let* en' := update_variables (fold_left (fun en k => update_variable en k (val k)) (dkeys ranges) en) in get_tensorshape en' t.
(** every graph of any number of variables in which each dimension is a*v+b for one variable v (not the same one for all
    dimensions): the regression succeeds and every answer of the engine is the inferred shape, at every valuation *)
Theorem C33_independent_variables_partial : forall g input_desc ranges dyn rank owner slope offset dom,
  independent_linear g input_desc ranges dyn rank owner slope offset dom ->
  exists en, shape_regress g input_desc ranges = SOk en /\
    forall val, dom val -> forall vars m t s, (forall k, In k (dkeys ranges) -> dget vars k = Some (val k)) -> rg_infer g vars = SOk m ->
      In t dyn -> ~ In t (dkeys input_desc) -> dget m t = Some s -> shape_query_all en ranges val t = SOk s.
Proof.
  intros g input_desc ranges dyn rank owner slope offset dom G. destruct (regress_multi _ _ _ _ _ _ _ _ _ G) as (en & R & H).
  exists en. split; [exact R|]. intros val D vars m t s V I T NT E. destruct (H val) as (en' & U & Q).
  unfold shape_query_all. unfold set_all in U. rewrite U. cbn [sbind]. rewrite (Q t T NT).
  rewrite (il_infer _ _ _ _ _ _ _ _ _ G vars val V D) in I. injection I as <-.
  assert (X := dget_shapes_val dyn rank owner slope offset val t T). unfold shapes_val, shape_val in X. rewrite X in E. injection E as <-. reflexivity.
Qed.
(** a case: x of shape [n; m], t = Concat(x, x) of shape [2n; m], u = Pad(t, 1) of shape [2n+2; m+2], v = Concat(u, u, u) along axis 1 *)
Definition grid_infer (vars : dict Z) : sres (dict (list Z)) :=
  match dget vars "n", dget vars "m" with
  | Some n, Some m => let* t := concat_shape 0 [[n; m]; [n; m]] in let* u := pad_shape (Some [1; 1; 1; 1]) t in
      let* v := concat_shape 1 [u; u; u] in SOk [("x", [n; m]); ("t", t); ("u", u); ("v", v)]
  | _, _ => SRaise KeyErr
  end.
Definition grid_graph : rgraph := {| rg_infer := grid_infer; rg_producer := fun t => dget [("t", ["x"; "x"]); ("u", ["t"]); ("v", ["u"; "u"; "u"])] t |}.
Definition grid_form (t : string) (i : nat) : Z * Z :=
  if String.eqb t "x" then (1, 0) else
  match i with O => if String.eqb t "t" then (2, 0) else (2, 2)
  | S _ => if String.eqb t "t" then (1, 0) else if String.eqb t "u" then (1, 2) else (3, 6) end.
Example C33_grid_case : independent_linear grid_graph [("x", [DV "n"; DV "m"])] [("n", (1, 9)); ("m", (2, 10))] ["x"; "t"; "u"; "v"]
  (fun _ => 2%nat) (fun _ i => match i with O => "n" | S _ => "m" end) (fun t i => fst (grid_form t i)) (fun t i => snd (grid_form t i)) (fun val => 0 <= val "n" /\ 0 <= val "m").
Proof.
  constructor.
  - intros vars val V D. cbn [rg_infer grid_graph]. unfold grid_infer. rewrite (V "n") by (simpl; auto). rewrite (V "m") by (simpl; auto).
    set (n := val "n"). set (m := val "m").
    assert (A : concat_shape 0 [[n; m]; [n; m]] = SOk [n + n; m]) by reflexivity. rewrite A. cbn [sbind].
    assert (B : pad_shape (Some [1; 1; 1; 1]) [n + n; m] = SOk [n + n + 1 + 1; m + 1 + 1]) by reflexivity. rewrite B. cbn [sbind].
    set (a := n + n + 1 + 1). set (b := m + 1 + 1).
    assert (C : concat_shape 1 [[a; b]; [a; b]; [a; b]] = SOk [a; b + b + b]) by reflexivity. rewrite C. cbn [sbind].
    unfold a, b. cbn [map seq grid_form String.eqb Ascii.eqb Bool.eqb fst snd]. fold n m.
    replace (1 * n + 0) with n by lia. replace (1 * m + 0) with m by lia. replace (2 * n + 0) with (n + n) by lia. replace (2 * n + 2) with (n + n + 1 + 1) by lia.
    replace (1 * m + 2) with (m + 1 + 1) by lia. replace (3 * m + 6) with (m + 1 + 1 + (m + 1 + 1) + (m + 1 + 1)) by lia. reflexivity.
  - repeat constructor; simpl; intuition discriminate.
  - intros t i [<-|[<-|[<-|[<-|[]]]]]; destruct i; vm_compute; intuition discriminate.
  - intros t i _ _ _. destruct i; simpl; auto.
  - repeat constructor; simpl; intuition.
  - intros t d v [E|[]] I. injection E as <- <-. destruct I as [E|[E|[]]]; injection E as <-; reflexivity.
  - repeat constructor; simpl; intuition discriminate.
  - intros k [<-|[<-|[]]]; reflexivity.
  - intros k mn mx [E|[E|[]]]; injection E as <- <- <-; lia.
  - split; [vm_compute; intuition discriminate|]. split; [vm_compute; intuition discriminate|].
    intros k mn mx [E|[E|[]]]; injection E as <- <- <-; vm_compute; intuition discriminate.
  - assert (E : forall i, (i < 2)%nat -> i = 0%nat \/ i = 1%nat) by (intros; lia).
    intros t [<-|[<-|[<-|[<-|[]]]]] N; [simpl in N; tauto| | |]; (eexists; split; [reflexivity|]);
      intros u i j Iu Du Nu Li Lj S1 S2 OE NE; destruct (E _ Li) as [-> | ->]; destruct (E _ Lj) as [-> | ->]; try discriminate OE;
      simpl in Iu; destruct Iu as [<-|Iu];
      try (exfalso; apply Nu; simpl; tauto);
      try (destruct Iu as [<-|Iu]; try (exfalso; apply Nu; simpl; tauto); try destruct Iu as [<-|[]]; try destruct Iu);
      try (exists 1; reflexivity); try (exists 3; reflexivity); try (exfalso; apply NE; reflexivity).
Qed.
Example C33_grid : exists en, shape_regress grid_graph [("x", [DV "n"; DV "m"])] [("n", (1, 9)); ("m", (2, 10))] = SOk en /\
  forall val, 0 <= val "n" -> 0 <= val "m" -> shape_query_all en [("n", (1, 9)); ("m", (2, 10))] val "v" = SOk [2 * val "n" + 2; 3 * val "m" + 6].
Proof.
  destruct (C33_independent_variables_partial _ _ _ _ _ _ _ _ _ C33_grid_case) as (en & R & H). exists en. split; [exact R|].
  intros val D1 D2. eapply (H val (conj D1 D2) [("n", val "n"); ("m", val "m")]); [| |simpl; auto|simpl; intuition discriminate|].
  - intros k [<-|[<-|[]]]; reflexivity.
  - apply (il_infer _ _ _ _ _ _ _ _ _ C33_grid_case); [intros k [<-|[<-|[]]]; reflexivity|auto].
  - reflexivity.
Qed.
(** what is missing: when one dimension depends on two variables, it gets the expression of the last one only.
    y = Concat(a, b) along an axis, with a of size n and b of size m *)
Definition two_infer (vars : dict Z) : sres (dict (list Z)) :=
  match dget vars "n", dget vars "m" with
  | Some n, Some m => let* y := concat_shape 0 [[n]; [m]] in SOk [("a", [n]); ("b", [m]); ("y", y)]
  | _, _ => SRaise KeyErr
  end.
Definition two_graph : rgraph := {| rg_infer := two_infer; rg_producer := fun t => dget [("y", ["a"; "b"])] t |}.
Definition two_query (en : sengine) (n m : Z) (t : string) : sres (list Z) :=
  let* en' := update_variables (update_variable (update_variable en "n" n) "m" m) in get_tensorshape en' t.
Theorem C33_two_variables_refuted : exists en,
  shape_regress two_graph [("a", [DV "n"]); ("b", [DV "m"])] [("n", (1, 9)); ("m", (1, 9))] = SOk en /\
  forall n m, two_query en n m "y" = SOk [m + 1] /\
    exists s, two_infer [("n", n); ("m", m)] = SOk s /\ dget s "y" = Some [n + m].
Proof.
  assert (B1 : build_expr [1; 5; 9] [2; 6; 10] = SOk {| e_alpha := 1; e_beta := 1; e_factor := 0; e_trunc := 0 |}).
  { apply (build_linear 1 [5; 9] 1 1); simpl; lia. }
  eexists. split.
  - lazy -[build_expr]. rewrite B1. lazy -[build_expr]. rewrite B1. lazy -[build_expr]. reflexivity.
  - intros n m. split.
    + unfold two_query, update_variables, update_variable, get_tensorshape.
      cbn [se_vars se_desc se_expr dset dget String.eqb Ascii.eqb Bool.eqb run_exprs expr_call e_factor e_alpha e_beta e_trunc Z.eqb sbind truncate_int desc_shape].
      change (1 * m + 1) with (1 * m + 1). rewrite Z.mul_1_l. reflexivity.
    + eexists. split; reflexivity.
Qed.
(** ** C34: one call of update_variables *)
(** no expression is overwritten or read before it is computed *)
Theorem C34_update_partial : forall en en', NoDup (dkeys (se_expr en)) -> sources_first (se_expr en) -> update_variables en = SOk en' ->
  (forall v src e, In (v, (src, e)) (se_expr en) -> exists x y, dget (se_vars en') src = Some x /\ expr_call e x = SOk y /\ dget (se_vars en') v = Some y) /\
  (forall v, ~ In v (dkeys (se_expr en)) -> dget (se_vars en') v = dget (se_vars en) v).
Proof.
  intros en en' ND SF U. unfold update_variables in U. destruct (run_exprs (se_expr en) (se_vars en)) as [v|] eqn:R; [|discriminate].
  cbn [sbind] in U. injection U as <-. cbn [se_vars]. split; [intros; eapply run_defined; eauto|intros; eapply run_other; eauto].
Qed.
(** the result does not depend on the derived values stored before *)
Theorem C34_history_independent : forall en1 en2 en1' en2', se_expr en1 = se_expr en2 -> NoDup (dkeys (se_expr en1)) -> sources_first (se_expr en1) ->
  (forall v, ~ In v (dkeys (se_expr en1)) -> dget (se_vars en1) v = dget (se_vars en2) v) ->
  update_variables en1 = SOk en1' -> update_variables en2 = SOk en2' -> forall v, dget (se_vars en1') v = dget (se_vars en2') v.
Proof.
  intros en1 en2 en1' en2' E ND SF A U1 U2 v. unfold update_variables in U1, U2. rewrite <- E in U2.
  destruct (run_exprs (se_expr en1) (se_vars en1)) as [v1|] eqn:R1; [|discriminate].
  destruct (run_exprs (se_expr en1) (se_vars en2)) as [v2|] eqn:R2; [|discriminate].
  cbn [sbind] in U1, U2. injection U1 as <-. injection U2 as <-. cbn [se_vars]. eapply run_agree; eauto.
Qed.
(** a second call changes nothing *)
Theorem C34_idempotent : forall en en' en'', NoDup (dkeys (se_expr en)) -> sources_first (se_expr en) ->
  update_variables en = SOk en' -> update_variables en' = SOk en'' -> forall v, dget (se_vars en'') v = dget (se_vars en') v.
Proof.
  intros en en' en'' ND SF U1 U2 v.
  assert (E : se_expr en' = se_expr en).
  { unfold update_variables in U1. destruct (run_exprs _ _); [|discriminate]. cbn [sbind] in U1. injection U1 as <-. reflexivity. }
  destruct (C34_update_partial _ _ ND SF U1) as [_ O].
  symmetry. refine (C34_history_independent en en' en' en'' (eq_sym E) ND SF _ U1 U2 v). intros w W. symmetry. auto.
Qed.
(** every engine shape_regress returns is of that kind (variables not named by digits): whatever values are stored in it,
    one call of update_variables leaves each derived variable equal to its expression *)
Theorem C34_regressed_engine : forall g input_desc ranges en en1 en', (forall k, In k (dkeys ranges) -> numeric_value k = None) ->
  shape_regress g input_desc ranges = SOk en -> se_expr en1 = se_expr en -> update_variables en1 = SOk en' ->
  forall v src e, In (v, (src, e)) (se_expr en) -> exists x y, dget (se_vars en') src = Some x /\ expr_call e x = SOk y /\ dget (se_vars en') v = Some y.
Proof.
  intros g input_desc ranges en en1 en' NK R E U. destruct (shape_regress_order _ _ _ _ NK R) as (ND & SF).
  rewrite <- E in *. apply (C34_update_partial _ _ ND SF U).
Qed.
(** the engines shape_regress builds for one variable are in that order: a case *)
Example C34_case : exists en, shape_regress cc_graph [("x", [DV "n"])] [("n", (1, 9))] = SOk en /\ length (se_expr en) = 2%nat /\
  NoDup (dkeys (se_expr en)) /\ sources_first (se_expr en).
Proof.
  assert (B1 : build_expr [1; 5; 9] [3; 15; 27] = SOk {| e_alpha := 3; e_beta := 0; e_factor := 0; e_trunc := 0 |}).
  { apply (build_linear 1 [5; 9] 3 0); simpl; lia. }
  assert (B2 : build_expr [3; 15; 27] [4; 20; 36] = SOk {| e_alpha := 1; e_beta := 9; e_factor := 0; e_trunc := 1 |}).
  { lazy -[fdiv_int py_round]. rewrite (round_near 32 24 1) by lia. reflexivity. }
  eexists. split; [lazy -[build_expr]; rewrite B1; lazy -[build_expr]; rewrite B2; lazy -[build_expr]; reflexivity|].
  split; [reflexivity|]. split.
  - repeat constructor; simpl; intuition discriminate.
  - intros pre k src e post E. destruct pre as [|p [|p' pre]]; simpl in E; injection E.
    + intros <- <- <- <-. split; [discriminate|]. simpl. intuition discriminate.
    + intros <- <- <- <- _. split; [discriminate|]. simpl. tauto.
    + intros E2 _ _. destruct pre; discriminate.
Qed.
(** without it one call is not enough: an expression added before the one it reads, through the public add_expr *)
Definition backwards : sengine :=
  add_expr (add_expr (update_variable (new_engine []) "n" 5) "b" "a" {| e_alpha := 2; e_beta := 0; e_factor := 0; e_trunc := 0 |})
    "a" "n" {| e_alpha := 3; e_beta := 0; e_factor := 0; e_trunc := 0 |}.
Theorem C34_unordered_refuted : exists en' en'', update_variables backwards = SOk en' /\ update_variables en' = SOk en'' /\
  dget (se_vars en') "a" = Some 15 /\ dget (se_vars en') "b" = Some 0 /\ dget (se_vars en'') "b" = Some 30.
Proof. do 2 eexists. split; [vm_compute; reflexivity|]. split; [vm_compute; reflexivity|]. repeat split; reflexivity. Qed.

(** ** C60: dimensions produced by strided windows *)
(** samples of [x / k + c] rounded down over [mn, mx]: exact wherever the numbers fit in 48 bits, provided the range
    spans enough windows, [mx] leaves less than half a window over, and one of the three samples is not a multiple of [k] *)
Theorem C60_floor_exact_partial : forall k c mn mx, let mid := (mn + mx) / 2 in 2 <= k -> small k c mn -> small k c mx ->
  2 * Z.abs (mx mod k - mn mod k) < mx / k - mn / k -> 2 * (mx mod k) < k ->
  ~ (mn mod k = 0 /\ mid mod k = 0 /\ mx mod k = 0) ->
  exists e, build_expr [mn; mid; mx] [mn / k + c; mid / k + c; mx / k + c] = SOk e /\
    forall x, small k c x -> expr_call e x = SOk (x / k + c).
Proof.
  intros k c mn mx mid Hk Sn Sx Spread Half Odd.
  pose proof (Z.div_mod mn k ltac:(lia)) as Dn. pose proof (Z.div_mod mx k ltac:(lia)) as Dx.
  pose proof (Z.mod_pos_bound mn k ltac:(lia)). pose proof (Z.mod_pos_bound mx k ltac:(lia)).
  assert (Sm : small k c mid). { unfold small, mid in *. assert (mn <= mx) by nia. assert (mn <= (mn + mx) / 2 <= mx) by (split; [apply Z.div_le_lower_bound|apply Z.div_le_upper_bound]; lia). lia. }
  assert (An : Z.abs (mn / k) <= Z.abs mn) by (apply div_abs; lia). assert (Ax : Z.abs (mx / k) <= Z.abs mx) by (apply div_abs; lia).
  unfold small in *.
  exists {| e_alpha := k; e_beta := c; e_factor := 1; e_trunc := 1 |}. split.
  - rewrite (build_div_q k c mn mid mx (mn / k) (mx / k) (mn mod k) (mx mod k)) by (unfold small; auto; lia). do 2 f_equal.
    rewrite !up_down by lia. unfold down. destruct (Z.eqb_spec (mn mod k) 0), (Z.eqb_spec (mid mod k) 0), (Z.eqb_spec (mx mod k) 0);
      match goal with |- (if Z.eqb ?a 0 then _ else _) = _ => destruct (Z.eqb_spec a 0); [exfalso; lia|reflexivity] end.
  - intros x S. rewrite call_down by (auto; lia). reflexivity.
Qed.
(** samples of the ceiling: no condition on the samples being multiples *)
Theorem C60_ceil_exact_partial : forall k c mn mx, let mid := (mn + mx) / 2 in let up x := - (- x / k) + c in 2 <= k -> small k c mn -> small k c mx ->
  2 * Z.abs ((- mx) mod k - (- mn) mod k) < up mx - up mn -> 2 * ((- mx) mod k) < k ->
  exists e, build_expr [mn; mid; mx] [up mn; up mid; up mx] = SOk e /\
    forall x, small k c x -> expr_call e x = SOk (up x).
Proof.
  intros k c mn mx mid u Hk Sn Sx Spread Half.
  pose proof (Z.div_mod (- mn) k ltac:(lia)) as Dn. pose proof (Z.div_mod (- mx) k ltac:(lia)) as Dx.
  pose proof (Z.mod_pos_bound (- mn) k ltac:(lia)). pose proof (Z.mod_pos_bound (- mx) k ltac:(lia)).
  unfold u in Spread.
  assert (Sm : small k c mid). { unfold small, mid in *. assert (mn <= mx) by nia. assert (mn <= (mn + mx) / 2 <= mx) by (split; [apply Z.div_le_lower_bound|apply Z.div_le_upper_bound]; lia). lia. }
  assert (An : Z.abs (- mn / k) <= Z.abs (- mn)) by (apply div_abs; lia). assert (Ax : Z.abs (- mx / k) <= Z.abs (- mx)) by (apply div_abs; lia).
  unfold small in *.
  exists {| e_alpha := k; e_beta := c; e_factor := 1; e_trunc := 0 |}. split.
  - unfold u. rewrite (build_div_q k c mn mid mx (- (- mn / k)) (- (- mx / k)) (- (- mn mod k)) (- (- mx mod k))) by (unfold small; auto; lia). do 2 f_equal. unfold RegressDiv.up.
    match goal with |- (if Z.eqb ?a 0 then _ else _) = _ => destruct (Z.eqb_spec a 0); [reflexivity|exfalso; lia] end.
  - intros x S. rewrite call_up by (auto; lia). reflexivity.
Qed.
Example C60_case : exists e, build_expr [1; 256; 512] [0; 128; 256] = SOk e /\ forall x, 0 <= x <= 10000 -> expr_call e x = SOk (x / 2).
Proof.
  destruct (C60_floor_exact_partial 2 0 1 512) as (e & B & H).
  - lia.
  - unfold small; lia.
  - unfold small; lia.
  - reflexivity.
  - reflexivity.
  - intros (A & _). discriminate.
  - exists e. split; [exact B|]. intros x X. rewrite H by (unfold small; lia). f_equal. lia.
Qed.
(** what is missing: when every sample is a multiple of the stride the rounding direction is guessed.
    A 2x2 max pool with stride 2 on heights 2..6 *)
Definition pool22 (x : Z) : sres (dict (list Z)) :=
  let* y := pool_shape {| w_autopad := Explicit; w_pads := [0; 0; 0; 0]; w_strides := [2; 2]; w_dilations := [1; 1] |} [2; 2] false [1; 3; x; 8] in
  SOk [("x", [1; 3; x; 8]); ("y", y)].
Definition pool_graph : rgraph := one_var "h" pool22 [("y", ["x"])].
Lemma pool22_shape : forall x, 2 <= x < 2 ^ 40 -> pool22 x = SOk [("x", [1; 3; x; 8]); ("y", [1; 3; x / 2; 4])].
Proof.
  intros x X. unfold pool22.
  assert (P : pool_shape {| w_autopad := Explicit; w_pads := [0; 0; 0; 0]; w_strides := [2; 2]; w_dilations := [1; 1] |} [2; 2] false [1; 3; x; 8] = SOk [1; 3; x / 2; 4]).
  2:{ rewrite P. reflexivity. }
  assert (A0 : pool_axis {| w_autopad := Explicit; w_pads := [0; 0; 0; 0]; w_strides := [2; 2]; w_dilations := [1; 1] |} [2; 2] [1; 3; x; 8] false 0 0 2 0
      = pooling_shape_calc x 0 2 1 2 false) by reflexivity.
  assert (A1 : pool_axis {| w_autopad := Explicit; w_pads := [0; 0; 0; 0]; w_strides := [2; 2]; w_dilations := [1; 1] |} [2; 2] [1; 3; x; 8] false 1 1 3 1
      = pooling_shape_calc 8 0 2 1 2 false) by reflexivity.
  unfold pool_shape. cbn [w_autopad length Nat.eqb]. rewrite A0, A1. unfold pooling_shape_calc. cbn [Z.eqb].
  rewrite !floor_fdiv1 by lia. cbn [sbind firstn app].
  replace (x + 0 - ((2 - 1) * 1 + 1)) with (x + (-1) * 2) by lia. rewrite Z.div_add by lia.
  replace (x / 2 + -1 + 1) with (x / 2) by lia. reflexivity.
Qed.
(** the engine for a graph of one strided node over a variable height: whatever single expression is fitted to the three
    samples is what the engine answers *)
Lemma regress_one : forall f c w d y mn mx e, let mid := (mn + mx) / 2 in
  f mn <> f mx -> f mn <> mn \/ f mid <> mid \/ f mx <> mx ->
  build_expr [mn; mid; mx] [f mn; f mid; f mx] = SOk e ->
  forall g, (forall vars x, dget vars "h" = Some x -> x = mn \/ x = mid \/ x = mx -> rg_infer g vars = SOk [("x", [c; d; x; w]); ("y", [c; d; f x; y])]) ->
  rg_producer g "y" = Some ["x"] ->
  exists en, shape_regress g [("x", [DI c; DI d; DV "h"; DI w])] [("h", (mn, mx))] = SOk en /\
    forall x v, expr_call e x = SOk v -> shape_query en "h" x "y" = SOk [c; d; v; y].
Proof.
  intros f c w d y mn mx e mid NE N0 B g I P.
  unfold shape_regress. cbn [fold_left fst snd]. unfold new_engine, update_variable. cbn [se_vars se_desc se_expr fold_left fst snd dset String.eqb Ascii.eqb Bool.eqb].
  rewrite (I _ mx) by (auto; reflexivity). cbn [sbind].
  rewrite (I _ mn) by (auto; reflexivity). cbn [sbind].
  assert (D : forall a b m1 en, init_desc [("x", a)] b m1 [("x", [c; d; mn; w]); ("y", [c; d; f mn; y])] en =
    match dget m1 "y" with None => SRaise KeyErr | Some m => SOk (add_tensor_desc en "y" (min_max_desc [c; d; f mn; y] m)) end) by reflexivity.
  rewrite D. cbn [dget String.eqb Ascii.eqb Bool.eqb]. cbn [min_max_desc sbind].
  rewrite !Z.eqb_refl. assert (F : (f mn =? f mx)%Z = false) by (apply Z.eqb_neq; auto). rewrite F.
  cbn [regress_vars]. unfold add_tensor_desc, update_variable. cbn [se_vars se_desc se_expr dset String.eqb Ascii.eqb Bool.eqb].
  fold mid. rewrite (I _ mid) by (auto; reflexivity). cbn [sbind].
  rewrite (I _ mx) by (auto; reflexivity). cbn [sbind]. cbn [dset String.eqb Ascii.eqb Bool.eqb].
  assert (NR : find_range [f mn; f mid; f mx] [[mn; mid; mx]] 0 = None).
  { unfold find_range, same_range. cbn [combine forallb fst snd].
    destruct (Z.eqb_spec (f mn) mn), (Z.eqb_spec (f mid) mid), (Z.eqb_spec (f mx) mx); try reflexivity. exfalso. tauto. }
  assert (T : forall m1 m2 st, dget m1 "y" = Some [c; d; f mid; y] -> dget m2 "y" = Some [c; d; f mx; y] ->
     regress_tensors g [("x", [DI c; DI d; DV "h"; DI w])] "h" [mn; mid; mx] 0 [("x", [c; d; mn; w]); ("y", [c; d; f mn; y])] m1 m2
        [("x", [c; d; mn; w]); ("y", [c; d; f mn; y])] st =
     let* st' := regress_dim g "h" [mn; mid; mx] 0 "y" 2 [f mn; f mid; f mx] st in SOk st').
  { intros m1 m2 st M1 M2. cbn [regress_tensors]. change (dhas [("x", [DI c; DI d; DV "h"; DI w])] "x") with true.
    change (dhas [("x", [DI c; DI d; DV "h"; DI w])] "y") with false. lazy iota. rewrite M1, M2.
    cbn [length seq regress_dims].
    change (py_index [c; d; f mn; y] (Z.of_nat 0)) with (@SOk Z c). change (py_index [c; d; f mid; y] (Z.of_nat 0)) with (@SOk Z c).
    change (py_index [c; d; f mx; y] (Z.of_nat 0)) with (@SOk Z c).
    change (py_index [c; d; f mn; y] (Z.of_nat 1)) with (@SOk Z d). change (py_index [c; d; f mid; y] (Z.of_nat 1)) with (@SOk Z d).
    change (py_index [c; d; f mx; y] (Z.of_nat 1)) with (@SOk Z d).
    change (py_index [c; d; f mn; y] (Z.of_nat 2)) with (@SOk Z (f mn)). change (py_index [c; d; f mid; y] (Z.of_nat 2)) with (@SOk Z (f mid)).
    change (py_index [c; d; f mx; y] (Z.of_nat 2)) with (@SOk Z (f mx)).
    change (py_index [c; d; f mn; y] (Z.of_nat 3)) with (@SOk Z y). change (py_index [c; d; f mid; y] (Z.of_nat 3)) with (@SOk Z y).
    change (py_index [c; d; f mx; y] (Z.of_nat 3)) with (@SOk Z y).
    cbn [sbind]. rewrite !Z.eqb_refl, F. cbn [negb sbind]. destruct (negb (f mn =? f mid)%Z); destruct (regress_dim _ _ _ _ _ _ _ _); reflexivity. }
  rewrite T by reflexivity. unfold regress_dim. rewrite NR, P.
  cbn [source_keys flat_map se_desc dget String.eqb Ascii.eqb Bool.eqb app]. change (numeric_value "h") with (@None nat).
  cbn [flat_map app]. rewrite B. cbn [sbind fst snd].
  eexists. split; [reflexivity|]. intros x v E. unfold shape_query, update_variables. cbn. rewrite E. reflexivity.
Qed.
(** a max pool of kernel 2 and stride 2 whose range has an odd end: right at every height *)
Theorem C60_pool_partial : forall mn mx, 2 <= mn -> mx < 2 ^ 40 -> mn mod 2 = 1 -> mx mod 2 = 0 -> 8 <= mx - mn ->
  exists en, shape_regress pool_graph [("x", [DI 1; DI 3; DV "h"; DI 8])] [("h", (mn, mx))] = SOk en /\
    forall x, 2 <= x < 2 ^ 40 -> exists m s, pool22 x = SOk m /\ dget m "y" = Some s /\ shape_query en "h" x "y" = SOk s.
Proof.
  intros mn mx L H O1 O2 W.
  assert (Hm : mn <= (mn + mx) / 2 <= mx) by (split; [apply Z.div_le_lower_bound|apply Z.div_le_upper_bound]; lia).
  pose proof (Z.div_mod mn 2 ltac:(lia)). pose proof (Z.div_mod mx 2 ltac:(lia)).
  destruct (C60_floor_exact_partial 2 0 mn mx) as (e & B & C); try (unfold small; lia).
  rewrite !Z.add_0_r in B.
  destruct (regress_one (fun h => h / 2) 1 8 3 4 mn mx e) with (g := pool_graph) as (en & R & Q).
  - cbv beta. lia.
  - left. cbv beta. lia.
  - exact B.
  - intros vars x V X. cbn [rg_infer pool_graph one_var]. rewrite V. apply pool22_shape. lia.
  - reflexivity.
  - exists en. split; [exact R|]. intros x X. do 2 eexists. split; [apply pool22_shape; exact X|]. split; [reflexivity|].
    apply Q. rewrite C by (unfold small; lia). f_equal. lia.
Qed.
(** with both ends and the middle even the engine rounds up: 3 rows instead of 2 at height 5 *)
Theorem C60_even_samples_refuted : exists en, shape_regress pool_graph [("x", [DI 1; DI 3; DV "h"; DI 8])] [("h", (2, 6))] = SOk en /\
  shape_query en "h" 5 "y" = SOk [1; 3; 3; 4] /\ exists m, pool22 5 = SOk m /\ dget m "y" = Some [1; 3; 2; 4].
Proof.
  assert (B : build_expr [2; 4; 6] [2 / 2; 4 / 2; 6 / 2] = SOk {| e_alpha := 2; e_beta := 0; e_factor := 1; e_trunc := 0 |}).
  { change [2 / 2; 4 / 2; 6 / 2] with [1 + 0; 2; 3 + 0].
    rewrite (build_div_q 2 0 2 4 6 1 3 0 0) by (unfold small; lia). reflexivity. }
  destruct (regress_one (fun h => h / 2) 1 8 3 4 2 6 {| e_alpha := 2; e_beta := 0; e_factor := 1; e_trunc := 0 |}) with (g := pool_graph) as (en & R & Q).
  - discriminate.
  - left. discriminate.
  - exact B.
  - intros vars x V X. cbn [rg_infer pool_graph one_var]. rewrite V. apply pool22_shape. change ((2 + 6) / 2) with 4 in X. lia.
  - reflexivity.
  - exists en. split; [exact R|]. split.
    + apply Q. rewrite call_up by (unfold small; lia). reflexivity.
    + eexists. split; [apply pool22_shape; lia|reflexivity].
Qed.
(** with more than half a window left over at the maximum the offset is rounded away: x / 4 on [1, 103] *)
Theorem C60_remainder_refuted : exists e, build_expr [1; 52; 103] [1 / 4; 52 / 4; 103 / 4] = SOk e /\ expr_call e 8 = SOk 1 /\ 8 / 4 = 2.
Proof.
  exists {| e_alpha := 4; e_beta := -1; e_factor := 1; e_trunc := 1 |}. split; [|split; [|reflexivity]].
  - change [1 / 4; 52 / 4; 103 / 4] with [1 + (-1); 13; 26 + (-1)].
    rewrite (build_div_q 4 (-1) 1 52 103 1 26 (-3) (-1)) by (unfold small; lia). reflexivity.
  - rewrite call_down by (unfold small; lia). reflexivity.
Qed.
