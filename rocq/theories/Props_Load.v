(** Properties C74-C77: what loading a model file does to its nodes, tensors, inputs and outputs; saving and
    reloading; constant folding. *)
From Coq Require Import Permutation.
From Verif Require Import PyBase PyBaseFacts GraphModel CompressSpec RelSpec TopSortSpec EditModel EditSpec RemoveProofs Decide
  RegressModel PartitionModel FuseProofs LoadModel LoadSpec LoadNames LoadLoop LoadProofs LoadFinal LoadFold LoadSave.
Local Open Scope string_scope.
Local Open Scope nat_scope.
Local Open Scope list_scope.

(** ---- C74: no node of the file is lost ---- *)
(** with node_rename=True, whatever the names in the file: node number i of the file is registered as OpType_i *)
Theorem C74_renamed : forall ns,
  let loaded := fst (load_nodes true ns) in
  NoDup (dkeys loaded) /\ map (fun kn => wiring (snd kn)) loaded = map wiring ns /\
  forall i n, nth_error ns i = Some n -> dget loaded (n_op n ++ "_" ++ dec i)%string = Some (mkNode (n_op n ++ "_" ++ dec i) (n_op n) (n_in n) (n_out n)).
Proof.
  intros ns loaded. unfold loaded. assert (ND := renamed_NoDup ns). rewrite loaded_nodes by exact ND. cbn [fst].
  assert (KD : NoDup (dkeys (keyed (named_from true 0 ns)))) by (rewrite keyed_keys; exact ND).
  split; [exact KD|]. split.
  - unfold keyed. rewrite map_map. cbn [snd]. apply named_wiring.
  - intros i n E. apply In_dget; [exact KD|]. unfold keyed. apply in_map_iff. eexists. split; [|eapply nth_error_In; rewrite named_nth, E; reflexivity].
    reflexivity.
Qed.
Print Assumptions C74_renamed.
(** otherwise every node is kept exactly when no name is used twice, an unnamed node number i counting as OpType_i *)
Theorem C74_kept_iff : forall ns,
  length (fst (load_nodes false ns)) = length ns <->
  (forall i j n m, nth_error ns i = Some n -> nth_error ns j = Some m ->
     (if String.eqb (n_name n) "" then n_op n ++ "_" ++ dec i else n_name n)%string =
     (if String.eqb (n_name m) "" then n_op m ++ "_" ++ dec j else n_name m)%string -> i = j).
Proof.
  intros ns. rewrite loaded_count. assert (LN : length (named_from false 0 ns) = length ns).
  { assert (L := f_equal (@length _) (named_wiring false ns 0)). rewrite !map_length in L. exact L. }
  rewrite NoDup_nth_error. split.
  - intros H i j n m Ei Ej E. apply H; [rewrite map_length, LN; apply nth_error_Some; congruence|].
    rewrite !nth_error_map, !named_nth, Ei, Ej. cbn. unfold given_name, auto_name. cbn [orb]. f_equal. exact E.
  - intros H i j Hi E. rewrite map_length, LN in Hi. rewrite !nth_error_map, !named_nth in E.
    destruct (nth_error ns i) as [n|] eqn:Ei; [|apply nth_error_None in Ei; lia]. destruct (nth_error ns j) as [m|] eqn:Ej; [|discriminate].
    cbn in E. injection E as E. exact (H i j n m Ei Ej E).
Qed.
Print Assumptions C74_kept_iff.
Theorem C74_kept : forall ns, Forall (fun n => n_name n <> "") ns -> NoDup (map n_name ns) -> map snd (fst (load_nodes false ns)) = ns.
Proof.
  intros ns F ND. rewrite loaded_nodes by (rewrite named_kept by exact F; exact ND). cbn [fst]. rewrite named_kept by exact F. apply keyed_nodes.
Qed.
Print Assumptions C74_kept.
(** Full claim (every node of the file is in the loaded graph) fails: a node called Relu_1 in front of an unnamed Relu *)
Theorem C74_name_clash_refuted : exists ns : list node,
  NoDup (filter (fun s => negb (String.eqb s "")) (map n_name ns)) /\ NoDup (outs_of ns) /\ length (fst (load_nodes false ns)) < length ns.
Proof.
  exists [mkNode "Relu_1" "Relu" ["x"] ["t"]; mkNode "" "Relu" ["t"] ["y"]].
  split; [apply nodupb_ok; reflexivity|]. split; [apply nodupb_ok; reflexivity|]. vm_compute. lia.
Qed.
Example C74_case : map fst (fst (load_nodes false [mkNode "" "Conv" ["x"; "w"] ["t"]; mkNode "act" "Relu" ["t"] ["y"]; mkNode "" "Conv" ["y"; "w"] ["z"]])) = ["Conv_0"; "act"; "Conv_2"] /\
  map fst (fst (load_nodes true [mkNode "" "Conv" ["x"; "w"] ["t"]; mkNode "act" "Relu" ["t"] ["y"]; mkNode "act" "Conv" ["y"; "w"] ["z"]])) = ["Conv_0"; "Relu_1"; "Conv_2"].
Proof. split; reflexivity. Qed.

Section PROPS.
Context {D V : Type}.
Variable info_of : D -> V.
Variable v0 : V.
Variable eval : node -> list (option D) -> nat -> option D.
Implicit Types (p : @proto D V) (tm : dict (@ltensor D V)).

(** node names do not clash (C74) *)
Definition names_ok (rename : bool) p : Prop := length (fst (load_nodes rename (p_nodes p))) = length (p_nodes p).

(** ---- C75: what the loaded graph says about the file ---- *)
Theorem C75_loaded : forall p cfg, valid_file p -> c_fold cfg = false -> names_ok (c_rename cfg) p ->
  exists fuel0, forall fuel, fuel0 <= fuel -> exists g tm, load_graph info_of v0 eval fuel cfg p = Some (Ok (g, tm)) /\
    map wiring (nodes_of g) = map wiring (p_nodes p) /\ consistent g /\
    initials g = map fst (p_init p) /\
    (forall t, In t (g_input g) <-> read (p_nodes p) t /\ ~ made (p_nodes p) t /\ ~ stored_in p t) /\ NoDup (g_input g) /\
    (c_keep_outputs cfg = true -> g_output g = map fst (p_out p)) /\
    (c_keep_outputs cfg = false -> forall t, In t (g_output g) <-> made (p_nodes p) t /\ ~ read (p_nodes p) t) /\
    (forall t, dhas tm t = true <-> stored_in p t \/ read (p_nodes p) t \/ made (p_nodes p) t) /\
    (forall t x, dget tm t = Some x ->
       lt_data x = dget (p_init p) t /\
       (read (p_nodes p) t \/ made (p_nodes p) t -> (lt_kind x = STATIC <-> ~ at_runtime p t)) /\
       (stored_in p t -> lt_kind x = STATIC)).
Proof.
  intros p cfg HV HF HN. unfold names_ok in HN. apply loaded_count in HN. destruct (loaded_plain info_of v0 eval p cfg HV HN HF) as [f0 H].
  exists f0. intros fuel L. destruct (H fuel L) as (g & tm & E & [B1 B2 B3 B4 B4' B5 B6 B7 B8 B9 B10 B11 B12 B13]). exists g, tm.
  split; [exact E|]. split; [unfold nodes_of; rewrite B1, keyed_nodes; apply named_wiring|].
  split; [exact B2|]. split; [exact B3|]. split; [exact B4|]. split; [exact B5|]. split; [exact B6|]. split; [exact B7|]. split; [exact B10|].
  intros t x Ex. split; [apply (B11 t x Ex)|]. split; [apply (B12 t x Ex)|apply (B13 t x Ex)].
Qed.
(** the graph inputs are the declared ones (in some order), when every declared input that is not an initializer is
    read, and every operand is produced, stored or declared as an input *)
Theorem C75_inputs_partial : forall p cfg, valid_file p -> c_fold cfg = false -> names_ok (c_rename cfg) p ->
  NoDup (map fst (p_in p)) ->
  (forall t, In t (map fst (p_in p)) -> ~ stored_in p t -> read (p_nodes p) t /\ ~ made (p_nodes p) t) ->
  (forall t, read (p_nodes p) t -> made (p_nodes p) t \/ stored_in p t \/ In t (map fst (p_in p))) ->
  exists fuel0, forall fuel, fuel0 <= fuel -> exists g tm, load_graph info_of v0 eval fuel cfg p = Some (Ok (g, tm)) /\
    Permutation (g_input g) (filter (fun t => negb (memb t (map fst (p_init p)))) (map fst (p_in p))).
Proof.
  intros p cfg HV HF HN ND HI HR. destruct (C75_loaded p cfg HV HF HN) as [f0 H]. exists f0. intros fuel L. destruct (H fuel L) as (g & tm & E & _ & _ & _ & B4 & B5 & _).
  exists g, tm. split; [exact E|]. apply NoDup_Permutation; [exact B5|apply NoDup_filter; exact ND|].
  intros t. rewrite B4, filter_In, negb_true_iff, memb_nIn. split.
  - intros (R & M & S). split; [|exact S]. destruct (HR t R) as [X|[X|X]]; [contradiction|contradiction|exact X].
  - intros [I S]. destruct (HI t I S) as [R M]. auto.
Qed.

(** ---- C76: save, then load again ---- *)
Theorem C76_save_reload : forall p cfg fuel g tm, valid_file p -> c_fold cfg = false -> c_keep_outputs cfg = true -> names_ok (c_rename cfg) p ->
  load_graph info_of v0 eval fuel cfg p = Some (Ok (g, tm)) ->
  exists fuel0, forall fuel, fuel0 <= fuel -> exists g2 tm2, load_graph info_of v0 eval fuel default_cfg (save_graph v0 g tm) = Some (Ok (g2, tm2)) /\
    nodemap g2 = nodemap g /\ g_input g2 = g_input g /\
    (forall t, In t (initials g2) <-> In t (initials g) /\ read (nodes_of g) t) /\
    (forall t, read (nodes_of g) t \/ made (nodes_of g) t -> dget tm2 t = dget tm t) /\
    g_output g2 = filter (fun t => dhas tm t && negb (String.eqb t "")) (g_output g) /\
    ((forall t, In t (map fst (p_out p)) -> made (p_nodes p) t \/ read (p_nodes p) t \/ stored_in p t) -> g_output g2 = g_output g).
Proof.
  intros p cfg fuel g tm HV HF HK HN HL. unfold names_ok in HN. apply loaded_count in HN. 
  assert (DB : described_by info_of v0 p cfg g tm).
  { destruct (loaded_plain info_of v0 eval p cfg HV HN HF) as [f0 H]. destruct (H (Nat.max f0 fuel) (Nat.le_max_l _ _)) as (g' & tm' & E & DB).
    assert (X : load_graph info_of v0 eval (Nat.max f0 fuel) cfg p = load_graph info_of v0 eval fuel cfg p).
    { apply load_fuel; [apply Nat.le_max_r|rewrite HL; discriminate]. }
    rewrite X, HL in E. injection E as <- <-. exact DB. }
  destruct (reload info_of v0 eval p cfg HV HN g tm DB) as [f0 H]. exists f0. intros f L. destruct (H f L) as (g2 & tm2 & E & [S1 S2 S3 S4 S5 S6 S7]).
  exists g2, tm2. split; [exact E|]. split; [exact S1|]. split; [exact S2|]. split; [exact S4|]. split; [exact S6|]. split; [exact S3|].
  intros HO. rewrite S3. apply filter_all. intros t I. rewrite (db_output _ _ _ _ _ _ DB HK) in I. apply andb_true_iff. split.
  - apply (db_tensors _ _ _ _ _ _ DB). specialize (HO t I). tauto.
  - apply negb_true_iff, String.eqb_neq. intros ->. apply (vf_decl_named _ HV). unfold declared. rewrite !in_app_iff. auto.
Qed.

(** ---- C77: constant folding ---- *)
(** [sem] / [sem']: any assignment of values under which every node of the original / folded graph computes its results
    from its operands (operator semantics [eval] arbitrary) and the stored tensors have their stored values *)
Theorem C77_folding : forall p cfg, valid_file p -> c_fold cfg = true -> names_ok (c_rename cfg) p ->
  exists fuel0, forall fuel, fuel0 <= fuel -> exists g tm, load_graph info_of v0 eval fuel cfg p = Some (Ok (g, tm)) /\
    let original := named_from (c_rename cfg) 0 (p_nodes p) in
    (exists keep, nodes_of g = filter keep original /\ forall n, In n original -> (keep n = true <-> runs p n)) /\ consistent g /\
    (forall t, In t (g_input g) <-> read (p_nodes p) t /\ ~ made (p_nodes p) t /\ ~ stored_in p t /\ t <> "") /\
    (forall t, In t (initials g) <-> read (nodes_of g) t /\ ~ at_runtime p t) /\
    (c_keep_outputs cfg = true -> g_output g = map fst (p_out p)) /\
    forall sem, solves eval original (p_init p) sem ->
      (forall t, In t (initials g) -> data_of tm t = sem t) /\
      forall sem',
        (forall n i t, In n (nodes_of g) -> nth_error (n_out n) i = Some t -> sem' t = eval n (map sem' (n_in n)) i) ->
        (forall t, In t (initials g) -> sem' t = data_of tm t) -> (forall t, In t (g_input g) -> sem' t = sem t) ->
        forall t, read (nodes_of g) t \/ made (nodes_of g) t -> sem' t = sem t.
Proof.
  intros p cfg HV HF HN. unfold names_ok in HN. apply loaded_count in HN. destruct (loaded_folded info_of v0 eval p cfg HV HN HF) as [f0 H].
  exists f0. intros fuel L. destruct (H fuel L) as (g & tm & E & FT). exists g, tm. split; [exact E|]. cbv zeta.
  assert (FT' := FT). destruct FT as [F1 F2 F3 F4 F5 F6 F7 F8 F9 F10].
  split. { destruct F1 as (k & K1 & K2). exists k. split; [unfold nodes_of; rewrite K1; apply keyed_nodes|exact K2]. }
  split; [exact F2|]. split; [exact F5|]. split; [exact F3|]. split; [exact F7|].
  intros sem HS. split; [exact (F10 sem HS)|]. intros sem' A B C. exact (folded_same eval p cfg HV g tm FT' sem sem' HS A B C).
Qed.
End PROPS.
Print Assumptions C75_loaded.
Print Assumptions C75_inputs_partial.
Print Assumptions C76_save_reload.
Print Assumptions C77_folding.

(** ---- concrete files: D = nat (a datum), V = nat ---- *)
Definition ev_sum (n : node) (args : list (option nat)) (i : nat) : option nat :=
  Some (fold_right (fun a s => match a with Some v => v + s | None => s end) i args).
Definition file_a : @proto nat nat := mkProto
  [mkNode "a" "Add" ["w"; "v"] ["s"]; mkNode "b" "Mul" ["x"; "s"; ""] ["t"]; mkNode "" "Relu" ["t"] ["y"]]
  [("w", 5); ("v", 7)] [("x", 3)] [("y", 4)] [("t", 9)].
Definition ra (t : string) : nat := if String.eqb t "y" then 3 else if String.eqb t "t" then 2 else if String.eqb t "s" then 1 else 0.
Lemma file_a_valid : valid_file file_a.
Proof.
  constructor.
  - apply nodupb_ok. reflexivity.
  - apply nodupb_ok. reflexivity.
  - intros t S M. apply made_outs in M. cbn in S, M. intuition congruence.
  - intros M. apply made_outs in M. cbn in M. intuition discriminate.
  - cbn. intuition discriminate.
  - exists ra. intros n t u I A B. cbn in I. destruct I as [<-|[<-|[<-|[]]]]; cbn in A, B; intuition (subst; cbn; lia).
Qed.
Example C75_case : valid_file file_a /\ names_ok false file_a /\
  match load_graph (fun d => d) 0 ev_sum 10 default_cfg file_a with
  | Some (Ok (g, tm)) => map fst (nodemap g) = ["a"; "b"; "Relu_2"] /\ g_output g = ["y"] /\ map (fun x => (fst x, lt_kind (snd x))) tm =
      [("w", STATIC); ("v", STATIC); ("x", DYNAMIC); ("y", DYNAMIC); ("t", DYNAMIC); ("s", STATIC); ("", STATIC)]
  | _ => False end.
Proof. split; [exact file_a_valid|]. split; reflexivity || (vm_compute; auto). Qed.
Example C76_case : match load_graph (fun d => d) 0 ev_sum 10 default_cfg file_a with
  | Some (Ok (g, tm)) => let q := save_graph 0 g tm in p_init q = [("w", 5); ("v", 7)] /\ p_in q = [("x", 3)] /\ p_out q = [("y", 4)] /\ p_vi q = [("s", 0); ("t", 9)]
  | _ => False end.
Proof. vm_compute. auto. Qed.
Example C77_case : match load_graph (fun d => d) 0 ev_sum 10 (mkCfg true false true) file_a with
  | Some (Ok (g, tm)) => map fst (nodemap g) = ["b"; "Relu_2"] /\ initials g = ["s"; ""] /\ data_of tm "s" = Some 12 /\ g_input g = ["x"]
  | _ => False end.
Proof. vm_compute. auto. Qed.

(** Full claim (the loaded graph has the declared inputs, in the declared order) fails in three ways:
    an omitted operand becomes a graph input called '' *)
Theorem C75_omitted_operand_refuted : exists p : @proto nat nat, valid_file p /\ names_ok false p /\
  (forall t, t <> "" -> read (p_nodes p) t -> made (p_nodes p) t \/ stored_in p t \/ In t (map fst (p_in p))) /\
  match load_graph (fun d => d) 0 ev_sum 10 default_cfg p with
  | Some (Ok (g, _)) => g_input g = ["x"; ""] /\ map fst (p_in p) = ["x"]
  | _ => False end.
Proof.
  exists file_a. split; [exact file_a_valid|]. split; [reflexivity|]. split; [|vm_compute; auto].
  intros t N R. apply read_reads in R. rewrite <- made_outs. unfold stored_in. cbn in *. intuition congruence.
Qed.
(** the inputs are listed in the order in which nodes read them *)
Definition file_b : @proto nat nat := mkProto [mkNode "a" "Sub" ["q"; "k"] ["y"]] [] [("k", 1); ("q", 2)] [("y", 3)] [].
Lemma file_b_valid : valid_file file_b.
Proof.
  constructor.
  - apply nodupb_ok. reflexivity.
  - apply nodupb_ok. reflexivity.
  - intros t S M. destruct S.
  - intros M. apply made_outs in M. cbn in M. intuition discriminate.
  - cbn. intuition discriminate.
  - exists ra. intros n t u I A B. cbn in I. destruct I as [<-|[]]; cbn in A, B; intuition (subst; cbn; lia).
Qed.
Theorem C75_input_order_refuted : exists p : @proto nat nat, valid_file p /\ names_ok false p /\
  match load_graph (fun d => d) 0 ev_sum 10 default_cfg p with
  | Some (Ok (g, tm)) => map fst (p_in p) = ["k"; "q"] /\ g_input g = ["q"; "k"] /\ map fst (p_in (save_graph 0 g tm)) = ["q"; "k"]
  | _ => False end.
Proof. exists file_b. split; [exact file_b_valid|]. split; [reflexivity|]. vm_compute. auto. Qed.
(** an input no node reads is forgotten, also as an output *)
Definition file_c : @proto nat nat := mkProto [mkNode "a" "Relu" ["x"] ["y"]] [("c", 8)] [("x", 1); ("h", 2)] [("y", 3); ("h", 2); ("c", 8)] [].
Lemma file_c_valid : valid_file file_c.
Proof.
  constructor.
  - apply nodupb_ok. reflexivity.
  - apply nodupb_ok. reflexivity.
  - intros t S M. apply made_outs in M. cbn in S, M. intuition congruence.
  - intros M. apply made_outs in M. cbn in M. intuition discriminate.
  - cbn. intuition discriminate.
  - exists ra. intros n t u I A B. cbn in I. destruct I as [<-|[]]; cbn in A, B; intuition (subst; cbn; lia).
Qed.
Theorem C75_unread_input_refuted : exists p : @proto nat nat, valid_file p /\ names_ok false p /\ In "h" (map fst (p_in p)) /\
  match load_graph (fun d => d) 0 ev_sum 10 default_cfg p with
  | Some (Ok (g, tm)) => g_input g = ["x"] /\ dget tm "h" = None
  | _ => False end.
Proof. exists file_c. split; [exact file_c_valid|]. split; [reflexivity|]. vm_compute. auto. Qed.
(** Full claim of C76 (the saved file has the same outputs and stored values) fails for an output that is a graph input
    (dropped from the file) or an initializer no node reads (its value is dropped and it becomes a required input) *)
Theorem C76_passthrough_refuted : exists p : @proto nat nat, valid_file p /\ names_ok false p /\
  match load_graph (fun d => d) 0 ev_sum 10 default_cfg p with
  | Some (Ok (g, tm)) => let q := save_graph 0 g tm in
      map fst (p_out p) = ["y"; "h"; "c"] /\ map fst (p_out q) = ["y"; "c"] /\ p_init p = [("c", 8)] /\ p_init q = [] /\ map fst (p_in q) = ["x"; "c"]
  | _ => False end.
Proof. exists file_c. split; [exact file_c_valid|]. split; [reflexivity|]. vm_compute. auto. Qed.
(** Full claim of C77 (folding keeps the declared results) fails for an output that is itself constant *)
Definition file_d : @proto nat nat := mkProto [mkNode "a" "Add" ["w"; "w"] ["s"]; mkNode "b" "Relu" ["x"] ["y"]] [("w", 5)] [("x", 1)] [("y", 3); ("s", 4)] [].
Theorem C77_constant_output_refuted : exists p : @proto nat nat, valid_file p /\ names_ok false p /\
  match load_graph (fun d => d) 0 ev_sum 10 (mkCfg true false true) p with
  | Some (Ok (g, tm)) => map fst (p_out p) = ["y"; "s"] /\ dget tm "s" = None /\ map fst (p_out (save_graph 0 g tm)) = ["y"]
  | _ => False end.
Proof.
  exists file_d. split; [|split; [reflexivity|vm_compute; auto]]. constructor.
  - apply nodupb_ok. reflexivity.
  - apply nodupb_ok. reflexivity.
  - intros t S M. apply made_outs in M. cbn in S, M. intuition congruence.
  - intros M. apply made_outs in M. cbn in M. intuition discriminate.
  - cbn. intuition discriminate.
  - exists ra. intros n t u I A B. cbn in I. destruct I as [<-|[<-|[]]]; cbn in A, B; intuition (subst; cbn; lia).
Qed.
