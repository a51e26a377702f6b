(** C109: model_io_modify rewrites exactly the requested shapes. *)
From Coq Require Import String Ascii DecimalString ZArith List Lia.
From Verif Require Import PyBase PyBaseFacts GraphModel CompressSpec RelSpec RelProofs TopSortSpec OrderProofs
  EditModel EditSpec RemoveProofs IoProofs PartitionModel PartitionSpec PartitionProofs ConstProofs RegressModel LoadModel LoadSpec LoadNames LoadLoop LoadProofs LoadFinal LoadFold LoadSave
  IoModModel IoModSpec IoModProofs.
Import ListNotations.
Local Open Scope list_scope.

Section PROPS.
Context {D : Type}.
Variable info_of : D -> vinfo.
Variable v0 : vinfo.
Variable eval : node -> list (option D) -> nat -> option D.
Implicit Types (p q : @proto D vinfo).
Definition no_name_clash p : Prop := length (fst (load_nodes false (p_nodes p))) = length (p_nodes p).

(** [asks] requests shapes that can be written: at least one dimension, sizes below 2^63, names without an x that do
    not read as numbers; each has the rank of the declared shape.  [io_modify] writes a file [q] with the same nodes,
    the stored tensors some node reads, every declared input that is really an input, with the requested dimensions (or
    its old ones), and every declared output that is produced, in order, likewise; the element types and the
    descriptions of all other tensors are the old ones. *)
Theorem C109_rewritten_partial : forall p asks,
  valid_file p -> no_name_clash p -> p_nodes p <> [] ->
  (forall t ws, wanted asks t = Some ws -> ws <> [] /\ Forall plain ws) ->
  (forall t v ws, In (t, v) (p_in p ++ p_out p) -> wanted asks t = Some ws -> length ws = length (vi_dims v)) ->
  NoDup (map fst (p_in p)) -> NoDup (map fst (p_out p)) -> (forall t, In t (map fst (p_in p)) -> ~ In t (map fst (p_out p))) ->
  exists fuel0, forall fuel, (fuel0 <= fuel)%nat -> exists q, io_modify info_of v0 eval fuel (request asks) p = Some (Ok (Some q)) /\
    map wiring (p_nodes q) = map wiring (p_nodes p) /\
    (Forall (fun n => n_name n <> ""%string) (p_nodes p) -> p_nodes q = p_nodes p) /\
    (forall t d, In (t, d) (p_init q) <-> read (p_nodes p) t /\ In (t, d) (p_init p)) /\
    (forall t v, In (t, v) (p_in p) -> ~ stored_in p t -> ~ made (p_nodes p) t -> read (p_nodes p) t ->
       forall w, In (t, w) (p_in q) <-> w = mkVI (vi_elem v) (new_dims asks t v)) /\
    ((forall t, In t (map fst (p_out p)) -> made (p_nodes p) t) ->
       p_out q = map (fun x => (fst x, mkVI (vi_elem (snd x)) (new_dims asks (fst x) (snd x)))) (p_out p)) /\
    (forall t v, In (t, v) (p_vi q) -> ~ In t (map fst (p_in p)) -> ~ In t (map fst (p_out p)) /\
       v = match dget (p_vi p) t with Some u => mkVI (vi_elem u) (new_dims [] t u) | None => v0 end).
Proof.
  intros p asks HV HN HE G R NI NO DJ. unfold no_name_clash in HN. apply loaded_count in HN.
  destruct (loaded_plain info_of v0 eval (as_seen p) default_cfg (seen_valid p HV) HN eq_refl) as [f1 L1].
  destruct (loaded_plain info_of v0 eval (after asks p) default_cfg (after_valid asks p HV) HN eq_refl) as [f2 L2].
  exists (Nat.max f1 f2). intros fuel L. destruct (L1 fuel ltac:(lia)) as (g1 & tm1 & E1 & _). destruct (L2 fuel ltac:(lia)) as (g & tm & E2 & DB). clear L1 L2.
  exists (save_graph v0 g tm).
  assert (HV' := after_valid asks p HV).
  assert (NS := q_nodes info_of v0 (after asks p) default_cfg g tm DB). cbn [after p_nodes c_rename default_cfg] in NS.
  split.
  { unfold io_modify. rewrite E1, edit_ok by assumption. rewrite after_seen, E2. destruct (nodemap g) as [|x r] eqn:NM; [|reflexivity]. exfalso.
    unfold save_graph in NS. cbn [p_nodes] in NS. unfold nodes_of in NS. rewrite NM in NS. cbn in NS. destruct (p_nodes p); [contradiction|]. discriminate. }
  split; [exact (q_wiring info_of v0 (after asks p) default_cfg g tm DB)|].
  split; [intros F; rewrite NS; apply named_kept; exact F|].
  split.
  { intros t d. rewrite (q_init info_of v0 (after asks p) default_cfg g tm DB). cbn [after p_nodes p_init]. split; intros [A B]; (split; [exact A|]).
    - apply dget_In. exact B.
    - apply In_dget; [apply HV|exact B]. }
  assert (INFO : forall t x, dget tm t = Some x -> lt_info x = info_in info_of v0 (after asks p) t) by (intros t x E; apply (db_payload _ _ _ _ _ _ DB t x E)).
  assert (NE : forall t, In t (declared p) -> t <> ""%string) by (intros t I ->; exact (vf_decl_named _ HV I)).
  assert (TI : forall t v, In (t, v) (p_in p) -> ~ stored_in p t -> info_in info_of v0 (after asks p) t = new_info asks t v).
  { intros t v I S. unfold info_in. cbn [after p_init]. replace (dget (p_init p) t) with (@None D) by (symmetry; apply dget_None; exact S).
    unfold told. cbn [after p_in]. rewrite (dget_map_val (new_info asks)), (In_dget _ _ _ _ NI I). reflexivity. }
  assert (TO : forall t v, In (t, v) (p_out p) -> ~ stored_in p t -> info_in info_of v0 (after asks p) t = new_info asks t v).
  { intros t v I S. unfold info_in. cbn [after p_init]. replace (dget (p_init p) t) with (@None D) by (symmetry; apply dget_None; exact S).
    unfold told. cbn [after p_in p_out]. rewrite !(dget_map_val (new_info asks)), (In_dget _ _ _ _ NO I).
    replace (dget (p_in p) t) with (@None vinfo); [reflexivity|]. symmetry. apply dget_None. intros J. apply (DJ t J). apply in_map_iff. exists (t, v). auto. }
  assert (DC : forall (t : string) (v : vinfo) l, In (t, v) l -> In t (map fst l)) by (intros A B l I; apply in_map_iff; exists (A, B); auto).
  split.
  { intros t v I S M Rd w. split.
    - intros J. destruct (q_desc info_of v0 (after asks p) default_cfg g tm DB t w (or_introl J)) as (_ & x & E & ->). rewrite (INFO t x E). apply TI; assumption.
    - intros ->. rewrite (q_in info_of v0 (after asks p) default_cfg g tm DB). apply in_app_iff. left.
      assert (GI : In t (g_input g)). { apply (db_input _ _ _ _ _ _ DB). cbn [after p_nodes]. auto. }
      apply in_flat_map. exists t. split; [exact GI|]. assert (K := input_known info_of v0 (after asks p) default_cfg g tm DB t GI).
      unfold dhas in K. unfold value_if_known, value_proto. destruct (dget tm t) as [x|] eqn:E; [|discriminate].
      destruct (String.eqb_spec t "") as [->|_]; [exfalso; apply (NE ""%string); [|reflexivity]; unfold declared; rewrite !in_app_iff; eauto|].
      left. rewrite (INFO t x E), (TI t v I S). reflexivity. }
  split.
  { intros MO. unfold save_graph. cbn [p_out]. rewrite (db_output _ _ _ _ _ _ DB eq_refl). cbn [after p_out]. rewrite map_map. cbn [fst].
    assert (ALL : forall x, In x (p_out p) -> value_if_known tm (fst x) = [(fst x, new_info asks (fst x) (snd x))]).
    { intros [t v] I. cbn [fst snd]. assert (Mt : made (p_nodes p) t) by (apply MO; eauto).
      assert (K : dhas tm t = true) by (apply (db_tensors _ _ _ _ _ _ DB); cbn [after p_nodes]; auto).
      unfold dhas in K. unfold value_if_known, value_proto. destruct (dget tm t) as [x|] eqn:E; [|discriminate].
      destruct (String.eqb_spec t "") as [->|_]; [exfalso; apply (NE ""%string); [|reflexivity]; unfold declared; rewrite !in_app_iff; eauto|].
      rewrite (INFO t x E), (TO t v I); [reflexivity|]. intros S. exact (vf_init _ HV t S Mt). }
    change (fun x : string * vinfo => (fst x, mkVI (vi_elem (snd x)) (new_dims asks (fst x) (snd x)))) with (fun x : string * vinfo => (fst x, new_info asks (fst x) (snd x))).
    clear - ALL. induction (p_out p) as [|x r IH]; [reflexivity|]. cbn [map flat_map]. rewrite (ALL x (or_introl eq_refl)), IH by (intros; apply ALL; right; assumption). reflexivity. }
  intros t v J NIt. unfold save_graph in J. cbn [p_vi] in J. apply known_desc in J as (N0 & J & x & E & ->).
  apply filter_In in J as [J1 J2]. apply negb_true_iff, orb_false_iff in J2 as [J2 J3]. apply memb_nIn in J2, J3.
  rewrite (db_output _ _ _ _ _ _ DB eq_refl) in J3. cbn [after p_out] in J3. rewrite map_map in J3. cbn [fst] in J3.
  apply (db_dynamics _ _ _ _ _ _ DB) in J1. cbn [after p_nodes] in J1. unfold stored_in in J1. cbn [after p_init] in J1. fold (stored_in p t) in J1.
  assert (S : ~ stored_in p t). { destruct J1 as [J1|J1]; [intros S; exact (vf_init _ HV t S J1)|tauto]. }
  split; [exact J3|]. rewrite (INFO t x E). unfold info_in. cbn [after p_init]. replace (dget (p_init p) t) with (@None D) by (symmetry; apply dget_None; exact S).
  unfold told. cbn [after p_in p_out p_vi]. rewrite !(dget_map_val (new_info asks)).
  replace (dget (p_in p) t) with (@None vinfo) by (symmetry; apply dget_None; exact NIt).
  replace (dget (p_out p) t) with (@None vinfo) by (symmetry; apply dget_None; exact J3). cbn [option_map].
  unfold seen_all. rewrite (dget_map_val (fun _ => seen)). destruct (dget (p_vi p) t); reflexivity.
Qed.

(** a request of the wrong rank is refused and nothing is written *)
Theorem C109_rank_checked : forall p asks t v ws,
  valid_file p -> no_name_clash p ->
  (forall t ws, wanted asks t = Some ws -> ws <> [] /\ Forall plain ws) ->
  In (t, v) (p_in p ++ p_out p) -> wanted asks t = Some ws -> length ws <> length (vi_dims v) ->
  exists fuel0, forall fuel, (fuel0 <= fuel)%nat -> io_modify info_of v0 eval fuel (request asks) p = Some AssertionError.
Proof.
  intros p asks t v ws HV HN G I E L. unfold no_name_clash in HN. apply loaded_count in HN.
  destruct (loaded_plain info_of v0 eval (as_seen p) default_cfg (seen_valid p HV) HN eq_refl) as [f1 L1]. exists f1. intros fuel Lf. destruct (L1 fuel Lf) as (g1 & tm1 & E1 & _).
  unfold io_modify. rewrite E1, (edit_bad asks p t v ws G I E L). reflexivity.
Qed.

End PROPS.

(** ---- cases ---- *)
Definition ev_none (n : node) (args : list (option nat)) (i : nat) : option nat := None.
Definition unk : vinfo := mkVI 1 [].
(** x[1,3] -> Relu -> s[1,3] -> MatMul w -> y[1,?] *)
Definition net : @proto nat vinfo := mkProto
  [mkNode "a" "Relu" ["x"] ["s"]; mkNode "b" "MatMul" ["s"; "w"] ["y"]]%string
  [("w"%string, 7%nat)] [("x"%string, mkVI 1 [DVal 1; DVal 3])] [("y"%string, mkVI 1 [DVal 1; DUnset])] [("s"%string, mkVI 1 [DVal 1; DVal 3])].
Definition rank_of (t : string) : nat := if String.eqb t "y" then 2%nat else if String.eqb t "s" then 1%nat else 0%nat.
Lemma net_valid : valid_file net.
Proof.
  constructor.
  - repeat constructor; cbn; intuition discriminate.
  - repeat constructor; cbn; intuition discriminate.
  - intros t S M. apply made_outs in M. cbn in S, M. intuition congruence.
  - intros M. apply made_outs in M. cbn in M. intuition discriminate.
  - cbn. intuition discriminate.
  - exists rank_of. intros n t u I A B. cbn in I. destruct I as [<-|[<-|[]]]; cbn in A, B; intuition (subst; cbn; lia).
Qed.
Definition ask1 : list (string * list want) := [("x"%string, [Named "batch"; Size 3]); ("y"%string, [Named "batch"; Size 10])].
Example C109_request : request ask1 = [("x", "batchx3"); ("y", "batchx10")]%string.
Proof. reflexivity. Qed.
Lemma plain_named s c a b : ~ has_char "x" s -> s = (a ++ String c b)%string -> (N_of_ascii c < 48 \/ 57 < N_of_ascii c)%N -> plain (Named s).
Proof. intros H E L. split; [exact H|]. right. exists c. split; [exists a, b; exact E|exact L]. Qed.
Lemma ask1_good : forall t ws, wanted ask1 t = Some ws -> ws <> [] /\ Forall plain ws.
Proof.
  assert (PB : plain (Named "batch")).
  { apply (plain_named "batch" "b" "" "atch"); [|reflexivity|right; reflexivity]. rewrite !has_cons. intros X. repeat (destruct X as [X|X]; [discriminate|]). exact (has_nil _ X). }
  intros t ws. unfold wanted, ask1. cbn [dget]. destruct (String.eqb t "x"); [|destruct (String.eqb t "y"); [|discriminate]]; intros E; injection E as <-;
  (split; [discriminate|]); (constructor; [exact PB|]; constructor; [reflexivity|]; constructor).
Qed.
Lemma net_names : no_name_clash net.
Proof. reflexivity. Qed.
Example C109_case_hyps : (forall t v ws, In (t, v) (p_in net ++ p_out net) -> wanted ask1 t = Some ws -> length ws = length (vi_dims v)) /\
  NoDup (map fst (p_in net)) /\ NoDup (map fst (p_out net)) /\ (forall t, In t (map fst (p_in net)) -> ~ In t (map fst (p_out net))) /\
  (forall t, In t (map fst (p_out net)) -> made (p_nodes net) t).
Proof.
  split; [intros t v ws I E; cbn in I; destruct I as [I|[I|[]]]; injection I as <- <-; cbn in E; injection E as <-; reflexivity|].
  split; [repeat constructor; cbn; tauto|]. split; [repeat constructor; cbn; tauto|].
  split; [cbn; intuition (subst; discriminate)|]. intros t [<-|[]]. apply made_outs. cbn. auto.
Qed.
Definition wrote (r : option (res (option (@proto nat vinfo)))) := match r with Some (Ok (Some q)) => Some (p_in q, p_out q, p_vi q) | _ => None end.
Example C109_case : wrote (io_modify (fun _ => unk) unk ev_none 20 (request ask1) net) =
  Some ([("x", mkVI 1 [DSym "batch"; DVal 3])], [("y", mkVI 1 [DSym "batch"; DVal 10])], [("s", mkVI 1 [DVal 1; DVal 3])])%string.
Proof. vm_compute. reflexivity. Qed.
Example C109_case_rank : io_modify (fun _ => unk) unk ev_none 20 (request [("y"%string, [Named "batch"])]) net = Some AssertionError.
Proof. vm_compute. reflexivity. Qed.

(** Full claim (the saved file declares the requested shapes, for any size or name, of any declared input or output)
    fails in these ways.  A dimension name with an x in it is taken apart: the request is refused, or, when the pieces
    happen to be as many as the dimensions, other names are written *)
Theorem C109_letter_x_refuted : exists p : @proto nat vinfo, valid_file p /\ no_name_clash p /\
  p_in p = [("x", mkVI 1 [DVal 1; DVal 3])]%string /\
  io_modify (fun _ => unk) unk ev_none 20 (request [("x", [Named "max"; Size 3])]%string) p = Some AssertionError /\
  exists q, io_modify (fun _ => unk) unk ev_none 20 (request [("x", [Named "maxlen"])]%string) p = Some (Ok (Some q)) /\
    p_in q = [("x", mkVI 1 [DSym "ma"; DSym "len"])]%string.
Proof.
  exists net. split; [exact net_valid|]. split; [exact net_names|]. split; [reflexivity|]. split; [vm_compute; reflexivity|].
  eexists. split; [vm_compute; reflexivity|]. vm_compute. reflexivity.
Qed.
(** a scalar input cannot be requested, not even with the shape it has *)
Definition scalar_net : @proto nat vinfo := mkProto [mkNode "a" "Relu" ["x"] ["y"]]%string [] [("x"%string, mkVI 1 [])] [("y"%string, mkVI 1 [])] [].
Theorem C109_scalar_refuted : exists p : @proto nat vinfo, valid_file p /\ no_name_clash p /\
  p_in p = [("x", mkVI 1 [])]%string /\
  io_modify (fun _ => unk) unk ev_none 20 (request [("x", [])]%string) p = Some AssertionError.
Proof.
  exists scalar_net. split; [|repeat split; vm_compute; reflexivity]. constructor.
  - repeat constructor; cbn; intuition discriminate.
  - constructor.
  - intros t S. destruct S.
  - intros M. apply made_outs in M. cbn in M. intuition discriminate.
  - cbn. intuition discriminate.
  - exists rank_of. intros n t u I A B. cbn in I. destruct I as [<-|[]]; cbn in A, B; intuition (subst; cbn; lia).
Qed.
(** the shapes recorded for intermediate tensors stay: after the batch size of x is changed from 1 to 2, the Relu of x is
    still described as having batch size 1 *)
Theorem C109_stale_shapes_refuted : exists p : @proto nat vinfo, valid_file p /\ no_name_clash p /\ In (mkNode "a" "Relu" ["x"] ["s"])%string (p_nodes p) /\
  exists q, io_modify (fun _ => unk) unk ev_none 20 (request [("x", [Size 2; Size 3])]%string) p = Some (Ok (Some q)) /\
    In (mkNode "a" "Relu" ["x"] ["s"])%string (p_nodes q) /\
    In ("x", mkVI 1 [DVal 2; DVal 3])%string (p_in q) /\ In ("s", mkVI 1 [DVal 1; DVal 3])%string (p_vi q).
Proof.
  exists net. split; [exact net_valid|]. split; [exact net_names|]. split; [left; reflexivity|]. eexists. split; [vm_compute; reflexivity|]. vm_compute. auto 10.
Qed.
