(** One pass over the builder: shapes, weights and costs. *)
From Coq Require Import Znumtheory.
From Verif Require Import PyBase PyBaseFacts GraphModel ShapeModel FusionModel RegressModel ProfileModel ProfileProofs LlmModel LlmSpec LlmBuild LlmCost LlmCostSpec.
Open Scope string_scope. Open Scope Z_scope.

Definition wsum (l : list (string * tensor)) : Z := sum_list (map (fun p => volume (t_shape (snd p))) l).
Definition wt (sh : list Z) : tensor := mkTensor STATIC sh 4.
Definition ct (sh : list Z) : tensor := mkTensor STATIC sh 8.
Definition act (sh : list Z) : tensor := mkTensor DYNAMIC sh 4.
Definition idt (sh : list Z) : tensor := mkTensor DYNAMIC sh 8.
Definition at_ (r : tref) : string * tensor := (fst r, act (snd r)).
Definition static_of (ts : list tensor) : list tensor := filter (fun t => match t_kind t with STATIC => true | DYNAMIC => false end) ts.

Lemma Forall2_impl {A C} (P Q : A -> C -> Prop) l m : (forall a b, P a b -> Q a b) -> Forall2 P l m -> Forall2 Q l m.
Proof. induction 2; auto. Qed.
Lemma kadd_0_l a : kadd kzero a = a.
Proof. destruct a. reflexivity. Qed.
Lemma kadd_0_r a : kadd a kzero = a.
Proof. destruct a. unfold kadd, kzero. cbn. f_equal; lia. Qed.
Lemma kadd_assoc a b c : kadd a (kadd b c) = kadd (kadd a b) c.
Proof. unfold kadd. cbn. f_equal; lia. Qed.
Lemma ksum_app a b : ksum (a ++ b) = kadd (ksum a) (ksum b).
Proof. induction a as [|x a IH]; cbn; [rewrite kadd_0_l; reflexivity|]. fold (ksum (a ++ b)). rewrite IH. apply kadd_assoc. Qed.
Lemma wsum_app a b : wsum (a ++ b) = wsum a + wsum b.
Proof. unfold wsum. rewrite map_app. apply sum_app. Qed.

Section PASS.
Context (fl : flags) (c : config) (x : extra) (batch seq_len : Z) (wm : dict (dict string)) (root : string).
(** the two further operands of the attention nodes when there is a cache *)
Context (cache : list tensor) (past : Z).
Definition more (op : string) : list tensor := if String.eqb op "SDPA" then cache else [].
Definition table : tensor := wt [1; 1; getattr (c_max_pos c) 4096; getattr (c_rotary_dim c) (head_size c) / 2].
Definition node_ok (d : list (string * tensor)) (e : node * tensor) (k : cost) : Prop :=
  exists its, Forall2 (fun n t => In (n, t) d /\ n <> "") (n_in (fst e)) its /\
    (sane fl c -> typed (n_op (fst e)) (map t_shape its) (t_shape (snd e))) /\
    op_profile fl c x (n_op (fst e)) (its ++ more (n_op (fst e))) (static_of its) [snd e] = SOk (k_macs k, k_io k, k_static k) /\
    k_params k = vols (static_of its) /\
    option_map t_esize (hd_error its) = Some 4 /\ t_esize (snd e) = 4 /\ (exists o, n_out (fst e) = [o]) /\
    ((n_op (fst e) = "MatMul" -> k_macs k = batch * seq_len * k_params k) /\
     (n_op (fst e) = "SDPA" -> map t_shape its = [[batch; seq_len; q_width c]; [batch; seq_len; kv_width c]; [batch; seq_len; kv_width c]]) /\
     (n_op (fst e) = "GDN" -> t_shape (snd e) = [batch; seq_len; c_hidden c])).
(** a slice node and the bounds stored for it *)
Definition slice_of (d : list (string * tensor)) (bo : list (string * (Z * Z))) (n : node) (t : tensor) : Prop :=
  exists inp off w m, n_in n = [inp; n_name n ++ ".start"; n_name n ++ ".end"; n_name n ++ ".axis"; n_name n ++ ".step"] /\
    In (inp, act [batch; seq_len; w]) d /\ t = act [batch; seq_len; m] /\ In (n_name n, (off, off + m)) bo /\ (sane fl c -> 0 <= off /\ 0 <= m /\ off + m <= w).
Lemma slice_of_incl d d' bo bo' n t : incl d d' -> incl bo bo' -> slice_of d bo n t -> slice_of d' bo' n t.
Proof. intros I I' (inp & off & w & m & A & C & E & F & G). exists inp, off, w, m. auto 10. Qed.
Record K (D : list (string * tensor)) (P : list string) (v : cost) (w : Z) (r : bool) (s : bst) : Prop := {
  k_def : forall d, In d D -> In d (defs (log s)) /\ fst d <> "";
  k_nodes : exists cs, Forall2 (node_ok (defs (log s))) (lnodes (log s)) cs /\ ksum cs = v;
  k_w : wsum (statics (log s)) = w + if rope_done s then rope_params c else 0;
  k_r : rope_done s = r;
  k_rope : rope_done s = true -> In ("rope.cos", table) (defs (log s)) /\ In ("rope.sin", table) (defs (log s));
  k_pos : pos_done s = true -> In ("position", idt [batch; seq_len]) (defs (log s));
  k_read : forall n, In n (map fst (statics (log s))) -> In n P \/ exists e, In e (lnodes (log s)) /\ In n (n_in (fst e));
  k_slice : forall e, In e (lnodes (log s)) -> n_op (fst e) = "Slice" -> slice_of (defs (log s)) (bounds s) (fst e) (snd e)
}.
Lemma node_ok_incl d d' e k : incl d d' -> node_ok d e k -> node_ok d' e k.
Proof.
  intros I (its & F & R). exists its. split; [|exact R]. eapply Forall2_impl; [|exact F]. cbn. intros ? ? [A B]. auto.
Qed.
Lemma K_weaken D P v w r s D' P' v' w' : K D P v w r s -> incl D' D -> incl P P' -> v' = v -> w' = w -> K D' P' v' w' r s.
Proof.
  intros [A B C E F G R SL] HD HP -> ->. constructor; auto. intros n Hn. destruct (R n Hn); auto.
Qed.
Lemma K_note D P v w r s bo : K D P v w r s -> incl (bounds s) bo -> K D P v w r {| log := log s; rope_done := rope_done s; pos_done := pos_done s; bounds := bo |}.
Proof. intros [A B C E F G R SL] I. constructor; try assumption. intros e Ie Eo. cbn [log bounds]. eapply slice_of_incl; [apply incl_refl|exact I|auto]. Qed.
Notation wpT := (wp True).
Lemma K_bind {A C} (m : B A) (f : A -> B C) Q s : wpT m (fun a s' => wpT (f a) Q s') s -> wpT (bind m f) Q s.
Proof. apply wp_bind. Qed.
Lemma K_lift {A} (r : sres A) (Q : A -> bst -> Prop) s : (forall a, r = SOk a -> Q a s) -> wpT (lift r) Q s.
Proof. intros H. apply wp_lift; auto. Qed.
Lemma wnil (n k : string) : k <> "" -> n ++ k <> "".
Proof. intros H E. destruct n; [apply H; exact E|discriminate]. Qed.

Lemma K_static_gen esz D P v w r s n sh (Q : string -> bst -> Prop) : K D P v w r s -> n <> "" ->
  (forall s', K ((n, mkTensor STATIC sh esz) :: D) (n :: P) v (w + volume sh) r s' -> Q n s') -> wpT (do _ <- tell (EStatic n (mkTensor STATIC sh esz)); ret n) Q s.
Proof.
  intros J N C. unfold wp, bind, tell, ret, sbind. cbn [fst snd]. apply C. destruct J as [A B E F G L R SL]. constructor; cbn [log rope_done pos_done bounds]; rewrite ?defs_snoc, ?lnodes_snoc, ?statics_snoc; cbn [ev_defs ev_nodes ev_statics].
  - intros d [<-|Hd]; [split; [apply in_or_app; cbn; auto|exact N]|]. destruct (A d Hd). split; [apply in_or_app; auto|assumption].
  - rewrite app_nil_r. destruct B as (cs & B1 & B2). exists cs. split; [|exact B2]. eapply Forall2_impl; [|exact B1]. intros e k. apply node_ok_incl. apply incl_appl, incl_refl.
  - rewrite wsum_app, E. unfold wsum at 1. cbn [map snd]. rewrite sum_cons. unfold sum_list. cbn [fold_left t_shape]. lia.
  - exact F.
  - intros H. destruct (G H). split; apply in_or_app; auto.
  - intros H. apply in_or_app. auto.
  - intros m Hm. rewrite map_app in Hm. apply in_app_or in Hm as [Hm|[<-|[]]]; [|left; left; reflexivity]. rewrite app_nil_r. destruct (R m Hm) as [X|X]; [left; right; exact X|auto].
  - rewrite app_nil_r. intros e Ie Eo. eapply slice_of_incl; [apply incl_appl, incl_refl|apply incl_refl|auto].
Qed.
Lemma K_static D P v w r s n sh (Q : string -> bst -> Prop) : K D P v w r s -> n <> "" ->
  (forall s', K ((n, wt sh) :: D) (n :: P) v (w + volume sh) r s' -> Q n s') -> wpT (static n sh) Q s.
Proof. apply K_static_gen. Qed.
Lemma K_static8 D P v w r s n sh (Q : string -> bst -> Prop) : K D P v w r s -> n <> "" ->
  (forall s', K ((n, ct sh) :: D) (n :: P) v (w + volume sh) r s' -> Q n s') -> wpT (static8 n sh) Q s.
Proof. apply K_static_gen. Qed.
Lemma K_emit D P v w r s n op ins its sh k (Q : tref -> bst -> Prop) : K D P v w r s ->
  Forall2 (fun n t => In (n, t) D) ins its /\ option_map t_esize (hd_error its) = Some 4 /\ ((op = "MatMul" -> k_macs k = batch * seq_len * k_params k) /\
    (op = "SDPA" -> map t_shape its = [[batch; seq_len; q_width c]; [batch; seq_len; kv_width c]; [batch; seq_len; kv_width c]]) /\
    (op = "GDN" -> sh = [batch; seq_len; c_hidden c])) /\
    (op = "Slice" -> slice_of D (bounds s) (mkNode n op ins [n ++ ".output"]) (act sh)) ->
  (sane fl c -> typed op (map t_shape its) sh) ->
  op_profile fl c x op (its ++ more op) (static_of its) [act sh] = SOk (k_macs k, k_io k, k_static k) ->
  k_params k = vols (static_of its) ->
  incl P ins ->
  (forall s', K ((n ++ ".output", act sh) :: D) [] (kadd v k) w r s' -> Q (n ++ ".output", sh) s') -> wpT (emit n op ins sh) Q s.
Proof.
  intros J (FI & H4 & HM & HS) Ty Pf Pp HP C. unfold wp, emit, bind, tell, ret, sbind. cbn [fst snd]. apply C. destruct J as [A B E F G L R SL].
  set (e := ENode (mkNode n op ins [n ++ ".output"]) (act sh)).
  constructor; cbn [log rope_done pos_done bounds]; rewrite ?defs_snoc, ?lnodes_snoc, ?statics_snoc; cbn [e ev_defs ev_nodes ev_statics n_out map].
  - intros d [<-|Hd]; [split; [apply in_or_app; cbn; auto|apply wnil; discriminate]|]. destruct (A d Hd). split; [apply in_or_app; auto|assumption].
  - destruct B as (cs & B1 & B2). exists (cs ++ [k])%list. split.
    + apply Forall2_app; [eapply Forall2_impl; [|exact B1]; intros ? ?; apply node_ok_incl; apply incl_appl, incl_refl|].
      constructor; [|constructor]. exists its. cbn [fst snd n_in n_op n_out]. split; [|split; [exact Ty|split; [exact Pf|split; [exact Pp|split; [exact H4|split; [reflexivity|split; [eauto|exact HM]]]]]]].
      eapply Forall2_impl; [|exact FI]. cbn. intros a b I. destruct (A _ I). split; [apply in_or_app; auto|assumption].
    + rewrite ksum_app, B2. cbn [ksum fold_right]. rewrite kadd_0_r. reflexivity.
  - rewrite app_nil_r. exact E.
  - exact F.
  - intros H. destruct (G H). split; apply in_or_app; auto.
  - intros H. apply in_or_app. auto.
  - rewrite app_nil_r. intros m Hm. right. destruct (R m Hm) as [X|(e0 & X1 & X2)].
    + eexists. split; [apply in_or_app; right; left; reflexivity|]. cbn. auto.
    + exists e0. split; [apply in_or_app; auto|exact X2].
  - intros e0 Ie Eo. apply in_app_or in Ie as [Ie|[<-|[]]]; [eapply slice_of_incl; [apply incl_appl, incl_refl|apply incl_refl|auto]|].
    cbn [fst snd n_op] in Eo |- *. destruct (HS Eo) as (inp & off & w0 & m & X1 & X2 & X3 & X4 & X5). exists inp, off, w0, m. split; [exact X1|]. split; [|auto]. apply in_or_app. left. apply (A _ X2).
Qed.
Lemma K_know D P v w r s d : K D P v w r s -> In d (defs (log s)) -> fst d <> "" -> K (d :: D) P v w r s.
Proof. intros [A B C E F G R SL] H N. constructor; auto. intros y [<-|Hy]; auto. Qed.
Lemma K_rope_tables D v w r s (Q : unit -> bst -> Prop) : K D [] v w r s ->
  (forall s', K (("rope.cos", table) :: ("rope.sin", table) :: D) (if r then [] else ["rope.cos"; "rope.sin"]) v w true s' -> Q tt s') -> wpT (add_rope_tables c) Q s.
Proof.
  intros J C. unfold add_rope_tables, wp. pose proof (k_r _ _ _ _ _ _ J) as Hr. destruct (rope_done s) eqn:RD.
  - cbn. apply C. subst r. destruct (k_rope _ _ _ _ _ _ J RD) as [R1 R2]. apply K_know; [|exact R1|discriminate]. apply K_know; [exact J|exact R2|discriminate].
  - subst r. unfold static, bind, tell, ret, sbind. cbn [fst snd log rope_done pos_done]. apply C. fold table. destruct J as [A B E F G L R SL]. rewrite RD in E.
    constructor; cbn [log rope_done pos_done bounds]; rewrite ?defs_snoc, ?lnodes_snoc, ?statics_snoc; cbn [ev_defs ev_nodes ev_statics]; change (mkTensor STATIC [1; 1; getattr (c_max_pos c) 4096; getattr (c_rotary_dim c) (head_size c) / 2] 4) with table.
    + intros d [<-|[<-|Hd]]; [split; [rewrite !in_app_iff; cbn; auto|discriminate]|split; [rewrite !in_app_iff; cbn; auto|discriminate]|]. destruct (A d Hd). split; [rewrite !in_app_iff; auto|assumption].
    + rewrite !app_nil_r. destruct B as (cs & B1 & B2). exists cs. split; [|exact B2]. eapply Forall2_impl; [|exact B1]. intros e k. apply node_ok_incl. apply incl_appl, incl_appl, incl_refl.
    + rewrite !wsum_app, E. unfold wsum, rope_params, sum_list. cbn [map fold_left snd table wt t_shape volume]. ring.
    + reflexivity.
    + intros _. rewrite !in_app_iff. cbn. auto.
    + intros H. rewrite !in_app_iff. auto.
    + rewrite !app_nil_r. intros m Hm. rewrite !map_app, !in_app_iff in Hm. destruct Hm as [[Hm|[<-|[]]]|[<-|[]]]; [|left; cbn; auto|left; cbn; auto]. destruct (R m Hm) as [[]|X]. auto.
    + rewrite !app_nil_r. intros e Ie Eo. eapply slice_of_incl; [apply incl_appl, incl_appl, incl_refl|apply incl_refl|auto].
Qed.
Lemma K_input D P v w r s n t : K D P v w r s -> n <> "" ->
  K ((n, t) :: D) P v w r {| log := (log s ++ [EInput n t])%list; rope_done := rope_done s; pos_done := pos_done s; bounds := bounds s |}.
Proof.
  intros [A B E F G L R SL] N. constructor; cbn [log rope_done pos_done bounds]; rewrite ?defs_snoc, ?lnodes_snoc, ?statics_snoc; cbn [ev_defs ev_nodes ev_statics]; rewrite ?app_nil_r; auto.
  - intros d [<-|Hd]; [split; [rewrite !in_app_iff; cbn; auto|exact N]|]. destruct (A d Hd). split; [rewrite !in_app_iff; auto|assumption].
  - destruct B as (cs & B1 & B2). exists cs. split; [|exact B2]. eapply Forall2_impl; [|exact B1]. intros e k. apply node_ok_incl. apply incl_appl, incl_refl.
  - intros H. destruct (G H). rewrite !in_app_iff. auto.
  - intros H. rewrite in_app_iff. auto.
  - intros e Ie Eo. eapply slice_of_incl; [apply incl_appl, incl_refl|apply incl_refl|auto].
Qed.
Lemma K_position D P v w r s (Q : unit -> bst -> Prop) : K D P v w r s ->
  (forall s', K (("position", idt [batch; seq_len]) :: D) P v w r s' -> Q tt s') -> wpT (add_position batch seq_len) Q s.
Proof.
  intros J C. unfold add_position, wp. destruct (pos_done s) eqn:PD.
  - cbn. apply C. apply K_know; [exact J|exact (k_pos _ _ _ _ _ _ J PD)|discriminate].
  - unfold bind, tell, sbind. cbn [fst snd log rope_done pos_done]. apply C.
    pose proof (K_input D P v w r s "position" (idt [batch; seq_len]) J) as [A B E F G L R SL]; [discriminate|]. constructor; auto.
    intros _. cbn [log]. rewrite defs_snoc. apply in_or_app. cbn. auto.
Qed.
End PASS.
