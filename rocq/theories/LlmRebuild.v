(** A second [build_graph] on the same builder: related to the first run, event by event, except for what the builder remembers
    (llm.py:330, 352: the attributes [_rope_cos_sin_added], [_position_added]). *)
From Coq Require Import Permutation.
From Verif Require Import PyBase PyBaseFacts GraphModel ShapeModel FusionModel RegressModel LlmModel LlmSpec LlmBuild LlmCostProofs LlmRel.
Open Scope string_scope. Open Scope Z_scope.

Section REBUILD.
Context (b1 s1 b2 s2 : Z) (pre base : list ev) (r0 p0 : bool) (fl : flags) (c : config) (wm : dict (dict string)) (root : string).
Notation evR := (evR b1 s1 b2 s2).
Notation tr := (tr b1 s1 b2 s2).
(** what the first run adds and the second does not *)
Definition tables : list ev :=
  let sh := [1; 1; getattr (c_max_pos c) 4096; getattr (c_rotary_dim c) (head_size c) / 2] in
  [EStatic "rope.cos" (mkTensor STATIC sh 4); EStatic "rope.sin" (mkTensor STATIC sh 4)].
Definition skipped (rd pd : bool) : list ev := (if r0 && rd then tables else []) ++ (if p0 && pd then [EInput "position" (idt [b1; s1])] else []).
Record stR (x y : bst) : Prop := {
  r_log : exists l l', Permutation (log x) (skipped (rope_done x) (pos_done x) ++ l) /\ log y = (pre ++ l')%list /\ Forall2 evR l l' /\ incl base l';
  r_rope : rope_done y = r0 || rope_done x; r_pos : pos_done y = p0 || pos_done x }.
Definition rel {A} (m n : B A) (R : A -> A -> Prop) : Prop := forall x y, stR x y ->
  match m x, n y with SOk (a, x'), SOk (b, y') => R a b /\ stR x' y' | SRaise e, SRaise f => e = f | _, _ => False end.

Lemma rel_bind {A C} (m n : B A) (f g : A -> B C) R Q : rel m n R -> (forall a b, R a b -> rel (f a) (g b) Q) -> rel (bind m f) (bind n g) Q.
Proof.
  intros H K x y S. specialize (H x y S). unfold bind. destruct (m x) as [[a x']|e], (n y) as [[b y']|e']; cbn [sbind fst snd]; try contradiction; [|exact H].
  destruct H as [HR HS]. exact (K a b HR x' y' HS).
Qed.
Lemma rel_ret {A} (a b : A) (R : A -> A -> Prop) : R a b -> rel (ret a) (ret b) R.
Proof. intros H x y S. cbn. auto. Qed.
Lemma rel_lift {A} (r : sres A) : rel (lift r) (lift r) eq.
Proof. intros x y S. unfold lift. destruct r; cbn [sbind]; auto. Qed.
Lemma rel_raise {A} e (R : A -> A -> Prop) : rel (lift (SRaise e)) (lift (SRaise e)) R.
Proof. intros x y S. reflexivity. Qed.
Lemma rel_weaken {A} (m n : B A) (R Q : A -> A -> Prop) : rel m n R -> (forall a b, R a b -> Q a b) -> rel m n Q.
Proof. intros H I x y S. specialize (H x y S). destruct (m x) as [[? ?]|], (n y) as [[? ?]|]; auto. destruct H. auto. Qed.
Lemma tell_rel e f : evR e f -> rel (tell e) (tell f) (fun _ _ => True).
Proof.
  intros E x y [(l & l' & L1 & L2 & L3 & L4) R P]. cbn. split; [exact Logic.I|]. constructor; cbn [log rope_done pos_done]; auto.
  exists (l ++ [e])%list, (l' ++ [f])%list. split; [|split].
  - rewrite app_assoc. apply Permutation_app_tail. exact L1.
  - rewrite L2, app_assoc. reflexivity.
  - split; [apply Forall2_app; [exact L3|repeat constructor; exact E]|apply incl_appl; exact L4].
Qed.
Lemma note_rel n a b : rel (note n a b) (note n a b) (fun _ _ => True).
Proof. intros x y [L R P]. cbn. split; [exact Logic.I|]. constructor; assumption. Qed.
Lemma static_rel n sh : rel (static n sh) (static n sh) (fun a b => a = n /\ b = n).
Proof. unfold static. eapply rel_bind; [apply tell_rel; constructor|]. intros _ _ _. apply rel_ret. auto. Qed.
Lemma emit_rel n op ins d : rel (emit n op ins [b1; s1; d]) (emit n op ins [b2; s2; d]) (tr d).
Proof. unfold emit. eapply rel_bind; [apply tell_rel; constructor|]. intros _ _ _. apply rel_ret. eexists. eauto. Qed.

Ltac st := eapply rel_bind; [apply static_rel|intros ? ? [-> ->]].
Ltac li := eapply rel_bind; [apply rel_lift|intros ? ? <-].
Ltac su L := eapply rel_bind; [apply L|intros ? ? (? & -> & ->)].

Lemma static8_rel n sh : rel (static8 n sh) (static8 n sh) (fun a b => a = n /\ b = n).
Proof. unfold static8. eapply rel_bind; [apply tell_rel; constructor|]. intros _ _ _. apply rel_ret. auto. Qed.
Ltac st8 := eapply rel_bind; [apply static8_rel|intros ? ? [-> ->]].
Lemma slice_rel n w off size b : rel (add_slice (n, [b1; s1; w]) off size b) (add_slice (n, [b2; s2; w]) off size b) (tr size).
Proof.
  unfold add_slice. st8. st8. st8. st8. eapply rel_bind; [apply note_rel|intros _ _ _]. cbn [snd fst].
  eapply rel_bind with (R := fun x y => x = [b1; s1; size] /\ y = [b2; s2; size]); [intros x y S; cbn; auto|]. intros ? ? [-> ->]. apply emit_rel.
Qed.
Lemma embedding_rel n insize b : rel (add_embedding c b1 s1 (n, [b1; s1]) insize b) (add_embedding c b2 s2 (n, [b2; s2]) insize b) (tr (c_hidden c)).
Proof. unfold add_embedding. st. apply emit_rel. Qed.
Lemma layernorm_rel n d b : rel (add_layernorm fl c (n, [b1; s1; d]) b) (add_layernorm fl c (n, [b2; s2; d]) b) (tr d).
Proof.
  unfold add_layernorm. destruct (negb (c_rms c) && negb (c_lneps c)); [apply rel_raise|]. li. destruct a; [|apply emit_rel]. st. li. destruct a; [st|]; apply emit_rel.
Qed.
Lemma act_rel n d a b : rel (add_act (n, [b1; s1; d]) a b) (add_act (n, [b2; s2; d]) a b) (tr d).
Proof. unfold add_act. li. apply emit_rel. Qed.
Lemma rope_tables_rel : rel (add_rope_tables c) (add_rope_tables c) (fun _ _ => True).
Proof.
  intros x y [(l & l' & L1 & L2 & L3 & L4) R P]. unfold add_rope_tables. rewrite R. destruct (rope_done x) eqn:X.
  - rewrite orb_true_r. split; [exact Logic.I|]. constructor; [exists l, l'; rewrite X; auto|rewrite R, X; reflexivity|exact P].
  - rewrite orb_false_r. destruct r0 eqn:E0.
    + unfold static, bind, tell, ret. cbn [sbind fst snd log rope_done pos_done bounds]. split; [exact Logic.I|]. constructor; cbn [log rope_done pos_done]; auto.
      * exists l, l'. split; [|auto]. unfold skipped in *. rewrite E0 in *. cbn [andb app] in *. rewrite <- app_assoc. change ([_] ++ [_])%list with tables.
        rewrite Permutation_app_comm. rewrite <- app_assoc. apply Permutation_app_head. exact L1.
      * rewrite E0, R. reflexivity.
    + unfold static, bind, tell, ret. cbn [sbind fst snd log rope_done pos_done bounds]. split; [exact Logic.I|]. constructor; cbn [log rope_done pos_done]; auto.
      exists (l ++ tables)%list, (l' ++ tables)%list. split; [|split].
      * unfold skipped in *. rewrite E0 in *. cbn [andb app] in *. rewrite <- !app_assoc. change ([_] ++ [_])%list with tables. rewrite app_assoc. apply Permutation_app_tail. exact L1.
      * rewrite L2, <- !app_assoc. reflexivity.
      * split; [apply Forall2_app; [exact L3|repeat constructor]|apply incl_appl; exact L4].
      * symmetry. apply orb_true_r.
Qed.
Lemma position_rel : rel (add_position b1 s1) (add_position b2 s2) (fun _ _ => True).
Proof.
  intros x y [(l & l' & L1 & L2 & L3 & L4) R P]. unfold add_position. rewrite P. destruct (pos_done x) eqn:X.
  - rewrite orb_true_r. split; [exact Logic.I|]. constructor; [exists l, l'; rewrite X; auto|exact R|rewrite P, X; reflexivity].
  - rewrite orb_false_r. destruct p0 eqn:E0.
    + unfold bind, tell. cbn [sbind fst snd log rope_done pos_done bounds]. split; [exact Logic.I|]. constructor; cbn [log rope_done pos_done]; auto.
      * exists l, l'. split; [|auto]. unfold skipped in *. rewrite E0 in *. cbn [andb app] in *. rewrite app_nil_r in L1. rewrite <- app_assoc.
        rewrite L1. rewrite <- app_assoc. apply Permutation_app_head. apply Permutation_app_comm.
      * rewrite E0, P. reflexivity.
    + unfold bind, tell. cbn [sbind fst snd log rope_done pos_done bounds]. split; [exact Logic.I|]. constructor; cbn [log rope_done pos_done]; auto.
      exists (l ++ [EInput "position" (idt [b1; s1])])%list, (l' ++ [EInput "position" (idt [b2; s2])])%list. split; [|split].
      * unfold skipped in *. rewrite E0 in *. cbn [andb app] in *. rewrite app_assoc. apply Permutation_app_tail. exact L1.
      * rewrite L2, <- !app_assoc. reflexivity.
      * split; [apply Forall2_app; [exact L3|repeat constructor]|apply incl_appl; exact L4].
      * symmetry. apply orb_true_r.
Qed.
Lemma rope_rel n d b : rel (add_rope c b1 s1 (n, [b1; s1; d]) b) (add_rope c b2 s2 (n, [b2; s2; d]) b) (tr d).
Proof. unfold add_rope. eapply rel_bind; [apply rope_tables_rel|intros _ _ _]. eapply rel_bind; [apply position_rel|intros _ _ _]. apply emit_rel. Qed.
Lemma eltop_rel n m d op b : rel (add_eltop (n, [b1; s1; d]) (m, [b1; s1; d]) op b) (add_eltop (n, [b2; s2; d]) (m, [b2; s2; d]) op b) (tr d).
Proof. unfold add_eltop. cbn [snd]. rewrite !max_same. eapply rel_bind with (R := fun x y => x = [b1; s1; d] /\ y = [b2; s2; d]); [intros x y S; cbn; auto|]. intros ? ? [-> ->]. apply emit_rel. Qed.
Lemma mm_rel n d i o bias b : rel (add_mm b1 s1 (n, [b1; s1; d]) i o bias b) (add_mm b2 s2 (n, [b2; s2; d]) i o bias b) (tr o).
Proof. unfold add_mm. st. destruct bias; [st|]; apply emit_rel. Qed.
Lemma qk_norm_rel n d b : rel (add_qk_norm c (n, [b1; s1; d]) b) (add_qk_norm c (n, [b2; s2; d]) b) (tr d).
Proof. unfold add_qk_norm. destruct (c_rms c); [|apply rel_raise]. st. apply emit_rel. Qed.
Definition tr3 (x y : tref * tref * tref) : Prop := tr (q_width c) (fst (fst x)) (fst (fst y)) /\ tr (kv_width c) (snd (fst x)) (snd (fst y)) /\ tr (kv_width c) (snd x) (snd y).
Ltac t3 := apply rel_ret; repeat split; eexists; split; reflexivity.
Lemma qkv_rel p n d : rel (add_qkv fl c b1 s1 wm p (n, [b1; s1; d])) (add_qkv fl c b2 s2 wm p (n, [b2; s2; d])) tr3.
Proof.
  unfold add_qkv. li. li. destruct a0; li.
  - su mm_rel. su slice_rel. su slice_rel. su slice_rel. t3.
  - li. li. su mm_rel. su mm_rel. su mm_rel. t3.
Qed.
Definition tr4 (x y : tref * tref * tref * tref) : Prop := tr3 (fst x) (fst y) /\ tr (q_width c) (snd x) (snd y).
Lemma qkv_gated_rel p n d : rel (add_qkv_gated fl c b1 s1 wm p (n, [b1; s1; d])) (add_qkv_gated fl c b2 s2 wm p (n, [b2; s2; d])) tr4.
Proof. unfold add_qkv_gated. li. li. li. li. su mm_rel. su mm_rel. su mm_rel. su slice_rel. su slice_rel. t3. Qed.
Lemma mlp_rel p n d : rel (add_mlp fl c b1 s1 wm p (n, [b1; s1; d])) (add_mlp fl c b2 s2 wm p (n, [b2; s2; d])) (tr (c_hidden c)).
Proof.
  unfold add_mlp. li. li. li. li. li. destruct (_ || _).
  - li. su mm_rel. li. su emit_rel. apply mm_rel.
  - su mm_rel. destruct a0.
    + su mm_rel. su act_rel. su eltop_rel. apply mm_rel.
    + su act_rel. apply mm_rel.
Qed.
Lemma moe_rel p n d : rel (add_moe fl c b1 s1 p (n, [b1; s1; d])) (add_moe fl c b2 s2 p (n, [b2; s2; d])) (tr (c_hidden c)).
Proof.
  unfold add_moe. cbn zeta. st. st. st. st. destruct (flag_or fl "no_shared_expert" false); [apply emit_rel|]. st. st. st. destruct (flag_or fl "no_shared_gate" false); [apply emit_rel|]. st. apply emit_rel.
Qed.
Lemma mla_rel p n d : rel (add_mla c b1 s1 p (n, [b1; s1; d])) (add_mla c b2 s2 p (n, [b2; s2; d])) (tr (c_hidden c)).
Proof. unfold add_mla. cbn zeta. st. st. st. st. st. st. st. apply emit_rel. Qed.
Lemma gdn_rel p n d : rel (add_gdn fl c b1 s1 wm p (n, [b1; s1; d])) (add_gdn fl c b2 s2 wm p (n, [b2; s2; d])) (tr (c_hidden c)).
Proof. unfold add_gdn. cbn zeta. li. li. li. su mm_rel. su mm_rel. su mm_rel. su qk_norm_rel. su qk_norm_rel. apply emit_rel. Qed.
Definition tro (x y : option tref) : Prop := match x, y with Some a, Some b => tr (q_width c) a b | None, None => True | _, _ => False end.
Definition tr2 (x y : tref * tref) : Prop := tr (q_width c) (fst x) (fst y) /\ tr (kv_width c) (snd x) (snd y).
Ltac open3 := match goal with H : tr3 _ _ |- _ => destruct H as ((? & -> & ->) & (? & -> & ->) & (? & -> & ->)) end.
Lemma attention_rel p n d : rel (add_attention fl c b1 s1 wm p (n, [b1; s1; d])) (add_attention fl c b2 s2 wm p (n, [b2; s2; d])) (tr (c_hidden c)).
Proof.
  unfold add_attention.
  eapply rel_bind with (R := fun x y => tr3 (fst x) (fst y) /\ tro (snd x) (snd y)).
  { destruct (flag_or fl "qkv_gated" false).
    - eapply rel_bind; [apply qkv_gated_rel|]. intros [[[q k] v] g] [[[q' k'] v'] g'] [A C]. apply rel_ret. split; [exact A|exact C].
    - eapply rel_bind; [apply qkv_rel|]. intros [[q k] v] [[q' k'] v'] A. apply rel_ret. split; [exact A|exact Logic.I]. }
  intros [[[q k] v] g] [[[q' k'] v'] g'] [((? & Eq & Eq') & (? & Ek & Ek') & (? & Ev & Ev')) G]. cbn [fst snd] in *. subst.
  eapply rel_bind with (R := tr2).
  { destruct (flag_or fl "qk_norm" false); [|apply rel_ret; split; eexists; split; reflexivity]. su qk_norm_rel. su qk_norm_rel. apply rel_ret. split; eexists; split; reflexivity. }
  intros [q k] [q' k'] [(? & Eq & Eq') (? & Ek & Ek')]. cbn [fst snd] in *. subst.
  eapply rel_bind with (R := tr2).
  { destruct (flag_or fl "qk_rope" true); [|apply rel_ret; split; eexists; split; reflexivity]. su rope_rel. su rope_rel. apply rel_ret. split; eexists; split; reflexivity. }
  intros [q k] [q' k'] [(? & Eq & Eq') (? & Ek & Ek')]. cbn [fst snd] in *. subst.
  unfold add_mha. cbn [map fst]. su emit_rel.
  eapply rel_bind with (R := tr (q_width c)).
  { destruct g as [g|], g' as [g'|]; cbn in G; try contradiction; [|apply rel_ret; eexists; eauto]. destruct G as (? & -> & ->). su act_rel. apply eltop_rel. }
  intros ? ? (? & -> & ->). li. li. apply mm_rel.
Qed.
Lemma optional_rel key sec p n d : rel (optional_norm fl c wm key sec p (n, [b1; s1; d])) (optional_norm fl c wm key sec p (n, [b2; s2; d])) (tr d).
Proof. unfold optional_norm. destruct (flag_or fl key false); [li; apply layernorm_rel|apply rel_ret; eexists; eauto]. Qed.
Lemma layer_rel i n : rel (add_layer fl c b1 s1 wm root i (n, [b1; s1; c_hidden c])) (add_layer fl c b2 s2 wm root i (n, [b2; s2; c_hidden c])) (tr (c_hidden c)).
Proof.
  unfold add_layer. cbn zeta. li. su layernorm_rel.
  eapply rel_bind with (R := tr (c_hidden c)). { destruct (is_gdn c i); [apply gdn_rel|]. destruct (flag_or fl "is_mla" false); [apply mla_rel|apply attention_rel]. }
  intros ? ? (? & -> & ->). su optional_rel. su eltop_rel. li. su layernorm_rel.
  eapply rel_bind with (R := tr (c_hidden c)). { destruct (flag_or fl "is_moe" false); [apply moe_rel|apply mlp_rel]. }
  intros ? ? (? & -> & ->). su optional_rel. apply eltop_rel.
Qed.
Lemma layers_rel k : forall i n, rel (add_layers fl c b1 s1 wm root i k (n, [b1; s1; c_hidden c])) (add_layers fl c b2 s2 wm root i k (n, [b2; s2; c_hidden c])) (tr (c_hidden c)).
Proof. induction k as [|k IH]; intros i n; cbn [add_layers]; [apply rel_ret; eexists; eauto|]. su layer_rel. apply IH. Qed.
(** [build_graph] after its first event *)
Definition build_rest (b s : Z) : B string :=
  do ne <- lift (wkey wm "embedding" "embed");
  do cur <- add_embedding c b s ("ids", [b; s]) (c_vocab c) ne;
  do cur <- (if flag_or fl "pos_embedding" false then
               do _ <- tell (EInput "position" (mkTensor DYNAMIC [b; s] 8));
               do np <- lift (wkey wm "embedding" "pos");
               do po <- add_embedding c b s ("position", [b; s]) (c_n_positions c) np;
               add_eltop po cur "Add" "embedding_pos_add"
             else ret cur);
  do cur <- add_layers fl c b s wm root 0 (Z.to_nat (c_layers c)) cur;
  do cur <- add_lm_head fl c b s wm cur;
  do cur <- (if c_final_cap c then add_softcapping cur "models.final_logit_softcapping" else ret cur);
  ret (fst cur).
Lemma build_first b s x : build_graph fl c b s wm root x =
  build_rest b s {| log := (log x ++ [EInput "ids" (idt [b; s])])%list; rope_done := rope_done x; pos_done := pos_done x; bounds := bounds x |}.
Proof. reflexivity. Qed.
Lemma rest_rel : rel (build_rest b1 s1) (build_rest b2 s2) eq.
Proof.
  unfold build_rest. li. su embedding_rel.
  eapply rel_bind with (R := tr (c_hidden c)).
  { destruct (flag_or fl "pos_embedding" false); [|apply rel_ret; eexists; eauto]. eapply rel_bind; [apply tell_rel; constructor|intros _ _ _]. li. su embedding_rel. apply eltop_rel. }
  intros ? ? (? & -> & ->). su layers_rel. unfold add_lm_head.
  eapply rel_bind with (R := tr (c_vocab c)). { li. su layernorm_rel. li. li. apply mm_rel. }
  intros ? ? (? & -> & ->).
  eapply rel_bind with (R := tr (c_vocab c)). { destruct (c_final_cap c); [|apply rel_ret; eexists; eauto]. unfold add_softcapping. st. apply emit_rel. }
  intros ? ? (? & -> & ->). apply rel_ret. reflexivity.
Qed.
End REBUILD.
