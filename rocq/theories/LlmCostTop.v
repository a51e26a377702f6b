(** Layers and the whole model: shapes, weights and costs. *)
From Coq Require Import Znumtheory.
From Verif Require Import PyBase PyBaseFacts GraphModel ShapeModel FusionModel RegressModel ProfileModel ProfileProofs LlmModel LlmSpec LlmBuild LlmCost LlmCostSpec LlmCostProofs LlmCostOps.
Open Scope string_scope. Open Scope Z_scope.

Section TOP.
Context (fl : flags) (c : config) (x : extra) (batch seq_len : Z) (wm : dict (dict string)) (root : string).
Context (cache : list tensor) (past : Z).
Context (HC : cache = [] /\ past = 0 \/
              exists np kb kl ctx kv, cache = [np; act [kb; kl; ctx; kv]] /\ t_kind np = DYNAMIC /\ past = x_past x /\ past + seq_len <= ctx).
Notation K := (K fl c x batch seq_len cache).
Notation wpT := (wp True).
Notation B3 d := [batch; seq_len; d].
Notation qw := (q_width c).
Notation kw := (kv_width c).
Notation hid := (c_hidden c).
Ltac inD := first [assumption | left; reflexivity | right; inD].
Ltac sub H := apply K_bind; eapply H; [eassumption|inD|..].
Ltac wk := apply K_bind; apply K_lift; let n := fresh "nm" in intros n _.
Ltac inc := let y := fresh in let Hy := fresh in intros y Hy; cbn [In app] in *; tauto.
Ltac fin := eapply K_weaken; [eassumption|inc|apply incl_refl| |].
Ltac keq := unfold kwhen, ksum; cbn [fold_right]; rewrite ?kadd_0_r, ?kadd_0_l, ?kadd_assoc; reflexivity.

Definition gate_list (g : option string) : list (string * tensor) := match g with Some g => [(g, act (B3 qw))] | None => [] end.
Definition qkv_c : cost :=
  let bi := flag_or fl "qkv_bias" false in
  if flag_or fl "qkv_gated" false then ksum [linear_cost batch seq_len hid (2 * qw) bi; linear_cost batch seq_len hid kw bi; linear_cost batch seq_len hid kw bi; slice_cost batch seq_len qw; slice_cost batch seq_len qw]
  else if flag_or fl "fuse_qkv" false then ksum [linear_cost batch seq_len hid (qw + 2 * kw) bi; slice_cost batch seq_len qw; slice_cost batch seq_len kw; slice_cost batch seq_len kw]
  else ksum [linear_cost batch seq_len hid qw bi; linear_cost batch seq_len hid kw bi; linear_cost batch seq_len hid kw bi].
Definition qkv_p : Z :=
  let bi := flag_or fl "qkv_bias" false in
  if flag_or fl "qkv_gated" false then linear_params hid (2 * qw) bi + 2 * linear_params hid kw bi + 2 * 4
  else if flag_or fl "fuse_qkv" false then linear_params hid (qw + 2 * kw) bi + 3 * 4
  else linear_params hid qw bi + 2 * linear_params hid kw bi.
Lemma block_qkv D v w r s nm p : K D [] v w r s -> In (nm, act (B3 hid)) D ->
  wpT (if flag_or fl "qkv_gated" false
              then do x <- add_qkv_gated fl c batch seq_len wm p (nm, B3 hid); ret (let '(q, k, v, g) := x in (q, k, v, Some g))
              else do x <- add_qkv fl c batch seq_len wm p (nm, B3 hid); ret (let '(q, k, v) := x in (q, k, v, None)))
    (fun a s' => exists q k vv g, a = ((q, B3 qw), (k, B3 kw), (vv, B3 kw), option_map (fun g => (g, B3 qw)) g) /\
       (flag_or fl "qkv_gated" false = match g with Some _ => true | None => false end) /\
       K ((q, act (B3 qw)) :: (k, act (B3 kw)) :: (vv, act (B3 kw)) :: gate_list g ++ D) [] (kadd v qkv_c) (w + qkv_p) r s') s.
Proof.
  intros J Hi. unfold qkv_c, qkv_p. destruct (flag_or fl "qkv_gated" false) eqn:G.
  - apply K_bind. eapply qkv_gated_K; [eassumption|exact Hi|]. intros s1 q k vv g J1. apply wp_ret. exists q, k, vv, (Some g). split; [reflexivity|]. split; [reflexivity|]. exact J1.
  - apply K_bind. eapply qkv_K; [eassumption|exact Hi|exact G|]. intros s1 q k vv J1. apply wp_ret. exists q, k, vv, None. split; [reflexivity|]. split; [reflexivity|]. exact J1.
Qed.
Lemma head_div n : (head_size c | n * head_size c).
Proof. apply Z.divide_factor_r. Qed.
Lemma block_norm D v w r s q k p : K D [] v w r s -> In (q, act (B3 qw)) D -> In (k, act (B3 kw)) D ->
  wpT (if flag_or fl "qk_norm" false
            then do q <- add_qk_norm c (q, B3 qw) (p ++ "self_attn.q_norm"); do k <- add_qk_norm c (k, B3 kw) (p ++ "self_attn.k_norm"); ret (q, k)
            else ret ((q, B3 qw), (k, B3 kw)))
    (fun a s' => exists q' k', a = ((q', B3 qw), (k', B3 kw)) /\ K ((q', act (B3 qw)) :: (k', act (B3 kw)) :: D) []
       (kadd v (kwhen (flag_or fl "qk_norm" false) [head_norm_cost c batch seq_len qw; head_norm_cost c batch seq_len kw]))
       (w + if flag_or fl "qk_norm" false then 2 * head_size c else 0) r s') s.
Proof.
  intros J Hq Hk. destruct (flag_or fl "qk_norm" false).
  - sub qk_norm_K; [intros _; apply head_div|]. intros s1 J1. sub qk_norm_K; [intros _; apply head_div|]. intros s2 J2. apply wp_ret.
    eexists. eexists. split; [reflexivity|]. fin; [keq|ring].
  - apply wp_ret. exists q, k. split; [reflexivity|]. eapply K_weaken; [exact J| |apply incl_refl|keq|ring]. intros y Hy. cbn [In] in Hy. destruct Hy as [<-|[<-|Hy]]; assumption.
Qed.
Lemma block_rope D v w r s q k p : K D [] v w r s -> In (q, act (B3 qw)) D -> In (k, act (B3 kw)) D ->
  wpT (if flag_or fl "qk_rope" true
            then do q <- add_rope c batch seq_len (q, B3 qw) (p ++ "rope_q"); do k <- add_rope c batch seq_len (k, B3 kw) (p ++ "rope_k"); ret (q, k)
            else ret ((q, B3 qw), (k, B3 kw)))
    (fun a s' => exists q' k', a = ((q', B3 qw), (k', B3 kw)) /\ K ((q', act (B3 qw)) :: (k', act (B3 kw)) :: D) []
       (kadd v (kwhen (flag_or fl "qk_rope" true) [rope_cost c batch seq_len qw; rope_cost c batch seq_len kw])) w (r || flag_or fl "qk_rope" true) s') s.
Proof.
  intros J Hq Hk. destruct (flag_or fl "qk_rope" true).
  - sub rope_K. intros s1 J1. sub rope_K. intros s2 J2. apply wp_ret. rewrite orb_true_r.
    eexists. eexists. split; [reflexivity|]. fin; [keq|reflexivity].
  - apply wp_ret. exists q, k. split; [reflexivity|]. rewrite orb_false_r. eapply K_weaken; [exact J| |apply incl_refl|keq|reflexivity]. intros y Hy. cbn [In] in Hy. destruct Hy as [<-|[<-|Hy]]; assumption.
Qed.
Lemma block_gate D v w r s n g p : K D [] v w r s -> In (n, act (B3 qw)) D -> (forall gn, g = Some gn -> In (gn, act (B3 qw)) D) ->
  flag_or fl "qkv_gated" false = match g with Some _ => true | None => false end ->
  wpT (match option_map (fun g => (g, B3 qw)) g with
             | Some g => do g <- add_act g "silu" (p ++ "attn_gate.act"); add_eltop (n, B3 qw) g "Mul" (p ++ "attn.gated")
             | None => ret (n, B3 qw)
             end)
    (fun a s' => exists n', a = (n', B3 qw) /\ K ((n', act (B3 qw)) :: D) []
       (kadd v (kwhen (flag_or fl "qkv_gated" false) [eltwise_cost batch seq_len qw 33; eltwise_cost batch seq_len qw 1])) w r s') s.
Proof.
  intros J Hn Hg E. rewrite E. destruct g as [g|]; cbn [option_map].
  - specialize (Hg g eq_refl). sub act_K; [discriminate|]. intros s1 J1. eapply eltop_K; [eassumption|inD|inD|auto|]. intros s2 J2. eexists. split; [reflexivity|]. fin; [keq|reflexivity].
  - apply wp_ret. exists n. split; [reflexivity|]. eapply K_weaken; [exact J| |apply incl_refl|keq|reflexivity]. intros y Hy. cbn [In] in Hy. destruct Hy as [<-|Hy]; assumption.
Qed.
Lemma attention_K D v w r s nm p (Q : tref -> bst -> Prop) : K D [] v w r s -> In (nm, act (B3 hid)) D ->
  (forall s' n, K ((n, act (B3 hid)) :: D) [] (kadd v (attention_cost fl c batch seq_len past)) (w + attention_params fl c) (r || flag_or fl "qk_rope" true) s' -> Q (n, B3 hid) s') ->
  wpT (add_attention fl c batch seq_len wm p (nm, B3 hid)) Q s.
Proof.
  intros J Hi C. unfold add_attention. apply K_bind. eapply wp_mono; [|eapply block_qkv; [exact J|exact Hi]].
  cbn beta. intros a s1 (q & k & vv & g & -> & G & J1). cbn iota beta. apply K_bind. eapply wp_mono; [|eapply block_norm; [exact J1|inD|inD]].
  cbn beta. intros a s2 (q2 & k2 & -> & J2). cbn iota beta. apply K_bind. eapply wp_mono; [|eapply block_rope; [exact J2|inD|inD]].
  cbn beta. intros a s3 (q3 & k3 & -> & J3). cbn iota beta. apply K_bind. eapply mha_K; [exact HC|exact J3|inD|inD|inD|]. intros s4 J4.
  apply K_bind. eapply wp_mono; [|eapply block_gate; [exact J4|inD| |exact G]].
  2: { intros gn ->. cbn [gate_list]. inD. }
  cbn beta. intros a s5 (n5 & -> & J5). apply K_bind. apply K_lift. intros ob Eo. apply flag_yes in Eo. wk. eapply mm_K; [exact J5|inD|]. intros s6 J6. apply C.
  eapply K_weaken; [exact J6| |apply incl_refl| |].
  - intros y Hy. cbn [In] in *. destruct Hy as [Hy|Hy]; [auto|]. repeat right. apply in_or_app. auto.
  - unfold attention_cost. fold (q_width c). change (q_heads_width c) with qw. change (kv_heads_width c) with kw. rewrite Eo. fold qkv_c.
    transitivity (kadd v (ksum [qkv_c; kwhen (flag_or fl "qk_norm" false) [head_norm_cost c batch seq_len qw; head_norm_cost c batch seq_len kw];
      kwhen (flag_or fl "qk_rope" true) [rope_cost c batch seq_len qw; rope_cost c batch seq_len kw]; attn_core_cost c batch seq_len past;
      kwhen (flag_or fl "qkv_gated" false) [eltwise_cost batch seq_len qw 33; eltwise_cost batch seq_len qw 1]; linear_cost batch seq_len qw hid ob])); [reflexivity|].
    unfold ksum at 1. cbn [fold_right]. rewrite kadd_0_r, !kadd_assoc. reflexivity.
  - unfold attention_params. change (q_heads_width c) with qw. change (kv_heads_width c) with kw. rewrite Eo. fold qkv_p.
    match goal with |- _ = ?rhs => transitivity (w + (qkv_p + (if flag_or fl "qk_norm" false then 2 * head_size c else 0) + linear_params qw hid ob)); [reflexivity|ring] end.
Qed.
Lemma post_norm_K D v w r s nm key sec p (Q : tref -> bst -> Prop) : K D [] v w r s -> In (nm, act (B3 hid)) D ->
  (forall s' n, K ((n, act (B3 hid)) :: D) [] (kadd v (kwhen (flag_or fl key false) [norm_cost fl c batch seq_len])) (w + b2z (flag_or fl key false) * norm_params fl c) r s' -> Q (n, B3 hid) s') ->
  wpT (optional_norm fl c wm key sec p (nm, B3 hid)) Q s.
Proof.
  intros J Hi C. unfold optional_norm. destruct (flag_or fl key false); cbn [b2z] in C.
  - wk. eapply layernorm_K; [exact J|exact Hi|]. intros s1 J1. apply C. fin; [keq|ring].
  - apply wp_ret. apply C. eapply K_weaken; [exact J| |apply incl_refl|keq|ring]. intros y Hy. cbn [In] in Hy. destruct Hy as [<-|Hy]; assumption.
Qed.
Lemma layer_K D v w r s nm i (Q : tref -> bst -> Prop) : K D [] v w r s -> In (nm, act (B3 hid)) D ->
  (forall s' n, K ((n, act (B3 hid)) :: D) [] (kadd v (layer_cost fl c x batch seq_len past i)) (w + layer_params fl c i) (r || rotates fl c i) s' -> Q (n, B3 hid) s') ->
  wpT (add_layer fl c batch seq_len wm root i (nm, B3 hid)) Q s.
Proof.
  intros J Hi C. unfold add_layer. wk. sub layernorm_K. intros s1 J1.
  set (p := layer_prefix root i) in *.
  set (ac := if is_gdn c i then gdn_cost fl c x batch seq_len else if flag_or fl "is_mla" false then mla_cost c x batch seq_len else attention_cost fl c batch seq_len past).
  set (ap := if is_gdn c i then gdn_params fl c else if flag_or fl "is_mla" false then mla_params c else attention_params fl c).
  set (mc := if flag_or fl "is_moe" false then moe_cost fl c x batch seq_len else mlp_cost fl c batch seq_len).
  set (mp := if flag_or fl "is_moe" false then moe_params fl c else mlp_params fl c).
  apply K_bind. eapply wp_mono with (Q := fun a s' => exists n, a = (n, B3 hid) /\
    K ((n, act (B3 hid)) :: ((p ++ nm0) ++ ".output", act (B3 hid)) :: D) [] (kadd (kadd v (norm_cost fl c batch seq_len)) ac) (w + norm_params fl c + ap) (r || rotates fl c i) s').
  2: { subst ac ap. unfold rotates. destruct (is_gdn c i) eqn:GD.
       - cbn [negb andb]. rewrite orb_false_r. eapply gdn_K; [eauto|exact J1|inD|]. intros s2 n J2. exists n. auto.
       - destruct (flag_or fl "is_mla" false) eqn:ML; cbn [negb andb].
         + rewrite orb_false_r. eapply mla_K; [exact ML|exact J1|inD|]. intros s2 n J2. exists n. auto.
         + eapply attention_K; [exact J1|inD|]. intros s2 n J2. exists n. auto. }
  cbn beta. intros a s2 (n2 & -> & J2). apply K_bind. eapply post_norm_K; [exact J2|inD|]. intros s3 n3 J3.
  apply K_bind. eapply eltop_K; [exact J3|inD|inD|auto|]. intros s4 J4. wk. sub layernorm_K. intros s5 J5.
  apply K_bind. eapply wp_mono with (Q := fun a s' => exists n, a = (n, B3 hid) /\ K ((n, act (B3 hid)) :: ((p ++ nm1) ++ ".output", act (B3 hid)) :: ((p ++ "attention_add") ++ ".output", act (B3 hid)) :: D) []
    (kadd (kadd (kadd (kadd (kadd (kadd v (norm_cost fl c batch seq_len)) ac) (kwhen (flag_or fl "post_attn_norm" false) [norm_cost fl c batch seq_len])) (eltwise_cost batch seq_len hid 1)) (norm_cost fl c batch seq_len)) mc)
    (w + norm_params fl c + ap + b2z (flag_or fl "post_attn_norm" false) * norm_params fl c + norm_params fl c + mp) (r || rotates fl c i) s').
  2: { subst mc mp. destruct (flag_or fl "is_moe" false) eqn:MO.
       - eapply moe_K; [exact J5|inD|]. intros s6 n J6. exists n. split; [reflexivity|]. eapply K_weaken; [exact J6| |apply incl_refl|reflexivity|ring]. inc.
       - eapply mlp_K; [exact MO|exact J5|inD|]. intros s6 n J6. exists n. split; [reflexivity|]. eapply K_weaken; [exact J6| |apply incl_refl|reflexivity|ring]. inc. }
  cbn beta. intros a s6 (n6 & -> & J6). apply K_bind. eapply post_norm_K; [exact J6|inD|]. intros s7 n7 J7.
  eapply eltop_K; [exact J7|inD|inD|auto|]. intros s8 J8. apply C. eapply K_weaken; [exact J8|inc|apply incl_refl| |].
  - unfold layer_cost. fold ac. fold mc. unfold ksum at 1. cbn [fold_right]. rewrite kadd_0_r, !kadd_assoc. reflexivity.
  - unfold layer_params. fold ap. fold mp. ring.
Qed.
Lemma layers_K n : forall D v w r s nm i (Q : tref -> bst -> Prop), K D [] v w r s -> In (nm, act (B3 hid)) D ->
  (forall s' m, K ((m, act (B3 hid)) :: D) [] (kadd v (ksum (map (layer_cost fl c x batch seq_len past) (seq i n)))) (w + sum_list (map (layer_params fl c) (seq i n))) (r || existsb (rotates fl c) (seq i n)) s' -> Q (m, B3 hid) s') ->
  wpT (add_layers fl c batch seq_len wm root i n (nm, B3 hid)) Q s.
Proof.
  induction n as [|n IH]; intros D v w r s nm i Q J Hi C; cbn [add_layers].
  - apply wp_ret. apply C. cbn [seq map existsb]. rewrite orb_false_r. eapply K_weaken; [exact J| |apply incl_refl|keq|rewrite sum0; ring]. intros y Hy. cbn [In] in Hy. destruct Hy as [<-|Hy]; assumption.
  - apply K_bind. eapply layer_K; [exact J|exact Hi|]. intros s1 n1 J1. eapply IH; [exact J1|inD|]. intros s2 m J2. apply C. cbn [seq map existsb]. rewrite orb_assoc. eapply K_weaken; [exact J2|inc|apply incl_refl| |].
    + unfold ksum at 1. cbn [fold_right]. rewrite kadd_assoc. reflexivity.
    + rewrite sum_cons. ring.
Qed.
Lemma K_init : K [] [] kzero 0 false bst0.
Proof.
  constructor; cbn.
  - intros d [].
  - exists []. split; [constructor|reflexivity].
  - reflexivity.
  - reflexivity.
  - discriminate.
  - discriminate.
  - intros n [].
  - intros e [].
Qed.
(** the whole model *)
Lemma build_K : wpT (build_graph fl c batch seq_len wm root)
  (fun o s' => exists w, K [(o, act (B3 (c_vocab c)))] [] (model_cost fl c x batch seq_len past) w (existsb (rotates fl c) (seq 0 (n_layers c))) s' /\
     model_params fl c = w + if existsb (rotates fl c) (seq 0 (n_layers c)) then rope_params c else 0) bst0.
Proof.
  unfold build_graph. apply K_bind. unfold wp at 1, tell. cbn [fst snd].
  pose proof (K_input _ _ _ _ _ _ _ _ _ _ _ _ "ids" (idt [batch; seq_len]) K_init) as J0. specialize (J0 ltac:(discriminate)). cbn [log rope_done pos_done bst0] in *.
  wk. sub embedding_K. intros s1 J1.
  apply K_bind. eapply wp_mono with (Q := fun a s' => exists n, a = (n, B3 hid) /\ K [(n, act (B3 hid))] []
    (kadd (kadd kzero (embedding_cost c batch seq_len (c_vocab c))) (kwhen (flag_or fl "pos_embedding" false) [embedding_cost c batch seq_len (c_n_positions c); eltwise_cost batch seq_len hid 1]))
    (0 + c_vocab c * hid + if flag_or fl "pos_embedding" false then c_n_positions c * hid else 0) false s').
  2: { destruct (flag_or fl "pos_embedding" false).
       - apply K_bind. unfold wp at 1, tell. cbn [fst snd]. pose proof (K_input _ _ _ _ _ _ _ _ _ _ _ _ "position" (idt [batch; seq_len]) J1) as J2. specialize (J2 ltac:(discriminate)).
         wk. sub embedding_K. intros s3 J3. eapply eltop_K; [exact J3|inD|inD|auto|]. intros s4 J4. eexists. split; [reflexivity|]. fin; [keq|ring].
       - apply wp_ret. eexists. split; [reflexivity|]. eapply K_weaken; [exact J1|inc|apply incl_refl|keq|ring]. }
  cbn beta. intros a s2 (n2 & -> & J2). apply K_bind. eapply layers_K; [exact J2|inD|]. intros s3 n3 J3. cbn [orb] in J3. fold (n_layers c) in J3.
  apply K_bind. eapply wp_mono with (Q := fun a s' => exists n, a = (n, B3 (c_vocab c)) /\ K [(n, act (B3 (c_vocab c)))] [] _ _ _ s').
  2: { unfold add_lm_head. wk. sub layernorm_K. intros s4 J4. apply K_bind. apply K_lift. intros lb El. apply flag_yes in El. wk. eapply mm_K; [exact J4|inD|]. intros s5 J5. eexists. split; [reflexivity|]. rewrite <- El in J5.
       eapply K_weaken; [exact J5|inc|apply incl_refl|reflexivity|reflexivity]. }
  cbn beta. intros a s4 (n4 & -> & J4). apply K_bind.
  match type of J4 with K _ _ ?V ?W ?R _ => eapply wp_mono with (Q := fun a s' => exists n, a = (n, B3 (c_vocab c)) /\ K [(n, act (B3 (c_vocab c)))] [] (kadd V (kwhen (c_final_cap c) [eltwise_cost batch seq_len (c_vocab c) 43])) W R s') end.
  2: { destruct (c_final_cap c).
       - eapply softcap_K; [exact J4|inD|]. intros s5 J5. eexists. split; [reflexivity|]. fin; [apply f_equal; apply kadd_0_r|reflexivity].
       - apply wp_ret. eexists. split; [reflexivity|]. eapply K_weaken; [exact J4|inc|apply incl_refl|apply kadd_0_r|reflexivity]. }
  cbn beta. intros a s5 (n5 & -> & J5). apply wp_ret. cbn [fst]. eexists. split.
  - eapply K_weaken; [exact J5|inc|apply incl_refl| |reflexivity]. unfold model_cost. unfold ksum at 1. cbn [fold_right]. rewrite (kadd_0_r (kwhen (c_final_cap c) _)), kadd_0_l, !kadd_assoc. reflexivity.
  - unfold model_params. ring.
Qed.
End TOP.
