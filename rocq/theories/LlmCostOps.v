(** The operators: each records fitting shapes and adds the specified cost. *)
From Coq Require Import Znumtheory.
From Verif Require Import PyBase PyBaseFacts GraphModel ShapeModel FusionModel RegressModel ProfileModel ProfileProofs LlmModel LlmSpec LlmBuild LlmCost LlmCostSpec LlmCostProofs.
Open Scope string_scope. Open Scope Z_scope.

Lemma vol1 a : volume [a] = a.
Proof. unfold volume. cbn [fold_left]. ring. Qed.
Lemma vol2 a b : volume [a; b] = a * b.
Proof. unfold volume. cbn [fold_left]. ring. Qed.
Lemma vol3 a b c : volume [a; b; c] = a * b * c.
Proof. unfold volume. cbn [fold_left]. ring. Qed.
Lemma vol4 a b c d : volume [a; b; c; d] = a * b * c * d.
Proof. unfold volume. cbn [fold_left]. ring. Qed.
Lemma sum0 : sum_list [] = 0.
Proof. reflexivity. Qed.
Lemma pwr : pw_ratio = 1.
Proof. reflexivity. Qed.

Lemma tri (a b d a' b' d' : Z) : a = a' -> b = b' -> d = d' -> SOk (a, b, d) = SOk (a', b', d').
Proof. intros -> -> ->. reflexivity. Qed.
Section OPS.
Context (fl : flags) (c : config) (x : extra) (batch seq_len : Z) (wm : dict (dict string)) (root : string).
Context (cache : list tensor) (past : Z).
Notation K := (K fl c x batch seq_len cache).
Notation wpT := (wp True).
Notation B3 d := [batch; seq_len; d].
Ltac st := apply K_bind; eapply K_static; [eassumption|apply wnil; discriminate|intros ? ?].
Ltac st8 := apply K_bind; eapply K_static8; [eassumption|apply wnil; discriminate|intros ? ?].
Ltac inD := first [assumption | left; reflexivity | right; inD].
Ltac f2 := split; [repeat (apply Forall2_cons; [inD|]); apply Forall2_nil|split; [reflexivity|split; [split; [|split]; first [discriminate|intros _; reflexivity|intros ->; intuition discriminate]|first [discriminate|intros ->; intuition discriminate|intros; subst; discriminate]]]].
Ltac inc := let y := fresh in let Hy := fresh in intros y Hy; cbn [In] in Hy |- *; tauto.
Ltac num := unfold vols, TANH_MACS, MUL_MACS, ADD_MACS, CMP_MACS, DIV_MACS, EXP_MACS, SIN_MACS, COS_MACS, SQRT_MACS; cbn [map t_shape wt act ct idt]; rewrite ?sum_cons, ?sum0, ?vol1, ?vol2, ?vol3, ?vol4, ?pwr.
Ltac prof := cbn -[volume Z.mul Z.add Z.sub Z.div Z.min Z.max Z.log2 pw_ratio sum_list vols Z.ltb Z.leb Z.eqb getattr head_size flag_or linear_params norm_params rope_params].
Ltac tri := prof; apply tri; num; try ring; cbn [Z.eqb Pos.eqb]; try ring.
Ltac pp := prof; num; ring.
Ltac fin C := let s' := fresh in let J := fresh in intros s' J; apply C; eapply K_weaken; [exact J|let y := fresh in let Hy := fresh in intros y Hy; cbn [In] in Hy |- *; tauto|apply incl_refl| | ].

Lemma embedding_K D v w r s nm insize b (Q : tref -> bst -> Prop) : K D [] v w r s -> In (nm, idt [batch; seq_len]) D ->
  (forall s', K ((b ++ ".output", act (B3 (c_hidden c))) :: D) [] (kadd v (embedding_cost c batch seq_len insize)) (w + insize * c_hidden c) r s' -> Q (b ++ ".output", B3 (c_hidden c)) s') ->
  wpT (add_embedding c batch seq_len (nm, [batch; seq_len]) insize b) Q s.
Proof.
  intros J Hi C. unfold add_embedding. st.
  eapply (K_emit) with (its := [wt [insize; c_hidden c]; idt [batch; seq_len]]) (k := embedding_cost c batch seq_len insize); [eassumption|f2| | | |inc|].
  - intros _. apply (ty_gather insize (c_hidden c) [batch; seq_len]).
  - tri.
  - pp.
  - fin C; [reflexivity|]. rewrite vol2. reflexivity.
Qed.
Lemma flag_yes k b : flag fl k = SOk b -> flag_or fl k false = b.
Proof. unfold flag, flag_or, dlook. destruct (dget fl k); congruence. Qed.
Lemma norm_ty pre d ws : (length ws <= 2)%nat -> Forall (fun w => exists e, w = [e] /\ (e | d)) ws -> forall m, m = (pre ++ [d])%list -> typed "LayerNormalization" (m :: ws) m.
Proof. intros L F m ->. apply ty_norm; assumption. Qed.
Lemma layernorm_K D v w r s nm b (Q : tref -> bst -> Prop) : K D [] v w r s -> In (nm, act (B3 (c_hidden c))) D ->
  (forall s', K ((b ++ ".output", act (B3 (c_hidden c))) :: D) [] (kadd v (norm_cost fl c batch seq_len)) (w + norm_params fl c) r s' -> Q (b ++ ".output", B3 (c_hidden c)) s') ->
  wpT (add_layernorm fl c (nm, B3 (c_hidden c)) b) Q s.
Proof.
  intros J Hi C. unfold add_layernorm. destruct (negb (c_rms c) && negb (c_lneps c)); [apply K_lift; discriminate|].
  apply K_bind. apply K_lift. intros sc E1. apply flag_yes in E1. unfold norm_cost, norm_on, norm_params in *. rewrite E1 in *. destruct sc.
  - st. apply K_bind. apply K_lift. intros nb E2. apply flag_yes in E2. rewrite E2 in *. destruct nb; cbn [b2z] in *.
    + st. eapply K_emit with (its := [act (B3 (c_hidden c)); wt [c_hidden c]; wt [c_hidden c]]) (k := norm_on batch seq_len (c_hidden c) (c_hidden c + 1 * c_hidden c)); [eassumption|f2| | | |inc|].
      * intros _. apply (norm_ty [batch; seq_len] (c_hidden c)); [cbn; lia| |reflexivity]. cbn. repeat constructor; eexists; split; try reflexivity; apply Z.divide_refl.
      * tri.
      * pp.
      * fin C; [reflexivity|]. rewrite !vol1. ring.
    + eapply K_emit with (its := [act (B3 (c_hidden c)); wt [c_hidden c]]) (k := norm_on batch seq_len (c_hidden c) (c_hidden c + 0 * c_hidden c)); [eassumption|f2| | | |inc|].
      * intros _. apply (norm_ty [batch; seq_len] (c_hidden c)); [cbn; lia| |reflexivity]. cbn. repeat constructor; eexists; split; try reflexivity; apply Z.divide_refl.
      * tri.
      * pp.
      * fin C; [reflexivity|]. rewrite !vol1. ring.
  - eapply K_emit with (its := [act (B3 (c_hidden c))]) (k := norm_on batch seq_len (c_hidden c) 0); [eassumption|f2| | | |inc|].
    * intros _. apply (norm_ty [batch; seq_len] (c_hidden c)); [cbn; lia| |reflexivity]. constructor.
    * tri.
    * pp.
    * fin C; [reflexivity|]. ring.
Qed.
Lemma act_K D v w r s nm d ac b (Q : tref -> bst -> Prop) : K D [] v w r s -> In (nm, act (B3 d)) D -> (sane fl c -> ac <> "gegelu") ->
  (forall s', K ((b ++ ".output", act (B3 d)) :: D) [] (kadd v (eltwise_cost batch seq_len d (act_per ac))) w r s' -> Q (b ++ ".output", B3 d) s') ->
  wpT (add_act (nm, B3 d) ac b) Q s.
Proof.
  intros J Hi HA C. unfold add_act. apply K_bind. apply K_lift. intros op E. unfold ActMap, dlook in E. cbn [dget] in E.
  destruct (String.eqb_spec ac "silu") as [-> |N1]; [|destruct (String.eqb_spec ac "gelu_new") as [-> |N2]; [|destruct (String.eqb_spec ac "gegelu") as [-> |N3]; [|discriminate]]]; injection E as <-.
  - eapply K_emit with (its := [act (B3 d)]) (k := eltwise_cost batch seq_len d 33); [eassumption|f2| | | |inc|].
    + intros _. apply ty_act. auto.
    + tri.
    + pp.
    + fin C; reflexivity.
  - eapply K_emit with (its := [act (B3 d)]) (k := eltwise_cost batch seq_len d 34); [eassumption|f2| | | |inc|].
    + intros _. apply ty_act. auto.
    + tri.
    + pp.
    + fin C; reflexivity.
  - eapply K_emit with (its := [act (B3 d)]) (k := eltwise_cost batch seq_len d 34); [eassumption|f2| | | |inc|].
    + intros S. destruct (HA S eq_refl).
    + tri.
    + pp.
    + fin C; reflexivity.
Qed.
Lemma eltop_K D v w r s n1 n2 d op b (Q : tref -> bst -> Prop) : K D [] v w r s -> In (n1, act (B3 d)) D -> In (n2, act (B3 d)) D -> op = "Add" \/ op = "Mul" ->
  (forall s', K ((b ++ ".output", act (B3 d)) :: D) [] (kadd v (eltwise_cost batch seq_len d 1)) w r s' -> Q (b ++ ".output", B3 d) s') ->
  wpT (add_eltop (n1, B3 d) (n2, B3 d) op b) Q s.
Proof.
  intros J H1 H2 HO C. unfold add_eltop. apply K_bind. cbn [fst snd].
  assert (M : max_shape [B3 d; B3 d] = SOk (B3 d)).
  { unfold max_shape, max_shape_step. cbn [fold_left]. repeat (rewrite ?Z.ltb_irrefl, ?Nat.ltb_irrefl, ?andb_false_r). reflexivity. }
  rewrite M. apply K_lift. intros a [= <-].
  eapply K_emit with (its := [act (B3 d); act (B3 d)]) (k := eltwise_cost batch seq_len d 1); [eassumption|f2| | | |inc|].
  - intros _. apply ty_eltwise. exact HO.
  - destruct HO as [-> | ->]; tri.
  - pp.
  - fin C; reflexivity.
Qed.
Lemma mm_K D v w r s nm i o bias b (Q : tref -> bst -> Prop) : K D [] v w r s -> In (nm, act (B3 i)) D ->
  (forall s', K ((b ++ ".output", act (B3 o)) :: D) [] (kadd v (linear_cost batch seq_len i o bias)) (w + linear_params i o bias) r s' -> Q (b ++ ".output", B3 o) s') ->
  wpT (add_mm batch seq_len (nm, B3 i) i o bias b) Q s.
Proof.
  intros J Hi C. unfold add_mm. st. unfold linear_cost, linear_params in *. destruct bias; cbn [b2z] in *.
  - st. eapply K_emit with (its := [act (B3 i); wt [i; o]; wt [o]]) (k := linear_cost batch seq_len i o true); [eassumption|f2| | | |inc|].
    + intros _. apply (ty_matmul_bias [batch; seq_len] i o).
    + unfold linear_cost, linear_params. tri.
    + unfold linear_cost, linear_params. pp.
    + fin C; [reflexivity|]. rewrite vol1, vol2. ring.
  - eapply K_emit with (its := [act (B3 i); wt [i; o]]) (k := linear_cost batch seq_len i o false); [eassumption|f2| | | |inc|].
    + intros _. apply (ty_matmul [batch; seq_len] i o).
    + unfold linear_cost, linear_params. tri.
    + unfold linear_cost, linear_params. pp.
    + fin C; [reflexivity|]. rewrite vol2. ring.
Qed.
Lemma slice_K D v w r s nm n off size b (Q : tref -> bst -> Prop) : K D [] v w r s -> In (nm, act (B3 n)) D -> (sane fl c -> 0 <= off /\ 0 <= size /\ off + size <= n) ->
  (forall s', K ((b ++ ".output", act (B3 size)) :: D) [] (kadd v (slice_cost batch seq_len size)) (w + 4) r s' -> Q (b ++ ".output", B3 size) s') ->
  wpT (add_slice (nm, B3 n) off size b) Q s.
Proof.
  intros J Hi HS C. unfold add_slice. st8. st8. st8. st8. apply K_bind. unfold wp at 1, note at 1. cbn [fst snd].
  apply K_note with (bo := (bounds s'2 ++ [(b, (off, (off + size)%Z))])%list) in H2; [|apply incl_appl, incl_refl].
  apply K_bind. apply K_lift. intros sh [= <-].
  eapply K_emit with (its := [act (B3 n); ct [1]; ct [1]; ct [1]; ct [1]]) (k := slice_cost batch seq_len size); [eassumption| | | | |inc|].
  - split; [repeat (apply Forall2_cons; [inD|]); apply Forall2_nil|split; [reflexivity|split; [split; [|split]; discriminate|intros _]]].
    exists nm, off, n, size. split; [reflexivity|]. split; [inD|]. split; [reflexivity|]. split; [cbn [bounds]; apply in_or_app; right; left; reflexivity|exact HS].
  - intros S. apply ty_slice. destruct (HS S). lia.
  - tri.
  - pp.
  - fin C; [reflexivity|]. rewrite !vol1. ring.
Qed.
Lemma qk_norm_K D v w r s nm d b (Q : tref -> bst -> Prop) : K D [] v w r s -> In (nm, act (B3 d)) D -> (sane fl c -> (head_size c | d)) ->
  (forall s', K ((b ++ ".output", act (B3 d)) :: D) [] (kadd v (head_norm_cost c batch seq_len d)) (w + head_size c) r s' -> Q (b ++ ".output", B3 d) s') ->
  wpT (add_qk_norm c (nm, B3 d) b) Q s.
Proof.
  intros J Hi HS C. unfold add_qk_norm. destruct (c_rms c); [|apply K_lift; discriminate]. st.
  eapply K_emit with (its := [act (B3 d); wt [head_size c]]) (k := head_norm_cost c batch seq_len d); [eassumption|f2| | | |inc|].
  - intros S. apply (norm_ty [batch; seq_len] d); [cbn; lia| |reflexivity]. cbn. repeat constructor. eexists. split; [reflexivity|auto].
  - tri.
  - pp.
  - fin C; [reflexivity|]. rewrite vol1. ring.
Qed.
Lemma softcap_K D v w r s nm d b (Q : tref -> bst -> Prop) : K D [] v w r s -> In (nm, act (B3 d)) D ->
  (forall s', K ((b ++ ".output", act (B3 d)) :: D) [] (kadd v (eltwise_cost batch seq_len d 43)) w r s' -> Q (b ++ ".output", B3 d) s') ->
  wpT (add_softcapping (nm, B3 d) b) Q s.
Proof.
  intros J Hi C. unfold add_softcapping. st.
  eapply K_emit with (its := [act (B3 d); wt []]) (k := eltwise_cost batch seq_len d 43); [eassumption|f2| | | |inc|].
  - intros _. apply ty_softcap.
  - tri. reflexivity.
  - prof. num. reflexivity.
  - fin C; [reflexivity|]. cbn [volume]. ring.
Qed.
Lemma rope_K D v w r s nm d b (Q : tref -> bst -> Prop) : K D [] v w r s -> In (nm, act (B3 d)) D ->
  (forall s', K ((b ++ ".output", act (B3 d)) :: D) [] (kadd v (rope_cost c batch seq_len d)) w true s' -> Q (b ++ ".output", B3 d) s') ->
  wpT (add_rope c batch seq_len (nm, B3 d) b) Q s.
Proof.
  intros J Hi C. unfold add_rope. apply K_bind. eapply K_rope_tables; [exact J|]. intros s1 J1. apply K_bind. eapply K_position; [exact J1|]. intros s2 J2.
  eapply K_emit with (its := [act (B3 d); table c; table c; idt [batch; seq_len]]) (k := rope_cost c batch seq_len d); [eassumption|f2| | | | |].
  - intros _. apply ty_rope.
  - prof. apply tri.
    + num. ring.
    + num. ring.
    + rewrite !sum_cons, sum0, vol4. destruct (Z.ltb_spec seq_len (getattr (c_max_pos c) 4096)); [rewrite Z.min_l by lia|rewrite Z.min_r by lia]; ring.
  - unfold rope_cost, rope_params. prof. unfold table. num. ring.
  - intros y Hy. destruct r; [destruct Hy|]. cbn [In] in *. tauto.
  - fin C; reflexivity.
Qed.
Lemma moe_K D v w r s nm p (Q : tref -> bst -> Prop) : K D [] v w r s -> In (nm, act (B3 (c_hidden c))) D ->
  (forall s' n, K ((n, act (B3 (c_hidden c))) :: D) [] (kadd v (moe_cost fl c x batch seq_len)) (w + moe_params fl c) r s' -> Q (n, B3 (c_hidden c)) s') ->
  wpT (add_moe fl c batch seq_len p (nm, B3 (c_hidden c))) Q s.
Proof.
  intros J Hi C. unfold add_moe. st. st. st. st. unfold moe_cost, moe_params in *. destruct (flag_or fl "no_shared_expert" false) eqn:F1.
  - eapply K_emit with (its := [act (B3 (c_hidden c)); wt _; wt _; wt _; wt _]) (k := moe_cost fl c x batch seq_len); [eassumption|f2| | | |inc|].
    + intros _. apply ty_moe.
    + unfold moe_cost. prof. rewrite F1. apply tri.
      * destruct (flag_or fl "no_shared_gate" false); num; ring.
      * num. ring.
      * match goal with |- (if ?a <? ?b then _ else _) = _ => destruct (Z.ltb_spec a b); [rewrite Z.min_l by (lia)|rewrite Z.min_r by (lia)]; ring end.
    + unfold moe_cost, moe_params. rewrite F1. pp.
    + fin C; [unfold moe_cost, moe_params; rewrite F1; reflexivity|]. rewrite !vol3, !vol2. ring.
  - st. st. st. destruct (flag_or fl "no_shared_gate" false) eqn:F2.
    + eapply K_emit with (its := [act (B3 (c_hidden c)); wt _; wt _; wt _; wt _; wt _; wt _; wt _]) (k := moe_cost fl c x batch seq_len); [eassumption|f2| | | |inc|].
      * intros _. apply ty_moe_shared.
      * unfold moe_cost. prof. rewrite F1, F2. apply tri.
        -- num; ring.
        -- num. ring.
        -- match goal with |- (if ?a <? ?b then _ else _) = _ => destruct (Z.ltb_spec a b); [rewrite Z.min_l by (lia)|rewrite Z.min_r by (lia)]; ring end.
      * unfold moe_cost, moe_params. rewrite F1, F2. pp.
      * fin C; [unfold moe_cost, moe_params; rewrite F1, F2; reflexivity|]. rewrite !vol3, !vol2. ring.
    + st. eapply K_emit with (its := [act (B3 (c_hidden c)); wt _; wt _; wt _; wt _; wt _; wt _; wt _; wt _]) (k := moe_cost fl c x batch seq_len); [eassumption|f2| | | |inc|].
      * intros _. apply ty_moe_gated.
      * unfold moe_cost. prof. rewrite F1, F2. apply tri.
        -- num; ring.
        -- num. ring.
        -- match goal with |- (if ?a <? ?b then _ else _) = _ => destruct (Z.ltb_spec a b); [rewrite Z.min_l by (lia)|rewrite Z.min_r by (lia)]; ring end.
      * unfold moe_cost, moe_params. rewrite F1, F2. pp.
      * fin C; [unfold moe_cost, moe_params; rewrite F1, F2; reflexivity|]. rewrite !vol3, !vol2, vol1. ring.
Qed.
Lemma mla_K D v w r s nm p (Q : tref -> bst -> Prop) : flag_or fl "is_mla" false = true -> K D [] v w r s -> In (nm, act (B3 (c_hidden c))) D ->
  (forall s' n, K ((n, act (B3 (c_hidden c))) :: D) [] (kadd v (mla_cost c x batch seq_len)) (w + mla_params c) r s' -> Q (n, B3 (c_hidden c)) s') ->
  wpT (add_mla c batch seq_len p (nm, B3 (c_hidden c))) Q s.
Proof.
  intros FM J Hi C. unfold add_mla. st. st. st. st. st. st. st.
  eapply K_emit with (its := [act (B3 (c_hidden c)); wt _; wt _; wt _; wt _; wt _; wt _; wt _]) (k := mla_cost c x batch seq_len); [eassumption|f2| | | |inc|].
  - intros S. apply ty_mla. destruct (sn_mla _ _ S FM) as [[m E] N]. unfold q_width, q_heads_width in *. rewrite E. rewrite Z.div_mul by exact N. ring.
  - unfold mla_cost. prof. apply tri.
    + set (ctk := seq_len / getattr (x_ratio x) 0). set (r0 := getattr (x_ratio x) 0). set (og := getattr (c_o_groups c) 8).
      set (wd := c_heads c * head_size c / og). clearbody wd ctk. unfold TANH_MACS, MUL_MACS, ADD_MACS, CMP_MACS, DIV_MACS, EXP_MACS, SIN_MACS, COS_MACS, SQRT_MACS.
      destruct (0 <? r0); destruct (Z.eqb_spec r0 4) as [->|]; try destruct (1 <? ctk); ring.
    + ring.
    + unfold mla_params, q_heads_width. ring.
  - unfold mla_cost, mla_params. prof. num. unfold q_width, q_heads_width. ring.
  - fin C; [reflexivity|]. unfold mla_params. rewrite !vol2, !vol1. unfold q_width, q_heads_width. ring.
Qed.
Ltac wk := apply K_bind; apply K_lift; let n := fresh "nm" in intros n _.
Ltac fg e := apply K_bind; apply K_lift; intros ? e; apply flag_yes in e.
Ltac sub H := apply K_bind; eapply H; [eassumption|inD|..].
Lemma gdn_K D v w r s nm p (Q : tref -> bst -> Prop) : (exists i, is_gdn c i = true) -> K D [] v w r s -> In (nm, act (B3 (c_hidden c))) D ->
  (forall s' n, K ((n, act (B3 (c_hidden c))) :: D) [] (kadd v (gdn_cost fl c x batch seq_len)) (w + gdn_params fl c) r s' -> Q (n, B3 (c_hidden c)) s') ->
  wpT (add_gdn fl c batch seq_len wm p (nm, B3 (c_hidden c))) Q s.
Proof.
  intros G J Hi C. unfold add_gdn. wk. wk. wk. sub mm_K. intros s1 J1. sub mm_K. intros s2 J2. sub mm_K. intros s3 J3.
  sub qk_norm_K; [intros S; exact (sn_gdn _ _ S G)|]. intros s4 J4. sub qk_norm_K; [intros S; exact (sn_gdn _ _ S G)|]. intros s5 J5.
  eapply K_emit with (its := [act (B3 (gdn_q_width c)); act (B3 (gdn_q_width c)); act (B3 (gdn_v_width c))]) (k := gdn_core_cost c x batch seq_len); [eassumption|cbn [fst snd]; f2| | | |inc|].
  - intros _. apply ty_gdn.
  - unfold gdn_core_cost, gdn_q_width, gdn_v_width. tri.
  - pp.
  - fin C.
    + unfold gdn_cost, ksum. cbn [fold_right]. fold (gdn_q_width c). fold (gdn_v_width c). rewrite kadd_0_r, !kadd_assoc. reflexivity.
    + unfold gdn_params. fold (gdn_q_width c). fold (gdn_v_width c). ring.
Qed.
Lemma q_nonneg : sane fl c -> 0 <= q_width c /\ 0 <= kv_width c.
Proof.  intros [H1 H2 H3 _ _ _]. unfold q_width, kv_width. nia. Qed.
Lemma qkv_K D v w r s nm p (Q : tref * tref * tref -> bst -> Prop) : K D [] v w r s -> In (nm, act (B3 (c_hidden c))) D -> flag_or fl "qkv_gated" false = false ->
  (forall s' q k vv, K ((q, act (B3 (q_width c))) :: (k, act (B3 (kv_width c))) :: (vv, act (B3 (kv_width c))) :: D) []
     (kadd v (if flag_or fl "fuse_qkv" false then ksum [linear_cost batch seq_len (c_hidden c) (q_width c + 2 * kv_width c) (flag_or fl "qkv_bias" false); slice_cost batch seq_len (q_width c); slice_cost batch seq_len (kv_width c); slice_cost batch seq_len (kv_width c)]
              else ksum [linear_cost batch seq_len (c_hidden c) (q_width c) (flag_or fl "qkv_bias" false); linear_cost batch seq_len (c_hidden c) (kv_width c) (flag_or fl "qkv_bias" false); linear_cost batch seq_len (c_hidden c) (kv_width c) (flag_or fl "qkv_bias" false)]))
     (w + if flag_or fl "fuse_qkv" false then linear_params (c_hidden c) (q_width c + 2 * kv_width c) (flag_or fl "qkv_bias" false) + 3 * 4
          else linear_params (c_hidden c) (q_width c) (flag_or fl "qkv_bias" false) + 2 * linear_params (c_hidden c) (kv_width c) (flag_or fl "qkv_bias" false)) r s' ->
     Q ((q, B3 (q_width c)), (k, B3 (kv_width c)), (vv, B3 (kv_width c))) s') ->
  wpT (add_qkv fl c batch seq_len wm p (nm, B3 (c_hidden c))) Q s.
Proof.
  intros J Hi _ C. unfold add_qkv. fg E1. fg E2. rewrite E1, E2 in C. destruct a0.
  - wk. sub mm_K. intros s1 J1. sub slice_K; [intros S; destruct (q_nonneg S); lia|]. intros s2 J2. sub slice_K; [intros S; destruct (q_nonneg S); lia|]. intros s3 J3.
    sub slice_K; [intros S; destruct (q_nonneg S); lia|]. intros s4 J4. apply wp_ret. apply C. replace (q_width c + 2 * kv_width c) with (q_width c + kv_width c + kv_width c) by ring. eapply K_weaken; [exact J4| |apply incl_refl| |].
    + intros y Hy. cbn [In] in *. tauto.
    + unfold ksum. cbn [fold_right]. rewrite kadd_0_r, !kadd_assoc. reflexivity.
    + ring.
  - wk. wk. wk. sub mm_K. intros s1 J1. sub mm_K. intros s2 J2. sub mm_K. intros s3 J3. apply wp_ret. apply C. eapply K_weaken; [exact J3| |apply incl_refl| |].
    + intros y Hy. cbn [In] in *. tauto.
    + unfold ksum. cbn [fold_right]. rewrite kadd_0_r, !kadd_assoc. reflexivity.
    + ring.
Qed.
Lemma qkv_gated_K D v w r s nm p (Q : tref * tref * tref * tref -> bst -> Prop) : K D [] v w r s -> In (nm, act (B3 (c_hidden c))) D ->
  (forall s' q k vv g, K ((q, act (B3 (q_width c))) :: (k, act (B3 (kv_width c))) :: (vv, act (B3 (kv_width c))) :: (g, act (B3 (q_width c))) :: D) []
     (kadd v (ksum [linear_cost batch seq_len (c_hidden c) (2 * q_width c) (flag_or fl "qkv_bias" false); linear_cost batch seq_len (c_hidden c) (kv_width c) (flag_or fl "qkv_bias" false); linear_cost batch seq_len (c_hidden c) (kv_width c) (flag_or fl "qkv_bias" false);
                    slice_cost batch seq_len (q_width c); slice_cost batch seq_len (q_width c)]))
     (w + (linear_params (c_hidden c) (2 * q_width c) (flag_or fl "qkv_bias" false) + 2 * linear_params (c_hidden c) (kv_width c) (flag_or fl "qkv_bias" false) + 2 * 4)) r s' ->
     Q ((q, B3 (q_width c)), (k, B3 (kv_width c)), (vv, B3 (kv_width c)), (g, B3 (q_width c))) s') ->
  wpT (add_qkv_gated fl c batch seq_len wm p (nm, B3 (c_hidden c))) Q s.
Proof.
  intros J Hi C. unfold add_qkv_gated. fg E1. rewrite E1 in C. wk. wk. wk. sub mm_K. intros s1 J1. sub mm_K. intros s2 J2. sub mm_K. intros s3 J3.
  sub slice_K; [intros S; destruct (q_nonneg S); lia|]. intros s4 J4. sub slice_K; [intros S; destruct (q_nonneg S); lia|]. intros s5 J5.
  apply wp_ret. apply C. replace (2 * q_width c) with (q_width c * 2) by ring. eapply K_weaken; [exact J5| |apply incl_refl| |].
  - intros y Hy. cbn [In] in *. tauto.
  - unfold ksum. cbn [fold_right]. rewrite kadd_0_r, !kadd_assoc. reflexivity.
  - ring.
Qed.
Lemma mlp_K D v w r s nm p (Q : tref -> bst -> Prop) : flag_or fl "is_moe" false = false -> K D [] v w r s -> In (nm, act (B3 (c_hidden c))) D ->
  (forall s' n, K ((n, act (B3 (c_hidden c))) :: D) [] (kadd v (mlp_cost fl c batch seq_len)) (w + mlp_params fl c) r s' -> Q (n, B3 (c_hidden c)) s') ->
  wpT (add_mlp fl c batch seq_len wm p (nm, B3 (c_hidden c))) Q s.
Proof.
  intros NM J Hi C. unfold add_mlp. fg E1. fg E2. wk. wk. wk. unfold mlp_cost, mlp_params in C. rewrite E1, E2 in C.
  destruct (String.eqb (c_model_type c) "phi3" || String.eqb (c_model_type c) "phi3small") eqn:PH.
  - wk. sub mm_K. intros s1 J1. apply K_bind. apply K_lift. intros op [= <-]. apply K_bind. rewrite Z.div_mul by discriminate.
    eapply K_emit with (its := [act (B3 (c_inter c * 2))]) (k := eltwise_cost batch seq_len (c_inter c) 34); [eassumption|cbn [fst]; f2| | | |inc|].
    + intros _. replace (c_inter c * 2) with (c_inter c + c_inter c) by ring. apply (ty_gegelu [batch; seq_len] (c_inter c)).
    + tri.
    + pp.
    + intros s2 J2. eapply mm_K; [eassumption|inD|]. intros s3 J3. apply C. eapply K_weaken; [exact J3| |apply incl_refl| |].
      * intros y Hy. cbn [In] in *. tauto.
      * unfold ksum. cbn [fold_right]. rewrite kadd_0_r, !kadd_assoc. reflexivity.
      * ring.
  - assert (NG : sane fl c -> c_act c <> "gegelu").
    { intros S E. destruct (sn_act _ _ S E) as [X|[X|X]]; [congruence| |]; rewrite X in PH; discriminate. }
    sub mm_K. intros s1 J1. destruct a0.
    + sub mm_K. intros s2 J2. sub act_K; [exact NG|]. intros s3 J3. sub eltop_K; [inD|auto|]. intros s4 J4.
      eapply mm_K; [eassumption|inD|]. intros s5 J5. apply C. eapply K_weaken; [exact J5| |apply incl_refl| |].
      * intros y Hy. cbn [In] in *. tauto.
      * unfold ksum, kwhen, ksum. cbn [fold_right]. rewrite !kadd_0_r, !kadd_assoc. unfold kadd. cbn -[Z.mul Z.add linear_params act_per]. f_equal; ring.
      * ring.
    + sub act_K; [exact NG|]. intros s3 J3. eapply mm_K; [eassumption|inD|]. intros s5 J5. apply C. eapply K_weaken; [exact J5| |apply incl_refl| |].
      * intros y Hy. cbn [In] in *. tauto.
      * unfold ksum, kwhen, ksum. cbn [fold_right]. rewrite !kadd_0_r, !kadd_0_l, !kadd_assoc. reflexivity.
      * ring.
Qed.
Context (HC : cache = [] /\ past = 0 \/
              exists np kb kl ctx kv, cache = [np; act [kb; kl; ctx; kv]] /\ t_kind np = DYNAMIC /\ past = x_past x /\ past + seq_len <= ctx).
Lemma mha_K D v w r s q k vv b (Q : tref -> bst -> Prop) : K D [] v w r s -> In (q, act (B3 (q_width c))) D -> In (k, act (B3 (kv_width c))) D -> In (vv, act (B3 (kv_width c))) D ->
  (forall s', K ((b ++ ".output", act (B3 (q_width c))) :: D) [] (kadd v (attn_core_cost c batch seq_len past)) w r s' -> Q (b ++ ".output", B3 (q_width c)) s') ->
  wpT (add_mha c batch seq_len [(q, B3 (q_width c)); (k, B3 (kv_width c)); (vv, B3 (kv_width c))] b) Q s.
Proof.
  intros J H1 H2 H3 C. unfold add_mha. cbn [map fst].
  eapply K_emit with (its := [act (B3 (q_width c)); act (B3 (kv_width c)); act (B3 (kv_width c))]) (k := attn_core_cost c batch seq_len past); [eassumption|f2| | | |inc|].
  - intros _. apply (ty_sdpa batch seq_len (c_heads c) (c_kv_heads c) (head_size c)).
  - destruct HC as [[-> ->]|(np & kb & kl & ctx & kv & -> & _ & -> & L)].
    + prof. change (5 <=? 3) with false. prof. apply tri; num; unfold q_width, q_heads_width; ring.
    + prof. change (5 <=? 5) with true. prof.
      apply Z.leb_le in L. rewrite L. prof. apply tri; num; unfold q_width, q_heads_width; ring.
  - pp.
  - fin C; reflexivity.
Qed.
(** the fused operators *)
End OPS.
