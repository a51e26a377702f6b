(** The builder's graph is wired as LlmWireSpec says. *)
From Verif Require Import PyBase PyBaseFacts GraphModel ShapeModel FusionModel FusionProofs RegressModel RegressProofs LlmModel LlmProofs LlmSpec LlmNames LlmBuild LlmLayers LlmWireSpec.
From Coq Require Import Lia.
Open Scope string_scope. Open Scope Z_scope.

Lemma bind_inv {A C} (m : B A) (f : A -> B C) s r : bind m f s = SOk r -> exists a s1, m s = SOk (a, s1) /\ f a s1 = SOk r.
Proof. unfold bind. destruct (m s) as [[a s1]|]; cbn [sbind fst snd]; [|discriminate]. eauto. Qed.
Lemma lift_inv {A} (r : sres A) s a s' : lift r s = SOk (a, s') -> r = SOk a /\ s' = s.
Proof. unfold lift. destruct r; cbn [sbind]; [|discriminate]. intros [= <- <-]. auto. Qed.
Lemma ret_inv {A} (x : A) s a s' : ret x s = SOk (a, s') -> a = x /\ s' = s.
Proof. intros [= <- <-]. auto. Qed.
Lemma dlook_inv {A} (d : dict A) k v : dlook d k = SOk v -> dget d k = Some v.
Proof. unfold dlook. destruct (dget d k); [|discriminate]. intros [= <-]. auto. Qed.

Section WIRE.
Context (g : graph) (fl : flags) (c : config) (batch seq_len : Z) (wm : dict (dict string)) (root : string).
Context (L : list ev) (R : list (string * (Z * Z))).
Context (HN : forall nd t, In (ENode nd t) L -> dget (nodemap g) (n_name nd) = Some nd).
Context (HS : forall n t, In (EStatic n t) L -> In n (initials g) /\ dget (tensormap g) n = Some t).
Definition sub (s : bst) : Prop := incl (log s) L /\ incl (bounds s) R.
Notation computes := (computes g). Notation weight := (weight g).

Lemma tell_inv e s a s' : tell e s = SOk (a, s') -> sub s' -> sub s /\ In e L.
Proof. intros [= <- <-] [H H']. cbn [log] in H. split; [split; [intros x I; apply H, in_or_app; auto|exact H']|apply H, in_or_app; right; left; auto]. Qed.
Lemma static_inv n sh s r s' : static n sh s = SOk (r, s') -> sub s' -> sub s /\ r = n /\ weight n sh.
Proof.
  unfold static. intros H I. apply bind_inv in H as (u & s1 & H1 & H2). apply ret_inv in H2 as [-> ->]. apply tell_inv in H1 as [S E]; auto.
  apply HS in E as [E1 E2]. split; auto. split; auto. split; auto. eexists. split; [exact E2|]. split; reflexivity.
Qed.
Lemma static8_inv n sh s r s' : static8 n sh s = SOk (r, s') -> sub s' -> sub s /\ r = n /\ weight n sh.
Proof.
  unfold static8. intros H I. apply bind_inv in H as (u & s1 & H1 & H2). apply ret_inv in H2 as [-> ->]. apply tell_inv in H1 as [S E]; auto.
  apply HS in E as [E1 E2]. split; auto. split; auto. split; auto. eexists. split; [exact E2|]. split; reflexivity.
Qed.
Lemma emit_inv n op ins sh s r s' : emit n op ins sh s = SOk (r, s') -> sub s' -> sub s /\ r = (n ++ ".output", sh) /\ computes n op ins.
Proof.
  unfold emit. intros H I. apply bind_inv in H as (u & s1 & H1 & H2). apply ret_inv in H2 as [-> ->]. apply tell_inv in H1 as [S E]; auto.
  apply HN in E. cbn [n_name] in E. split; auto.
Qed.
Lemma flag_inv k s b s' : lift (flag fl k) s = SOk (b, s') -> switch fl k b /\ s' = s.
Proof. intros H. apply lift_inv in H as [H ->]. split; auto. apply dlook_inv in H. exact H. Qed.
Lemma wkey_inv sec k s n s' : lift (wkey wm sec k) s = SOk (n, s') -> weight_name wm sec k n /\ s' = s.
Proof.
  intros H. apply lift_inv in H as [H ->]. split; auto. unfold wkey in H. destruct (dlook wm sec) as [d|] eqn:D; cbn [sbind] in H; [|discriminate].
  exists d. split; apply dlook_inv; auto.
Qed.
Lemma switch_or_ok k d : switch_or fl k d (flag_or fl k d).
Proof. unfold switch_or, flag_or. destruct (dget fl k); auto. Qed.

(** [H : bind ... = SOk _]: split once, and use what is known of the first step on [S : sub _] from the inside out *)
Ltac bi H a s1 H1 := apply bind_inv in H as (a & s1 & H1 & H).
Ltac go :=
  repeat match goal with
  | H : bind _ _ _ = SOk _ |- _ => let a := fresh "r" in let s1 := fresh "s" in let H1 := fresh "K" in apply bind_inv in H as (a & s1 & H1 & H)
  | H : lift (flag _ _) _ = SOk _ |- _ => apply flag_inv in H as [H ->]
  | H : lift (wkey _ _ _) _ = SOk _ |- _ => apply wkey_inv in H as [H ->]
  | H : ret _ _ = SOk _ |- _ => apply ret_inv in H as [-> ->]
  | H : lift (SRaise _) _ = SOk _ |- _ => discriminate H
  end.
Ltac fin := repeat match goal with
  | H : static _ _ _ = SOk (_, ?s'), I : sub ?s' |- _ => apply static_inv in H as (? & -> & H); [|exact I]
  | H : static8 _ _ _ = SOk (_, ?s'), I : sub ?s' |- _ => apply static8_inv in H as (? & -> & H); [|exact I]
  | H : emit _ _ _ _ _ = SOk (_, ?s'), I : sub ?s' |- _ => apply emit_inv in H as (? & -> & H); [|exact I]
  end.

Lemma layernorm_w inp name s r s' : add_layernorm fl c inp name s = SOk (r, s') -> sub s' ->
  sub s /\ norm g fl c name (fst inp) (fst r).
Proof.
  unfold add_layernorm. destruct (negb (c_rms c) && negb (c_lneps c)); [discriminate|]. intros H I. go.
  destruct r0; go; [destruct r1; go|]; fin; (split; [assumption|]); cbn [fst]; (split; [reflexivity|]).
  - right; right. auto.
  - right; left. auto.
  - left. auto.
Qed.
Lemma mm_w inp fi fo bias name s r s' : add_mm batch seq_len inp fi fo bias name s = SOk (r, s') -> sub s' ->
  sub s /\ linear g name (fst inp) (fst r) fi fo bias.
Proof.
  unfold add_mm. intros H I. go. destruct bias; go; fin; (split; [assumption|]); cbn [fst]; (split; [reflexivity|]); auto.
Qed.
Lemma note_inv n a b s u s' : note n a b s = SOk (u, s') -> sub s' -> sub s /\ In (n, (a, b)) R.
Proof. intros [= _ <-] [H H']. cbn [log bounds] in H, H'. split; [split; [exact H|intros x I; apply H', in_or_app; auto]|apply H', in_or_app; right; left; auto]. Qed.
Lemma slice_w inp off size name s r s' : add_slice inp off size name s = SOk (r, s') -> sub s' -> sub s /\ part g R name (fst inp) (fst r) off (off + size).
Proof.
  unfold add_slice. intros H I. go. apply lift_inv in K4 as [_ ->]. fin. apply note_inv in K3 as (? & ?); [|assumption]. fin. split; [assumption|]. split; [reflexivity|]. auto.
Qed.
Lemma eltop_w a b op name s r s' : add_eltop a b op name s = SOk (r, s') -> sub s' -> sub s /\ pairwise g name op (fst a) (fst b) (fst r).
Proof. unfold add_eltop. intros H I. go. apply lift_inv in K as [_ ->]. fin. split; [assumption|]. split; [reflexivity|assumption]. Qed.
Lemma act_w inp act name s r s' : add_act inp act name s = SOk (r, s') -> sub s' -> sub s /\ activation g name act (fst inp) (fst r).
Proof.
  unfold add_act. intros H I. go. apply lift_inv in K as [K ->]. fin. split; [assumption|]. exists r0. split; [|split; [reflexivity|assumption]].
  apply dlook_inv in K. apply dget_In in K. exact K.
Qed.
Lemma headnorm_w inp name s r s' : add_qk_norm c inp name s = SOk (r, s') -> sub s' -> sub s /\ head_norm g c name (fst inp) (fst r).
Proof. unfold add_qk_norm. destruct (c_rms c); [|discriminate]. intros H I. go. fin. split; [assumption|]. split; [reflexivity|]. auto. Qed.
Lemma tables_w s u s' : add_rope_tables c s = SOk (u, s') -> sub s' -> sub s.
Proof.
  unfold add_rope_tables. destruct (rope_done s); [intros [= _ <-]; auto|]. cbv zeta. intros H I. go. injection H as _ <-. match type of I with sub {| log := log ?x; rope_done := _; pos_done := _; bounds := _ |} => change (sub x) in I end. fin. assumption.
Qed.
Lemma position_w s u s' : add_position batch seq_len s = SOk (u, s') -> sub s' -> sub s.
Proof.
  unfold add_position. destruct (pos_done s); [intros [= _ <-]; auto|]. intros H I. go. injection H as _ <-. match type of I with sub {| log := log ?x; rope_done := _; pos_done := _; bounds := _ |} => change (sub x) in I end. apply tell_inv in K as [? _]; auto.
Qed.
Lemma rope_w inp name s r s' : add_rope c batch seq_len inp name s = SOk (r, s') -> sub s' ->
  sub s /\ fst r = result name /\ computes name "Rope" [fst inp; "rope.cos"; "rope.sin"; "position"].
Proof.
  unfold add_rope. intros H I. go. fin. apply position_w in K0; [|assumption]. apply tables_w in K; [|assumption]. split; [assumption|]. split; [reflexivity|assumption].
Qed.
Lemma embedding_w inp insize name s r s' : add_embedding c batch seq_len inp insize name s = SOk (r, s') -> sub s' ->
  sub s /\ embedding g c name (fst inp) (fst r) insize.
Proof. unfold add_embedding. intros H I. go. fin. split; [assumption|]. split; [reflexivity|]. auto. Qed.

Ltac use := repeat match goal with
  | H : add_layernorm _ _ _ _ _ = SOk (_, ?s'), I : sub ?s' |- _ => apply layernorm_w in H as (? & H); [|exact I]
  | H : add_mm _ _ _ _ _ _ _ _ = SOk (_, ?s'), I : sub ?s' |- _ => apply mm_w in H as (? & H); [|exact I]
  | H : add_slice _ _ _ _ _ = SOk (_, ?s'), I : sub ?s' |- _ => apply slice_w in H as (? & H); [|exact I]
  | H : add_eltop _ _ _ _ _ = SOk (_, ?s'), I : sub ?s' |- _ => apply eltop_w in H as (? & H); [|exact I]
  | H : add_act _ _ _ _ = SOk (_, ?s'), I : sub ?s' |- _ => apply act_w in H as (? & H); [|exact I]
  | H : add_qk_norm _ _ _ _ = SOk (_, ?s'), I : sub ?s' |- _ => apply headnorm_w in H as (? & H); [|exact I]
  | H : add_rope _ _ _ _ _ _ = SOk (_, ?s'), I : sub ?s' |- _ => apply rope_w in H as (? & ? & H); [|exact I]
  | H : add_embedding _ _ _ _ _ _ _ = SOk (_, ?s'), I : sub ?s' |- _ => apply embedding_w in H as (? & H); [|exact I]
  | _ => progress fin
  end.

Lemma switch_if k d b : flag_or fl k d = b -> switch_or fl k d b.
Proof. intros <-. apply switch_or_ok. Qed.
Lemma qkv_w p inp s q k v s' : add_qkv fl c batch seq_len wm p inp s = SOk ((q, k, v), s') -> sub s' -> flag_or fl "qkv_gated" false = false ->
  sub s /\ projections g R fl c wm p (fst inp) (fst q) (fst k) (fst v) None.
Proof.
  unfold add_qkv. intros H I F. go. destruct r0; go.
  - injection H as <- <- <- <-. use. split; [assumption|]. exists r. split; [assumption|]. right. split; [apply switch_if; auto|]. split; [reflexivity|]. left. split; [assumption|].
    do 2 eexists. split; [eassumption|]. replace (q_width c + 2 * kv_width c) with (q_width c + kv_width c + kv_width c) by ring. eauto.
  - injection H as <- <- <- <-. use. split; [assumption|]. exists r. split; [assumption|]. right. split; [apply switch_if; auto|]. split; [reflexivity|]. right. split; [assumption|].
    do 3 eexists. eauto 10.
Qed.
Lemma qkv_gated_w p inp s q k v ga s' : add_qkv_gated fl c batch seq_len wm p inp s = SOk ((q, k, v, ga), s') -> sub s' -> flag_or fl "qkv_gated" false = true ->
  sub s /\ projections g R fl c wm p (fst inp) (fst q) (fst k) (fst v) (Some (fst ga)).
Proof.
  unfold add_qkv_gated. intros H I F. go. injection H as <- <- <- <- <-. use. split; [assumption|]. exists r. split; [assumption|]. left. split; [apply switch_if; auto|].
  do 5 eexists. split; [eassumption|]. split; [eassumption|]. split; [eassumption|]. 
  match goal with K : part _ _ (p ++ "gate.slice") _ _ _ _ |- _ => replace (q_width c + q_width c) with (2 * q_width c) in K by ring end.
  match goal with K : part _ _ (p ++ "q.slice") _ _ _ _ |- _ => replace (0 + q_width c) with (q_width c) in K by ring end.
  replace (q_width c * 2) with (2 * q_width c) in * by ring. eauto 12.
Qed.


Lemma mha_w l name s r s' : add_mha c batch seq_len l name s = SOk (r, s') -> sub s' -> sub s /\ fst r = result name /\ computes name "SDPA" (map fst l).
Proof. unfold add_mha. intros H I. fin. split; [assumption|]. split; [reflexivity|assumption]. Qed.
Lemma attention_w p inp s r s' : add_attention fl c batch seq_len wm p inp s = SOk (r, s') -> sub s' ->
  sub s /\ softmax_attention g R fl c wm p (fst inp) (fst r).
Proof.
  unfold add_attention. intros H I. apply bind_inv in H as (x & s1 & H1 & H). destruct x as [[[q k] v] gate].
  apply bind_inv in H as (x & s2 & H2 & H). destruct x as [q1 k1].
  apply bind_inv in H as (x & s3 & H3 & H). destruct x as [q2 k2].
  apply bind_inv in H as (a & s4 & H4 & H). apply bind_inv in H as (b & s5 & H5 & H). go. use.
  assert (X : sub s4 /\ match gate with None => fst b = fst a | Some ga => exists u, activation g (p ++ "attn_gate.act") "silu" (fst ga) u /\ pairwise g (p ++ "attn.gated") "Mul" (fst a) u (fst b) end).
  { destruct gate as [ga|]; go; use; eauto. }
  destruct X as [S4 X]. apply mha_w in H4 as (S3 & E4 & H4); [|assumption].
  assert (Y : sub s2 /\ rotated g fl p (fst q1) (fst k1) (fst q2) (fst k2)).
  { destruct (flag_or fl "qk_rope" true) eqn:F; go.
    - injection H3 as <- <- <-. use. split; [assumption|]. left. split; [apply switch_if; auto|]. auto.
    - injection H3 as <- <- <-. split; [assumption|]. right. split; [apply switch_if; auto|]. auto. }
  destruct Y as [S2 Y].
  assert (Z : sub s1 /\ normed_heads g fl c p (fst q) (fst k) (fst q1) (fst k1)).
  { destruct (flag_or fl "qk_norm" false) eqn:F; go.
    - injection H2 as <- <- <-. use. split; [assumption|]. left. split; [apply switch_if; auto|]. auto.
    - injection H2 as <- <- <-. split; [assumption|]. right. split; [apply switch_if; auto|]. auto. }
  destruct Z as [S1 Z].
  assert (W : sub s /\ projections g R fl c wm p (fst inp) (fst q) (fst k) (fst v) (option_map fst gate)).
  { destruct (flag_or fl "qkv_gated" false) eqn:F; go.
    - match goal with K : add_qkv_gated _ _ _ _ _ _ _ _ = SOk (?x, _) |- _ => destruct x as [[[q0 k0] v0] g0]; injection H1 as <- <- <- <- <-; eapply qkv_gated_w in K; eauto end.
    - match goal with K : add_qkv _ _ _ _ _ _ _ _ = SOk (?x, _) |- _ => destruct x as [[q0 k0] v0]; injection H1 as <- <- <- <- <-; eapply qkv_w in K; eauto end. }
  destruct W as [S0 W]. split; [assumption|].
  exists (fst q), (fst k), (fst v), (option_map fst gate), (fst q1), (fst k1), (fst q2), (fst k2), (fst a), (fst b), r1, r0.
  repeat (split; [assumption|]). split; [|auto]. destruct gate; exact X.
Qed.
Lemma gdn_w p inp s r s' : add_gdn fl c batch seq_len wm p inp s = SOk (r, s') -> sub s' -> sub s /\ linear_attention g fl c wm p (fst inp) (fst r).
Proof.
  unfold add_gdn. cbv zeta. intros H I. go. use. split; [assumption|]. do 9 eexists. split; [apply switch_or_ok|]. cbv zeta. cbn [fst].
  repeat (split; [eassumption|]). split; [eauto|]. split; [eassumption|]. split; [eassumption|]. split; [reflexivity|assumption].
Qed.
Ltac wts := let n := fresh in let sh := fresh in let E := fresh in intros n sh E; repeat (destruct E as [E|E]; [injection E as <- <-; assumption|]); destruct E.
Lemma mla_w p inp s r s' : add_mla c batch seq_len p inp s = SOk (r, s') -> sub s' -> sub s /\ latent_attention g c p (fst inp) (fst r).
Proof. unfold add_mla. cbv zeta. intros H I. go. fin. split; [assumption|]. split; [|split; [reflexivity|assumption]]. cbv zeta. wts. Qed.
Lemma off_on k d : switch_or fl k d true -> switch_or fl k d false -> False.
Proof. intros [A|[A E]] [A'|[A' E']]; try congruence. Qed.
Lemma moe_w p inp s r s' : add_moe fl c batch seq_len p inp s = SOk (r, s') -> sub s' -> sub s /\ experts g fl c p (fst inp) (fst r).
Proof.
  unfold add_moe. cbv zeta. intros H I. go. destruct (flag_or fl "no_shared_expert" false) eqn:F; [|go; destruct (flag_or fl "no_shared_gate" false) eqn:F2; go]; fin;
    apply switch_if in F; try apply switch_if in F2; (split; [assumption|]); (split; [reflexivity|]); split; cbv zeta.
  - split; [wts|]. intros F'. destruct (off_on _ _ F F').
  - left. auto.
  - split; [wts|]. intros _. split; [wts|]. intros F'. destruct (off_on _ _ F2 F').
  - right. left. auto.
  - split; [wts|]. intros _. split; [wts|]. auto.
  - right. right. auto.
Qed.
Lemma mlp_w p inp s r s' : add_mlp fl c batch seq_len wm p inp s = SOk (r, s') -> sub s' -> sub s /\ feed_forward g fl c wm p (fst inp) (fst r).
Proof.
  unfold add_mlp. intros H I. go. apply lift_inv in K3 as [K3 ->]. unfold feed_forward, packed_mlp.
  destruct (String.eqb (c_model_type c) "phi3" || String.eqb (c_model_type c) "phi3small") eqn:P.
  - go. match goal with K : lift (dlook ActMap _) _ = SOk _ |- _ => apply lift_inv in K as [KA ->] end. use. split; [assumption|]. exists r0, r1, r2, r3. eexists. repeat (split; [eassumption|]).
    left. split; [apply orb_true_iff in P; destruct P as [P|P]; apply String.eqb_eq in P; auto|]. do 2 eexists. split; [eassumption|].
    replace (2 * c_inter c) with (c_inter c * 2) by ring. split; [eassumption|]. eexists. split; [apply dget_In, (dlook_inv ActMap), KA|]. split; [reflexivity|assumption].
  - assert (NP : ~ (c_model_type c = "phi3" \/ c_model_type c = "phi3small")).
    { apply orb_false_iff in P as [P1 P2]. intros [E|E]; rewrite E in *; discriminate. }
    go. destruct r1.
    + go. use. split; [assumption|]. exists r0, true, r2, r3. eexists. repeat (split; [eassumption|]). right. split; [exact NP|]. eexists. split; [eassumption|].
      exists r4. do 2 eexists. split; [|eauto]. unfold wkey in K3. destruct (dlook wm "mlp") as [d|] eqn:D; cbn [sbind] in K3; [|discriminate]. exists d. split; apply dlook_inv; auto.
    + go. use. split; [assumption|]. exists r0, false, r2, r3. eexists. repeat (split; [eassumption|]). right. split; [exact NP|]. eexists. split; eassumption.
Qed.
Lemma optnorm_w key sec p inp s r s' : optional_norm fl c wm key sec p inp s = SOk (r, s') -> sub s' -> sub s /\ post_norm g fl c wm key sec p (fst inp) (fst r).
Proof.
  unfold optional_norm. intros H I. destruct (flag_or fl key false) eqn:F; apply switch_if in F; go; use; (split; [assumption|]).
  - left. split; [assumption|]. eauto.
  - right. auto.
Qed.
Lemma is_gdn_iff i : is_gdn c i = true <-> is_linear c i.
Proof.
  unfold is_gdn, is_linear. split.
  - destruct (c_layer_types c) as [l|]; [|discriminate]. destruct (nth_error l i) eqn:E; [|discriminate]. intros X. apply String.eqb_eq in X as ->. eauto.
  - intros (l & -> & ->). reflexivity.
Qed.
Lemma layer_w i inp s r s' : add_layer fl c batch seq_len wm root i inp s = SOk (r, s') -> sub s' -> sub s /\ layer g R fl c wm root i (fst inp) (fst r).
Proof.
  unfold add_layer. cbv zeta. fold (layer_prefix root i). intros H I. set (p := layer_prefix root i) in *.
  apply bind_inv in H as (n0 & s0 & K0 & H). apply wkey_inv in K0 as [K0 ->].
  apply bind_inv in H as (h & s1 & K1 & H). apply bind_inv in H as (a & s2 & K2 & H). apply bind_inv in H as (a' & s3 & K3 & H).
  apply bind_inv in H as (x1 & s4 & K4 & H). apply bind_inv in H as (n1 & s5 & K5 & H). apply wkey_inv in K5 as [K5 ->].
  apply bind_inv in H as (h1 & s6 & K6 & H). apply bind_inv in H as (m & s7 & K7 & H). apply bind_inv in H as (m' & s8 & K8 & H).
  use. apply optnorm_w in K8 as [S7 K8]; [|assumption].
  assert (X : sub s6 /\ ((switch_or fl "is_moe" false true /\ experts g fl c p (fst h1) (fst m)) \/ (switch_or fl "is_moe" false false /\ feed_forward g fl c wm p (fst h1) (fst m)))).
  { destruct (flag_or fl "is_moe" false) eqn:F; apply switch_if in F; [apply moe_w in K7|apply mlp_w in K7]; try assumption; destruct K7; auto. }
  destruct X as [S6 X]. use. apply optnorm_w in K3 as [S2 K3]; [|assumption].
  assert (Y : sub s1 /\ attention g R fl c wm i p (fst h) (fst a)).
  { unfold attention. pose proof (is_gdn_iff i) as G. destruct (is_gdn c i).
    - apply gdn_w in K2 as [? K2]; [|assumption]. split; [assumption|]. left. split; [apply G; auto|assumption].
    - assert (G' : ~ is_linear c i) by (intros Q; apply G in Q; discriminate).
      destruct (flag_or fl "is_mla" false) eqn:F; apply switch_if in F; [apply mla_w in K2 as [? K2]|apply attention_w in K2 as [? K2]]; auto 10. }
  destruct Y as [S1 Y]. use. split; [assumption|].
  exists n0, n1, (fst h), (fst a), (fst a'), (fst x1), (fst h1), (fst m), (fst m'). auto 15.
Qed.
Lemma layers_w n : forall i inp s r s', add_layers fl c batch seq_len wm root i n inp s = SOk (r, s') -> sub s' -> sub s /\ layers g R fl c wm root i n (fst inp) (fst r).
Proof.
  induction n as [|n IH]; intros i inp s r s' H I; cbn [add_layers] in H.
  - apply ret_inv in H as [-> ->]. split; [assumption|constructor].
  - apply bind_inv in H as (x & s1 & H1 & H). apply IH in H as [S1 H]; [|assumption]. apply layer_w in H1 as [S0 H1]; [|assumption]. split; [assumption|]. econstructor; eauto.
Qed.
Lemma build_w s o s' : build_graph fl c batch seq_len wm root s = SOk (o, s') -> sub s' -> transformer g R fl c wm root o.
Proof.
  unfold build_graph. intros H I. apply bind_inv in H as (u & s0 & K0 & H). apply bind_inv in H as (ne & s1 & K1 & H). apply wkey_inv in K1 as [K1 ->].
  apply bind_inv in H as (e & s2 & K2 & H). apply bind_inv in H as (x0 & s3 & K3 & H). apply bind_inv in H as (xn & s4 & K4 & H).
  apply bind_inv in H as (l & s5 & K5 & H). apply bind_inv in H as (o' & s6 & K6 & H). apply ret_inv in H as [-> ->].
  assert (X : sub s5 /\ if c_final_cap c then weight "models.final_logit_softcapping.weight" [] /\ fst o' = result "models.final_logit_softcapping" /\
       computes "models.final_logit_softcapping" "LogitSoftCapping" [fst l; "models.final_logit_softcapping.weight"] else fst o' = fst l).
  { destruct (c_final_cap c); [unfold add_softcapping in K6; go; fin; split; [assumption|]; split; [assumption|]; split; [reflexivity|assumption]|]. apply ret_inv in K6 as [-> ->]. auto. }
  destruct X as [S5 X]. unfold add_lm_head in K5. go. use. apply layers_w in K4 as [S3 K4]; [|assumption].
  assert (Y : sub s2 /\ ((switch_or fl "pos_embedding" false true /\ exists np po, weight_name wm "embedding" "pos" np /\ embedding g c np "position" po (c_n_positions c) /\
        pairwise g "embedding_pos_add" "Add" po (fst e) (fst x0)) \/ (switch_or fl "pos_embedding" false false /\ fst x0 = fst e))).
  { destruct (flag_or fl "pos_embedding" false) eqn:F; apply switch_if in F; go; use.
    - match goal with K : tell (EInput "position" _) _ = SOk _ |- _ => apply tell_inv in K; [|assumption]; destruct K end. split; [assumption|]. left. split; [assumption|]. do 2 eexists. split; [eassumption|]. split; eassumption.
    - auto. }
  destruct Y as [S2 Y]. use. exists ne, (fst e), (fst x0), (fst xn). do 5 eexists. split; [eassumption|]. split; [eassumption|]. split; [exact Y|].
  split; [eassumption|]. split; [eassumption|]. split; [eassumption|]. split; [eassumption|]. split; [eassumption|]. split; [eassumption|]. exact X.
Qed.
End WIRE.
