(** The builder as a whole: names of layers never collide. *)
From Coq Require Import Permutation.
From Verif Require Import PyBase PyBaseFacts GraphModel CompressSpec ShapeModel FusionModel FusionProofs RegressModel RegressProofs LlmModel LlmSpec LlmNames LlmBuild.
Open Scope Z_scope. Open Scope string_scope.

Section LAYERS.
Context (fl : flags) (c : config) (batch seq_len : Z) (wm : dict (dict string)) (root : string) (Fail : Prop).
Context (HF : ~ buildable fl c wm -> Fail) (HN : names_ok fl wm root).
Local Notation norope := (flag_or fl "qk_rope" true = false).
Local Notation segs := (layer_segments fl wm).
Local Notation gsegs := (global_segments fl wm).
Local Notation pre i := (layer_prefix root i).
Local Notation wpF := (wp Fail).

(** base names used when the globals before segment [kg], the layers before [i], and in layer [i] the segments before [k] may be in use *)
Definition PP (kg i k : nat) (b : string) : Prop :=
  (In b (concat gsegs) /\ ~ In b (concat (skipn kg gsegs))) \/ (exists j b', (j < i)%nat /\ b = pre j ++ b') \/
  (exists b', b = pre i ++ b' /\ ~ In b' (concat (skipn k segs))).
Lemma pre_inj i b j b' : pre i ++ b = pre j ++ b' -> i = j /\ b = b'.
Proof. unfold layer_prefix. rewrite !app_assoc_s. apply layer_inj. Qed.
Lemma pre_root i b : String.prefix root (pre i ++ b) = true.
Proof. unfold layer_prefix. rewrite app_assoc_s. apply prefix_app. Qed.
Lemma skipn_incl {A} (l : list (list A)) k k' : (k <= k')%nat -> incl (concat (skipn k' l)) (concat (skipn k l)).
Proof.
  intros H. replace k' with ((k' - k) + k)%nat by lia. generalize (k' - k)%nat as d. clear H k'. intros d. revert k. induction l as [|x l IH]; intros k; [rewrite !skipn_nil; apply incl_refl|].
  destruct k as [|k]; cbn [skipn].
  - rewrite Nat.add_0_r. intros y Hy. rewrite <- (firstn_skipn d (x :: l)), concat_app. apply in_or_app. auto.
  - replace (d + S k)%nat with (S (d + k)) by lia. cbn [skipn]. apply IH.
Qed.
Lemma skipn_nth {A} (l : list A) k x : nth_error l k = Some x -> skipn k l = x :: skipn (S k) l.
Proof. revert k. induction l as [|y l IH]; intros [|k] H; try discriminate; cbn in *; [injection H as ->; reflexivity|]. rewrite (IH _ H). destruct l; reflexivity. Qed.
Lemma seg_here {A} (l : list (list A)) k n : nth_error l k = Some [n] -> In n (concat (skipn k l)).
Proof. intros H. rewrite (skipn_nth _ _ _ H). left. reflexivity. Qed.
Lemma seg_gone {A} (l : list (list A)) k n : NoDup (concat l) -> nth_error l k = Some [n] -> ~ In n (concat (skipn (S k) l)).
Proof.
  intros N H. rewrite <- (firstn_skipn k l), concat_app in N. apply NoDup_app_inv in N as (_ & N & _). rewrite (skipn_nth _ _ _ H) in N. cbn [concat app] in N.
  inversion N; assumption.
Qed.
Lemma layer_fresh kg i k k' n : (k <= k')%nat -> nth_error segs k' = Some [n] -> ~ PP kg i k (pre i ++ n).
Proof.
  intros L H [[G _]|[(j & b' & Lj & E)|(b' & E & F)]].
  - destruct HN as (_ & _ & HG). specialize (HG _ G). rewrite pre_root in HG. discriminate.
  - apply pre_inj in E. lia.
  - apply pre_inj in E as [_ <-]. apply F. eapply skipn_incl; [exact L|]. apply seg_here. exact H.
Qed.
Lemma layer_extend kg i k k' n D s : (k <= k')%nat -> nth_error segs k' = Some [n] -> Inv norope (orp (PP kg i k) (pre i ++ n)) D s -> Inv norope (PP kg i (S k')) D s.
Proof.
  intros L H J. eapply Inv_weaken; [exact J| |apply incl_refl]. intros x [[X|[X|(b' & -> & F)]]| ->].
  - left. exact X.
  - right. left. exact X.
  - right. right. exists b'. split; [reflexivity|]. intros X. apply F. eapply skipn_incl; [|exact X]. lia.
  - right. right. exists n. split; [reflexivity|]. apply seg_gone; [apply HN|exact H].
Qed.
Lemma layer_skip kg i k k' D D' s : (k <= k')%nat -> incl D' D -> Inv norope (PP kg i k) D s -> Inv norope (PP kg i k') D' s.
Proof.
  intros L HD J. eapply Inv_weaken; [exact J| |exact HD]. intros x [X|[X|(b' & -> & F)]]; [left; exact X|right; left; exact X|].
  right. right. exists b'. split; [reflexivity|]. intros X. apply F. eapply skipn_incl; [exact L|exact X].
Qed.
Lemma layer_next kg i k D D' s : incl D' D -> Inv norope (PP kg i k) D s -> Inv norope (PP kg (S i) 0) D' s.
Proof.
  intros HD J. eapply Inv_weaken; [exact J| |exact HD]. intros x [X|[(j & b' & Lj & ->)|(b' & -> & F)]]; [left; exact X| |].
  - right. left. exists j, b'. split; [lia|reflexivity].
  - right. left. exists i, b'. split; [lia|reflexivity].
Qed.
Lemma global_fresh kg kg' i k n : (kg <= kg')%nat -> nth_error gsegs kg' = Some [n] -> ~ PP kg i k n.
Proof.
  intros L H. assert (G : In n (concat gsegs)) by (apply (skipn_incl gsegs 0 kg'); [lia|apply seg_here; exact H]).
  destruct HN as (_ & _ & HG). specialize (HG _ G). intros [[_ F]|[(j & b' & Lj & E)|(b' & E & F)]].
  - apply F. eapply skipn_incl; [exact L|]. apply seg_here. exact H.
  - rewrite E, pre_root in HG. discriminate.
  - rewrite E, pre_root in HG. discriminate.
Qed.
Lemma global_extend kg kg' i k n D s : (kg <= kg')%nat -> nth_error gsegs kg' = Some [n] -> Inv norope (orp (PP kg i k) n) D s -> Inv norope (PP (S kg') i k) D s.
Proof.
  intros L H J. assert (G : In n (concat gsegs)) by (apply (skipn_incl gsegs 0 kg'); [lia|apply seg_here; exact H]).
  eapply Inv_weaken; [exact J| |apply incl_refl]. intros x [[[X F]|[X|X]]| ->].
  - left. split; [exact X|]. intros Y. apply F. eapply skipn_incl; [|exact Y]. lia.
  - right. left. exact X.
  - right. right. exact X.
  - left. split; [exact G|]. apply seg_gone; [apply HN|exact H].
Qed.
Lemma given_seg sec k n : wkey wm sec k = SOk n -> given wm sec k = [n].
Proof. intros E. unfold given. rewrite E. reflexivity. Qed.

Ltac seg := first [reflexivity | cbn [nth_error layer_segments global_segments]; f_equal; apply given_seg; assumption].
Ltac inD := match goal with |- In _ _ => solve [repeat (first [assumption | left; reflexivity | right])] end.
Ltac ext k := let s := fresh "s" in let J := fresh "J" in intros s J; eapply (layer_extend _ _ _ k) in J; [|lia|seg].
Ltac op lem k := eapply lem; [eassumption | eapply layer_fresh with (k' := k); [lia|seg] | .. ]; try inD; try (match goal with |- _ = _ => reflexivity end); try (match goal with |- forall s', Inv _ _ _ s' -> _ => ext k end).
Ltac flg := apply wp_bind; apply (flag_ok _ _ _ _ HF); [cbn; clear; tauto|].
Ltac wk := apply wp_bind; apply (wkey_ok _ _ _ _ HF);
  [let H := fresh in intros (_ & H & _); match goal with |- given wm ?a ?b <> _ => apply (H (a, b)); cbn; clear; tauto end|].
Ltac done K := apply wp_ret; eapply K; eapply layer_skip; [| |eassumption]; [lia|let x := fresh in let H := fresh in intros x H; repeat (destruct H as [<-|H]; [inD|]); repeat right; exact H].

Section PIECES.
Context (kg i : nat).
Local Notation p := (pre i).
Local Notation qw := [batch; seq_len; q_width c].
Local Notation kw := [batch; seq_len; kv_width c].
Local Notation hid := [batch; seq_len; c_hidden c].
Lemma qkv_ok D s inp (Q : tref * tref * tref -> bst -> Prop) : Inv norope (PP kg i 1) D s -> In inp D ->
  (forall s' q k v, Inv norope (PP kg i 9) ((q, qw) :: (k, kw) :: (v, kw) :: D) s' -> Q ((q, qw), (k, kw), (v, kw)) s') ->
  wpF (add_qkv fl c batch seq_len wm p inp) Q s.
Proof.
  intros J Hi K. unfold add_qkv. flg. intros bias _. flg. intros [|] _.
  - wk. intros nm E. apply wp_bind. op mm_ok 1%nat. apply wp_bind. op slice_ok 5%nat. apply wp_bind. op slice_ok 6%nat. apply wp_bind. op slice_ok 7%nat. done K.
  - wk. intros nq Eq. wk. intros nk Ek. wk. intros nv Ev. apply wp_bind. op mm_ok 2%nat. apply wp_bind. op mm_ok 3%nat. apply wp_bind. op mm_ok 4%nat. done K.
Qed.
Lemma qkv_gated_ok D s inp (Q : tref * tref * tref * tref -> bst -> Prop) : Inv norope (PP kg i 1) D s -> In inp D ->
  (forall s' q k v g, Inv norope (PP kg i 9) ((q, qw) :: (k, kw) :: (v, kw) :: (g, qw) :: D) s' -> Q ((q, qw), (k, kw), (v, kw), (g, qw)) s') ->
  wpF (add_qkv_gated fl c batch seq_len wm p inp) Q s.
Proof.
  intros J Hi K. unfold add_qkv_gated. flg. intros bias _.
  wk. intros nq Eq. wk. intros nk Ek. wk. intros nv Ev. apply wp_bind. op mm_ok 2%nat. apply wp_bind. op mm_ok 3%nat. apply wp_bind. op mm_ok 4%nat.
  apply wp_bind. op slice_ok 5%nat. apply wp_bind. op slice_ok 8%nat. done K.
Qed.
Ltac fin K := eapply K; eapply layer_skip; [| |eassumption]; [lia|let x := fresh in let H := fresh in intros x H; repeat (destruct H as [<-|H]; [inD|]); repeat right; exact H].
Lemma attention_ok D s inp (Q : tref -> bst -> Prop) : Inv norope (PP kg i 1) D s -> In inp D ->
  (forall s' n, Inv norope (PP kg i 26) ((n, hid) :: D) s' -> Q (n, hid) s') ->
  wpF (add_attention fl c batch seq_len wm p inp) Q s.
Proof.
  intros J Hi K. unfold add_attention. apply wp_bind.
  assert (Rest : forall s' q k v g, Inv norope (PP kg i 9) ((q, qw) :: (k, kw) :: (v, kw) :: match g with Some g => [(g, qw)] | None => [] end ++ D) s' ->
    wpF (let '(q, k, v, gate) := ((q, qw), (k, kw), (v, kw), match g with Some g => Some (g, qw) | None => None end) in
  do qk <- (if flag_or fl "qk_norm" false
            then do q <- add_qk_norm c q (p ++ "self_attn.q_norm"); do k <- add_qk_norm c k (p ++ "self_attn.k_norm"); ret (q, k)
            else ret (q, k));
  let '(q, k) := qk in
  do qk <- (if flag_or fl "qk_rope" true
            then do q <- add_rope c batch seq_len q (p ++ "rope_q"); do k <- add_rope c batch seq_len k (p ++ "rope_k"); ret (q, k)
            else ret (q, k));
  let '(q, k) := qk in
  do cur <- add_mha c batch seq_len [q; k; v] (p ++ "mha");
  do cur <- (match gate with
             | Some g => do g <- add_act g "silu" (p ++ "attn_gate.act"); add_eltop cur g "Mul" (p ++ "attn.gated")
             | None => ret cur
             end);
  do ob <- lift (flag fl "o_bias");
  do no <- lift (wkey wm "attention" "o");
  add_mm batch seq_len cur (q_width c) (c_hidden c) ob (p ++ no)) Q s').
  { intros s' q k v g J'. set (DG := (match g with Some g => [(g, qw)] | None => [] end ++ D)%list) in *.
    apply wp_bind.
    assert (R2 : forall s' q k, Inv norope (PP kg i 11) ((q, qw) :: (k, kw) :: (v, kw) :: DG) s' -> wpF (let '(q, k) := ((q, qw), (k, kw)) in
  do qk <- (if flag_or fl "qk_rope" true
            then do q <- add_rope c batch seq_len q (p ++ "rope_q"); do k <- add_rope c batch seq_len k (p ++ "rope_k"); ret (q, k)
            else ret (q, k));
  let '(q, k) := qk in
  do cur <- add_mha c batch seq_len [q; k; (v, kw)] (p ++ "mha");
  do cur <- (match match g with Some g => Some (g, qw) | None => None end with
             | Some g => do g <- add_act g "silu" (p ++ "attn_gate.act"); add_eltop cur g "Mul" (p ++ "attn.gated")
             | None => ret cur
             end);
  do ob <- lift (flag fl "o_bias");
  do no <- lift (wkey wm "attention" "o");
  add_mm batch seq_len cur (q_width c) (c_hidden c) ob (p ++ no)) Q s').
    { clear q k s' J'. intros s' q k J'. apply wp_bind.
      assert (R3 : forall s' q k, Inv norope (PP kg i 14) ((q, qw) :: (k, kw) :: (v, kw) :: DG) s' -> wpF (let '(q, k) := ((q, qw), (k, kw)) in
  do cur <- add_mha c batch seq_len [q; k; (v, kw)] (p ++ "mha");
  do cur <- (match match g with Some g => Some (g, qw) | None => None end with
             | Some g => do g <- add_act g "silu" (p ++ "attn_gate.act"); add_eltop cur g "Mul" (p ++ "attn.gated")
             | None => ret cur
             end);
  do ob <- lift (flag fl "o_bias");
  do no <- lift (wkey wm "attention" "o");
  add_mm batch seq_len cur (q_width c) (c_hidden c) ob (p ++ no)) Q s').
      { clear q k s' J'. intros s' q k J'. apply wp_bind. op mha_ok 14%nat. apply wp_bind.
        assert (R4 : forall s' n, Inv norope (PP kg i 17) ((n, qw) :: D) s' -> wpF (do ob <- lift (flag fl "o_bias");
  do no <- lift (wkey wm "attention" "o");
  add_mm batch seq_len (n, qw) (q_width c) (c_hidden c) ob (p ++ no)) Q s').
        { intros s1 n J1. flg. intros ob _. wk. intros no Eo. op mm_ok 17%nat. fin K. }
        subst DG. destruct g as [g|].
        - apply wp_bind. op (act_ok Fail norope fl c wm HF) 15%nat; [intros _; reflexivity|]. op eltop_ok 16%nat. cbn [snd]. fin R4.
        - apply wp_ret. fin R4. }
      assert (NRc : flag_or fl "qk_rope" true = true \/ norope) by (destruct (flag_or fl "qk_rope" true); auto).
      destruct NRc as [NR|NR]; rewrite NR.
      - apply wp_bind. eapply rope_ok; [|eassumption|eapply layer_fresh with (k' := 12%nat); [lia|seg]|inD|]; [congruence|]. ext 12%nat.
        apply wp_bind. eapply rope_ok; [|eassumption|eapply layer_fresh with (k' := 13%nat); [lia|seg]|inD|]; [congruence|]. ext 13%nat.
        apply wp_ret. fin R3.
      - apply wp_ret. fin R3. }
    destruct (flag_or fl "qk_norm" false) eqn:QN.
    - assert (RM : buildable fl c wm -> c_rms c = true).
      { intros (_ & _ & _ & [X|(_ & X & _)] & _); [exact X|congruence]. }
      apply wp_bind. op (qk_norm_ok Fail norope fl c wm HF) 9%nat; [exact RM|]. apply wp_bind. op (qk_norm_ok Fail norope fl c wm HF) 10%nat; [exact RM|].
      apply wp_ret. fin R2.
    - apply wp_ret. fin R2. }
  destruct (flag_or fl "qkv_gated" false).
  - apply wp_bind. eapply qkv_gated_ok; [exact J|exact Hi|]. intros s1 q k v g J1. apply wp_ret. apply (Rest s1 q k v (Some g)). exact J1.
  - apply wp_bind. eapply qkv_ok; [exact J|exact Hi|]. intros s1 q k v J1. apply wp_ret. apply (Rest s1 q k v None). exact J1.
Qed.
Ltac wt k := apply wp_bind; eapply weight_ok; [eassumption | eapply layer_fresh with (k' := k); [lia|seg] | rewrite app_assoc_s; reflexivity | ext k].
Ltac inIns := let x := fresh in let H := fresh in intros x H; cbn [In] in H; repeat (destruct H as [<-|H]; [cbn [map fst]; first [inD | repeat (first [left; reflexivity | right]); apply in_map; assumption]|]); contradiction.
Lemma mla_ok D s inp (Q : tref -> bst -> Prop) : Inv norope (PP kg i 1) D s -> In inp D ->
  (forall s' n, Inv norope (PP kg i 26) ((n, hid) :: D) s' -> Q (n, hid) s') ->
  wpF (add_mla c batch seq_len p inp) Q s.
Proof.
  intros J Hi K. unfold add_mla. wt 18%nat. wt 19%nat. wt 20%nat. wt 21%nat. wt 22%nat. wt 23%nat. wt 24%nat.
  eapply emit_ok; [eassumption|eapply layer_fresh with (k' := 25%nat); [lia|seg]|inIns|]. ext 25%nat. fin K.
Qed.
Lemma gdn_ok D s inp (Q : tref -> bst -> Prop) : is_gdn c i = true -> Inv norope (PP kg i 1) D s -> In inp D ->
  (forall s' n, Inv norope (PP kg i 26) ((n, hid) :: D) s' -> Q (n, hid) s') ->
  wpF (add_gdn fl c batch seq_len wm p inp) Q s.
Proof.
  intros G J Hi K. assert (RM : buildable fl c wm -> c_rms c = true).
  { intros (_ & _ & _ & [X|(_ & _ & X)] & _); [exact X|]. unfold is_gdn in G. rewrite X in G. discriminate. }
  unfold add_gdn. wk. intros nq Eq. wk. intros nk Ek. wk. intros nv Ev. apply wp_bind. op mm_ok 2%nat. apply wp_bind. op mm_ok 3%nat. apply wp_bind. op mm_ok 4%nat.
  apply wp_bind. op (qk_norm_ok Fail norope fl c wm HF) 9%nat; [exact RM|]. apply wp_bind. op (qk_norm_ok Fail norope fl c wm HF) 10%nat; [exact RM|].
  eapply emit_ok; [eassumption|eapply layer_fresh with (k' := 11%nat); [lia|seg]|inIns|]. ext 11%nat. fin K.
Qed.
Lemma moe_ok D s inp (Q : tref -> bst -> Prop) : Inv norope (PP kg i 29) D s -> In inp D ->
  (forall s' n, Inv norope (PP kg i 44) ((n, hid) :: D) s' -> Q (n, hid) s') ->
  wpF (add_moe fl c batch seq_len p inp) Q s.
Proof.
  intros J Hi K. unfold add_moe. wt 29%nat. wt 30%nat. wt 31%nat. wt 32%nat. destruct (flag_or fl "no_shared_expert" false).
  - eapply emit_ok; [eassumption|eapply layer_fresh with (k' := 37%nat); [lia|seg]|inIns|]. ext 37%nat. fin K.
  - wt 33%nat. wt 34%nat. wt 35%nat. destruct (flag_or fl "no_shared_gate" false).
    + eapply emit_ok; [eassumption|eapply layer_fresh with (k' := 37%nat); [lia|seg]|inIns|]. ext 37%nat. fin K.
    + wt 36%nat. eapply emit_ok; [eassumption|eapply layer_fresh with (k' := 37%nat); [lia|seg]|inIns|]. ext 37%nat. fin K.
Qed.
Lemma mlp_ok D s inp (Q : tref -> bst -> Prop) : Inv norope (PP kg i 29) D s -> In inp D ->
  (forall s' n, Inv norope (PP kg i 44) ((n, hid) :: D) s' -> Q (n, hid) s') ->
  wpF (add_mlp fl c batch seq_len wm p inp) Q s.
Proof.
  intros J Hi K. assert (AC : buildable fl c wm -> dhas ActMap (c_act c) = true) by (intros (_ & _ & _ & _ & X); exact X).
  unfold add_mlp. flg. intros bias _. flg. intros gated _. wk. intros nup Eu. wk. intros ndown Ed. apply wp_bind. apply wp_lift.
  2: { intros e E. destruct gated; [|discriminate]. apply HF. intros (_ & X & _). specialize (X ("mlp", "gate")). cbn [fst snd] in X. unfold given in X. rewrite E in X. apply X; [cbn; clear; tauto|reflexivity]. }
  intros ngate Eg. destruct (String.eqb (c_model_type c) "phi3" || String.eqb (c_model_type c) "phi3small").
  - wk. intros ngu Egu. apply wp_bind. op mm_ok 38%nat. apply wp_bind. apply wp_lift; [|discriminate]. intros o _. apply wp_bind.
    eapply emit_ok; [eassumption|eapply layer_fresh with (k' := 41%nat); [lia|seg]|inIns|]. ext 41%nat. op mm_ok 43%nat. fin K.
  - apply wp_bind. op mm_ok 39%nat. destruct gated.
    + apply wp_bind. op mm_ok 40%nat. apply wp_bind. op (act_ok Fail norope fl c wm HF) 41%nat; [exact AC|]. apply wp_bind. op eltop_ok 42%nat. op mm_ok 43%nat. fin K.
    + apply wp_bind. op (act_ok Fail norope fl c wm HF) 41%nat; [exact AC|]. op mm_ok 43%nat. fin K.
Qed.
Lemma layer_ok D s inp (Q : tref -> bst -> Prop) : Inv norope (PP kg i 0) D s -> In inp D -> snd inp = hid ->
  (forall s' n, Inv norope (PP kg (S i) 0) ((n, hid) :: D) s' -> Q (n, hid) s') ->
  wpF (add_layer fl c batch seq_len wm root i inp) Q s.
Proof.
  intros J Hi Hs K. unfold add_layer. wk. intros n0 E0. apply wp_bind. op (layernorm_ok Fail norope fl c wm HF) 0%nat. rewrite Hs in *. apply wp_bind.
  assert (Rest : forall s' n, Inv norope (PP kg i 26) ((n, hid) :: D) s' -> wpF (
    do cur <- optional_norm fl c wm "post_attn_norm" "attention" p (n, hid);
    do inp <- add_eltop inp cur "Add" (p ++ "attention_add");
    do n1 <- lift (wkey wm "mlp" "input_norm");
    do cur <- add_layernorm fl c inp (p ++ n1);
    do cur <- (if flag_or fl "is_moe" false then add_moe fl c batch seq_len p cur else add_mlp fl c batch seq_len wm p cur);
    do cur <- optional_norm fl c wm "post_mlp_norm" "mlp" p cur;
    add_eltop inp cur "Add" (p ++ "mlp_add")) Q s').
  { clear s J s0 J0. intros s n J. apply wp_bind.
    assert (R2 : forall s' n, Inv norope (PP kg i 27) ((n, hid) :: D) s' -> wpF (
    do inp <- add_eltop inp (n, hid) "Add" (p ++ "attention_add");
    do n1 <- lift (wkey wm "mlp" "input_norm");
    do cur <- add_layernorm fl c inp (p ++ n1);
    do cur <- (if flag_or fl "is_moe" false then add_moe fl c batch seq_len p cur else add_mlp fl c batch seq_len wm p cur);
    do cur <- optional_norm fl c wm "post_mlp_norm" "mlp" p cur;
    add_eltop inp cur "Add" (p ++ "mlp_add")) Q s').
    { clear s J n. intros s n J. apply wp_bind. eapply eltop_ok; [eassumption|eapply layer_fresh with (k' := 27%nat); [lia|seg]|inD|inD|exact Hs|]. ext 27%nat. rewrite Hs in *.
      wk. intros n1 E1. apply wp_bind. op (layernorm_ok Fail norope fl c wm HF) 28%nat. cbn [snd] in *. apply wp_bind.
      set (a := (p ++ "attention_add") ++ ".output") in *.
      assert (R3 : forall s' n, Inv norope (PP kg i 44) ((n, hid) :: (a, hid) :: D) s' -> wpF (
        do cur <- optional_norm fl c wm "post_mlp_norm" "mlp" p (n, hid);
        add_eltop (a, hid) cur "Add" (p ++ "mlp_add")) Q s').
      { clear - K HF HN. intros s n J. apply wp_bind.
        assert (R4 : forall s' n, Inv norope (PP kg i 45) ((n, hid) :: (a, hid) :: D) s' -> wpF (add_eltop (a, hid) (n, hid) "Add" (p ++ "mlp_add")) Q s').
        { clear s n J. intros s n J. eapply eltop_ok; [eassumption|eapply layer_fresh with (k' := 45%nat); [lia|seg]|inD|inD|reflexivity|].
          intros s' J'. cbn [snd] in *. eapply K. eapply Inv_weaken; [eapply layer_extend with (k' := 45%nat); [|reflexivity|exact J']; lia| |].
          - intros x [X|[(j & b' & L & ->)|(b' & -> & _)]]; [left; exact X|right; left; exists j, b'; split; [lia|reflexivity]|right; left; exists i, b'; split; [lia|reflexivity]].
          - intros x H. repeat (destruct H as [<-|H]; [inD|]). repeat right. exact H. }
        unfold optional_norm. destruct (flag_or fl "post_mlp_norm" false) eqn:PM.
        - wk. intros no Eo. assert (SG : nth_error segs 44 = Some [no]) by (cbn [nth_error layer_segments]; rewrite PM; f_equal; apply given_seg; assumption).
          eapply (layernorm_ok Fail norope fl c wm HF); [eassumption|eapply layer_fresh with (k' := 44%nat); [lia|exact SG]|inD|]. intros s1 J1.
          eapply (layer_extend _ _ _ 44) in J1; [|lia|exact SG]. cbn [snd] in *. fin R4.
        - apply wp_ret. fin R4. }
      destruct (flag_or fl "is_moe" false).
      - eapply moe_ok; [eassumption|inD|]. intros s2 m J2. eapply R3. eapply layer_skip; [| |exact J2]; [lia|]. intros x H. repeat (destruct H as [<-|H]; [inD|]). repeat right. exact H.
      - eapply mlp_ok; [eassumption|inD|]. intros s2 m J2. eapply R3. eapply layer_skip; [| |exact J2]; [lia|]. intros x H. repeat (destruct H as [<-|H]; [inD|]). repeat right. exact H. }
    unfold optional_norm at 1. destruct (flag_or fl "post_attn_norm" false) eqn:PM.
    - wk. intros no Eo. assert (SG : nth_error segs 26 = Some [no]) by (cbn [nth_error layer_segments]; rewrite PM; f_equal; apply given_seg; assumption).
      eapply (layernorm_ok Fail norope fl c wm HF); [eassumption|eapply layer_fresh with (k' := 26%nat); [lia|exact SG]|inD|]. intros s1 J1.
      eapply (layer_extend _ _ _ 26) in J1; [|lia|exact SG]. cbn [snd] in *. fin R2.
    - apply wp_ret. fin R2. }
  assert (Inc : forall (m : tref) a, incl (m :: D) (m :: a :: D)) by (intros m a x [<-|H]; [left|right; right]; auto).
  destruct (is_gdn c i) eqn:G; [|destruct (flag_or fl "is_mla" false)].
  - eapply gdn_ok; [exact G|eassumption|inD|]. intros s2 m J2. apply Rest. eapply layer_skip; [| |exact J2]; [lia|apply Inc].
  - eapply mla_ok; [eassumption|inD|]. intros s2 m J2. apply Rest. eapply layer_skip; [| |exact J2]; [lia|apply Inc].
  - eapply attention_ok; [eassumption|inD|]. intros s2 m J2. apply Rest. eapply layer_skip; [| |exact J2]; [lia|apply Inc].
Qed.
End PIECES.
Local Notation hid := [batch; seq_len; c_hidden c].
Lemma layers_ok kg n i D s inp (Q : tref -> bst -> Prop) : Inv norope (PP kg i 0) D s -> In inp D -> snd inp = hid ->
  (forall s' o j, Inv norope (PP kg j 0) [(o, hid)] s' -> Q (o, hid) s') ->
  wpF (add_layers fl c batch seq_len wm root i n inp) Q s.
Proof.
  revert i D s inp. induction n as [|n IH]; intros i D s inp J Hi Hs K; cbn [add_layers].
  - apply wp_ret. destruct inp as [o sh]. cbn in Hs. subst sh. apply (K _ _ i). eapply Inv_weaken; [exact J|auto|]. intros x [<-|[]]. exact Hi.
  - apply wp_bind. eapply layer_ok; [exact J|exact Hi|exact Hs|]. intros s1 o J1. eapply IH; [exact J1|left; reflexivity|reflexivity|exact K].
Qed.
Ltac gx k := let s := fresh "s" in let J := fresh "J" in intros s J; eapply (global_extend _ k) in J; [|lia|seg].
Lemma wp_conj {A} (m : B A) (Q R : A -> bst -> Prop) s : wpF m Q s -> wp True m R s -> wpF m (fun a s' => Q a s' /\ R a s') s.
Proof. unfold wp. destruct (m s); auto. Qed.
Lemma emit_out b op ins sh s : wp True (emit b op ins sh) (fun r s' => In (fst r) (outs_of (nodes_of (gr s')))) s.
Proof.
  unfold wp, emit, bind, tell, ret, sbind. cbn [fst snd]. rewrite gr_snoc. unfold nodes_of. cbn [replay_step nodemap n_name].
  unfold outs_of. apply in_flat_map. exists (mkNode b op ins [b ++ ".output"]). split; [|left; reflexivity].
  apply in_map_iff. exists (b, mkNode b op ins [b ++ ".output"]). split; [reflexivity|]. apply dget_In. apply dget_dset_eq.
Qed.
Lemma mm_out inp fin fout bias b s : wp True (add_mm batch seq_len inp fin fout bias b) (fun r s' => In (fst r) (outs_of (nodes_of (gr s')))) s.
Proof.
  unfold add_mm, static. apply wp_bind. unfold wp at 1, bind at 1, tell at 1, ret at 1. cbn [sbind fst snd]. destruct bias.
  - apply wp_bind. unfold wp at 1, bind at 1, tell at 1, ret at 1. cbn [sbind fst snd]. apply emit_out.
  - apply emit_out.
Qed.
Lemma softcap_out inp b s : wp True (add_softcapping inp b) (fun r s' => In (fst r) (outs_of (nodes_of (gr s')))) s.
Proof. unfold add_softcapping, static. apply wp_bind. unfold wp at 1, bind at 1, tell at 1, ret at 1. cbn [sbind fst snd]. apply emit_out. Qed.
Lemma Inv_dots nr P D s : Inv nr P D s -> forall t, In t (tensor_names (gr s)) -> has_dot t = true \/ t = "ids" \/ t = "position".
Proof.
  intros J t H. destruct (i_t _ _ _ _ _ J t H) as [S|(b & e & _ & Ie & ->)]; [|left; apply ext_has_dot; exact Ie].
  right. unfold special in S. apply orb_prop in S as [S|S]; [apply orb_prop in S as [S|S]|]; apply String.eqb_eq in S; auto. subst t. destruct (eg_named _ (i_wf _ _ _ _ _ J) H).
Qed.
(** the state after the token embedding *)
Lemma start_Inv : Inv norope (PP 1 0 0) [("ids", [batch; seq_len])] {| log := [EInput "ids" (mkTensor DYNAMIC [batch; seq_len] 8)]; rope_done := false; pos_done := false; bounds := [] |}.
Proof.
  set (tn := mkTensor DYNAMIC [batch; seq_len] 8). assert (W : executable_graph (replay_step g0 (EInput "ids" tn))) by (apply wf_input; [apply wf_empty|intros []|discriminate]).
  constructor; cbn [rope_done pos_done].
  - exact W.
  - intros k [].
  - intros t [<-|[]]. left. reflexivity.
  - intros r [<-|[]]. split; [left; reflexivity|]. exists tn. auto.
  - assert (R : PP 1 0 0 "rope"). { left. split; [left; reflexivity|]. apply (seg_gone gsegs 0); [apply HN|reflexivity]. }
    split; [|split; [|split]]; [right; exists "rope", ".cos"; cbn; auto 12|right; exists "rope", ".sin"; cbn; auto 12|left; reflexivity|left; reflexivity].
  - cbn. split; intros [H|[]]; discriminate.
  - cbn. right. intros [H|[]]; discriminate.
  - unfold faithful. cbn. split; [reflexivity|]. split; [reflexivity|]. intros d [<-|[]]. reflexivity.
Qed.
Context (HP : flag_or fl "pos_embedding" false = true -> norope).
Lemma build_ok : wpF (build_graph fl c batch seq_len wm root)
  (fun o s' => executable_graph (gr s') /\ In o (outs_of (nodes_of (gr s'))) /\ (exists tn, dget (tensormap (gr s')) o = Some tn /\ t_shape tn = [batch; seq_len; c_vocab c]) /\ (forall t, In t (tensor_names (gr s')) -> has_dot t = true \/ t = "ids" \/ t = "position") /\ faithful (log s')) bst0.
Proof.
  unfold build_graph. apply wp_bind. unfold wp at 1, tell at 1. cbn [fst snd log rope_done pos_done bounds bst0 app]. pose proof start_Inv as J.
  set (s1 := {| log := [EInput "ids" _]; rope_done := false; pos_done := false; bounds := [] |}) in *. wk. intros ne Ee. apply wp_bind.
  assert (E1 : exists s2, add_embedding c batch seq_len ("ids", [batch; seq_len]) (c_vocab c) ne s1 = SOk ((ne ++ ".output", hid), s2) /\ pos_done s2 = false /\ ~ In "position" (tensor_names (gr s2))).
  { eexists. split; [reflexivity|]. split; [reflexivity|]. unfold gr. cbn. intros [H|[H|[H|[]]]]; try discriminate.
    - assert (X : has_dot (ne ++ ".weight") = true) by (apply ext_has_dot; cbn; auto). rewrite H in X. discriminate.
    - assert (X : has_dot (ne ++ ".output") = true) by (apply ext_has_dot; cbn; auto). rewrite H in X. discriminate. }
  destruct E1 as (s2 & E1 & PD & NP).
  assert (J2 : Inv norope (PP 2 0 0) [(ne ++ ".output", hid)] s2).
  { assert (X : wp False (add_embedding c batch seq_len ("ids", [batch; seq_len]) (c_vocab c) ne) (fun _ s' => Inv norope (PP 2 0 0) [(ne ++ ".output", hid)] s') s1).
    { eapply embedding_ok; [exact J|eapply global_fresh with (kg' := 1%nat); [lia|seg]|inD|]. gx 1%nat. eapply Inv_weaken; [exact J0|auto|]. intros x [<-|[]]. left. reflexivity. }
    unfold wp in X. rewrite E1 in X. exact X. }
  unfold wp at 1. rewrite E1. cbn [fst snd]. apply wp_bind.
  assert (Rest : forall s' n, Inv norope (PP 4 0 0) [(n, hid)] s' -> wpF (
    do cur <- add_layers fl c batch seq_len wm root 0 (Z.to_nat (c_layers c)) (n, hid);
    do cur <- add_lm_head fl c batch seq_len wm cur;
    do cur <- (if c_final_cap c then add_softcapping cur "models.final_logit_softcapping" else ret cur);
    ret (fst cur))
   (fun o s' => executable_graph (gr s') /\ In o (outs_of (nodes_of (gr s'))) /\ (exists tn, dget (tensormap (gr s')) o = Some tn /\ t_shape tn = [batch; seq_len; c_vocab c]) /\ (forall t, In t (tensor_names (gr s')) -> has_dot t = true \/ t = "ids" \/ t = "position") /\ faithful (log s')) s').
  { clear - HF HN. intros s n J. apply wp_bind. eapply layers_ok; [exact J|left; reflexivity|reflexivity|]. clear s J n. intros s n j J.
    apply wp_bind. unfold add_lm_head. wk. intros nn En. apply wp_bind.
    eapply (layernorm_ok Fail norope fl c wm HF); [exact J|eapply global_fresh with (kg' := 4%nat); [lia|seg]|inD|]. gx 4%nat. cbn [snd] in *. flg. intros lb _. wk. intros nm Em.
    eapply wp_mono; [|apply (wp_conj _ (fun o s' => o = (nm ++ ".output", [batch; seq_len; c_vocab c]) /\ Inv norope (PP 6 j 0) [(nm ++ ".output", [batch; seq_len; c_vocab c])] s')); [|apply mm_out]].
    - intros o s3 [[-> J3] O]. apply wp_bind. destruct (c_final_cap c).
      + eapply wp_mono; [|apply (wp_conj _ (fun o s' => snd o = [batch; seq_len; c_vocab c] /\ Inv norope (PP 7 j 0) [o] s')); [|apply softcap_out]].
        * intros o s4 [[O2 J4] O4]. apply wp_ret. split; [apply J4|]. split; [exact O4|]. destruct (i_d _ _ _ _ _ J4 o (or_introl eq_refl)) as (_ & tn & G & X). split; [exists tn; split; congruence|split; [exact (Inv_dots _ _ _ _ J4)|apply J4]].
        * eapply softcap_ok; [exact J3|eapply global_fresh with (kg' := 6%nat); [lia|seg]|inD|]. gx 6%nat. cbn [snd] in *. split; [reflexivity|]. eapply Inv_weaken; [eassumption|auto|]. intros x [<-|[]]. left. reflexivity.
      + apply wp_ret. apply wp_ret. split; [apply J3|]. split; [exact O|]. destruct (i_d _ _ _ _ _ J3 _ (or_introl eq_refl)) as (_ & tn & G & X). split; [exists tn; split; assumption|split; [exact (Inv_dots _ _ _ _ J3)|apply J3]].
    - eapply mm_ok; [eassumption|eapply global_fresh with (kg' := 5%nat); [lia|seg]|inD|]. gx 5%nat. split; [reflexivity|]. eapply Inv_weaken; [eassumption|auto|]. intros x [<-|[]]. left. reflexivity. }
  destruct (flag_or fl "pos_embedding" false) eqn:PE.
  - specialize (HP eq_refl). apply wp_bind. unfold wp at 1, tell at 1. cbn [fst snd].
    set (tn := mkTensor DYNAMIC [batch; seq_len] 8).
    assert (J3 : Inv norope (PP 2 0 0) [("position", [batch; seq_len]); (ne ++ ".output", hid)] {| log := (log s2 ++ [EInput "position" tn])%list; rope_done := rope_done s2; pos_done := pos_done s2; bounds := bounds s2 |}).
    { destruct J2 as [W A BB C R X Y FA]. constructor; rewrite ?gr_snoc; cbn [rope_done pos_done].
      + apply wf_input; [exact W|exact NP|discriminate].
      + exact A.
      + intros t H. rewrite names_input in H. destruct H as [H| ->]; [auto|]. left. reflexivity.
      + intros r [<-|Hr]; cbn [fst snd].
        * rewrite names_input. split; [auto|]. exists tn. cbn. auto using dget_dset_eq.
        * destruct (C r Hr) as [C1 (t & C2 & C3)]. rewrite names_input. split; [auto|]. exists t. cbn. rewrite dget_dset_neq; [auto|]; intros E; rewrite <- E in C1; contradiction.
      + exact R.
      + destruct (rope_done s2); rewrite !names_input; [tauto|]. destruct X as [X1 X2]. split; intros [H|H]; try contradiction; discriminate.
      + rewrite PD. left. exact HP.
      + cbn [log]. apply faithful_input; assumption. }
    apply wp_bind. apply (wkey_ok _ _ _ _ HF); [intros (_ & _ & H & _); apply H; exact PE|]. intros np Ep. apply wp_bind.
    assert (SG : nth_error gsegs 2 = Some [np]) by (cbn [nth_error global_segments]; rewrite PE; f_equal; apply given_seg; assumption).
    eapply embedding_ok; [exact J3|eapply global_fresh with (kg' := 2%nat); [lia|exact SG]|inD|]. intros s4 J4. eapply (global_extend _ 2) in J4; [|lia|exact SG].
    eapply eltop_ok; [exact J4|eapply global_fresh with (kg' := 3%nat); [lia|seg]|inD|inD|reflexivity|]. gx 3%nat. cbn [snd] in *. apply Rest.
    eapply Inv_weaken; [eassumption|auto|]. intros x [<-|[]]. left. reflexivity.
  - apply wp_ret. apply Rest. eapply Inv_weaken; [exact J2| |apply incl_refl]. intros x [[X F]|[X|X]]; [left|right; left; exact X|right; right; exact X].
    split; [exact X|]. intros Z. apply F. eapply skipn_incl; [|exact Z]. lia.
Qed.
End LAYERS.
