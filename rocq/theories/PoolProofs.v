From Verif Require Import PyBase PyBaseFacts ShapeModel FusionModel FusionProofs PoolModel.
Open Scope Z_scope.

(** a request with no negative dimension *)
Definition nonneg (sh : option (list Z)) : Prop := match sh with Some l => Forall (fun d => 0 <= d) l | None => True end.
Definition made (p : pool) : Prop := 0 < pl_esz p /\ exists plan size esz mem, mk_pool plan size esz mem = SOk p.

Lemma validate_ok size : forall plan u, validate size plan = SOk u -> forall k o s, In (k, (o, s)) plan -> 0 <= o /\ 0 < s /\ o + s <= size.
Proof.
  induction plan as [|[k0 [o0 s0]] plan IH]; intros u H k o s I; [contradiction|]. cbn [validate] in H.
  destruct (Z.ltb_spec o0 0); [discriminate|]. destruct (Z.leb_spec s0 0); [discriminate|]. destruct (Z.ltb_spec size (o0 + s0)); [discriminate|].
  destruct I as [E|I]; [injection E as -> -> ->; lia|eauto].
Qed.
Lemma validate_pass size plan : (forall k o s, In (k, (o, s)) plan -> 0 <= o /\ 0 < s /\ o + s <= size) -> validate size plan = SOk tt.
Proof.
  induction plan as [|[k0 [o0 s0]] plan IH]; intros H; [reflexivity|]. cbn [validate].
  destruct (H k0 o0 s0 (or_introl eq_refl)) as (A & B & C).
  destruct (Z.ltb_spec o0 0); [lia|]. destruct (Z.leb_spec s0 0); [lia|]. destruct (Z.ltb_spec size (o0 + s0)); [lia|].
  apply IH. intros; eapply H; right; eauto.
Qed.
Lemma made_inv p : made p -> 0 < pl_esz p /\ 0 < pl_size p /\ forall k o s, dget (pl_plan p) k = Some (o, s) -> 0 <= o /\ 0 < s /\ o + s <= pl_size p.
Proof.
  intros (E & plan & size & esz & mem & H). unfold mk_pool in H. destruct (Z.leb_spec size 0); [discriminate|].
  apply sbind_ok in H as (u & V & H). injection H as <-. cbn in *. split; [exact E|]. split; [lia|].
  intros k o s G. apply dget_In in G. eapply validate_ok; eauto.
Qed.
Lemma slice_in n a b : 0 <= n -> 0 <= fst (slice n a b) /\ 0 <= snd (slice n a b) /\ fst (slice n a b) + snd (slice n a b) <= n.
Proof. intros H. unfold slice, slice_bound. cbn [fst snd]. destruct (a <? 0), (b <? 0); lia. Qed.
Lemma slice_exact n a l : 0 <= a -> 0 <= l -> a + l <= n -> slice n a (a + l) = (a, l).
Proof. intros A L H. unfold slice, slice_bound. destruct (Z.ltb_spec a 0); [lia|]. destruct (Z.ltb_spec (a + l) 0); [lia|]. f_equal; lia. Qed.
Lemma prodZ_acc l : forall a, fold_left Z.mul l a = a * prodZ l.
Proof.
  induction l as [|x l IH]; intros a; [unfold prodZ; cbn; lia|]. cbn [fold_left]. rewrite IH. unfold prodZ. cbn [fold_left]. rewrite (IH (1 * x)).
  unfold prodZ. lia.
Qed.
Lemma prodZ_cons x l : prodZ (x :: l) = x * prodZ l.
Proof. unfold prodZ at 1. cbn [fold_left]. rewrite prodZ_acc. lia. Qed.
Lemma prodZ_nonneg l : Forall (fun d => 0 <= d) l -> 0 <= prodZ l.
Proof. induction 1; [vm_compute; discriminate|]. rewrite prodZ_cons. nia. Qed.
Lemma reshape_nonneg n sh : Forall (fun d => 0 <= d) sh -> forall r, reshape n sh = SOk r -> r = sh /\ prodZ sh = n.
Proof.
  intros F r H. unfold reshape in H.
  assert (E1 : existsb (fun d => d <? -1) sh = false).
  { apply Bool.not_true_is_false. intros X. apply existsb_exists in X as (d & I & D). rewrite Forall_forall in F. specialize (F d I). lia. }
  rewrite E1 in H.
  assert (E2 : filter (fun d => d =? -1) sh = []).
  { clear -F. induction F as [|d l P F IH]; [reflexivity|]. cbn. destruct (Z.eqb_spec d (-1)); [lia|]. exact IH. }
  assert (E3 : filter (fun d => negb (d =? -1)) sh = sh).
  { clear -F. induction F as [|d l P F IH]; [reflexivity|]. cbn. destruct (Z.eqb_spec d (-1)); [lia|]. cbn. f_equal. exact IH. }
  rewrite E2, E3 in H. cbn [length] in H. destruct (Z.eqb_spec (prodZ sh) n); [|discriminate]. injection H as <-. auto.
Qed.

Lemma get_in_pool p key sh v : made p -> pool_get p key sh = SOk v -> 0 <= v_off v /\ 0 <= v_len v /\ v_off v + v_len v <= pl_size p.
Proof.
  intros M H. destruct (made_inv p M) as (E & P & B). unfold pool_get in H. apply sbind_ok in H as ([o s] & G & H). apply dlook_ok in G.
  apply sbind_ok in H as (used & U & H). destruct (slice (pl_size p) o (o + used)) as [off len] eqn:S.
  apply sbind_ok in H as (n & V & H). apply sbind_ok in H as (sh' & R & H). injection H as <-. cbn [v_off v_len].
  assert (Q := slice_in (pl_size p) o (o + used)). rewrite S in Q. cbn in Q. lia.
Qed.
(** a successful nonnegative request shows exactly the first bytes of the planned block *)
Lemma get_in_block p key sh v : made p -> nonneg sh -> pool_get p key sh = SOk v ->
  exists o s, dget (pl_plan p) key = Some (o, s) /\ v_off v = o /\ 0 <= v_len v <= s /\ v_len v = prodZ (v_shape v) * pl_esz p /\
    match sh with Some l => v_shape v = l | None => v_len v = s end.
Proof.
  intros M NN H. destruct (made_inv p M) as (E & P & B). unfold pool_get in H. apply sbind_ok in H as ([o s] & G & H). apply dlook_ok in G.
  destruct (B _ _ _ G) as (B1 & B2 & B3). exists o, s. split; [exact G|].
  apply sbind_ok in H as (used & U & H).
  assert (Q : 0 <= used <= s /\ match sh with Some l => used = prodZ l * pl_esz p | None => used = s end).
  { destruct sh as [l|]; [|injection U as <-; lia]. cbn [nonneg] in NN. destruct (Z.ltb_spec (s / pl_esz p) (prodZ l)); [discriminate|].
    injection U as <-. split; [|reflexivity]. assert (N := prodZ_nonneg l NN). assert (D := Z.mul_div_le s (pl_esz p) E). nia. }
  destruct Q as [Q1 Q2]. rewrite slice_exact in H by lia.
  apply sbind_ok in H as (n & V & H). apply sbind_ok in H as (sh' & R & H). injection H as <-. cbn [v_off v_len v_shape].
  split; [reflexivity|]. split; [lia|].
  unfold view_dtype in V. destruct (Z.eqb_spec (used mod pl_esz p) 0) as [M0|]; [|discriminate]. destruct (_ =? 0); [|discriminate]. cbn in V. injection V as <-.
  assert (Dv : used = pl_esz p * (used / pl_esz p)) by (apply Z_div_exact_full_2; lia).
  destruct sh as [l|].
  - apply reshape_nonneg in R as [-> R]; [|exact NN]. rewrite R. split; [lia|reflexivity].
  - injection R as <-. rewrite prodZ_cons. unfold prodZ; cbn [fold_left]. split; lia.
Qed.

Lemma filled p key vals p' : fill_tensor p key vals = SOk p' ->
  pl_plan p' = pl_plan p /\ pl_size p' = pl_size p /\ pl_esz p' = pl_esz p /\
  exists v l, pool_get p key None = SOk v /\ pl_mem p' = write_bytes (pl_mem p) (v_off v) (concat l) /\
    length l = Z.to_nat (v_len v / pl_esz p) /\ (forall x, In x l -> In x vals) /\
    (l = firstn (Z.to_nat (v_len v / pl_esz p)) vals \/ exists x, vals = [x] /\ l = repeat x (Z.to_nat (v_len v / pl_esz p))).
Proof.
  unfold fill_tensor. intros H. apply sbind_ok in H as (v & G & H).
  set (n := Z.to_nat (v_len v / pl_esz p)) in *. destruct (Nat.eqb_spec (length (firstn n vals)) n) as [L|L].
  - injection H as <-. cbn. repeat (split; [reflexivity|]). exists v, (firstn n vals). repeat (split; [first [exact G|reflexivity|exact L]|]).
    split; [|auto]. intros x I. rewrite <- (firstn_skipn n vals). apply in_or_app. auto.
  - destruct (firstn n vals) as [|x [|? ?]] eqn:F; try discriminate. injection H as <-. cbn. repeat (split; [reflexivity|]).
    exists v, (repeat x n). split; [exact G|]. split; [reflexivity|]. split; [apply repeat_length|].
    assert (n <> 0%nat) by (intros E; rewrite E in F; discriminate).
    assert (V : vals = [x]).
    { destruct vals as [|a [|b vals]]; [destruct n; discriminate| |].
      - destruct n; [discriminate|]. cbn in F. rewrite firstn_nil in F. congruence.
      - destruct n as [|[|n]]; cbn in F; try discriminate. cbn in L. lia. }
    split; [|right; exists x; auto]. intros y I. apply repeat_spec in I as ->. rewrite V. left; reflexivity.
Qed.
Lemma concat_len (e : Z) (l : list (list Z)) : (forall x, In x l -> zlen x = e) -> zlen (concat l) = e * zlen l.
Proof.
  induction l as [|x l IH]; intros H; [unfold zlen; cbn; lia|]. cbn [concat]. unfold zlen in *. rewrite app_length. cbn [length].
  rewrite Nat2Z.inj_add, (H x) by (left; reflexivity). rewrite IH by (intros y I; apply H; right; exact I). lia.
Qed.
Lemma read_same p p' v : (forall a, v_off v <= a < v_off v + v_len v -> pl_mem p' a = pl_mem p a) -> read_view p' v = read_view p v.
Proof. intros H. unfold read_view. apply map_ext_in. intros i I. apply in_seq in I. apply H. lia. Qed.
Lemma map_nth_seq (l : list Z) : map (fun i => nth i l 0) (seq 0 (length l)) = l.
Proof.
  apply (nth_ext _ _ 0 0); [rewrite map_length, seq_length; reflexivity|]. intros i Hi. rewrite map_length, seq_length in Hi.
  rewrite (nth_indep _ 0 (nth (length l) l 0)) by (rewrite map_length, seq_length; exact Hi).
  rewrite map_nth with (f := fun i => nth i l 0). rewrite seq_nth by exact Hi. reflexivity.
Qed.
Lemma read_write p mem l v : pl_mem p = write_bytes mem (v_off v) l -> v_len v = zlen l -> read_view p v = l.
Proof.
  intros H E. unfold read_view. rewrite E. unfold zlen. rewrite Nat2Z.id. etransitivity; [|apply (map_nth_seq l)]. apply map_ext_in. intros i I. apply in_seq in I.
  rewrite H. unfold write_bytes. destruct (Z.leb_spec (v_off v) (v_off v + Z.of_nat i)); [|lia].
  destruct (Z.ltb_spec (v_off v + Z.of_nat i) (v_off v + zlen l)); [|unfold zlen in *; lia]. cbn. f_equal. lia.
Qed.
