(** Broadcasting: [_broadcast_shape], [_max_shape], MatMul batch choice, Expand. *)
From Coq Require Import Permutation.
From Verif Require Import PyBase GraphModel FloatPy ShapeModel ShapeSpec.
Open Scope Z_scope.

(** ** list lemmas *)
Lemma smap_ok : forall A B (f : A -> sres B) l out,
  smap f l = SOk out <-> Forall2 (fun x y => f x = SOk y) l out.
Proof.
  induction l as [|x r IH]; simpl; intros out; split; intros H.
  - injection H as <-. constructor.
  - inversion H; reflexivity.
  - destruct (f x) eqn:Fx; simpl in H; [|discriminate].
    destruct (smap f r) eqn:Fr; simpl in H; [|discriminate].
    injection H as <-. constructor; auto. apply IH. reflexivity.
  - inversion H as [|? y ? t Hx Hr]; subst. rewrite Hx. simpl. apply IH in Hr. rewrite Hr. reflexivity.
Qed.

Lemma smap_raise : forall A B (f : A -> sres B) l e,
  smap f l = SRaise e -> exists x, In x l /\ f x = SRaise e.
Proof.
  induction l as [|x r IH]; simpl; intros e H; [discriminate|].
  destruct (f x) eqn:Fx; simpl in H.
  - destruct (smap f r) eqn:Fr; simpl in H; [discriminate|]. injection H as <-.
    destruct (IH _ eq_refl) as (y & I & Y). eauto.
  - injection H as <-. eauto.
Qed.

Lemma zmem_In : forall x l, zmem x l = true <-> In x l.
Proof.
  intros. unfold zmem. rewrite existsb_exists. split.
  - intros (y & I & E). apply Z.eqb_eq in E. subst; auto.
  - intros I. exists x. split; auto. apply Z.eqb_refl.
Qed.
Lemma zmem_nIn : forall x l, zmem x l = false <-> ~ In x l.
Proof. intros. rewrite <- zmem_In. destruct (zmem x l); split; intros; congruence. Qed.

Lemma fold_max_ge : forall l a, a <= fold_left Z.max l a.
Proof. induction l; simpl; intros; [lia|]. specialize (IHl (Z.max a0 a)). lia. Qed.
Lemma fold_max_in : forall l a x, In x l -> x <= fold_left Z.max l a.
Proof.
  induction l; simpl; intros a0 x H; [easy|]. destruct H as [->|H].
  - pose proof (fold_max_ge l (Z.max a0 x)). lia.
  - apply IHl; auto.
Qed.
Lemma fold_max_mem : forall l a, fold_left Z.max l a = a \/ In (fold_left Z.max l a) l.
Proof.
  induction l; simpl; intros a0; auto.
  destruct (IHl (Z.max a0 a)) as [E|I]; auto.
  rewrite E. destruct (Z.max_spec a0 a) as [[_ M]|[_ M]]; rewrite M; auto.
Qed.
Lemma zmax_In : forall l, l <> [] -> In (zmax_list l) l.
Proof.
  destruct l as [|x r]; [easy|]. intros _. simpl.
  destruct (fold_max_mem r x) as [E|I]; auto.
Qed.
Lemma zmax_ge : forall l x, In x l -> x <= zmax_list l.
Proof.
  destruct l as [|y r]; simpl; [easy|]. intros x [->|I].
  - apply fold_max_ge.
  - apply fold_max_in; auto.
Qed.

(** ** one dimension *)
Lemma bcast_dim_ok : forall ds d, ds <> [] -> (forall x, In x ds -> 0 <= x) ->
  (bcast_dim ds = SOk d <-> broadcast_dim ds d).
Proof.
  intros ds d Ne NN. unfold bcast_dim, broadcast_dim.
  destruct (zmem 0 ds) eqn:Z0.
  - apply zmem_In in Z0. destruct (forallb _ ds) eqn:F.
    + rewrite forallb_forall in F. split.
      * intros H. injection H as <-. split; [|auto]. intros x I. specialize (F x I). lia.
      * intros [A B]. destruct (A 0 Z0) as [E|E]; [lia|]. subst. reflexivity.
    + split; [discriminate|]. intros [A B].
      exfalso. destruct (A 0 Z0) as [E|E]; [lia|]. subst d.
      assert (X : forallb (fun d => (d =? 0) || (d =? 1)) ds = true).
      { apply forallb_forall. intros x I. specialize (A x I). lia. }
      congruence.
  - apply zmem_nIn in Z0. pose proof (zmax_In ds Ne) as MI. destruct (forallb _ ds) eqn:F.
    + rewrite forallb_forall in F. split.
      * intros H. injection H as <-. split; [|auto]. intros x I. specialize (F x I). lia.
      * intros [A B]. f_equal. destruct (Z.eq_dec d 1) as [->|N].
        { destruct (A _ MI); auto. }
        { specialize (B N). pose proof (zmax_ge ds d B). destruct (A _ MI) as [E|E]; auto.
          rewrite E in H. assert (0 <= d) by auto. assert (d = 0) by lia. subst. easy. }
    + split; [discriminate|]. intros [A B]. exfalso.
      assert (X : forallb (fun d => (d =? zmax_list ds) || (d =? 1)) ds = true).
      { apply forallb_forall. intros x I.
        destruct (A x I) as [E|E]; [lia|]. subst x.
        destruct (Z.eq_dec d 1) as [->|N]; [lia|].
        pose proof (zmax_ge ds d I). destruct (A _ MI) as [E|E]; [|lia].
        assert (0 <= d) by auto. assert (d = 0) by lia. subst. easy. }
      congruence.
Qed.

Lemma broadcast_dim_unique : forall ds d d', broadcast_dim ds d -> broadcast_dim ds d' -> d = d'.
Proof.
  intros ds d d' [A B] [A' B'].
  destruct (Z.eq_dec d 1) as [->|N]; destruct (Z.eq_dec d' 1) as [->|N']; auto.
  - destruct (A _ (B' N')); lia.
  - destruct (A' _ (B N)); lia.
  - destruct (A _ (B' N')); lia.
Qed.

(** ** ranks and padding *)
Lemma max_rank_acc : forall ss m,
  (m <= fold_left (fun m (s : shape) => if Nat.ltb m (length s) then length s else m) ss m)%nat.
Proof.
  induction ss as [|s r IH]; simpl; intros m; [lia|].
  specialize (IH (if Nat.ltb m (length s) then length s else m)).
  destruct (Nat.ltb_spec m (length s)); lia.
Qed.
Lemma max_rank_ge : forall ss m s, In s ss ->
  (length s <= fold_left (fun m (s : shape) => if Nat.ltb m (length s) then length s else m) ss m)%nat.
Proof.
  induction ss as [|x r IH]; simpl; intros m s H; [easy|]. destruct H as [->|H]; [|auto].
  pose proof (max_rank_acc r (if Nat.ltb m (length s) then length s else m)).
  destruct (Nat.ltb_spec m (length s)); lia.
Qed.
Lemma max_rank_mem : forall ss m,
  fold_left (fun m (s : shape) => if Nat.ltb m (length s) then length s else m) ss m = m \/
  exists s, In s ss /\ length s = fold_left (fun m (s : shape) => if Nat.ltb m (length s) then length s else m) ss m.
Proof.
  induction ss as [|x r IH]; simpl; intros m; auto.
  destruct (IH (if Nat.ltb m (length x) then length x else m)) as [E|(s & I & E)]; eauto.
  rewrite E. destruct (Nat.ltb_spec m (length x)); eauto.
Qed.

Lemma max_rank_In : forall ss, ss <> [] -> exists s, In s ss /\ length s = max_rank ss.
Proof.
  intros ss Ne. unfold max_rank.
  destruct (max_rank_mem ss 0) as [E|X]; auto.
  destruct ss as [|s r]; [easy|]. exists s. split; simpl; auto.
  pose proof (max_rank_ge (s :: r) 0 s (or_introl eq_refl)). rewrite E in H. simpl in E. lia.
Qed.
Lemma max_rank_bound : forall ss s, In s ss -> (length s <= max_rank ss)%nat.
Proof. intros. apply max_rank_ge; auto. Qed.

Lemma pad_left_length : forall n s, (length s <= n)%nat -> length (pad_left n s) = n.
Proof.
  intros n s H. unfold pad_left. destruct (Nat.ltb_spec (length s) n); [|lia].
  rewrite app_length, repeat_length. lia.
Qed.

Lemma nth_rev_app_repeat : forall s k i, nth i (rev (repeat 1 k ++ s)) 1 = nth i (rev s) 1.
Proof.
  intros. rewrite rev_app_distr.
  destruct (Nat.lt_ge_cases i (length (rev s))) as [L|L].
  - rewrite app_nth1; auto.
  - rewrite app_nth2 by auto. rewrite (nth_overflow (rev s)) by auto.
    destruct (nth_in_or_default (i - length (rev s)) (rev (repeat 1 k)) 1) as [I|E]; auto.
    apply in_rev in I. apply repeat_spec in I. auto.
Qed.
Lemma pad_left_dim : forall n s i, dim_from_right (pad_left n s) i = dim_from_right s i.
Proof.
  intros. unfold dim_from_right, pad_left. destruct (Nat.ltb (length s) n); auto. apply nth_rev_app_repeat.
Qed.
Lemma nth_from_right : forall (s : list Z) n i, length s = n -> (i < n)%nat -> nth i s 0 = dim_from_right s (n - 1 - i).
Proof.
  intros s n i L H. unfold dim_from_right.
  rewrite rev_nth by lia. replace (length s - S (n - 1 - i))%nat with i by lia. apply nth_indep. lia.
Qed.

Lemma column_spec : forall n ss i, (forall s, In s ss -> (length s <= n)%nat) -> (i < n)%nat ->
  map (fun r => nth i r 0) (map (pad_left n) ss) = map (fun s => dim_from_right s (n - 1 - i)) ss.
Proof.
  intros. rewrite map_map. apply map_ext_in. intros s I.
  rewrite (nth_from_right _ n) by (try apply pad_left_length; auto). apply pad_left_dim.
Qed.

Lemma Forall2_map_l : forall A B C (f : A -> B) (P : B -> C -> Prop) l l',
  Forall2 P (map f l) l' <-> Forall2 (fun x => P (f x)) l l'.
Proof.
  induction l; simpl; intros; split; intros H; inversion H; subst; constructor; auto; apply IHl; auto.
Qed.
Lemma Forall2_seq : forall (P : nat -> Z -> Prop) n k l,
  Forall2 P (seq k n) l <-> length l = n /\ forall i, (i < n)%nat -> P (k + i)%nat (nth i l 0).
Proof.
  induction n; simpl; intros k l; split.
  - intros H. inversion H. split; [reflexivity|lia].
  - intros [H _]. destruct l; [constructor|discriminate].
  - intros H. inversion H as [|? y ? t Px Pt]; subst. apply IHn in Pt. destruct Pt as [L Pt]. split; [simpl; lia|].
    intros [|i] Hi; simpl.
    + rewrite Nat.add_0_r. exact Px.
    + rewrite Nat.add_succ_r, <- Nat.add_succ_l. apply Pt. lia.
  - intros [L H]. destruct l as [|y t]; [discriminate|]. constructor.
    + specialize (H 0%nat ltac:(lia)). rewrite Nat.add_0_r in H. exact H.
    + apply IHn. simpl in L. split; [lia|]. intros i Hi.
      specialize (H (S i) ltac:(lia)). rewrite Nat.add_succ_r in H. exact H.
Qed.

Lemma dim_nonneg : forall s i, nonneg s -> 0 <= dim_from_right s i.
Proof.
  intros s i H. unfold dim_from_right.
  destruct (nth_in_or_default i (rev s) 1) as [I|E]; [|lia].
  apply in_rev in I. unfold nonneg in H. rewrite Forall_forall in H. auto.
Qed.

Theorem broadcast_shape_ok : forall ss out, Forall nonneg ss ->
  (broadcast_shape ss = SOk out <-> broadcast_of ss out).
Proof.
  intros ss out NN. unfold broadcast_shape. cbv zeta.
  rewrite smap_ok. unfold columns. rewrite Forall2_map_l, Forall2_seq.
  assert (DN : forall i, forall x, In x (map (fun s => dim_from_right s i) ss) -> 0 <= x).
  { intros i x I. apply in_map_iff in I. destruct I as (s & <- & I). apply dim_nonneg.
    rewrite Forall_forall in NN. auto. }
  split.
  - intros [L H]. split; [|split; [|split]].
    + intros s I. rewrite L. apply max_rank_bound; auto.
    + intros ->. destruct out; auto; discriminate.
    + intros Ne. rewrite L. apply max_rank_In; auto.
    + intros i Hi. rewrite L in Hi.
      assert (Ne : ss <> []) by (intros ->; simpl in Hi; unfold max_rank in Hi; simpl in Hi; lia).
      specialize (H (max_rank ss - 1 - i)%nat ltac:(lia)).
      rewrite column_spec in H by (auto using max_rank_bound; lia).
      simpl in H.
      replace (max_rank ss - 1 - (max_rank ss - 1 - i))%nat with i in H by lia.
      rewrite bcast_dim_ok in H by (try apply DN; destruct ss; easy).
      rewrite (nth_from_right out (max_rank ss)) in H by lia.
      replace (max_rank ss - 1 - (max_rank ss - 1 - i))%nat with i in H by lia. exact H.
  - intros (A & B & C & D).
    destruct ss as [|s0 r].
    { rewrite B by auto. split; [reflexivity|]. unfold max_rank. simpl. lia. }
    set (ss := s0 :: r) in *.
    assert (Ne : ss <> []) by easy.
    destruct (C Ne) as (s & Is & Ls). destruct (max_rank_In ss Ne) as (s' & Is' & Ls').
    assert (L : length out = max_rank ss).
    { specialize (A s' Is'). pose proof (max_rank_bound ss s Is). lia. }
    split; auto. intros i Hi.
    change (0 + i)%nat with i.
    rewrite column_spec by (auto using max_rank_bound; lia).
    rewrite bcast_dim_ok by (try apply DN; easy).
    rewrite (nth_from_right out (max_rank ss)) by lia. apply D. lia.
Qed.

Lemma dim_ext : forall s t, length s = length t ->
  (forall i, (i < length s)%nat -> dim_from_right s i = dim_from_right t i) -> s = t.
Proof.
  intros s t L H. rewrite <- (rev_involutive s), <- (rev_involutive t). f_equal.
  apply nth_ext with (d := 1) (d' := 1); rewrite !rev_length; auto.
Qed.

Lemma broadcast_unique : forall ss o o', broadcast_of ss o -> broadcast_of ss o' -> o = o'.
Proof.
  intros ss o o' (A & B & C & D) (A' & B' & C' & D').
  destruct ss as [|s0 r]; [rewrite B, B'; auto|].
  destruct (C ltac:(easy)) as (s & Is & Ls). destruct (C' ltac:(easy)) as (s' & Is' & Ls').
  pose proof (A _ Is'). pose proof (A' _ Is).
  apply dim_ext; [lia|]. intros i Hi. eapply broadcast_dim_unique; [apply D; lia|apply D'; lia].
Qed.

Lemma broadcast_of_perm : forall ss ss' o, Permutation ss ss' -> broadcast_of ss o -> broadcast_of ss' o.
Proof.
  intros ss ss' o P (A & B & C & D). split; [|split; [|split]].
  - intros s I. apply A. eapply Permutation_in; [apply Permutation_sym; eauto|auto].
  - intros ->. apply B. apply Permutation_nil. apply Permutation_sym; auto.
  - intros Ne. destruct C as (s & I & L).
    + intros ->. apply Permutation_nil in P. easy.
    + exists s. split; auto. eapply Permutation_in; eauto.
  - intros i Hi. destruct (D i Hi) as [X Y]. split.
    + intros x I. apply X. eapply Permutation_in; [|exact I]. apply Permutation_map. apply Permutation_sym; auto.
    + intros N. eapply Permutation_in; [|apply Y; auto]. apply Permutation_map. auto.
Qed.

(** The only exception [_broadcast_shape] raises is ValueError. *)
Lemma broadcast_shape_raise : forall ss e, broadcast_shape ss = SRaise e -> e = ValueErr.
Proof.
  intros ss e H. apply smap_raise in H. destruct H as (x & _ & H). unfold bcast_dim in H.
  destruct (zmem 0 x); destruct (forallb _ x); congruence.
Qed.

(** ** [_max_shape]: correct when one input already has the broadcast shape *)
Lemma fold_mul : forall l a, fold_left Z.mul l a = a * elements l.
Proof.
  unfold elements. induction l as [|x r IH]; simpl; intros a; [lia|]. rewrite IH. ring.
Qed.
Lemma volume_elements : forall s, s <> [] -> volume s = elements s.
Proof.
  intros [|x r]; [easy|]. intros _. change (fold_left Z.mul (x :: r) 1 = elements (x :: r)). rewrite fold_mul. lia.
Qed.
Lemma elements_app : forall a b, elements (a ++ b) = elements a * elements b.
Proof. unfold elements. induction a; intros; cbn [app fold_right]; [ring|]. rewrite IHa. ring. Qed.
Lemma elements_rev : forall a, elements (rev a) = elements a.
Proof.
  induction a; auto. cbn [rev]. rewrite elements_app, IHa. unfold elements; cbn [fold_right]. ring.
Qed.
Lemma elements_nonneg : forall s, nonneg s -> 0 <= elements s.
Proof. induction 1; unfold elements in *; cbn [fold_right]; [lia|]. nia. Qed.
Lemma elements_pos : forall s, positive s -> 1 <= elements s.
Proof. induction 1; unfold elements in *; cbn [fold_right]; [lia|]. nia. Qed.

(** [a] (innermost dimension first) broadcasts into [b]. *)
Definition into (a b : list Z) : Prop :=
  (length a <= length b)%nat /\ forall i, (i < length b)%nat -> nth i a 1 = 1 \/ nth i a 1 = nth i b 1.
Lemma into_elements : forall b a, positive b -> into a b -> elements a <= elements b.
Proof.
  induction b as [|y b IH]; intros a P [L H]; simpl in L.
  - destruct a; simpl in L; [lia|lia].
  - inversion P as [|? ? Py Pb]; subst. pose proof (elements_pos b Pb).
    destruct a as [|x a]; unfold elements in *; cbn [fold_right length] in *; [nia|].
    assert (I : into a b).
    { split; [lia|]. intros i Hi. apply (H (S i)). lia. }
    specialize (IH a Pb I). pose proof (H 0%nat ltac:(lia)) as [E|E]; simpl in E; subst.
    + fold (elements a) (elements b) in *. nia.
    + fold (elements a) (elements b) in *. nia.
Qed.
Lemma into_equal : forall b a, positive b -> into a b -> length a = length b -> elements a = elements b -> a = b.
Proof.
  induction b as [|y b IH]; intros a P [L H] E1 E2.
  - destruct a; auto; discriminate.
  - destruct a as [|x a]; [discriminate|]. inversion P as [|? ? Py Pb]; subst.
    assert (I : into a b).
    { simpl in L. split; [lia|]. intros i Hi. apply (H (S i)). simpl. lia. }
    pose proof (into_elements b a Pb I). pose proof (elements_pos b Pb).
    unfold elements in E2; simpl in E2; fold (elements a) (elements b) in E2.
    pose proof (H 0%nat ltac:(simpl; lia)) as [E|E]; simpl in E; subst.
    + assert (elements a = elements b) by nia. assert (y = 1) by nia. subst. f_equal. apply IH; auto.
    + f_equal. apply IH; auto. nia.
Qed.

Lemma broadcast_into : forall ss s t, broadcast_of ss s -> In t ss -> into (rev t) (rev s).
Proof.
  intros ss s t (A & _ & _ & D) I. split; [rewrite !rev_length; auto|].
  intros i Hi. rewrite rev_length in Hi. destruct (D i Hi) as [X _].
  apply X. apply in_map_iff. exists t. split; auto.
Qed.

(** the result of the scan is an input, no input is larger *)
Definition beats (t r : shape) : Prop :=
  volume r < volume t \/ (volume t = volume r /\ (length r < length t)%nat).
Lemma step_cases : forall b t, max_shape_step b t = b \/ max_shape_step b t = t.
Proof. intros. unfold max_shape_step. destruct (_ <? _); auto. destruct (_ && _); auto. Qed.
Lemma step_not_beaten : forall b t u, ~ beats u b -> ~ beats u (max_shape_step b t).
Proof.
  intros b t u H. unfold max_shape_step. unfold beats in *.
  destruct (Z.ltb_spec (volume b) (volume t)); [lia|].
  destruct ((volume t =? volume b) && Nat.ltb (length b) (length t)) eqn:E; lia.
Qed.
Lemma step_not_beaten2 : forall b t, ~ beats t (max_shape_step b t).
Proof.
  intros b t. unfold max_shape_step, beats.
  destruct (Z.ltb_spec (volume b) (volume t)); [lia|].
  destruct ((volume t =? volume b) && Nat.ltb (length b) (length t)) eqn:E; lia.
Qed.
Lemma scan_spec : forall ss b,
  (fold_left max_shape_step ss b = b \/ In (fold_left max_shape_step ss b) ss) /\
  (forall t, In t ss -> ~ beats t (fold_left max_shape_step ss b)) /\
  (forall u, ~ beats u b -> ~ beats u (fold_left max_shape_step ss b)).
Proof.
  induction ss as [|x r IH]; intros b; simpl.
  - repeat split; auto; easy.
  - destruct (IH (max_shape_step b x)) as (A & B & C). repeat split.
    + destruct A as [A|A]; auto. rewrite A. destruct (step_cases b x) as [->| ->]; auto.
    + intros t [<-|I]; auto. apply C. apply step_not_beaten2.
    + intros u H. apply C. apply step_not_beaten; auto.
Qed.

Theorem max_shape_broadcast : forall ss s, In s ss -> positive s -> broadcast_of ss s -> max_shape ss = SOk s.
Proof.
  intros ss s Is Ps B. unfold max_shape. destruct ss as [|s0 r] eqn:E; [easy|]. rewrite <- E in *.
  f_equal. destruct (scan_spec ss s0) as (A & N & _).
  set (m := fold_left max_shape_step ss s0) in *.
  assert (Im : In m ss) by (destruct A as [->|]; auto; rewrite E; simpl; auto).
  specialize (N s Is). unfold beats in N.
  pose proof (broadcast_into ss s m B Im) as I.
  assert (Pr : positive (rev s)).
  { unfold positive in *. rewrite Forall_forall in *. intros x X. apply Ps. apply in_rev; auto. }
  pose proof (into_elements _ _ Pr I) as LE. rewrite !elements_rev in LE.
  destruct I as [LI DI]. rewrite !rev_length in LI.
  destruct s as [|y s'].
  - destruct m; [reflexivity|simpl in LI; lia].
  - pose proof (elements_pos _ Ps). rewrite (volume_elements (y :: s')) in N by easy.
    assert (M : m <> []) by (intros Q; rewrite Q in N; change (volume []) with 0 in N; lia).
    rewrite (volume_elements m M) in N.
    assert (length m = length (y :: s')) by lia. assert (elements m = elements (y :: s')) by lia.
    rewrite <- (rev_involutive m), <- (rev_involutive (y :: s')). f_equal.
    apply into_equal; auto; [|rewrite !rev_length; lia|rewrite !elements_rev; auto].
    split; rewrite !rev_length; [lia|]. intros i Hi. apply DI. rewrite rev_length. auto.
Qed.

(** ** MatMul *)
Lemma py_index_neg : forall (l : list Z) i, (i < length l)%nat ->
  py_index l (- Z.of_nat (S i)) = SOk (nth i (rev l) 1).
Proof.
  intros l i H. unfold py_index.
  assert (E : (- Z.of_nat (S i) <? 0) = true) by lia. rewrite E.
  destruct (Z.ltb_spec (- Z.of_nat (S i) + Z.of_nat (length l)) 0) as [L|L]; [lia|].
  replace (Z.to_nat (- Z.of_nat (S i) + Z.of_nat (length l))) with (length l - S i)%nat by lia.
  rewrite rev_nth by auto. rewrite nth_error_nth' with (d := 1) by lia. reflexivity.
Qed.
Lemma split_last2 : forall (s : list Z), (2 <= length s)%nat ->
  s = drop_last2 s ++ [dim_from_right s 1; dim_from_right s 0].
Proof.
  intros s H. unfold drop_last2, dim_from_right.
  rewrite <- (firstn_skipn (length s - 2) s) at 1. f_equal.
  assert (L : length (skipn (length s - 2) s) = 2%nat) by (rewrite skipn_length; lia).
  rewrite <- (firstn_skipn (length s - 2) s) at 3 4. rewrite rev_app_distr.
  destruct (skipn (length s - 2) s) as [|x [|y [|]]]; simpl in L; try lia. reflexivity.
Qed.

(** the condition under which comparing element counts picks the broadcast batch *)
Lemma pick_batch_ok : forall a b o, positive o -> broadcast_of [a; b] o ->
  (o = a \/ (o = b /\ volume a <> volume b)) -> pick_batch a b = o.
Proof.
  intros a b o Po B H. unfold pick_batch.
  assert (Pr : positive (rev o)).
  { unfold positive in *. rewrite Forall_forall in *. intros x X. apply Po. apply in_rev; auto. }
  assert (V : forall t, In t [a; b] -> volume t <= volume o).
  { intros t I. pose proof (into_elements _ _ Pr (broadcast_into _ _ _ B I)) as LE. rewrite !elements_rev in LE.
    destruct t as [|x t].
    - destruct o; [lia|]. rewrite (volume_elements (z :: o)) by easy. pose proof (elements_pos _ Po).
      change (volume []) with 0. lia.
    - destruct o as [|y o].
      + destruct B as (A & _). specialize (A _ I). simpl in A. lia.
      + rewrite !volume_elements by easy. auto. }
  destruct H as [->|[-> N]].
  - pose proof (V b ltac:(simpl; auto)). destruct (Z.leb_spec (volume b) (volume a)); auto; lia.
  - pose proof (V a ltac:(simpl; auto)). destruct (Z.leb_spec (volume b) (volume a)); auto; lia.
Qed.

(** ** Expand *)
Lemma combine_length_eq : forall A B (l : list A) (l' : list B), length l = length l' -> length (combine l l') = length l.
Proof. intros. rewrite combine_length. lia. Qed.
Theorem expand_ok : forall x e o, positive x -> positive e -> broadcast_of [x; e] o -> expand_shape x e = o.
Proof.
  intros x e o Px Pe B. pose proof B as (A & _ & C & D).
  assert (L : length o = Nat.max (length x) (length e)).
  { pose proof (A x ltac:(simpl; auto)). pose proof (A e ltac:(simpl; auto)).
    destruct (C ltac:(easy)) as (s & [<-|[<-|[]]] & Ls); lia. }
  unfold expand_shape. set (n := Nat.max (length x) (length e)) in *.
  assert (Lx : length (pad_left n x) = n) by (apply pad_left_length; lia).
  assert (Le : length (pad_left n e) = n) by (apply pad_left_length; lia).
  apply nth_ext with (d := 0) (d' := 0).
  - rewrite map_length, combine_length_eq; lia.
  - intros i Hi. rewrite map_length, combine_length_eq in Hi by lia. rewrite Lx in Hi.
    change 0 with ((fun p : Z * Z => Z.max (fst p) (snd p)) (0, 0)) at 1.
    rewrite map_nth, combine_nth by lia. cbn [fst snd].
    rewrite (nth_from_right _ n i Lx Hi), (nth_from_right _ n i Le Hi), (nth_from_right o n i L Hi), !pad_left_dim.
    destruct (D (n - 1 - i)%nat ltac:(lia)) as [X Y]. simpl in X, Y.
    pose proof (X _ (or_introl eq_refl)). pose proof (X _ (or_intror (or_introl eq_refl))).
    assert (PP : forall s j, positive s -> 1 <= dim_from_right s j).
    { intros s j P. unfold dim_from_right. destruct (nth_in_or_default j (rev s) 1) as [I|E]; [|lia].
      apply in_rev in I. unfold positive in P. rewrite Forall_forall in P. specialize (P _ I). lia. }
    pose proof (PP x (n - 1 - i)%nat Px). pose proof (PP e (n - 1 - i)%nat Pe).
    destruct (Z.eq_dec (dim_from_right o (n - 1 - i)) 1) as [E1|N1]; [lia|].
    destruct (Y N1) as [Z1|[Z1|[]]]; lia.
Qed.
