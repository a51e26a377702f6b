(** Counting lemmas for the reference loop nests, and their totals. *)
From Verif Require Import PyBase GraphModel ShapeModel ShapeSpec BcastProofs LlmCost CostModel CostSpec.
From Coq Require Import Lia Ascii.
Open Scope Z_scope.

Definition prod (l : list Z) : Z := fold_right Z.mul 1 l.
Lemma total_andthen {A B} (m : counted A) (f : A -> counted B) : total (andthen m f) = total m + total (f (result m)).
Proof. destruct m as [a c]. unfold andthen, total, result. simpl. destruct (f a). reflexivity. Qed.
Lemma total_costs {A} c (a : A) : total (costs c a) = c. Proof. reflexivity. Qed.
Lemma total_free {A} (a : A) : total (free a) = 0. Proof. reflexivity. Qed.
Lemma total_for_each {A B} (l : list A) (f : A -> counted B) c :
  (forall a, In a l -> total (f a) = c) -> total (for_each l f) = Z.of_nat (length l) * c.
Proof.
  induction l as [|a l IH]; intro H; [reflexivity|].
  cbn [for_each]. rewrite !total_andthen, total_free, (H a (or_introl eq_refl)), IH by (intros; apply H; right; assumption).
  change (length (a :: l)) with (S (length l)). rewrite Nat2Z.inj_succ. ring.
Qed.
Lemma total_accumulate {A B} (l : list A) (f : B -> A -> counted B) c :
  (forall s a, In a l -> total (f s a) = c) -> forall s, total (accumulate s l f) = Z.of_nat (length l) * c.
Proof.
  induction l as [|a l IH]; intros H s; [reflexivity|].
  cbn [accumulate]. rewrite total_andthen, (H s a (or_introl eq_refl)), IH by (intros; apply H; right; assumption).
  change (length (a :: l)) with (S (length l)). rewrite Nat2Z.inj_succ. ring.
Qed.
Lemma upto_len n : 0 <= n -> Z.of_nat (length (upto n)) = n.
Proof. intro H. unfold upto. rewrite map_length, seq_length. lia. Qed.
Lemma flat_map_len {A B} (f : A -> list B) l c : (forall a, length (f a) = c) -> length (flat_map f l) = (length l * c)%nat.
Proof. intro H. induction l as [|a l IH]; simpl; [reflexivity|]. rewrite app_length, H, IH. reflexivity. Qed.
Lemma indices_len sh : Forall (fun d => 0 <= d) sh -> Z.of_nat (length (indices sh)) = prod sh.
Proof.
  induction sh as [|d r IH]; intro H; [reflexivity|]. inversion H; subst.
  cbn [indices]. rewrite (flat_map_len _ _ (length (indices r))) by (intro; apply map_length).
  rewrite Nat2Z.inj_mul, upto_len, IH by assumption. reflexivity.
Qed.
Lemma indices_rank sh o : In o (indices sh) -> length o = length sh.
Proof.
  revert o; induction sh as [|d r IH]; intros o H; cbn [indices] in H.
  - destruct H as [<-|[]]. reflexivity.
  - apply in_flat_map in H as (i & _ & H). apply in_map_iff in H as (o' & <- & H). simpl. f_equal. apply IH; exact H.
Qed.
Lemma volume_eq_prod s : s <> [] -> volume s = prod s.
Proof. intro H. rewrite volume_elements by exact H. reflexivity. Qed.

Definition nn := Forall (fun d => 0 <= d).
Lemma nn_tl s : nn s -> nn (tl s). Proof. intro H. destruct s; [assumption|]. inversion H; assumption. Qed.
Lemma prod_app a b : prod (a ++ b) = prod a * prod b. Proof. exact (elements_app a b). Qed.
Lemma rank2 (o : list Z) : (2 <= length o)%nat -> exists a b r, o = a :: b :: r.
Proof. destruct o as [|a [|b r]]; simpl; intros; try lia. eauto. Qed.

Section Totals.
Context {T : Type} (zero : T) (add mul : T -> T -> T).

Lemma conv_total a x w bias os : nn os -> nn (tl (fst w)) -> (2 <= length os)%nat ->
  total (ref_conv zero add mul a x w bias os) = prod os * (prod (tl (fst w)) + if bias then 1 else 0).
Proof.
  intros Ho Hw Hr. unfold ref_conv. rewrite (total_for_each _ _ (prod (tl (fst w)) + if bias then 1 else 0)).
  - rewrite indices_len by exact Ho. reflexivity.
  - intros o Hin. apply indices_rank in Hin. destruct (rank2 o) as (n & oc & sp & ->); [lia|].
    rewrite total_andthen, (total_accumulate _ _ 1) by reflexivity. rewrite indices_len by exact Hw.
    destruct bias; [change (total (plus _ _ _)) with 1|rewrite total_free]; ring.
Qed.

Lemma convtranspose_total a x w os : nn (fst x) -> nn (tl (fst w)) -> (2 <= length (fst x))%nat ->
  total (ref_convtranspose zero add mul a x w os) = prod (fst x) * prod (tl (fst w)).
Proof.
  intros Hx Hw Hr. unfold ref_convtranspose. rewrite (total_accumulate _ _ (prod (tl (fst w)))).
  - rewrite indices_len by exact Hx. reflexivity.
  - intros y i Hin. apply indices_rank in Hin. destruct (rank2 i) as (n & ic & sp & ->); [lia|].
    rewrite (total_accumulate _ _ 1); [rewrite indices_len by exact Hw; ring|]. intros; reflexivity.
Qed.

Lemma gemm_total ta tb m k n a b c : 0 <= m -> 0 <= k -> 0 <= n ->
  total (ref_gemm zero add mul ta tb m k n a b c) = m * n * (k + if c then 1 else 0).
Proof.
  intros Hm Hk Hn. unfold ref_gemm. rewrite (total_for_each _ _ (k + if c then 1 else 0)).
  - rewrite indices_len by (repeat constructor; assumption). unfold prod. simpl fold_right. ring.
  - intros o Hin. apply indices_rank in Hin. destruct o as [|i [|j [|]]]; try discriminate Hin.
    rewrite total_andthen, (total_accumulate _ _ 1) by reflexivity. rewrite upto_len by exact Hk.
    destruct c; [change (total (plus _ _ _)) with 1|rewrite total_free]; ring.
Qed.
Lemma matmul_total ba bb bo m k n a b : nn bo -> 0 <= m -> 0 <= k -> 0 <= n ->
  total (ref_matmul zero add mul ba bb bo m k n a b) = prod bo * m * n * k.
Proof.
  intros Hb Hm Hk Hn. unfold ref_matmul. rewrite (total_for_each _ _ k).
  - rewrite indices_len by (apply Forall_app; split; [exact Hb|repeat constructor; assumption]).
    rewrite prod_app. unfold prod at 2. simpl fold_right. ring.
  - intros o _. rewrite (total_accumulate _ _ 1) by reflexivity. rewrite upto_len by exact Hk. ring.
Qed.
Lemma pool_total f a kernel x os : nn os -> nn kernel -> (2 <= length os)%nat ->
  total (ref_pool zero f a kernel x os) = prod os * prod kernel.
Proof.
  intros Ho Hk Hr. unfold ref_pool. rewrite (total_for_each _ _ (prod kernel)).
  - rewrite indices_len by exact Ho. reflexivity.
  - intros o Hin. apply indices_rank in Hin. destruct (rank2 o) as (n & oc & sp & ->); [lia|].
    rewrite (total_accumulate _ _ 1) by reflexivity. rewrite indices_len by exact Hk. ring.
Qed.
Lemma firstn_nn n s : nn s -> nn (firstn n s).
Proof. intro H. revert n. induction H; intros [|n]; simpl; constructor; auto. apply IHForall. Qed.
Lemma skipn_nn n s : nn s -> nn (skipn n s).
Proof. revert s. induction n as [|n IH]; intros s H; [exact H|]. destruct s; [constructor|]. inversion H; subst. apply IH; assumption. Qed.
Lemma global_average_total dc div (x : tens) : nn (fst x) ->
  total (ref_global_average zero add dc div x) = prod (fst x) + prod (firstn 2 (fst x)) * dc.
Proof.
  intros Hx. unfold ref_global_average. rewrite (total_for_each _ _ (prod (skipn 2 (fst x)) + dc)).
  - rewrite indices_len by (apply firstn_nn; exact Hx). rewrite <- (firstn_skipn 2 (fst x)) at 3. rewrite prod_app. ring.
  - intros o _. rewrite total_andthen, total_costs, (total_accumulate _ _ 1) by reflexivity.
    rewrite indices_len by (apply skipn_nn; exact Hx). ring.
Qed.
Lemma elementwise_total c f ins os : nn os -> ins <> [] ->
  total (ref_elementwise (T := T) zero c f ins os) = prod os * ((Z.of_nat (length ins) - 1) * c).
Proof.
  intros Ho Hi. unfold ref_elementwise. rewrite (total_for_each _ _ ((Z.of_nat (length ins) - 1) * c)).
  - rewrite indices_len by exact Ho. reflexivity.
  - intros o _. destruct ins as [|x r]; [contradiction|]. rewrite (total_accumulate _ _ c) by reflexivity.
    change (length (x :: r)) with (S (length r)). rewrite Nat2Z.inj_succ. ring.
Qed.
Lemma assignments_len size ls : (forall c, In c ls -> 0 <= size c) -> forall e, Z.of_nat (length (assignments size ls e)) = prod (map size ls).
Proof.
  induction ls as [|c r IH]; intros H e; [reflexivity|]. cbn [assignments].
  assert (E : exists m, (forall e', length (assignments size r e') = m)).
  { exists (length (assignments size r e)). intro e'. apply Nat2Z.inj. rewrite !IH by (intros; apply H; right; assumption). reflexivity. }
  destruct E as (m & E). rewrite (flat_map_len _ _ m) by (intro; apply E).
  rewrite Nat2Z.inj_mul, upto_len by (apply H; left; reflexivity). rewrite <- (E e), IH by (intros; apply H; right; assumption). reflexivity.
Qed.
Lemma einsum_total size l0 l1 out summed a b : (forall c, In c (out ++ summed) -> 0 <= size c) ->
  total (ref_einsum (T := T) zero add mul size l0 l1 out summed a b) = prod (map size (out ++ summed)).
Proof.
  intro H. unfold ref_einsum. rewrite (total_for_each _ _ (prod (map size summed))).
  - rewrite assignments_len by (intros; apply H; apply in_or_app; left; assumption). rewrite map_app, prod_app. reflexivity.
  - intros e _. rewrite (total_accumulate _ _ 1) by reflexivity.
    rewrite assignments_len by (intros; apply H; apply in_or_app; right; assumption). ring.
Qed.

Context (sig tanh one_minus : T -> T) (expc tanhc : Z).
Lemma gate_total inp hid w r bw br x h j : 0 <= inp -> 0 <= hid -> total (gate zero add mul inp hid w r bw br x h j) = inp + hid + 3.
Proof.
  intros Hi Hh. unfold gate. repeat rewrite total_andthen. repeat rewrite (total_accumulate _ _ 1) by reflexivity.
  rewrite !upto_len by assumption. change (total (plus add _ _)) with 1. unfold result. cbn [fst]. unfold plus, costs, total. simpl snd. lia.
Qed.
Lemma lstm_cell_total inp hid w r bw br x h c j : 0 <= inp -> 0 <= hid ->
  total (lstm_cell zero add mul sig tanh expc tanhc inp hid w r bw br x h c j) = 4 * (inp + hid + 3) + 3 * expc + 2 * tanhc + 4.
Proof.
  intros Hi Hh. unfold lstm_cell. repeat (rewrite total_andthen). rewrite !gate_total by assumption.
  unfold total, result, costs, plus, times, free, costs. simpl snd. lia.
Qed.
Lemma lstm_total dirs seq batch inp hid w r bw br x s0 : 0 <= dirs -> 0 <= seq -> 0 <= batch -> 0 <= inp -> 0 <= hid ->
  total (ref_lstm zero add mul sig tanh expc tanhc dirs seq batch inp hid w r bw br x s0)
  = dirs * (seq * (batch * hid * (4 * (inp + hid + 3) + 3 * expc + 2 * tanhc + 4))).
Proof.
  intros Hd Hs Hb Hi Hh. unfold ref_lstm. rewrite (total_for_each _ _ (seq * (batch * hid * (4 * (inp + hid + 3) + 3 * expc + 2 * tanhc + 4)))).
  - rewrite upto_len by exact Hd. reflexivity.
  - intros d _. unfold lstm_direction. rewrite (total_accumulate _ _ (batch * hid * (4 * (inp + hid + 3) + 3 * expc + 2 * tanhc + 4))).
    + rewrite upto_len by exact Hs. reflexivity.
    + intros s t _. rewrite (total_accumulate _ _ (4 * (inp + hid + 3) + 3 * expc + 2 * tanhc + 4)).
      * rewrite indices_len by (repeat constructor; assumption). unfold prod; cbn [fold_right]. ring.
      * intros s' bj Hin. apply indices_rank in Hin. destruct bj as [|b [|j [|]]]; try discriminate Hin.
        rewrite total_andthen, lstm_cell_total by assumption. rewrite total_free. lia.
Qed.
Lemma gru_row_total inp hid w r bw br x h : 0 <= inp -> 0 <= hid ->
  total (gru_row zero add mul sig tanh one_minus expc tanhc inp hid w r bw br x h) = hid * (3 * (inp + hid + 3) + 2 * expc + tanhc + 5).
Proof.
  intros Hi Hh. unfold gru_row. repeat (rewrite total_andthen).
  rewrite (total_for_each _ _ (inp + hid + 3 + expc)).
  2:{ intros j _. rewrite total_andthen, gate_total by assumption. reflexivity. }
  rewrite (total_for_each _ _ (inp + hid + 3 + expc + 1)).
  2:{ intros j _. repeat rewrite total_andthen. rewrite gate_total by assumption. unfold total, result, costs, times, costs. simpl snd. lia. }
  rewrite (total_for_each _ _ (inp + hid + 3 + tanhc + 4)).
  2:{ intros j _. unfold gru_cell. repeat rewrite total_andthen. rewrite gate_total by assumption. unfold total, result, costs, times, plus, costs. simpl snd. lia. }
  rewrite total_free, upto_len by exact Hh. ring.
Qed.
Lemma gru_total dirs seq batch inp hid w r bw br x h0 : 0 <= dirs -> 0 <= seq -> 0 <= batch -> 0 <= inp -> 0 <= hid ->
  total (ref_gru zero add mul sig tanh one_minus expc tanhc dirs seq batch inp hid w r bw br x h0)
  = dirs * (seq * (batch * (hid * (3 * (inp + hid + 3) + 2 * expc + tanhc + 5)))).
Proof.
  intros Hd Hs Hb Hi Hh. unfold ref_gru. rewrite (total_for_each _ _ (seq * (batch * (hid * (3 * (inp + hid + 3) + 2 * expc + tanhc + 5))))).
  - rewrite upto_len by exact Hd. reflexivity.
  - intros d _. unfold gru_direction. rewrite (total_accumulate _ _ (batch * (hid * (3 * (inp + hid + 3) + 2 * expc + tanhc + 5)))).
    + rewrite upto_len by exact Hs. reflexivity.
    + intros s t _. rewrite total_andthen, total_free.
      rewrite (total_for_each _ _ (hid * (3 * (inp + hid + 3) + 2 * expc + tanhc + 5))) by (intros; apply gru_row_total; assumption).
      rewrite upto_len by exact Hb. ring.
Qed.
End Totals.

(** *** Einsum *)
Section Einsum.
Context (size : ascii -> Z).
Definition keyed (ks : list ascii) : dict Z := map (fun c => (String c EmptyString, size c)) ks.
Lemma dset_keyed ks c : exists ks', dset (keyed ks) (String c EmptyString) (size c) = keyed ks'
  /\ (NoDup ks -> NoDup ks') /\ (forall x, In x ks' <-> In x ks \/ x = c).
Proof.
  induction ks as [|k ks IH].
  - exists [c]. repeat split; [intros; repeat constructor; intros []| |]; simpl; intuition congruence.
  - cbn [keyed map dset]. destruct (String.eqb_spec (String c EmptyString) (String k EmptyString)) as [E|E].
    + injection E as <-. exists (c :: ks). repeat split; auto; simpl; intuition congruence.
    + destruct IH as (ks' & E' & Hn & Hin). exists (k :: ks'). repeat split.
      * simpl. f_equal. exact E'.
      * intro H. inversion H; subst. constructor; [|apply Hn; assumption]. rewrite Hin. intros [X|X]; [contradiction|]. subst. congruence.
      * intros [->|X]; [left; left; reflexivity|]. apply Hin in X. simpl. intuition.
      * intros [[->|X]|X]; simpl; [left; reflexivity|right; apply Hin; left; exact X|right; apply Hin; right; exact X].
Qed.
Lemma label_dims_keyed ls : forall ks, NoDup ks -> exists ks', label_dims ls (map size ls) (keyed ks) = SOk (keyed ks')
  /\ NoDup ks' /\ (forall x, In x ks' <-> In x ks \/ In x ls).
Proof.
  induction ls as [|c ls IH]; intros ks Hn; cbn [label_dims map].
  - exists ks. repeat split; auto; simpl; intuition.
  - destruct (dset_keyed ks c) as (k1 & E1 & N1 & I1). rewrite E1. destruct (IH k1 (N1 Hn)) as (k2 & E2 & N2 & I2).
    exists k2. repeat split; auto; rewrite I2, I1; simpl; intuition.
Qed.
Lemma prod_perm a b : Permutation.Permutation a b -> prod a = prod b.
Proof. induction 1; unfold prod in *; simpl; try rewrite IHPermutation; try ring. congruence. Qed.
Lemma einsum_macs_prod l0 l1 ls : NoDup ls -> (forall x, In x ls <-> In x (no_dots l0) \/ In x (no_dots l1)) ->
  einsum_macs [l0; l1] [map size (no_dots l0); map size (no_dots l1)] = SOk (prod (map size ls)).
Proof.
  intros Hn Hin. unfold einsum_macs, sh_at. cbn [nth_error].
  destruct (label_dims_keyed (no_dots l0) [] (NoDup_nil _)) as (k1 & E1 & N1 & I1). change (@nil (string * Z)) with (keyed []). cbn [sbind]. rewrite E1. cbn [sbind].
  destruct (label_dims_keyed (no_dots l1) k1 N1) as (k2 & E2 & N2 & I2). rewrite E2. cbn [sbind]. f_equal.
  rewrite fold_mul. change elements with prod. unfold keyed. rewrite map_map. cbn [snd].
  rewrite (prod_perm _ (map size ls)); [ring|]. apply Permutation.Permutation_map, Permutation.NoDup_Permutation; auto.
  intro x. rewrite I2, I1, Hin. simpl. intuition.
Qed.
End Einsum.
