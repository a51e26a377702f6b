(** C83-C86: the MACs an operator reports are the number of arithmetic steps of the loop nest that computes it. *)
From Verif Require Import PyBase GraphModel ShapeModel ShapeSpec BcastProofs LlmCost CostModel CostSpec CostProofs.
From Coq Require Import Lia Ascii.
Open Scope list_scope. Open Scope Z_scope.

Definition sizes (s : list Z) : Prop := Forall (fun d => 0 <= d) s.
Lemma vol_nonempty s : (1 <= length s)%nat -> volume s = prod s.
Proof. intro H. apply volume_eq_prod. intros ->. simpl in H. lia. Qed.

Lemma scaled r k t : 0 < r -> 1 < k -> r * k = t -> r < t. Proof. intros. nia. Qed.

(** ** C83: convolutions and matrix products *)
(** [Conv], any rank, groups, strides, dilations and padding, with or without a bias: each output element costs one MAC per
    kernel element of its filter (including those that fall on padding) and one addition for the bias. *)
Theorem C83_conv : forall (T : Type) (zero : T) add mul (a : conv_attrs) (x w : tens) (bias : option (Z -> T)) (out : list Z),
  sizes out -> sizes (fst w) -> (2 <= length out)%nat -> (2 <= length (fst w))%nat ->
  conv_macs (fst x :: fst w :: match bias with Some _ => [[hd 0 (fst w)]] | None => [] end) [out]
  = SOk (total (ref_conv zero add mul a x w bias out)).
Proof.
  intros T zero add mul a x w bias out Ho Hw Hr Hk. rewrite conv_total by (try apply nn_tl; assumption).
  assert (Et : volume (tl (fst w)) = prod (tl (fst w))) by (apply vol_nonempty; destruct (fst w); simpl in *; lia).
  unfold conv_macs. destruct bias; cbn [length Nat.eqb andb orb sh_at nth_error sbind Nat.ltb Nat.leb];
    rewrite Et, (vol_nonempty out) by lia; f_equal; unfold MUL_MACS, ADD_MACS; ring.
Qed.
(** a 1-D convolution of 1 2 3 4 with (1, 10), padded by one on both sides, computed and counted *)
Definition demo_x : tens := ([1; 1; 4], fun i => nth 2 i 0 + 1).
Definition demo_w : tens := ([1; 1; 2], fun i => if nth 2 i 0 =? 0 then 1 else 10).
Definition demo_attrs := {| groups := 1; strides := [1]; dilations := [1]; pads_begin := [1] |}.
Example C83_conv_demo : ref_conv 0 Z.add Z.mul demo_attrs demo_x demo_w (Some (fun _ => 100)) [1; 1; 5]
  = ([110; 121; 132; 143; 104], 15).
Proof. vm_compute. reflexivity. Qed.
(** two groups, two channels each *)
Example C83_conv_groups_demo :
  ref_conv 0 Z.add Z.mul {| groups := 2; strides := [2]; dilations := [1]; pads_begin := [0] |}
    ([1; 4; 3], fun i => nth 1 i 0 * 10 + nth 2 i 0) ([2; 2; 1], fun _ => 1) None [1; 2; 2]
  = ([0 + 10; 2 + 12; 20 + 30; 22 + 32], 8).
Proof. vm_compute. reflexivity. Qed.

(** [Gemm] with either operand transposed and an optional third input *)
Theorem C83_gemm : forall (T : Type) (zero : T) add mul (ta tb : bool) (m k n : Z) (a b : tens) (c : option (Z -> Z -> T)) cs,
  0 <= m -> 0 <= k -> 0 <= n -> fst a = swap_if ta m k -> fst b = swap_if tb k n ->
  gemm_macs true (if tb then 1 else 0) (fst a :: fst b :: match c with Some _ => [cs] | None => [] end) [[m; n]]
  = SOk (total (ref_gemm zero add mul ta tb m k n a b c)).
Proof.
  intros T zero add mul ta tb m k n a b c cs Hm Hk Hn Ea Eb. rewrite gemm_total by assumption. rewrite Eb.
  unfold gemm_macs. cbn [sh_at nth_error sbind]. rewrite (vol_nonempty [m; n]) by (simpl; lia). unfold prod, ADD_MACS; cbn [fold_right].
  assert (P : py_index (swap_if tb k n) (if 0 <? (if tb then 1 else 0) then -1 else -2) = SOk k) by (destruct tb; reflexivity).
  destruct c; cbn [length Nat.leb Nat.eqb sbind]; rewrite P; cbn [sbind]; f_equal; ring.
Qed.
Example C83_gemm_demo : ref_gemm 0 Z.add Z.mul false true 2 3 1
    ([2; 3], fun i => nth 0 i 0 * 3 + nth 1 i 0) ([1; 3], fun i => nth 1 i 0 + 1) (Some (fun i _ => 100 * i)) = ([8; 126], 8).
Proof. vm_compute. reflexivity. Qed.

(** [MatMul]: leading dimensions [ba] and [bb] broadcast to [bo] *)
Theorem C83_matmul : forall (T : Type) (zero : T) add mul tb (ba bb bo : list Z) (m k n : Z) (a b : tens),
  sizes bo -> 0 <= m -> 0 <= k -> 0 <= n -> fst a = ba ++ [m; k] -> fst b = bb ++ [k; n] ->
  gemm_macs false tb [fst a; fst b] [bo ++ [m; n]] = SOk (total (ref_matmul zero add mul ba bb bo m k n a b)).
Proof.
  intros T zero add mul tb ba bb bo m k n a b Hb Hm Hk Hn Ea Eb. rewrite matmul_total by assumption. rewrite Eb.
  unfold gemm_macs. cbn [sh_at nth_error sbind length Nat.leb Nat.eqb].
  rewrite vol_nonempty by (rewrite app_length; simpl; lia). rewrite prod_app.
  assert (L : Nat.ltb 1 (length (bb ++ [k; n])) = true) by (apply Nat.ltb_lt; rewrite app_length; simpl; lia).
  rewrite L. assert (P : py_index (bb ++ [k; n]) (-2) = SOk k).
  { unfold py_index. rewrite app_length. cbn [length]. change (-2 <? 0) with true. cbn iota.
    replace (-2 + Z.of_nat (length bb + 2)) with (Z.of_nat (length bb)) by lia.
    assert (X : (Z.of_nat (length bb) <? 0) = false) by (apply Z.ltb_ge; lia). rewrite X, Nat2Z.id.
    rewrite nth_error_app2, Nat.sub_diag by lia. reflexivity. }
  rewrite P. cbn [sbind]. f_equal. unfold prod; cbn [fold_right]. ring.
Qed.
Example C83_matmul_demo : ref_matmul 0 Z.add Z.mul [1] [] [2] 1 2 1
    ([1; 1; 2], fun i => nth 2 i 0 + 1) ([2; 1], fun i => 5) = ([15; 15], 4).
Proof. vm_compute. reflexivity. Qed.

(** [ConvTranspose] reuses the count of [Conv]; it is right only if the output has as many elements as the input *)
Theorem C83_convtranspose_partial : forall (T : Type) (zero : T) add mul (a : conv_attrs) (x w : tens) (out : list Z),
  sizes out -> sizes (fst x) -> Forall (fun d => 0 < d) (fst w) ->
  (2 <= length out)%nat -> (2 <= length (fst x))%nat -> (2 <= length (fst w))%nat ->
  (convtranspose_macs [fst x; fst w] [out] = SOk (total (ref_convtranspose zero add mul a x w out))
   <-> volume out = volume (fst x)).
Proof.
  intros T zero add mul a x w out Ho Hx Hw Hr1 Hr2 Hr3.
  assert (Hp : 0 < prod (tl (fst w))).
  { assert (H : Forall (fun d => 0 < d) (tl (fst w))) by (destruct (fst w); [constructor|inversion Hw; assumption]).
    clear - H. induction H; unfold prod in *; cbn [fold_right]; nia. }
  rewrite convtranspose_total; [|exact Hx| |exact Hr2].
  2:{ apply nn_tl. eapply Forall_impl; [|exact Hw]. simpl. lia. }
  unfold convtranspose_macs, conv_macs. cbn [length Nat.eqb andb orb sh_at nth_error sbind Nat.ltb Nat.leb].
  assert (Et : volume (tl (fst w)) = prod (tl (fst w))) by (apply vol_nonempty; destruct (fst w); simpl in *; lia).
  rewrite Et, (vol_nonempty out), (vol_nonempty (fst x)) by lia. unfold MUL_MACS. split.
  - intro E. injection E as E. assert (E' : prod out * prod (tl (fst w)) = prod (fst x) * prod (tl (fst w))) by lia. nia.
  - intros ->. f_equal. ring.
Qed.
(** a stride-2 upsampling of one image with 8 channels to one channel: 128 MACs, 64 reported *)
Theorem C83_convtranspose_refuted : exists (a : conv_attrs) (x w : @tens Z) (out : list Z),
  convtranspose_macs [fst x; fst w] [out] = SOk 64 /\ total (ref_convtranspose 0 Z.add Z.mul a x w out) = 128
  /\ (forall i, In i (indices out) -> result (ref_convtranspose 0 Z.add Z.mul a x w out) i = 8).
Proof.
  exists {| groups := 1; strides := [2; 2]; dilations := [1; 1]; pads_begin := [0; 0] |}, ([1; 8; 2; 2], fun _ => 1), ([8; 1; 2; 2], fun _ => 1), [1; 1; 4; 4].
  split; [|split]; [vm_compute; reflexivity..|].
  assert (H : forallb (fun i => result (ref_convtranspose 0 Z.add Z.mul {| groups := 1; strides := [2; 2]; dilations := [1; 1]; pads_begin := [0; 0] |}
     ([1; 8; 2; 2], fun _ => 1) ([8; 1; 2; 2], fun _ => 1) [1; 1; 4; 4]) i =? 8) (indices [1; 1; 4; 4]) = true) by (vm_compute; reflexivity).
  intros i Hi. rewrite forallb_forall in H. apply Z.eqb_eq. apply H. exact Hi.
Qed.

(** the integer convolutions, for kernels with one or two spatial dimensions *)
Theorem C83_integer_conv_partial : forall (T : Type) (zero : T) add mul (a : conv_attrs) (x w : tens) (bias : option (Z -> T)) (out : list Z) s1 s2 s3 s4 s5 s6 s7,
  sizes out -> sizes (fst w) -> (2 <= length out)%nat -> length (fst w) = 3%nat \/ length (fst w) = 4%nat ->
  qlinear_conv_macs ([fst x; s1; s2; fst w; s4; s5; s6; s7] ++ match bias with Some _ => [[hd 0 (fst w)]] | None => [] end) [out]
    = SOk (total (ref_conv zero add mul a x w bias out))
  /\ conv_integer_macs [fst x; fst w; s1; s3] [out] = SOk (total (ref_conv zero add mul a x w None out)).
Proof.
  intros T zero add mul a x w bias out s1 s2 s3 s4 s5 s6 s7 Ho Hw Hr Hk. rewrite !conv_total by (try apply nn_tl; assumption).
  unfold qlinear_conv_macs, conv_integer_macs, conv_int_macs. cbn [sh_at nth_error sbind length Nat.eqb app]. rewrite !(vol_nonempty out) by lia.
  destruct (fst w) as [|k0 [|k1 [|k2 [|k3 [|]]]]]; simpl in Hk; try (exfalso; lia); unfold prod, ADD_MACS;
    destruct bias; cbn [fold_right tl hd app sh_at nth_error sbind length Nat.eqb andb orb]; split; f_equal; ring.
Qed.
(** with three spatial dimensions the last one is forgotten *)
Theorem C83_integer_conv_refuted : forall c k1 k2 k3 k4 x s os (a : conv_attrs) (xt : tens) (wd : list Z -> Z),
  0 < c -> 0 < k1 -> 0 < k2 -> 0 < k3 -> 1 < k4 -> Forall (fun d => 0 < d) os -> (2 <= length os)%nat ->
  exists r, conv_integer_macs [x; [c; k1; k2; k3; k4]; s; s] [os] = SOk r
    /\ r * k4 = total (ref_conv 0 Z.add Z.mul a xt ([c; k1; k2; k3; k4], wd) None os)
    /\ r < total (ref_conv 0 Z.add Z.mul a xt ([c; k1; k2; k3; k4], wd) None os).
Proof.
  intros c k1 k2 k3 k4 x s os a xt wd H0 H1 H2 H3 H4 Ho Hr.
  assert (P : 0 < prod os) by (clear - Ho; induction Ho; unfold prod in *; cbn [fold_right]; nia).
  exists (prod os * k1 * k2 * k3). rewrite conv_total; [| |repeat constructor; lia|exact Hr].
  2:{ eapply Forall_impl; [|exact Ho]. simpl. lia. }
  split; [|split].
  - unfold conv_integer_macs, conv_int_macs. cbn. rewrite (vol_nonempty os) by lia. reflexivity.
  - unfold prod; cbn [fst tl fold_right]. ring.
  - apply (scaled _ k4); [|exact H4|unfold prod; cbn [fst tl fold_right]; ring].
    assert (0 < prod os * k1) by nia. assert (0 < prod os * k1 * k2) by nia. nia.
Qed.

(** [QLinearMatMul] multiplies the size of the first operand: right if that operand is not broadcast *)
Lemma py_index_last (l : list Z) (d : Z) : py_index (l ++ [d]) (-1) = SOk d.
Proof.
  unfold py_index. rewrite app_length. cbn [length]. change (-1 <? 0) with true. cbn iota.
  replace (-1 + Z.of_nat (length l + 1)) with (Z.of_nat (length l)) by lia.
  assert (X : (Z.of_nat (length l) <? 0) = false) by (apply Z.ltb_ge; lia). rewrite X, Nat2Z.id.
  rewrite nth_error_app2, Nat.sub_diag by lia. reflexivity.
Qed.
Theorem C83_qlinear_matmul_partial : forall (T : Type) (zero : T) add mul (ba bb bo : list Z) (m k n : Z) (a b : tens) s1 s2 s4 s5 s6 s7,
  sizes bo -> 0 <= m -> 0 <= k -> 0 <= n -> fst a = ba ++ [m; k] -> fst b = bb ++ [k; n] -> prod ba = prod bo ->
  qlinear_matmul_macs [fst a; s1; s2; fst b; s4; s5; s6; s7] = SOk (total (ref_matmul zero add mul ba bb bo m k n a b)).
Proof.
  intros T zero add mul ba bb bo m k n a b s1 s2 s4 s5 s6 s7 Hb Hm Hk Hn Ea Eb E. rewrite matmul_total by assumption.
  unfold qlinear_matmul_macs. cbn [sh_at nth_error sbind]. rewrite Eb.
  change (bb ++ [k; n]) with (bb ++ [k] ++ [n]). rewrite app_assoc, py_index_last. cbn [sbind]. f_equal.
  rewrite Ea, vol_nonempty by (rewrite app_length; simpl; lia). rewrite prod_app, E. unfold prod; cbn [fold_right]. ring.
Qed.
Theorem C83_qlinear_matmul_refuted : forall (nb m k n : Z) (a b : @tens Z) s, 1 < nb -> 0 < m -> 0 < k -> 0 < n ->
  fst a = [m; k] -> fst b = [nb; k; n] ->
  exists r, qlinear_matmul_macs [fst a; s; s; fst b; s; s; s; s] = SOk r
    /\ nb * r = total (ref_matmul 0 Z.add Z.mul [] [nb] [nb] m k n a b) /\ r < total (ref_matmul 0 Z.add Z.mul [] [nb] [nb] m k n a b).
Proof.
  intros nb m k n a b s Hb Hm Hk Hn Ea Eb. exists (m * k * n).
  rewrite matmul_total by (try (repeat constructor); lia). unfold prod; cbn [fold_right].
  split; [|split; [ring|]].
  - rewrite Ea, Eb. unfold qlinear_matmul_macs. cbn [sh_at nth_error sbind]. change (py_index [nb; k; n] (-1)) with (SOk n). cbn [sbind]. f_equal.
    rewrite vol_nonempty by (simpl; lia). unfold prod; cbn [fold_right]. ring.
  - assert (0 < m * k) by nia. assert (0 < m * k * n) by nia. nia.
Qed.

(** ** C84: pooling and element-wise operators *)
Theorem C84_pool_partial : forall (T : Type) (zero : T) f (a : conv_attrs) (kernel : list Z) (x : tens) (out : list Z),
  sizes out -> sizes kernel -> (2 <= length out)%nat -> length kernel = 1%nat \/ length kernel = 2%nat ->
  pool_macs kernel [out] = SOk (total (ref_pool zero f a kernel x out)).
Proof.
  intros T zero f a kernel x out Ho Hk Hr Hl. rewrite pool_total by assumption. unfold pool_macs. cbn [sh_at nth_error sbind]. rewrite !(vol_nonempty out) by lia.
  destruct kernel as [|k0 [|k1 [|]]]; simpl in Hl; try (exfalso; lia); unfold prod, CMP_MACS;
    cbn [sh_at nth_error sbind length Nat.eqb fold_right].
  - change (py_index [k0] 0) with (SOk k0). cbn [sbind]. f_equal. ring.
  - change (py_index [k0; k1] 0) with (SOk k0). change (py_index [k0; k1] 1) with (SOk k1). cbn [sbind]. f_equal. ring.
Qed.
Example C84_pool_demo : ref_pool (-1) Z.max {| groups := 1; strides := [2; 2]; dilations := [1; 1]; pads_begin := [0; 0] |} [2; 2]
    ([1; 1; 2; 4], fun i => nth 2 i 0 * 4 + nth 3 i 0) [1; 1; 1; 2] = ([5; 7], 8).
Proof. vm_compute. reflexivity. Qed.
(** a 3-D window is counted as if it had only its first side *)
Theorem C84_pool_refuted : forall (T : Type) (zero : T) f (a : conv_attrs) (x : tens) k0 k1 k2 (out : list Z),
  0 < k0 -> 0 < k1 -> 1 < k2 -> Forall (fun d => 0 < d) out -> (2 <= length out)%nat ->
  exists r, pool_macs [k0; k1; k2] [out] = SOk r
    /\ r * (k1 * k2) = total (ref_pool zero f a [k0; k1; k2] x out) /\ r < total (ref_pool zero f a [k0; k1; k2] x out).
Proof.
  intros T zero f a x k0 k1 k2 out H0 H1 H2 Ho Hr.
  assert (P : 0 < prod out) by (clear - Ho; induction Ho; unfold prod in *; cbn [fold_right]; nia).
  exists (prod out * k0). rewrite pool_total; [| |repeat constructor; lia|exact Hr].
  2:{ eapply Forall_impl; [|exact Ho]. simpl. lia. }
  split; [|split].
  - unfold pool_macs. cbn [sh_at nth_error sbind]. rewrite !(vol_nonempty out) by lia. unfold CMP_MACS. change (py_index [k0; k1; k2] 0) with (SOk k0). cbn [sbind length Nat.eqb]. f_equal. ring.
  - unfold prod; cbn [fold_right]. ring.
  - apply (scaled _ (k1 * k2)); [nia|nia|unfold prod; cbn [fold_right]; ring].
Qed.
Theorem C84_global_average : forall (T : Type) (zero : T) add div (n c : Z) (sp : list Z) (xd : list Z -> T),
  sizes (n :: c :: sp) ->
  global_pool_macs [n :: c :: sp] [n :: c :: map (fun _ => 1) sp]
  = SOk (total (ref_global_average zero add DIV_MACS div (n :: c :: sp, xd))).
Proof.
  intros T zero add div n c sp xd H. rewrite global_average_total by exact H. unfold global_pool_macs. cbn [sh_at nth_error sbind fst firstn].
  rewrite !vol_nonempty by (simpl; lia). f_equal. unfold prod, ADD_MACS; cbn [fold_right].
  assert (E : fold_right Z.mul 1 (map (fun _ => 1) sp) = 1) by (induction sp; cbn [map fold_right]; [reflexivity|rewrite IHsp; [reflexivity|]];
     inversion H; subst; match goal with X : Forall _ (c :: _ :: _) |- _ => inversion X; subst end; constructor; auto;
     match goal with X : Forall _ (_ :: sp) |- _ => inversion X; subst end; constructor; auto).
  rewrite E. ring.
Qed.
(** element-wise operators with two inputs, and [Sum] with any number of inputs *)
Theorem C84_elementwise_partial : forall (T : Type) (zero : T) f c (ins : list (list Z -> T)) (names : list string) (out : list Z),
  sizes out -> (1 <= length out)%nat ->
  (length ins = 2%nat -> pointwise_macs ratio_at_init c [out] = SOk (total (ref_elementwise zero c f ins out)))
  /\ (ins <> [] -> length names = length ins -> pointwise_macs (sum_ratio names) c [out] = SOk (total (ref_elementwise zero c f ins out))).
Proof.
  intros T zero f c ins names out Ho Hr. unfold pointwise_macs. cbn [sh_at nth_error sbind]. rewrite (vol_nonempty out) by lia. split; intro H.
  - rewrite elementwise_total; [|exact Ho|intros ->; discriminate H]. rewrite H. unfold ratio_at_init. cbn [length]. f_equal.
    change (Z.max 1 (Z.of_nat 0 - 1)) with 1. change (Z.of_nat 2) with 2. ring.
  - intro L. rewrite elementwise_total by assumption. unfold sum_ratio. rewrite L. f_equal. ring.
Qed.
(** with three or more inputs [Max], [Min] and the rest report the cost of two *)
Theorem C84_elementwise_refuted : forall (T : Type) (zero : T) f c (ins : list (list Z -> T)) (out : list Z),
  0 < c -> Forall (fun d => 0 < d) out -> (1 <= length out)%nat -> (3 <= length ins)%nat ->
  exists r, pointwise_macs ratio_at_init c [out] = SOk r /\ r < total (ref_elementwise zero c f ins out).
Proof.
  intros T zero f c ins out Hc Ho Hr Hi. assert (P : 0 < prod out) by (clear - Ho; induction Ho; unfold prod in *; cbn [fold_right]; nia).
  exists (prod out * c). unfold pointwise_macs. cbn [sh_at nth_error sbind]. rewrite (vol_nonempty out) by lia. split.
  - unfold ratio_at_init. cbn [length]. change (Z.max 1 (Z.of_nat 0 - 1)) with 1. f_equal. ring.
  - rewrite elementwise_total; [| |intros ->; simpl in Hi; lia].
    2:{ eapply Forall_impl; [|exact Ho]. simpl. lia. }
    assert (2 * c <= (Z.of_nat (length ins) - 1) * c) by nia. nia.
Qed.

(** ** C85: recurrent layers *)
Ltac idx3 := match goal with
  | |- context [py_index [?a; ?b; ?c] 0] => change (py_index [a; b; c] 0) with (SOk a); cbn [sbind]
  | |- context [py_index [?a; ?b; ?c] 1] => change (py_index [a; b; c] 1) with (SOk b); cbn [sbind]
  end.
(** one direction *)
Theorem C85_lstm_partial : forall (T : Type) (zero : T) add mul sig tanh (seq batch inp hid : Z) w r bw br x s0 extra,
  0 <= seq -> 0 <= batch -> 0 <= inp -> 0 <= hid ->
  lstm_macs ([[seq; batch; inp]; [1; 4 * hid; inp]; [1; 4 * hid; hid]; [1; 8 * hid]] ++ extra)
  = SOk (total (ref_lstm zero add mul sig tanh EXP_MACS TANH_MACS 1 seq batch inp hid w r bw br x s0)).
Proof.
  intros. rewrite lstm_total by lia. unfold lstm_macs. cbn [app sh_at nth_error sbind]. repeat idx3.
  rewrite (Z.mul_comm 4 hid), Z.div_mul by lia. rewrite !vol_nonempty by (simpl; lia). f_equal.
  unfold prod, EXP_MACS, TANH_MACS, EXP_MACS, ADD_MACS, MUL_MACS, DIV_MACS; cbn [fold_right]. ring.
Qed.
Theorem C85_gru_partial : forall (T : Type) (zero : T) add mul sig tanh one_minus (seq batch inp hid : Z) w r bw br x h0 extra,
  0 <= seq -> 0 <= batch -> 0 <= inp -> 0 <= hid ->
  gru_macs ([[seq; batch; inp]; [1; 3 * hid; inp]; [1; 3 * hid; hid]; [1; 6 * hid]] ++ extra)
  = SOk (total (ref_gru zero add mul sig tanh one_minus EXP_MACS TANH_MACS 1 seq batch inp hid w r bw br x h0)).
Proof.
  intros. rewrite gru_total by lia. unfold gru_macs. cbn [app sh_at nth_error sbind]. repeat idx3.
  rewrite (Z.mul_comm 3 hid), Z.div_mul by lia. rewrite !vol_nonempty by (simpl; lia). f_equal.
  unfold prod, EXP_MACS, TANH_MACS, EXP_MACS, ADD_MACS, MUL_MACS, DIV_MACS; cbn [fold_right]. ring.
Qed.
(** with two directions the matrix products are counted twice but the gates only once *)
Theorem C85_bidirectional_refuted : forall (T : Type) (zero : T) add mul sig tanh one_minus (seq batch inp hid : Z) w r bw br x s0 h0,
  0 < seq -> 0 < batch -> 0 <= inp -> 0 < hid ->
  (exists m, lstm_macs [[seq; batch; inp]; [2; 4 * hid; inp]; [2; 4 * hid; hid]; [2; 8 * hid]] = SOk m
     /\ m + seq * batch * hid * 180 = total (ref_lstm zero add mul sig tanh EXP_MACS TANH_MACS 2 seq batch inp hid w r bw br x s0))
  /\ (exists m, gru_macs [[seq; batch; inp]; [2; 3 * hid; inp]; [2; 3 * hid; hid]; [2; 6 * hid]] = SOk m
     /\ m + seq * batch * hid * 110 = total (ref_gru zero add mul sig tanh one_minus EXP_MACS TANH_MACS 2 seq batch inp hid w r bw br x h0)).
Proof.
  intros. rewrite lstm_total, gru_total by lia. unfold lstm_macs, gru_macs. cbn [app sh_at nth_error sbind]. repeat idx3.
  rewrite (Z.mul_comm 4 hid), (Z.mul_comm 3 hid), !Z.div_mul by lia. rewrite !vol_nonempty by (simpl; lia).
  split; (eexists; split; [reflexivity|]);
  unfold prod, EXP_MACS, TANH_MACS, EXP_MACS, ADD_MACS, MUL_MACS, DIV_MACS; cbn [fold_right]; ring.
Qed.
(** the bias is optional in ONNX, but without it the profile fails *)
Theorem C85_no_bias_refuted : forall seq batch inp hid,
  lstm_macs [[seq; batch; inp]; [1; 4 * hid; inp]; [1; 4 * hid; hid]] = SRaise IndexErr
  /\ gru_macs [[seq; batch; inp]; [1; 3 * hid; inp]; [1; 3 * hid; hid]] = SRaise IndexErr.
Proof. intros. split; reflexivity. Qed.
Example C85_lstm_demo : exists v, lstm_macs [[5; 2; 3]; [1; 16; 3]; [1; 16; 4]; [1; 32]] = SOk v
  /\ total (ref_lstm 0 Z.add Z.mul (fun x => x) (fun x => x) EXP_MACS TANH_MACS 1 5 2 3 4 (fun _ _ _ _ => 1) (fun _ _ _ _ => 1) (fun _ _ _ => 0) (fun _ _ _ => 0)
     (fun _ _ _ => 1) (fun _ => (fun _ _ => 0, fun _ _ => 0))) = v /\ v = 8640.
Proof. eexists. split; [vm_compute; reflexivity|]. split; vm_compute; reflexivity. Qed.

(** ** C86: Einsum *)
(** two operands without ellipsis: one MAC for each assignment of the labels that occur; [out] are the labels of the result,
    [summed] the others *)
Theorem C86_einsum_partial : forall (T : Type) (zero : T) add mul (size : ascii -> Z) (l0 l1 : string) (out summed : list ascii) (a b : list Z -> T),
  let t0 := list_ascii_of_string l0 in let t1 := list_ascii_of_string l1 in
  ~ In "."%char t0 -> ~ In "."%char t1 ->
  NoDup (out ++ summed) -> (forall c, In c (out ++ summed) <-> In c t0 \/ In c t1) -> (forall c, 0 <= size c) ->
  einsum_macs [l0; l1] [map size t0; map size t1] = SOk (total (ref_einsum zero add mul size t0 t1 out summed a b)).
Proof.
  intros T zero add mul size l0 l1 out summed a b t0 t1 H0 H1 Hn Hin Hs. rewrite einsum_total by (intros; apply Hs).
  assert (F : forall s, ~ In "."%char (list_ascii_of_string s) -> no_dots s = list_ascii_of_string s).
  { intros s H. unfold no_dots. induction (list_ascii_of_string s) as [|c r IH]; [reflexivity|]. simpl.
    destruct (Ascii.eqb_spec c "."%char) as [->|E]; [exfalso; apply H; left; reflexivity|]. simpl. f_equal. apply IH. intro X. apply H. right. exact X. }
  unfold t0, t1. rewrite <- (F l0 H0), <- (F l1 H1). apply einsum_macs_prod; [exact Hn|]. rewrite (F l0 H0), (F l1 H1). exact Hin.
Qed.
Open Scope char_scope.
Example C86_einsum_demo : ref_einsum 0 Z.add Z.mul (fun c => if Ascii.eqb c "j" then 3 else 2)%Z ["i"; "j"] ["j"; "k"] ["i"; "k"] ["j"]
   (fun i => nth 0 i 0 + 1)%Z (fun i => nth 0 i 0)%Z = ([3; 3; 6; 6]%Z, 12%Z).
Proof. vm_compute. reflexivity. Qed.
Close Scope char_scope. Open Scope Z_scope.
(** a third operand is ignored, a single operand or an ellipsis makes the profile fail, and a size 1 of the second operand
    hides the size it is broadcast to *)
Theorem C86_einsum_refuted :
  (forall l0 l1 ls s0 s1 ss, einsum_macs (l0 :: l1 :: ls) (s0 :: s1 :: ss) = einsum_macs [l0; l1] [s0; s1])
  /\ (forall l s, einsum_macs [l] [s] = SRaise IndexErr)
  /\ (forall b m k n, einsum_macs ["...ij"; "...jk"] [[b; m; k]; [b; k; n]] = SRaise IndexErr)
  /\ (forall m n, einsum_macs ["ij"; "ij"] [[m; n]; [1; n]] = SOk n).
Proof. repeat split; intros; try reflexivity. unfold einsum_macs. cbn. f_equal. destruct n; reflexivity. Qed.
