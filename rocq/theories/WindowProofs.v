(** Conv, Pool, ConvTranspose and Slice sizes. *)
From Coq Require Import Permutation.
From Verif Require Import PyBase GraphModel FloatPy ShapeModel ShapeSpec BcastProofs.
Open Scope Z_scope.

Lemma py_index_nat : forall (l : list Z) i, (i < length l)%nat -> py_index l (Z.of_nat i) = SOk (nth i l 0).
Proof.
  intros l i H. unfold py_index.
  destruct (Z.ltb_spec (Z.of_nat i) 0); [lia|]. destruct (Z.ltb_spec (Z.of_nat i) 0); [lia|].
  rewrite Nat2Z.id. rewrite nth_error_nth' with (d := 0) by auto. reflexivity.
Qed.

Lemma py_index_lit : forall (l : list Z) z i, z = Z.of_nat i -> (i < length l)%nat -> py_index l z = SOk (nth i l 0).
Proof. intros. subst. apply py_index_nat; auto. Qed.

(** ** one axis *)
Lemma count_div : forall a b p, 0 < b -> (p < a / b + 1 <-> p * b <= a).
Proof.
  intros a b p Hb. pose proof (Z.div_mod a b ltac:(lia)) as D. pose proof (Z.mod_pos_bound a b Hb) as M.
  split; intros; nia.
Qed.
Lemma count_ceil : forall a b p, 0 < b -> (p < - ((- a) / b) <-> p * b < a).
Proof.
  intros a b p Hb. pose proof (Z.div_mod (- a) b ltac:(lia)) as D. pose proof (Z.mod_pos_bound (- a) b Hb) as M.
  split; intros; nia.
Qed.

Lemma conv_axis_count : forall x pad k s d,
  0 < s -> Z.abs (x + pad - d * (k - 1) - 1) + s < 2 ^ 50 -> - 2 * s < x + pad - d * (k - 1) - 1 ->
  exists n, conv_output_shape x pad k s d = SOk n /\ window_count (x + pad) k s d n.
Proof.
  intros x pad k s d Hs Hb Hf. unfold conv_output_shape.
  destruct (Z.eqb_spec s 0); [lia|]. eexists. split; [reflexivity|].
  set (num := x + pad - d * (k - 1) - 1) in *.
  destruct (Z.le_gt_cases (- s) num) as [C|C].
  - rewrite int_fdiv1 by auto. split.
    + assert (-1 <= num / s) by (apply Z.div_le_lower_bound; lia). lia.
    + intros p Hp. rewrite count_div by auto. unfold num. lia.
  - assert (E : py_int (fdiv1 num s) = 0).
    { unfold py_int. rewrite Flocq.Core.Raux.Ztrunc_ceil.
      - fold (py_ceil (fdiv1 num s)). rewrite ceil_fdiv1 by auto.
        assert ((- num) / s = 1); [|lia]. symmetry. apply Z.div_unique with (- num - s); lia.
      - pose proof (fdiv1_le num s (-1) ltac:(lia) ltac:(lia) ltac:(lia)). exact H. }
    rewrite E. split; [lia|]. intros p Hp. unfold num in *. split; [lia|]. nia.
Qed.

Lemma pool_axis_count : forall x pad k s d,
  0 < s -> Z.abs (x + pad - d * (k - 1) - 1) + s < 2 ^ 50 -> - s <= x + pad - d * (k - 1) - 1 ->
  exists n, pooling_shape_calc x pad k d s false = SOk n /\ window_count (x + pad) k s d n.
Proof.
  intros x pad k s d Hs Hb Hf. unfold pooling_shape_calc.
  destruct (Z.eqb_spec s 0); [lia|]. eexists. split; [reflexivity|].
  replace (x + pad - ((k - 1) * d + 1)) with (x + pad - d * (k - 1) - 1) by lia.
  rewrite floor_fdiv1 by auto. split.
  - assert (-1 <= (x + pad - d * (k - 1) - 1) / s) by (apply Z.div_le_lower_bound; lia). lia.
  - intros p Hp. rewrite count_div by auto. lia.
Qed.

(** ceil mode: additionally the first position whose window is cut off *)
Lemma pool_axis_ceil : forall x pad k s d,
  0 < s -> Z.abs (x + pad - d * (k - 1) - 1) + s < 2 ^ 50 -> 0 <= x + pad - d * (k - 1) - 1 ->
  exists n, pooling_shape_calc x pad k d s true = SOk n /\
    forall p, 0 <= p -> (p < n <-> p = 0 \/ (p - 1) * s + d * (k - 1) + 1 < x + pad).
Proof.
  intros x pad k s d Hs Hb Hf. unfold pooling_shape_calc.
  destruct (Z.eqb_spec s 0); [lia|]. eexists. split; [reflexivity|].
  replace (x + pad - ((k - 1) * d + 1)) with (x + pad - d * (k - 1) - 1) by lia.
  rewrite ceil_fdiv1 by auto.
  intros p Hp. pose proof (count_ceil (x + pad - d * (k - 1) - 1) s (p - 1) Hs) as C.
  assert (NN : 0 <= - (- (x + pad - d * (k - 1) - 1) / s)).
  { pose proof (count_ceil (x + pad - d * (k - 1) - 1) s (-1) Hs). lia. }
  lia.
Qed.

Lemma valid_axis_count : forall x k s,
  0 < s < 2 ^ 53 -> Z.abs (x - k + 1) < 2 ^ 53 -> - s < x - k + 1 ->
  exists n, auto_pad_valid x k s = SOk n /\ window_count x k s 1 n.
Proof.
  intros x k s Hs Hb Hf. unfold auto_pad_valid.
  destruct (Z.eqb_spec s 0); [lia|]. eexists. split; [reflexivity|].
  rewrite ceil_fdiv by auto. split.
  - pose proof (count_ceil (x - k + 1) s (-1) ltac:(lia)). lia.
  - intros p Hp. rewrite count_ceil by lia. lia.
Qed.

Lemma same_axis_count : forall x s, 0 < s < 2 ^ 53 -> Z.abs x < 2 ^ 53 ->
  exists n, auto_pad_same x s = SOk n /\ ceil_div_spec x s n.
Proof.
  intros x s Hs Hb. unfold auto_pad_same.
  destruct (Z.eqb_spec s 0); [lia|]. eexists. split; [reflexivity|].
  rewrite ceil_fdiv by auto. unfold ceil_div_spec.
  pose proof (count_ceil x s (- (- x / s) - 1) ltac:(lia)).
  pose proof (count_ceil x s (- (- x / s)) ltac:(lia)). lia.
Qed.

(** ** whole nodes *)
Lemma conv_axis_ok : forall wd x w n i,
  (2 + n <= length x)%nat -> (2 + n <= length w)%nat ->
  (2 * n <= length (w_pads wd))%nat -> (n <= length (w_strides wd))%nat -> (n <= length (w_dilations wd))%nat ->
  (i < n)%nat ->
  conv_axis wd x w (Z.of_nat i) (Z.of_nat i) (Z.of_nat (i + n)) =
  conv_output_shape (nth (2 + i) x 0) (nth i (w_pads wd) 0 + nth (i + n) (w_pads wd) 0) (nth (2 + i) w 0)
                    (nth i (w_strides wd) 0) (nth i (w_dilations wd) 0).
Proof.
  intros. unfold conv_axis.
  replace (2 + Z.of_nat i) with (Z.of_nat (2 + i)) by lia.
  rewrite !py_index_nat by lia. reflexivity.
Qed.

Lemma pool_axis_ok : forall wd ks x c i p q d zi zp zq zd,
  zi = Z.of_nat i -> zp = Z.of_nat p -> zq = Z.of_nat q -> zd = Z.of_nat d ->
  (2 + i < length x)%nat -> (p < length (w_pads wd))%nat -> (q < length (w_pads wd))%nat -> (i < length ks)%nat ->
  (i < length (w_strides wd))%nat -> (d < length (w_dilations wd))%nat ->
  pool_axis wd ks x c zi zp zq zd =
  pooling_shape_calc (nth (2 + i) x 0) (nth p (w_pads wd) 0 + nth q (w_pads wd) 0) (nth i ks 0)
                    (nth d (w_dilations wd) 0) (nth i (w_strides wd) 0) c.
Proof.
  intros. subst. unfold pool_axis.
  replace (2 + Z.of_nat i) with (Z.of_nat (2 + i)) by lia.
  rewrite !py_index_nat by lia. reflexivity.
Qed.

Theorem conv_windows : forall wd x w n,
  w_autopad wd = Explicit -> (1 <= n <= 3)%nat -> length x = (2 + n)%nat -> length w = (2 + n)%nat ->
  (2 * n <= length (w_pads wd))%nat -> (n <= length (w_strides wd))%nat -> (n <= length (w_dilations wd))%nat ->
  (forall i, (i < n)%nat ->
     let len := nth (2 + i) x 0 + nth i (w_pads wd) 0 + nth (i + n) (w_pads wd) 0 in
     let span := nth i (w_dilations wd) 0 * (nth (2 + i) w 0 - 1) + 1 in
     0 < nth i (w_strides wd) 0 /\ - 2 * nth i (w_strides wd) 0 < len - span /\
     Z.abs (len - span) + nth i (w_strides wd) 0 < 2 ^ 50) ->
  exists out, conv_shape wd x w = SOk out /\
    windowed x (nth 0 w 0) (skipn 2 w) (w_pads wd) (w_strides wd) (w_dilations wd) out.
Proof.
  intros wd x w n A N Lx Lw Lp Ls Ld H. cbv zeta in H.
  assert (AX : forall i, (i < n)%nat -> exists o,
     conv_axis wd x w (Z.of_nat i) (Z.of_nat i) (Z.of_nat (i + n)) = SOk o /\
     window_count (nth (2 + i) x 0 + nth i (w_pads wd) 0 + nth (i + n) (w_pads wd) 0) (nth (2 + i) w 0)
                  (nth i (w_strides wd) 0) (nth i (w_dilations wd) 0) o).
  { intros i Hi. destruct (H i Hi) as (P & F & B). rewrite conv_axis_ok by lia.
    destruct (conv_axis_count (nth (2 + i) x 0) (nth i (w_pads wd) 0 + nth (i + n) (w_pads wd) 0) (nth (2 + i) w 0)
                  (nth i (w_strides wd) 0) (nth i (w_dilations wd) 0)) as (o & E & W); try lia.
    exists o. split; auto. rewrite <- Z.add_assoc. exact W. }
  assert (NT : forall i, nth i (skipn 2 w) 0 = nth (2 + i) w 0).
  { intros i. destruct w as [|a [|b w']]; simpl in Lw; try lia. reflexivity. }
  assert (LK : length (skipn 2 w) = n) by (rewrite skipn_length; lia).
  unfold conv_shape. rewrite A, Lx.
  assert (FIN : forall sp, length sp = n ->
    (forall i, (i < n)%nat -> window_count (nth (2 + i) x 0 + nth i (w_pads wd) 0 + nth (i + n) (w_pads wd) 0) (nth (2 + i) w 0)
                  (nth i (w_strides wd) 0) (nth i (w_dilations wd) 0) (nth i sp 0)) ->
    windowed x (nth 0 w 0) (skipn 2 w) (w_pads wd) (w_strides wd) (w_dilations wd) (nth 0 x 0 :: nth 0 w 0 :: sp)).
  { intros sp L W. exists sp. rewrite LK. split; [reflexivity|]. split; [auto|]. split; [auto|].
    intros i Hi. rewrite NT. apply W. auto. }
  destruct n as [|[|[|[|n]]]]; try lia; cbn [Nat.eqb Nat.add].
  - destruct (AX 0%nat ltac:(lia)) as (o0 & E0 & W0).
    cbn in E0. rewrite E0. cbn [sbind].
    rewrite (py_index_lit x 0 0 eq_refl ltac:(lia)), (py_index_lit w 0 0 eq_refl ltac:(lia)). cbn [sbind].
    eexists. split; [reflexivity|]. apply FIN; [reflexivity|].
    intros i Hi. destruct i as [|i]; [apply W0|lia].
  - destruct (AX 0%nat ltac:(lia)) as (o0 & E0 & W0). destruct (AX 1%nat ltac:(lia)) as (o1 & E1 & W1).
    cbn in E0, E1. rewrite E0. cbn [sbind]. rewrite E1. cbn [sbind].
    rewrite (py_index_lit x 0 0 eq_refl ltac:(lia)), (py_index_lit w 0 0 eq_refl ltac:(lia)). cbn [sbind].
    eexists. split; [reflexivity|]. apply FIN; [reflexivity|].
    intros i Hi. destruct i as [|[|i]]; [apply W0|apply W1|lia].
  - destruct (AX 0%nat ltac:(lia)) as (o0 & E0 & W0). destruct (AX 1%nat ltac:(lia)) as (o1 & E1 & W1).
    destruct (AX 2%nat ltac:(lia)) as (o2 & E2 & W2).
    cbn in E0, E1, E2. rewrite E0. cbn [sbind]. rewrite E1. cbn [sbind]. rewrite E2. cbn [sbind].
    rewrite (py_index_lit x 0 0 eq_refl ltac:(lia)), (py_index_lit w 0 0 eq_refl ltac:(lia)). cbn [sbind].
    eexists. split; [reflexivity|]. apply FIN; [reflexivity|].
    intros i Hi. destruct i as [|[|[|i]]]; [apply W0|apply W1|apply W2|lia].
Qed.

(** Pool, floor mode.  In 3-D the code uses the begin pad twice and the second dilation for
    the third axis, hence the symmetry hypothesis. *)
Theorem pool_windows : forall wd ks x n,
  w_autopad wd = Explicit -> (1 <= n <= 3)%nat -> length x = (2 + n)%nat -> length ks = n ->
  (2 * n <= length (w_pads wd))%nat -> (n <= length (w_strides wd))%nat -> (n <= length (w_dilations wd))%nat ->
  (n = 3%nat -> (forall i, (i < 3)%nat -> nth i (w_pads wd) 0 = nth (i + 3) (w_pads wd) 0) /\
                nth 1 (w_dilations wd) 0 = nth 2 (w_dilations wd) 0) ->
  (forall i, (i < n)%nat ->
     let len := nth (2 + i) x 0 + nth i (w_pads wd) 0 + nth (i + n) (w_pads wd) 0 in
     let span := nth i (w_dilations wd) 0 * (nth i ks 0 - 1) + 1 in
     0 < nth i (w_strides wd) 0 /\ - nth i (w_strides wd) 0 <= len - span /\
     Z.abs (len - span) + nth i (w_strides wd) 0 < 2 ^ 50) ->
  exists out, pool_shape wd ks false x = SOk out /\
    windowed x (nth 1 x 0) ks (w_pads wd) (w_strides wd) (w_dilations wd) out.
Proof.
  intros wd ks x n A N Lx Lw Lp Ls Ld S3 H. cbv zeta in H.
  assert (AX : forall i, (i < n)%nat -> exists o,
     pooling_shape_calc (nth (2 + i) x 0) (nth i (w_pads wd) 0 + nth (i + n) (w_pads wd) 0) (nth i ks 0)
                    (nth i (w_dilations wd) 0) (nth i (w_strides wd) 0) false = SOk o /\
     window_count (nth (2 + i) x 0 + nth i (w_pads wd) 0 + nth (i + n) (w_pads wd) 0) (nth i ks 0)
                  (nth i (w_strides wd) 0) (nth i (w_dilations wd) 0) o).
  { intros i Hi. destruct (H i Hi) as (P & F & B).
    destruct (pool_axis_count (nth (2 + i) x 0) (nth i (w_pads wd) 0 + nth (i + n) (w_pads wd) 0) (nth i ks 0)
                  (nth i (w_strides wd) 0) (nth i (w_dilations wd) 0)) as (o & E & W); try lia.
    exists o. split; auto. rewrite <- Z.add_assoc. exact W. }
  assert (X2 : firstn 2 x = [nth 0 x 0; nth 1 x 0]).
  { destruct x as [|a [|b x']]; simpl in Lx; try lia. reflexivity. }
  assert (FIN : forall sp, length sp = n ->
    (forall i, (i < n)%nat -> window_count (nth (2 + i) x 0 + nth i (w_pads wd) 0 + nth (i + n) (w_pads wd) 0) (nth i ks 0)
                  (nth i (w_strides wd) 0) (nth i (w_dilations wd) 0) (nth i sp 0)) ->
    windowed x (nth 1 x 0) ks (w_pads wd) (w_strides wd) (w_dilations wd) (firstn 2 x ++ sp)).
  { intros sp L W. exists sp. rewrite X2, Lw. split; [reflexivity|]. split; [auto|]. split; [auto|].
    intros i Hi. apply W. auto. }
  unfold pool_shape. rewrite A, Lw.
  destruct n as [|[|[|[|n]]]]; try lia; cbn [Nat.eqb].
  - destruct (AX 0%nat ltac:(lia)) as (o0 & E0 & W0).
    rewrite (pool_axis_ok wd ks x false 0 0 1 0 0 0 1 0 eq_refl eq_refl eq_refl eq_refl) by lia. cbn [Nat.add]. cbn [Nat.add] in E0. rewrite E0. cbn [sbind].
    eexists. split; [reflexivity|]. apply FIN; [reflexivity|].
    intros i Hi. destruct i as [|i]; [apply W0|lia].
  - destruct (AX 0%nat ltac:(lia)) as (o0 & E0 & W0). destruct (AX 1%nat ltac:(lia)) as (o1 & E1 & W1).
    rewrite (pool_axis_ok wd ks x false 0 0 2 0 0 0 2 0 eq_refl eq_refl eq_refl eq_refl) by lia. cbn [Nat.add] in E0, E1. cbn [Nat.add]. rewrite E0. cbn [sbind].
    rewrite (pool_axis_ok wd ks x false 1 1 3 1 1 1 3 1 eq_refl eq_refl eq_refl eq_refl) by lia. cbn [Nat.add]. rewrite E1. cbn [sbind].
    eexists. split; [reflexivity|]. apply FIN; [reflexivity|].
    intros i Hi. destruct i as [|[|i]]; [apply W0|apply W1|lia].
  - destruct (AX 0%nat ltac:(lia)) as (o0 & E0 & W0). destruct (AX 1%nat ltac:(lia)) as (o1 & E1 & W1).
    destruct (AX 2%nat ltac:(lia)) as (o2 & E2 & W2). destruct (S3 eq_refl) as [SP SD].
    cbn [Nat.add] in E0, E1, E2.
    pose proof (SP 0%nat ltac:(lia)) as Q0. pose proof (SP 1%nat ltac:(lia)) as Q1. pose proof (SP 2%nat ltac:(lia)) as Q2.
    cbn [Nat.add] in Q0, Q1, Q2. rewrite <- Q0 in E0. rewrite <- Q1 in E1. rewrite <- Q2 in E2. rewrite <- SD in E2.
    rewrite (pool_axis_ok wd ks x false 0 0 0 0 0 0 0 0 eq_refl eq_refl eq_refl eq_refl) by lia. cbn [Nat.add]. rewrite E0. cbn [sbind].
    rewrite (pool_axis_ok wd ks x false 1 1 1 1 1 1 1 1 eq_refl eq_refl eq_refl eq_refl) by lia. cbn [Nat.add]. rewrite E1. cbn [sbind].
    rewrite (pool_axis_ok wd ks x false 2 2 2 1 2 2 2 1 eq_refl eq_refl eq_refl eq_refl) by lia. cbn [Nat.add]. rewrite E2. cbn [sbind].
    eexists. split; [reflexivity|]. apply FIN; [reflexivity|].
    intros i Hi. destruct i as [|[|[|i]]]; [apply W0|apply W1|apply W2|lia].
Qed.

(** ** SAME and VALID *)
Theorem conv_same : forall wd x w n,
  w_autopad wd = SameUpper \/ w_autopad wd = SameLower -> (1 <= n <= 2)%nat -> length x = (2 + n)%nat -> (1 <= length w)%nat ->
  (n <= length (w_strides wd))%nat ->
  (forall i, (i < n)%nat -> 0 < nth i (w_strides wd) 0 < 2 ^ 53 /\ Z.abs (nth (2 + i) x 0) < 2 ^ 53) ->
  exists out, conv_shape wd x w = SOk out /\ same_padded x (nth 0 w 0) (w_strides wd) out.
Proof.
  intros wd x w n A N Lx Lw Ls H.
  assert (AX : forall i, (i < n)%nat -> exists o, auto_pad_same (nth (2 + i) x 0) (nth i (w_strides wd) 0) = SOk o /\
     ceil_div_spec (nth (2 + i) x 0) (nth i (w_strides wd) 0) o).
  { intros i Hi. destruct (H i Hi). apply same_axis_count; auto. }
  assert (FIN : forall sp, length sp = n ->
    (forall i, (i < n)%nat -> ceil_div_spec (nth (2 + i) x 0) (nth i (w_strides wd) 0) (nth i sp 0)) ->
    same_padded x (nth 0 w 0) (w_strides wd) (nth 0 x 0 :: nth 0 w 0 :: sp)).
  { intros sp L W. exists sp. rewrite L. repeat split; auto; apply W; auto. }
  unfold conv_shape.
  destruct n as [|[|[|n]]]; try lia.
  - destruct (AX 0%nat ltac:(lia)) as (o0 & E0 & W0). cbn [Nat.add] in E0.
    exists [nth 0 x 0; nth 0 w 0; o0]. split.
    + destruct A as [-> | ->];
      rewrite (py_index_lit x 0 0 eq_refl), (py_index_lit w 0 0 eq_refl), (py_index_lit x 2 2 eq_refl), (py_index_lit (w_strides wd) 0 0 eq_refl) by lia;
      cbn [sbind]; rewrite E0; cbn [sbind]; rewrite Lx; reflexivity.
    + apply FIN; [reflexivity|]. intros i Hi. destruct i as [|i]; [apply W0|lia].
  - destruct (AX 0%nat ltac:(lia)) as (o0 & E0 & W0). cbn [Nat.add] in E0.
    destruct (AX 1%nat ltac:(lia)) as (o1 & E1 & W1). cbn [Nat.add] in E1.
    exists [nth 0 x 0; nth 0 w 0; o0; o1]. split.
    + destruct A as [-> | ->];
      rewrite (py_index_lit x 0 0 eq_refl), (py_index_lit w 0 0 eq_refl), (py_index_lit x 2 2 eq_refl), (py_index_lit (w_strides wd) 0 0 eq_refl) by lia;
      cbn [sbind]; rewrite E0; cbn [sbind]; rewrite Lx; cbn [Nat.eqb Nat.add];
      rewrite (py_index_lit x 3 3 eq_refl), (py_index_lit (w_strides wd) 1 1 eq_refl) by lia; cbn [sbind]; rewrite E1; reflexivity.
    + apply FIN; [reflexivity|]. intros i Hi. destruct i as [|[|i]]; [apply W0|apply W1|lia].
Qed.

Theorem pool_same : forall wd ks c x n,
  w_autopad wd = SameUpper \/ w_autopad wd = SameLower -> (1 <= n <= 2)%nat -> length x = (2 + n)%nat ->
  length (w_strides wd) = n ->
  (forall i, (i < n)%nat -> 0 < nth i (w_strides wd) 0 < 2 ^ 53 /\ Z.abs (nth (2 + i) x 0) < 2 ^ 53) ->
  exists out, pool_shape wd ks c x = SOk out /\ same_padded x (nth 1 x 0) (w_strides wd) out.
Proof.
  intros wd ks c x n A N Lx Ls H.
  assert (AX : forall i, (i < n)%nat -> exists o, auto_pad_same (nth (2 + i) x 0) (nth i (w_strides wd) 0) = SOk o /\
     ceil_div_spec (nth (2 + i) x 0) (nth i (w_strides wd) 0) o).
  { intros i Hi. destruct (H i Hi). apply same_axis_count; auto. }
  assert (X2 : firstn 2 x = [nth 0 x 0; nth 1 x 0]).
  { destruct x as [|a [|b x']]; simpl in Lx; try lia. reflexivity. }
  assert (FIN : forall sp, length sp = n ->
    (forall i, (i < n)%nat -> ceil_div_spec (nth (2 + i) x 0) (nth i (w_strides wd) 0) (nth i sp 0)) ->
    same_padded x (nth 1 x 0) (w_strides wd) (firstn 2 x ++ sp)).
  { intros sp L W. exists sp. rewrite X2, L. repeat split; auto; apply W; auto. }
  unfold pool_shape.
  destruct n as [|[|[|n]]]; try lia.
  - destruct (AX 0%nat ltac:(lia)) as (o0 & E0 & W0). cbn [Nat.add] in E0.
    exists (firstn 2 x ++ [o0]). split.
    + destruct A as [-> | ->];
      rewrite (py_index_lit x 2 2 eq_refl), (py_index_lit (w_strides wd) 0 0 eq_refl) by lia;
      cbn [sbind]; rewrite E0; cbn [sbind]; rewrite Ls; reflexivity.
    + apply FIN; [reflexivity|]. intros i Hi. destruct i as [|i]; [apply W0|lia].
  - destruct (AX 0%nat ltac:(lia)) as (o0 & E0 & W0). cbn [Nat.add] in E0.
    destruct (AX 1%nat ltac:(lia)) as (o1 & E1 & W1). cbn [Nat.add] in E1.
    exists (firstn 2 x ++ [o0; o1]). split.
    + destruct A as [-> | ->];
      rewrite (py_index_lit x 2 2 eq_refl), (py_index_lit (w_strides wd) 0 0 eq_refl) by lia;
      cbn [sbind]; rewrite E0; cbn [sbind]; rewrite Ls; cbn [Nat.eqb];
      rewrite (py_index_lit x 3 3 eq_refl), (py_index_lit (w_strides wd) 1 1 eq_refl) by lia; cbn [sbind]; rewrite E1; reflexivity.
    + apply FIN; [reflexivity|]. intros i Hi. destruct i as [|[|i]]; [apply W0|apply W1|lia].
Qed.

Theorem conv_valid : forall wd x w n,
  w_autopad wd = Valid -> (1 <= n <= 2)%nat -> length x = (2 + n)%nat -> length w = (2 + n)%nat ->
  (n <= length (w_strides wd))%nat ->
  (forall i, (i < n)%nat -> 0 < nth i (w_strides wd) 0 < 2 ^ 53 /\
     Z.abs (nth (2 + i) x 0 - nth (2 + i) w 0 + 1) < 2 ^ 53 /\ - nth i (w_strides wd) 0 < nth (2 + i) x 0 - nth (2 + i) w 0 + 1) ->
  exists out, conv_shape wd x w = SOk out /\
    windowed x (nth 0 w 0) (skipn 2 w) [] (w_strides wd) (repeat 1 n) out.
Proof.
  intros wd x w n A N Lx Lw Ls H.
  assert (AX : forall i, (i < n)%nat -> exists o, auto_pad_valid (nth (2 + i) x 0) (nth (2 + i) w 0) (nth i (w_strides wd) 0) = SOk o /\
     window_count (nth (2 + i) x 0) (nth (2 + i) w 0) (nth i (w_strides wd) 0) 1 o).
  { intros i Hi. destruct (H i Hi) as (? & ? & ?). apply valid_axis_count; auto. }
  assert (NT : forall i, nth i (skipn 2 w) 0 = nth (2 + i) w 0).
  { intros i. destruct w as [|a [|b w']]; simpl in Lw; try lia. reflexivity. }
  assert (LK : length (skipn 2 w) = n) by (rewrite skipn_length; lia).
  assert (FIN : forall sp, length sp = n ->
    (forall i, (i < n)%nat -> window_count (nth (2 + i) x 0) (nth (2 + i) w 0) (nth i (w_strides wd) 0) 1 (nth i sp 0)) ->
    windowed x (nth 0 w 0) (skipn 2 w) [] (w_strides wd) (repeat 1 n) (nth 0 x 0 :: nth 0 w 0 :: sp)).
  { intros sp L W. exists sp. rewrite LK. split; [reflexivity|]. split; [auto|]. split; [auto|].
    intros i Hi. rewrite NT, !nth_overflow with (l := []) by (simpl; lia).
    rewrite !Z.add_0_r.
    rewrite (nth_indep (repeat 1 n) 0 1) by (rewrite repeat_length; auto).
    rewrite nth_repeat. apply W; auto. }
  unfold conv_shape. rewrite A.
  destruct n as [|[|[|n]]]; try lia.
  - destruct (AX 0%nat ltac:(lia)) as (o0 & E0 & W0). cbn [Nat.add] in E0.
    exists [nth 0 x 0; nth 0 w 0; o0]. split.
    + rewrite (py_index_lit x 2 2 eq_refl), (py_index_lit w 2 2 eq_refl), (py_index_lit (w_strides wd) 0 0 eq_refl), (py_index_lit x 0 0 eq_refl), (py_index_lit w 0 0 eq_refl) by lia.
      cbn [sbind]; rewrite E0; cbn [sbind]; rewrite Lx; reflexivity.
    + apply FIN; [reflexivity|]. intros i Hi. destruct i as [|i]; [apply W0|lia].
  - destruct (AX 0%nat ltac:(lia)) as (o0 & E0 & W0). cbn [Nat.add] in E0.
    destruct (AX 1%nat ltac:(lia)) as (o1 & E1 & W1). cbn [Nat.add] in E1.
    exists [nth 0 x 0; nth 0 w 0; o0; o1]. split.
    + rewrite (py_index_lit x 2 2 eq_refl), (py_index_lit w 2 2 eq_refl), (py_index_lit (w_strides wd) 0 0 eq_refl), (py_index_lit x 0 0 eq_refl), (py_index_lit w 0 0 eq_refl) by lia.
      cbn [sbind]; rewrite E0; cbn [sbind]; rewrite Lx; cbn [Nat.eqb Nat.add].
      rewrite (py_index_lit x 3 3 eq_refl), (py_index_lit w 3 3 eq_refl), (py_index_lit (w_strides wd) 1 1 eq_refl) by lia; cbn [sbind]; rewrite E1; reflexivity.
    + apply FIN; [reflexivity|]. intros i Hi. destruct i as [|[|i]]; [apply W0|apply W1|lia].
Qed.

(** ** ConvTranspose undoes Conv on every axis *)
Theorem convtranspose_inverse : forall x op pad k s d,
  0 < s -> 0 <= op < s -> 1 <= x ->
  window_count (convtranspose_output_shape x op pad k s d + pad) k s d x.
Proof.
  intros x op pad k s d Hs Ho Hx. unfold convtranspose_output_shape. split; [lia|].
  intros p Hp. split; intros; nia.
Qed.
