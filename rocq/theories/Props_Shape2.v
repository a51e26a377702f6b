(** C102 (recurrent, detection and sampling operators) and C103 (Resize). *)
From Coq Require Import Reals Lra Lia.
From Flocq Require Import Core.
From Verif Require Import PyBase GraphModel FloatPy ShapeModel ShapeSpec LayoutProofs ShapeModel2 ShapeSpec2.
Open Scope list_scope. Open Scope Z_scope.

Lemma ix0 (a : Z) l : py_index (a :: l) 0 = SOk a. Proof. reflexivity. Qed.
Lemma ix1 (a b : Z) l : py_index (a :: b :: l) 1 = SOk b. Proof. reflexivity. Qed.
Lemma ix2 (a b c : Z) l : py_index (a :: b :: c :: l) 2 = SOk c. Proof. reflexivity. Qed.
Ltac idx := rewrite ?ix0; cbn [sbind]; rewrite ?ix1; cbn [sbind]; rewrite ?ix2; cbn [sbind]; rewrite ?ix0; cbn [sbind]; rewrite ?ix1; cbn [sbind]; rewrite ?ix0; cbn [sbind].
(** ** C102 *)
(** With the default layout, an LSTM with 4 * hidden weight rows: the outputs that the node lists. *)
Theorem C102_lstm_partial : forall seq batch feat dirs hidden attr nout, (attr = None \/ attr = Some hidden) -> (1 <= nout <= 3)%nat ->
  lstm_shapes attr 0 (rnn_input 0 seq batch feat) [dirs; 4 * hidden; feat] nout =
  SOk (firstn nout [rnn_all 0 seq batch dirs hidden; rnn_last 0 batch dirs hidden; rnn_last 0 batch dirs hidden]).
Proof.
  intros seq batch feat dirs hidden attr nout A N. unfold lstm_shapes. cbn [rnn_input rnn_all rnn_last Z.eqb]. idx.
  replace (4 * hidden / 4) with hidden by (rewrite Z.mul_comm, Z.div_mul; lia).
  destruct A as [->| ->]; rewrite ?Z.eqb_refl; destruct nout as [|[|[|[|n]]]]; try lia; reflexivity.
Qed.
Theorem C102_lstm_wrong_hidden : forall layout seq batch feat dirs hidden v nout, v <> hidden ->
  lstm_shapes (Some v) layout [seq; batch; feat] [dirs; 4 * hidden; feat] nout = SRaise AssertErr.
Proof.
  intros. unfold lstm_shapes. idx.
  replace (4 * hidden / 4) with hidden by (rewrite Z.mul_comm, Z.div_mul; lia). destruct (Z.eqb_spec hidden v); [congruence|reflexivity].
Qed.
(** layout = 1 is not read: the sequence shape is right only when the numbers of directions and steps agree, and the state shapes only
    when directions = batch and batch = steps. *)
Theorem C102_lstm_layout_refuted : forall seq batch feat dirs hidden nout, (1 <= nout <= 3)%nat -> exists outs,
  lstm_shapes None 1 (rnn_input 1 seq batch feat) [dirs; 4 * hidden; feat] nout = SOk outs /\
  (nth 0 outs [] = rnn_all 1 seq batch dirs hidden <-> dirs = seq) /\
  ((2 <= nout)%nat -> (nth 1 outs [] = rnn_last 1 batch dirs hidden <-> dirs = batch /\ seq = batch)).
Proof.
  intros seq batch feat dirs hidden nout N. unfold lstm_shapes. cbn [rnn_input rnn_all rnn_last Z.eqb]. idx.
  replace (4 * hidden / 4) with hidden by (rewrite Z.mul_comm, Z.div_mul; lia).
  destruct nout as [|[|[|[|n]]]]; try lia; eexists; (split; [reflexivity|]); cbn [nth]; (split; [split; [intros [= ? ?]; congruence|intros ->; reflexivity]|]); intros; try lia;
    (split; [intros [= ? ?]; split; congruence|intros [-> ->]; reflexivity]).
Qed.
(** GRU: both outputs listed, three gates. *)
Theorem C102_gru_partial : forall attr seq batch feat dirs hidden,
  gru_shapes attr 0 (rnn_input 0 seq batch feat) [dirs; 3 * hidden; feat] 2 = SOk [rnn_all 0 seq batch dirs hidden; rnn_last 0 batch dirs hidden].
Proof.
  intros. unfold gru_shapes. cbn [rnn_input rnn_all rnn_last Z.eqb]. idx. cbn [Nat.ltb Nat.leb].
  replace (3 * hidden / 3) with hidden by (rewrite Z.mul_comm, Z.div_mul; lia). reflexivity.
Qed.
(** A GRU that lists one output (both are optional in ONNX) always fails, and a contradicting hidden_size is accepted. *)
Theorem C102_gru_refuted : (forall attr layout x w, exists e, gru_shapes attr layout x w 1 = SRaise e) /\
  forall v seq batch feat dirs hidden, gru_shapes (Some v) 0 [seq; batch; feat] [dirs; 3 * hidden; feat] 2 = gru_shapes (Some hidden) 0 [seq; batch; feat] [dirs; 3 * hidden; feat] 2.
Proof.
  split; [|reflexivity]. intros attr layout x w. unfold gru_shapes. destruct (py_index x 0); cbn [sbind]; [|eauto]. destruct (py_index x 1); cbn [sbind]; [|eauto].
  destruct (py_index w 0); cbn [sbind]; [|eauto]. destruct (py_index w 1); cbn [sbind Nat.ltb Nat.leb]; eexists; reflexivity.
Qed.
(** RoiAlign with both sizes given. *)
Theorem C102_roialign_partial : forall n c h w r oh ow, roialign_shape (Some oh) (Some ow) [n; c; h; w] [r; 4] [r] = SOk [r; c; oh; ow].
Proof. intros. unfold roialign_shape. idx. cbn [Z.eqb Pos.eqb negb]. idx. cbn [length Nat.eqb negb]. rewrite Z.eqb_refl. reflexivity. Qed.
(** The ONNX default of the two sizes is 1; a node without one of them fails. Mismatched regions are rejected. *)
Theorem C102_roialign_default_refuted : forall oh ow n c h w r, (oh = None \/ ow = None) -> roialign_shape oh ow [n; c; h; w] [r; 4] [r] = SRaise AttributeErr.
Proof. intros oh ow n c h w r H. unfold roialign_shape. idx. cbn [Z.eqb Pos.eqb negb]. idx. cbn [length Nat.eqb negb]. rewrite Z.eqb_refl. destruct H as [-> | ->]; [|destruct oh]; reflexivity. Qed.
Theorem C102_roialign_rejects : forall oh ow x r k b, (k <> 4 \/ b <> r) -> roialign_shape oh ow x [r; k] [b] = SRaise AssertErr.
Proof.
  intros oh ow x r k b H. unfold roialign_shape. idx. destruct (Z.eqb_spec k 4); [|reflexivity]. cbn [negb].
  destruct (Z.eqb_spec b r); [lia|reflexivity].
Qed.
(** NonMaxSuppression of one image and one class: the largest possible number of selected boxes. *)
Theorem C102_nms_partial : forall n m, 0 <= n -> 0 <= m -> exists k, nms_shape [1; n; 4] [1; 1; n] (Some m) = SOk [k; 3] /\
  nms_possible 1 1 n m k /\ forall k', nms_possible 1 1 n m k' -> k' <= k.
Proof.
  intros n m N M. exists (Z.min m n). split; [|unfold nms_possible; split; [|intros k' K]; lia].
  unfold nms_shape, volume. cbn [length Nat.sub firstn fold_left]. idx. rewrite Z.eqb_refl. cbn [negb]. idx. cbn [Z.eqb Pos.eqb negb]. do 3 f_equal. lia.
Qed.
(** In general it is not: the number of classes is ignored, so that the inferred first dimension is too small for more possible results;
    and without the optional third input (ONNX: no box selected) there is no result. *)
Theorem C102_nms_refuted : (forall c n m, 1 < c -> 1 <= m -> 1 <= n -> exists k, nms_shape [1; n; 4] [1; c; n] (Some m) = SOk [k; 3] /\ exists k', nms_possible 1 c n m k' /\ k < k') /\
  forall boxes scores, nms_shape boxes scores None = SRaise NotImplErr.
Proof.
  split; [|reflexivity]. intros c n m C M N. exists (Z.min m n). split.
  - unfold nms_shape, volume. cbn [length Nat.sub firstn fold_left]. idx. rewrite Z.eqb_refl. cbn [negb]. idx. cbn [Z.eqb Pos.eqb negb]. do 3 f_equal. lia.
  - exists (1 * c * Z.min (Z.max m 0) n). unfold nms_possible. assert (H : 1 <= Z.min (Z.max m 0) n) by lia. assert (Z.min m n = Z.min (Z.max m 0) n) by lia. nia.
Qed.
(** Boxes and scores of different counts or batches are rejected. *)
Theorem C102_nms_rejects : forall b n b' c n' m, (b <> b' \/ n <> n') -> nms_shape [b; n; 4] [b'; c; n'] (Some m) = SRaise AssertErr.
Proof.
  intros b n b' c n' m H. unfold nms_shape. change (py_index [b; n; 4] 1) with (SOk n). change (py_index [b'; c; n'] 2) with (SOk n'). change (py_index [b; n; 4] 0) with (SOk b). change (py_index [b'; c; n'] 0) with (SOk b').
  cbn [sbind]. destruct (Z.eqb_spec n n') as [->|]; cbn [negb]; [|reflexivity]. destruct (Z.eqb_spec b b') as [->|]; cbn [negb]; [|reflexivity]. destruct H; congruence.
Qed.
(** GridSample: the spatial sizes of the grid, any number of spatial dimensions, when both shapes are held in the same kind of sequence;
    otherwise (one of the tensors has a stored value) the concatenation fails. *)
Theorem C102_gridsample_partial : forall tuple n c inner outer,
  gridsample_shape (tuple, n :: c :: inner) (tuple, n :: outer ++ [zlen outer]) = SOk (n :: c :: outer).
Proof.
  intros t n c inner outer. unfold gridsample_shape. cbn [fst snd].
  assert (E : py_index (n :: outer ++ [zlen outer]) (-1) = SOk (zlen outer)).
  { unfold py_index. cbn [Z.ltb Z.compare]. cbn [length]. rewrite app_length. cbn [length].
    destruct (Z.ltb_spec (-1 + Z.of_nat (S (length outer + 1))) 0); [lia|].
    replace (Z.to_nat (-1 + Z.of_nat (S (length outer + 1)))) with (S (length outer)) by lia. cbn [nth_error]. rewrite nth_error_app2 by lia. rewrite Nat.sub_diag. reflexivity. }
  rewrite E. cbn [sbind]. rewrite Bool.eqb_reflx. destruct (Z.ltb_spec (1 + zlen outer) 0) as [H|H]; [unfold zlen in H; lia|].
  replace (Z.to_nat (1 + zlen outer)) with (S (length outer)) by (unfold zlen; lia). cbn [firstn skipn]. rewrite firstn_app, Nat.sub_diag, firstn_all. cbn [firstn app]. rewrite app_nil_r. reflexivity.
Qed.
Theorem C102_gridsample_mixed_refuted : forall t n c inner outer, gridsample_shape (t, n :: c :: inner) (negb t, n :: outer ++ [zlen outer]) = SRaise TypeErr.
Proof.
  intros t n c inner outer. unfold gridsample_shape. cbn [fst snd].
  assert (E : exists v, py_index (n :: outer ++ [zlen outer]) (-1) = SOk v).
  { unfold py_index. cbn [Z.ltb Z.compare]. cbn [length]. rewrite app_length. cbn [length]. destruct (Z.ltb_spec (-1 + Z.of_nat (S (length outer + 1))) 0); [lia|].
    replace (Z.to_nat (-1 + Z.of_nat (S (length outer + 1)))) with (S (length outer)) by lia. cbn [nth_error]. rewrite nth_error_app2 by lia. rewrite Nat.sub_diag. cbn. eauto. }
  destruct E as (v & ->). cbn [sbind]. destruct t; reflexivity.
Qed.
(** Scan: no node with fewer than five outputs is accepted, and with five the first three shapes are literals that ignore the inputs. *)
Theorem C102_scan_refuted : forall ins, (forall nout, (nout < 5)%nat -> scan_shapes ins nout = SRaise IndexErr) /\
  (forall nout outs, scan_shapes ins nout = SOk outs -> firstn 3 outs = [[1; 1]; [1; 1]; [1]]).
Proof.
  intros ins. unfold scan_shapes. split.
  - intros nout N. destruct (Nat.eqb_spec nout 0); [reflexivity|]. assert (X : exists r, py_index ins 3 = r) by eauto. destruct X as (r & E). 
    unfold py_index in *. cbn [Z.ltb Z.compare] in *. destruct (nth_error ins (Z.to_nat 3)); [|reflexivity]. cbn [sbind]. destruct (Nat.ltb_spec nout 5); [reflexivity|lia].
  - intros nout outs. destruct (Nat.eqb nout 0); [discriminate|]. destruct (py_index ins 3); cbn [sbind]; [|discriminate]. destruct (Nat.ltb nout 5); [discriminate|]. intros [= <-]. reflexivity.
Qed.
(** TopK without an axis: ONNX means the last one; that is what rank 1 gives, any other rank fails. *)
Theorem C102_topk_default_refuted : forall x k, (length x = 1%nat -> topk_attr_shape x k None = SOk [k]) /\
  (length x <> 1%nat -> topk_attr_shape x k None = SRaise TypeErr).
Proof.
  intros x k. unfold topk_attr_shape. split; intros H.
  - destruct x as [|d [|? ?]]; try discriminate. reflexivity.
  - destruct (Nat.eqb_spec (length x) 1); [contradiction|reflexivity].
Qed.
(** with an axis the k best along that axis are kept *)
Theorem C102_topk_axis : forall x k axis a, axis_pos (length x) axis = Z.of_nat a -> (a < length x)%nat -> topk_attr_shape x k (Some axis) = SOk (with_dim x a k).
Proof. intros x k axis a A L. unfold topk_attr_shape. f_equal. apply topk_ok; assumption. Qed.
(** ZipMap gives one map per row *)
Theorem C102_zipmap : forall n rest, zipmap_shape (n :: rest) = SOk [n] /\ zipmap_shape [] = SRaise IndexErr.
Proof. intros n rest. split; reflexivity. Qed.
(** ArrayFeatureExtractor keeps the leading dimensions of its data in ONNX-ML; the result here is the shape of the index. *)
Theorem C102_feature_refuted : forall lead d k, lead <> [] -> feature_shape (lead ++ [d]) [k] <> lead ++ [k].
Proof. intros [|a [|b l]] d k N; [congruence| |]; unfold feature_shape; intros H; discriminate. Qed.
(** SDPA of heads-first queries merges the heads. *)
Theorem C102_sdpa : forall b n s d, sdpa_shape [b; n; s; d] = [b; s; n * d] /\ sdpa_shape [b; s; n * d] = [b; s; n * d].
Proof. auto. Qed.
(** Cases. *)
Example C102_applies : lstm_shapes (Some 16) 0 [7; 2; 8] [2; 64; 8] 3 = SOk [[7; 2; 2; 16]; [2; 2; 16]; [2; 2; 16]] /\
  gru_shapes None 0 [7; 2; 8] [1; 48; 8] 2 = SOk [[7; 1; 2; 16]; [1; 2; 16]] /\
  gridsample_shape (false, [2; 3; 8; 8]) (false, [2; 5; 6; 2]) = SOk [2; 3; 5; 6] /\ nms_shape [1; 6; 4] [1; 1; 6] (Some 10) = SOk [6; 3].
Proof. repeat split; reflexivity. Qed.

(** ** C103: Resize *)
Section ROUND.
Context (prec emin : Z) (P : 1 < prec) (E0 : emin <= 0).
Let fexp := FLT_exp emin prec.
Let rn (x : R) := round radix2 fexp ZnearestE x.
Local Instance prec_pos : Prec_gt_0 prec. Proof. unfold Prec_gt_0. lia. Qed.
Local Instance valid : Valid_exp fexp. Proof. apply FLT_exp_valid. typeclasses eauto. Qed.
Lemma int_fmt z : Z.abs z <= 2 ^ prec -> generic_format radix2 fexp (IZR z).
Proof.
  intros H. destruct (Z.eq_dec (Z.abs z) (2 ^ prec)) as [A|A].
  - assert (B : generic_format radix2 fexp (bpow radix2 prec)).
    { apply generic_format_bpow. unfold fexp, FLT_exp. lia. }
    assert (C : bpow radix2 prec = IZR (2 ^ prec)) by (rewrite <- IZR_Zpower by lia; reflexivity).
    rewrite C in B. destruct (Z.abs_spec z) as [[? Q]|[? Q]]; rewrite Q in A.
    + rewrite A. exact B.
    + replace z with (- 2 ^ prec) by lia. rewrite opp_IZR. apply generic_format_opp. exact B.
  - apply generic_format_FLT. exists (Float radix2 z 0); cbn [F2R Fnum Fexp]; [unfold F2R; cbn; ring| |lia]. change (Zpower radix2 prec) with (2 ^ prec). lia.
Qed.
Lemma rn_int z : Z.abs z <= 2 ^ prec -> rn (IZR z) = IZR z.
Proof. intros H. apply round_generic; [typeclasses eauto|]. apply int_fmt. exact H. Qed.
Lemma rn_floor x : (Rabs x <= IZR (2 ^ prec - 1))%R -> Zfloor x <= Zfloor (rn x) <= Zfloor x + 1.
Proof.
  intros H. apply Rabs_le_inv in H. destruct H as [H1 H2].
  assert (F1 : - (2 ^ prec - 1) <= Zfloor x) by (apply Zfloor_lub; rewrite opp_IZR; exact H1).
  assert (F2 : Zfloor x <= 2 ^ prec - 1) by (apply le_IZR; apply Rle_trans with (2 := H2); apply Zfloor_lb).
  split.
  - apply Zfloor_lub. rewrite <- (rn_int (Zfloor x)) by lia. apply round_le; [typeclasses eauto|typeclasses eauto|apply Zfloor_lb].
  - apply le_IZR. apply Rle_trans with (1 := Zfloor_lb _). rewrite <- (rn_int (Zfloor x + 1)) by lia. apply round_le; [typeclasses eauto|typeclasses eauto|].
    rewrite plus_IZR. apply Rlt_le, Zfloor_ub.
Qed.
End ROUND.
Lemma numpy_floor r bits x : numpy_rounding r bits -> (Rabs x <= IZR (2 ^ bits - 1))%R -> Zfloor x <= Zfloor (r x) <= Zfloor x + 1.
Proof. intros [[-> ->]|[-> ->]] H; [apply (rn_floor 24 (-149))|apply (rn_floor 53 (-1074))]; auto; lia. Qed.
Lemma numpy_int r bits z : numpy_rounding r bits -> Z.abs z <= 2 ^ bits -> r (IZR z) = IZR z.
Proof. intros [[-> ->]|[-> ->]] H; [apply (rn_int 24 (-149))|apply (rn_int 53 (-1074))]; auto; lia. Qed.

Lemma map_combine_nth (f : Z -> R -> Z) : forall x s i, length s = length x -> (i < length x)%nat ->
  nth i (map (fun p => f (fst p) (snd p)) (combine x s)) 0 = f (nth i x 0) (nth i s 0%R).
Proof.
  induction x as [|a x IH]; intros [|b s] i L H; cbn [length] in *; try lia. destruct i; cbn [combine map nth fst snd]; [reflexivity|]. apply IH; lia.
Qed.
Lemma scales_only r x ninputs scales sizes : (ninputs = 2 \/ ninputs = 3 \/ (4 <= ninputs /\ sizes = []))%nat -> scales <> [] ->
  resize_shape r x ninputs scales sizes = SOk (map (fun p => scaled r (fst p) (snd p)) (combine x scales)).
Proof.
  intros N S. unfold resize_shape. assert (E : (if Nat.leb 4 ninputs then sizes else []) = []) by (destruct (Nat.leb_spec 4 ninputs); [destruct N as [?|[?|[? ?]]]; [lia|lia|assumption]|reflexivity]).
  rewrite E. cbn [valid_rank1 length Nat.eqb negb]. destruct (Nat.ltb_spec ninputs 2); [destruct N as [?|[?|[? ?]]]; lia|]. destruct scales; [congruence|reflexivity].
Qed.
(** Scales, whichever float type NumPy computes the products in: each dimension is the floor of the exact product, or one more when
    rounding carried the product over the next integer; where the product is a float, it is the floor. *)
Theorem C103_scales_partial : forall r bits x ninputs scales sizes, numpy_rounding r bits ->
  (ninputs = 2 \/ ninputs = 3 \/ (4 <= ninputs /\ sizes = []))%nat -> x <> [] -> length scales = length x ->
  (forall i, (i < length x)%nat -> (Rabs (IZR (nth i x 0%Z) * nth i scales 0) <= IZR (2 ^ bits - 1))%R) ->
  exists out, resize_shape r x ninputs scales sizes = SOk out /\ length out = length x /\
    (forall i, (i < length x)%nat -> let p := (IZR (nth i x 0%Z) * nth i scales 0)%R in Zfloor p <= nth i out 0 <= Zfloor p + 1 /\ (r p = p -> nth i out 0 = Zfloor p)) /\
    ((forall i, (i < length x)%nat -> let p := (IZR (nth i x 0%Z) * nth i scales 0)%R in r p = p) -> resized x scales out).
Proof.
  intros r bits x n scales sizes NR N X L B. eexists. split; [apply scales_only; [exact N|intros ->; destruct x; [congruence|discriminate]]|].
  assert (LO : length (map (fun p => scaled r (fst p) (snd p)) (combine x scales)) = length x) by (rewrite map_length, combine_length; lia).
  assert (NT : forall i, (i < length x)%nat -> nth i (map (fun p => scaled r (fst p) (snd p)) (combine x scales)) 0 = Zfloor (r (IZR (nth i x 0%Z) * nth i scales 0)%R)) by (intros i I; apply (map_combine_nth (scaled r)); auto).
  split; [exact LO|]. split.
  - intros i I p. rewrite NT by exact I. fold p. split; [eapply numpy_floor; [exact NR|apply B; exact I]|]. intros ->. reflexivity.
  - intros F. split; [exact LO|]. intros i I. rewrite NT by exact I. rewrite (F i I). reflexivity.
Qed.
(** Integer scales are exact. *)
Theorem C103_integer_scales : forall r bits x ninputs ks sizes, numpy_rounding r bits ->
  (ninputs = 2 \/ ninputs = 3 \/ (4 <= ninputs /\ sizes = []))%nat -> x <> [] -> length ks = length x ->
  (forall i, (i < length x)%nat -> Z.abs (nth i x 0 * nth i ks 0) <= 2 ^ bits) ->
  exists out, resize_shape r x ninputs (map IZR ks) sizes = SOk out /\ length out = length x /\ forall i, (i < length x)%nat -> nth i out 0 = nth i x 0 * nth i ks 0.
Proof.
  intros r bits x n ks sizes NR N X L B. eexists. split; [apply scales_only; [exact N|intros E; apply map_eq_nil in E as ->; destruct x; [congruence|discriminate]]|].
  split; [rewrite map_length, combine_length, map_length; lia|]. intros i I. rewrite (map_combine_nth (scaled r)) by (rewrite ?map_length; auto).
  unfold scaled. change 0%R with (IZR 0). rewrite map_nth, <- mult_IZR. rewrite (numpy_int r bits) by (auto; apply B; exact I). apply Zfloor_IZR.
Qed.
(** Fewer scales than dimensions: the remaining dimensions disappear. *)
Theorem C103_short_scales_refuted : forall r x scales, scales <> [] -> exists out, resize_shape r x 2 scales [] = SOk out /\ length out = Nat.min (length x) (length scales).
Proof. intros r x scales S. eexists. split; [apply scales_only; auto|]. rewrite map_length, combine_length. reflexivity. Qed.
(** Sizes, one per dimension, for every rank but 2. *)
Theorem C103_sizes_partial : forall r x ninputs scales sizes, (4 <= ninputs)%nat -> length sizes = length x -> length x <> 0%nat -> length x <> 2%nat ->
  resize_shape r x ninputs scales sizes = SOk sizes.
Proof.
  intros r x n scales sizes N L Z0 Z2. unfold resize_shape. destruct (Nat.leb_spec 4 n); [|lia]. unfold valid_rank1. rewrite L.
  destruct (Nat.eqb_spec (length x) 0); [contradiction|]. cbn [negb]. destruct (Nat.eqb_spec (length x) 2); [contradiction|]. rewrite Nat.eqb_refl. reflexivity.
Qed.
(** Two sizes are added to the first two dimensions: a matrix resized to (a, b) gets the shape (m + a, n + b), and an image given its new
    height and width loses its spatial dimensions. Any other number of sizes than the rank gives the empty shape. *)
Theorem C103_sizes_refuted : forall r ninputs scales a b, (4 <= ninputs)%nat ->
  (forall m n rest, resize_shape r (m :: n :: rest) ninputs scales [a; b] = SOk [m + a; n + b]) /\
  (forall x sizes, length sizes <> 0%nat -> length sizes <> 2%nat -> length sizes <> length x -> resize_shape r x ninputs scales sizes = SOk []).
Proof.
  intros r n scales a b N. unfold resize_shape. destruct (Nat.leb_spec 4 n); [|lia]. split; [intros m k rest; reflexivity|].
  intros x sizes Z0 Z2 ZL. unfold valid_rank1. destruct (Nat.eqb_spec (length sizes) 0); [contradiction|]. cbn [negb]. destruct (Nat.eqb_spec (length sizes) 2); [contradiction|].
  destruct (Nat.eqb_spec (length sizes) (length x)); [contradiction|reflexivity].
Qed.
(** Neither: the empty shape; one input: an unassigned variable is read. *)
Theorem C103_nothing_refuted : forall r x scales sizes, (forall ninputs, (2 <= ninputs)%nat -> resize_shape r x ninputs [] [] = SOk []) /\
  resize_shape r x 1 scales sizes = SRaise UnboundErr.
Proof.
  intros r x scales sizes. split; [|reflexivity]. intros n N. unfold resize_shape. replace (if Nat.leb 4 n then @nil Z else []) with (@nil Z) by (destruct (Nat.leb 4 n); reflexivity).
  cbn [valid_rank1 length Nat.eqb negb]. destruct (Nat.ltb_spec n 2); [lia|reflexivity].
Qed.
(** A case: doubling an image. *)
Example C103_applies : exists out, resize_shape binary32 [1; 3; 224; 225] 2 (map IZR [1; 1; 2; 2]) [] = SOk out /\ out = [1; 3; 448; 450].
Proof.
  destruct (C103_integer_scales binary32 24 [1; 3; 224; 225] 2 [1; 1; 2; 2] []) as (out & E & L & H); auto; try discriminate.
  - left. auto.
  - intros i I. cbn [length] in I. destruct i as [|[|[|[|i]]]]; cbn; lia.
  - exists out. split; [exact E|]. destruct out as [|a [|b [|c [|d [|? ?]]]]]; try discriminate L.
    pose proof (H 0%nat ltac:(cbn; lia)). pose proof (H 1%nat ltac:(cbn; lia)). pose proof (H 2%nat ltac:(cbn; lia)). pose proof (H 3%nat ltac:(cbn; lia)). cbn in *. congruence.
Qed.
