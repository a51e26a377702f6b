(** Theorems added after mutation testing: claims about the edges of definitions that the main theorems did not pin down. *)
From Verif Require Import PyBase GraphModel CompressModel ShapeModel ShapeSpec BcastProofs WindowProofs LayoutProofs SliceProofs Props_Shape PoolModel ProtoModel ValueModel ValueSpec ValueProofs.
From Coq Require Import Bool Lia.
Open Scope list_scope. Open Scope Z_scope.

(** ** C07: the validation pass of the planner is complete: when it stays silent, no two tensors that are live at once share a byte,
    and none reaches beyond the reported total. [plan g pad] is the plan that is checked. *)
Theorem C07_silent_validation : forall g pad mem total, plan g pad = (mem, total) -> validation_warns g pad = false ->
  forall live, In live (liveness (consumedby g) (nodes_of g) [] (g_input g)) ->
  forall t o s, In t live -> dget mem t = Some (o, s) ->
    o + s <= total /\
    forall u o' s', In u live -> u <> t -> dget mem u = Some (o', s') -> 0 < s -> 0 < s' -> forall a, ~ (o <= a < o + s /\ o' <= a < o' + s').
Proof.
  intros g pad mem total P V live L t o s T D. unfold validation_warns in V. cbv zeta in V. rewrite P in V.
  assert (W : overlap_warning mem live || size_warning mem total live = false).
  { destruct (overlap_warning mem live || size_warning mem total live) eqn:E; auto. 
    assert (X : existsb (fun live => overlap_warning mem live || size_warning mem total live) (liveness (consumedby g) (nodes_of g) [] (g_input g)) = true)
      by (apply existsb_exists; exists live; auto). congruence. }
  apply orb_false_elim in W as [W1 W2]. split.
  - unfold size_warning in W2. destruct (Z.ltb_spec total (o + s)); [|lia]. exfalso.
    assert (X : existsb (fun t => match dget mem t with None => false | Some p => total <? fst p + snd p end) live = true).
    { apply existsb_exists. exists t. split; auto. rewrite D. cbn [fst snd]. apply Z.ltb_lt; auto. } congruence.
  - intros u o' s' U N Du S1 S2 a [A1 A2]. unfold overlap_warning in W1.
    match type of W1 with existsb ?f _ = _ => assert (X : existsb f live = true) end; [|congruence].
    apply existsb_exists. exists t. split; auto. rewrite D. apply existsb_exists. exists u. split; auto. rewrite Du.
    apply andb_true_intro. split; [apply negb_true_iff, String.eqb_neq; auto|].
    unfold ranges_clash. cbn [fst snd]. lia.
Qed.

(** ** C24: without axes all axes in order, without steps step 1 *)
Theorem C24_slice_defaults_partial : forall x starts ends,
  length starts = length x -> length ends = length x -> nonneg x -> (forall d, In d x -> d < 2 ^ 53 - 1) ->
  exists out, slice_shape x starts ends None None = SOk out /\ length out = length x /\
    forall a, (a < length x)%nat -> slice_count (nth a x 0) (nth a starts 0) (nth a ends 0) 1 (nth a out 0).
Proof.
  intros x starts ends L1 L2 N B.
  assert (LZ : length (zrange (length x)) = length x) by (unfold zrange; rewrite map_length, seq_length; auto).
  assert (NZ : forall j, (j < length x)%nat -> nth j (zrange (length x)) 0 = Z.of_nat j).
  { intros j J. unfold zrange. change 0 with (Z.of_nat 0). rewrite map_nth, seq_nth by auto. reflexivity. }
  destruct (C24_slice_counts_partial x starts ends (zrange (length x)) (repeat 1 (length starts))) as (out & E & (S1 & S2 & S3)); auto; try lia.
  - assert (AP : map (axis_pos (length x)) (zrange (length x)) = zrange (length x)).
    { transitivity (map (fun z : Z => z) (zrange (length x))); [|apply map_id]. apply map_ext_in. intros z I. unfold zrange in I.
      apply in_map_iff in I as (i & <- & I). unfold axis_pos. destruct (Z.ltb_spec (Z.of_nat i) 0); [lia|reflexivity]. }
    unfold valid_axes. rewrite AP. split.
    + intros a I. unfold zrange in I. apply in_map_iff in I as (i & <- & I). apply in_seq in I. unfold axis_pos. destruct (Z.ltb_spec (Z.of_nat i) 0); lia.
    + unfold zrange. apply FinFun.Injective_map_NoDup; [intros i j; lia|apply seq_NoDup].
  - rewrite repeat_length. lia.
  - intros j J. rewrite LZ in J. cbv zeta. rewrite (nth_indep _ 0 1) by (rewrite repeat_length; lia). rewrite nth_repeat. lia.
  - exists out. split; [exact E|]. split; auto. intros a A.
    specialize (S2 a a ltac:(lia)). rewrite NZ in S2 by auto. rewrite (nth_indep (repeat 1 _) 0 1), nth_repeat in S2 by (rewrite repeat_length; lia).
    apply S2. unfold axis_pos. destruct (Z.ltb_spec (Z.of_nat a) 0); lia.
Qed.

(** ** C59: the whole ConvTranspose node: batch, channels (group times the second weight dimension), and on every spatial axis a size
    from which the forward convolution gets the input size back and which grows by one with the output padding *)
Theorem C59_node_shape : forall wd opad group x w n, (1 <= n <= 3)%nat ->
  length x = (2 + n)%nat -> length w = (2 + n)%nat -> length opad = n -> length (w_pads wd) = (2 * n)%nat ->
  length (w_strides wd) = n -> length (w_dilations wd) = n ->
  (forall i, (i < n)%nat -> 0 < nth i (w_strides wd) 0 /\ 0 <= nth i opad 0 < nth i (w_strides wd) 0 /\ 1 <= nth (2 + i) x 0) ->
  exists out, convtranspose_shape wd opad group x w = SOk out /\ length out = length x /\
    nth 0 out 0 = nth 0 x 0 /\ nth 1 out 0 = group * nth 1 w 0 /\
    forall i, (i < n)%nat ->
      let pad := nth i (w_pads wd) 0 + nth (n + i) (w_pads wd) 0 in
      window_count (nth (2 + i) out 0 + pad) (nth (2 + i) w 0) (nth i (w_strides wd) 0) (nth i (w_dilations wd) 0) (nth (2 + i) x 0) /\
      nth (2 + i) out 0 - nth i opad 0 = nth i (w_strides wd) 0 * (nth (2 + i) x 0 - 1) + (nth (2 + i) w 0 - 1) * nth i (w_dilations wd) 0 + 1 - pad.
Proof.
  intros wd opad group x w n Hn Lx Lw Lo Lp Ls Ld H.
  assert (G : forall i, (i < n)%nat -> convt_axis wd opad x w (Z.of_nat i) (Z.of_nat i) (Z.of_nat (n + i)) =
    SOk (convtranspose_output_shape (nth (2 + i) x 0) (nth i opad 0) (nth i (w_pads wd) 0 + nth (n + i) (w_pads wd) 0) (nth (2 + i) w 0) (nth i (w_strides wd) 0) (nth i (w_dilations wd) 0))).
  { intros i I. unfold convt_axis. replace (2 + Z.of_nat i) with (Z.of_nat (2 + i)) by lia.
    repeat (rewrite py_index_nat by lia; cbn [sbind]). reflexivity. }
  assert (K : forall i, (i < n)%nat -> forall pad,
     let o := convtranspose_output_shape (nth (2 + i) x 0) (nth i opad 0) pad (nth (2 + i) w 0) (nth i (w_strides wd) 0) (nth i (w_dilations wd) 0) in
     window_count (o + pad) (nth (2 + i) w 0) (nth i (w_strides wd) 0) (nth i (w_dilations wd) 0) (nth (2 + i) x 0) /\
     o - nth i opad 0 = nth i (w_strides wd) 0 * (nth (2 + i) x 0 - 1) + (nth (2 + i) w 0 - 1) * nth i (w_dilations wd) 0 + 1 - pad).
  { intros i I pad o. destruct (H i I) as (A & B & C). split; [apply C59_transpose_inverts; auto|].
    unfold o, convtranspose_output_shape. ring. }
  unfold convtranspose_shape. rewrite (py_index_lit w 1 1) by (reflexivity || lia). cbn [sbind].
  assert (C : n = 1%nat \/ n = 2%nat \/ n = 3%nat) by lia. destruct C as [->|[->| ->]]; rewrite Lx; cbn [Nat.eqb Nat.add].
  - pose proof (G 0%nat ltac:(lia)) as G0. cbn [Z.of_nat Nat.add Pos.of_succ_nat] in G0.
    rewrite G0. cbn [sbind]. rewrite (py_index_lit x 0 0) by (reflexivity || lia). cbn [sbind]. eexists. split; [reflexivity|].
    split; [reflexivity|]. split; [reflexivity|]. split; [reflexivity|].
    intros [|i] Hi; [|lia]. cbv zeta. cbn [Nat.add nth]. exact (K 0%nat Hi _).
  - pose proof (G 0%nat ltac:(lia)) as G0. pose proof (G 1%nat ltac:(lia)) as G1. cbn in G0, G1.
    cbn [Z.of_nat Nat.add Pos.of_succ_nat Pos.succ] in G0, G1.
    change (convt_axis wd opad x w 0 0 2) with (convt_axis wd opad x w 0 0 2). rewrite G0. cbn [sbind]. rewrite G1. cbn [sbind].
    rewrite (py_index_lit x 0 0) by (reflexivity || lia). cbn [sbind]. eexists. split; [reflexivity|].
    split; [reflexivity|]. split; [reflexivity|]. split; [reflexivity|].
    intros [|[|i]] Hi; [| |lia]; cbv zeta; cbn [Nat.add nth]; [exact (K 0%nat Hi _)|exact (K 1%nat Hi _)].
  - pose proof (G 0%nat ltac:(lia)) as G0. pose proof (G 1%nat ltac:(lia)) as G1. pose proof (G 2%nat ltac:(lia)) as G2. cbn in G0, G1, G2.
    rewrite G0. cbn [sbind]. rewrite G1. cbn [sbind]. rewrite G2. cbn [sbind].
    rewrite (py_index_lit x 0 0) by (reflexivity || lia). cbn [sbind]. eexists. split; [reflexivity|].
    split; [reflexivity|]. split; [reflexivity|]. split; [reflexivity|].
    intros [|[|[|i]]] Hi; [| | |lia]; cbv zeta; cbn [Nat.add nth]; [exact (K 0%nat Hi _)|exact (K 1%nat Hi _)|exact (K 2%nat Hi _)].
Qed.
Example C59_node_case : convtranspose_shape {| w_autopad := Explicit; w_pads := [1; 1; 1; 1]; w_strides := [2; 2]; w_dilations := [1; 1] |} [1; 0] 4 [1; 8; 7; 5] [8; 3; 3; 3] = SOk [1; 12; 14; 9].
Proof. reflexivity. Qed.

(** ** C31: GlobalAveragePool keeps batch and channels and makes every other dimension 1 *)
Theorem C31_global_pool : forall x, (2 <= length x)%nat ->
  length (global_pool_shape x) = length x /\ nth 0 (global_pool_shape x) 0 = nth 0 x 0 /\ nth 1 (global_pool_shape x) 0 = nth 1 x 0 /\
  forall i, (2 <= i < length x)%nat -> nth i (global_pool_shape x) 0 = 1.
Proof.
  intros [|a [|b r]] L; cbn [length] in L; try lia. unfold global_pool_shape. cbn [length firstn app Nat.sub]. rewrite Nat.sub_0_r.
  split; [rewrite repeat_length; auto|]. split; [reflexivity|]. split; [reflexivity|]. intros [|[|i]] I; try lia. cbn [nth].
  rewrite (nth_indep _ 0 1) by (rewrite repeat_length; lia). apply nth_repeat.
Qed.
Example C31_global_pool_case : global_pool_shape [2; 16; 7; 7] = [2; 16; 1; 1].
Proof. reflexivity. Qed.

(** ** C43: the element widths that the library uses for raw data are those of the ONNX format *)
Definition onnx_width (c : Z) : option nat :=
  match c with
  | 1 | 6 => Some 4%nat (* float, int32 *) | 7 | 11 => Some 8%nat (* int64, double *) | 4 | 5 | 10 => Some 2%nat (* uint16, int16, float16 *)
  | 2 | 3 | 9 => Some 1%nat (* uint8, int8, bool *) | _ => None end.
Theorem C43_widths : forall c t w, onnxdtype2npdtype c = Some t -> onnx_width c = Some w -> itemsize t = w.
Proof.
  intros c t w H W. unfold onnx_width in W.
  assert (C : c = 1 \/ c = 2 \/ c = 3 \/ c = 4 \/ c = 5 \/ c = 6 \/ c = 7 \/ c = 9 \/ c = 10 \/ c = 11 \/ 11 < c \/ c <= 0 \/ c = 8) by lia.
  repeat (destruct C as [-> |C]; [cbn in H; injection H as <-; injection W as <-; reflexivity|]).
  exfalso. destruct C as [C|[C| ->]]; [| |discriminate].
  - destruct c as [|p|p]; try lia. do 4 (destruct p as [p|p|]; try lia; try discriminate).
  - destruct c as [|p|p]; try lia; discriminate.
Qed.
Theorem C43_widths_all : forall c, 1 <= c <= 11 -> c <> 8 -> exists t w, onnxdtype2npdtype c = Some t /\ onnx_width c = Some w /\ itemsize t = w.
Proof.
  intros c H N. assert (C : c = 1 \/ c = 2 \/ c = 3 \/ c = 4 \/ c = 5 \/ c = 6 \/ c = 7 \/ c = 9 \/ c = 10 \/ c = 11) by lia.
  repeat (destruct C as [-> |C]; [do 2 eexists; repeat split; reflexivity|]). subst. do 2 eexists; repeat split; reflexivity.
Qed.

(** ** C54: zeroing the pool: every view shows zeros afterwards *)
Theorem C54_zeroed : forall plan size esz mem p, mk_pool plan size esz mem = SOk p ->
  forall key v shape, pool_get (zero_pool p) key shape = SOk v -> 
  Forall (fun b => b = 0) (read_view (zero_pool p) v) /\ pool_get p key shape = SOk v /\ length (read_view p v) = length (read_view (zero_pool p) v).
Proof.
  intros plan size esz mem p M key v shape G. split; [|split; [exact G|unfold read_view; rewrite !map_length; reflexivity]].
  unfold read_view. apply Forall_forall. intros b I. apply in_map_iff in I as (i & <- & I). apply in_seq in I.
  unfold pool_get in G. cbn [zero_pool pl_plan pl_esz pl_size] in G.
  match type of G with sbind ?r _ = _ => destruct r as [[o s]|]; cbn [sbind] in G; [|discriminate] end.
  match type of G with sbind ?r _ = _ => destruct r as [used|]; cbn [sbind] in G; [|discriminate] end.
  destruct (slice (pl_size p) o (o + used)) as [off len] eqn:S0.
  destruct (view_dtype (pl_esz p) off len); cbn [sbind] in G; [|discriminate].
  match type of G with sbind ?r _ = _ => destruct r; cbn [sbind] in G; [|discriminate] end.
  injection G as <-. cbn [v_off v_len] in *. unfold slice in S0. cbv zeta in S0. injection S0 as <- <-.
  unfold zero_pool. cbn [pl_mem].
  assert (R : forall z, 0 <= pl_size p -> 0 <= slice_bound (pl_size p) z <= pl_size p) by (intros; unfold slice_bound; lia).
  assert (SZ : 0 < pl_size p). { unfold mk_pool in M. destruct (Z.leb_spec size 0); [discriminate|]. destruct (validate size plan); [|discriminate]. cbn [sbind] in M. injection M as <-. cbn. lia. }
  pose proof (R o ltac:(lia)). pose proof (R (o + used) ltac:(lia)).
  match goal with |- (if ?c then _ else _) = _ => assert (c = true) as ->; [|reflexivity] end. lia.
Qed.

(** ** C87: Slice without axes and steps on one start and end is the slice of the first axis *)
Theorem C87_slice_first_axis_partial : forall (T : Type) (x : arr T) s e, nonneg (shp x) -> (0 < length (shp x))%nat ->
  exists y, slice_value x [s] [e] None None = SOk y /\ onnx_slice x [0] [s] [e] [1] y.
Proof.
  intros T x s e N L. destruct (slice_value_ok x [0] [s] [e] [1]) as (y & E & O); auto.
  - unfold valid_axes. cbn. split; [intros a [<-|[]]; unfold axis_pos; cbn; lia|repeat constructor; easy].
  - intros a [<-|[]]. lia.
  - intros [|j] J; cbn in J; try lia. cbn. lia.
  - exists y. split; auto. unfold slice_value in *. cbn [slice_values] in E. change (py_index [s] 0) with (SOk s). change (py_index [e] 0) with (SOk e). cbn [sbind].
    change (0 <=? 0) with true in E. cbn in E. destruct (np_slice 0 s e 1 x); [exact E|discriminate].
Qed.
