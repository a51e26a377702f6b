(** C59 for the whole node: defaults, the attribute [output_shape], ranks without a rule. *)
From Verif Require Import PyBase PyBaseFacts GraphModel ShapeModel ShapeSpec BcastProofs WindowProofs LayoutProofs SliceProofs Props_Shape ConvTModel.
From Coq Require Import Bool Lia.
Open Scope list_scope. Open Scope Z_scope.

Definition eff_pads a := ct_default (ct_pads a) [0; 0; 0; 0].
Definition eff_opad a := ct_default (ct_opad a) [0; 0; 0; 0].
Definition eff_strides a := ct_default (ct_strides a) [1; 1].
Definition eff_dilations a := ct_default (ct_dilations a) [1; 1].
Definition eff_oshape a := ct_default (ct_oshape a) [0; 0].

(** On 1 to 3 spatial axes, with attributes (given or default) long enough: the node keeps the batch, has group * w[1] channels, and on
    every spatial axis a Conv with the same parameters has exactly the original number of window positions on the inferred size. *)
Theorem C59_node : forall a x w n, (1 <= n <= 3)%nat ->
  length x = (2 + n)%nat -> length w = (2 + n)%nat -> (n <= length (eff_opad a))%nat -> (2 * n <= length (eff_pads a))%nat ->
  (n <= length (eff_strides a))%nat -> (n <= length (eff_dilations a))%nat -> volume (eff_oshape a) = 0 ->
  (forall i, (i < n)%nat -> 0 < nth i (eff_strides a) 0 /\ 0 <= nth i (eff_opad a) 0 < nth i (eff_strides a) 0 /\ 1 <= nth (2 + i) x 0) ->
  exists out, conv_transpose a x w = SOk out /\ length out = length x /\
    nth 0 out 0 = nth 0 x 0 /\ nth 1 out 0 = ct_default (ct_group a) 1 * nth 1 w 0 /\
    forall i, (i < n)%nat ->
      let pad := nth i (eff_pads a) 0 + nth (n + i) (eff_pads a) 0 in
      let s := nth i (eff_strides a) 0 in let d := nth i (eff_dilations a) 0 in
      window_count (nth (2 + i) out 0 + pad) (nth (2 + i) w 0) s d (nth (2 + i) x 0) /\
      nth (2 + i) out 0 - nth i (eff_opad a) 0 = s * (nth (2 + i) x 0 - 1) + (nth (2 + i) w 0 - 1) * d + 1 - pad.
Proof.
  intros a x w n Hn Lx Lw Lo Lp Ls Ld V H.
  assert (G : forall i, (i < n)%nat -> convt_axis (ct_window a) (eff_opad a) x w (Z.of_nat i) (Z.of_nat i) (Z.of_nat (n + i)) =
    SOk (convtranspose_output_shape (nth (2 + i) x 0) (nth i (eff_opad a) 0) (nth i (eff_pads a) 0 + nth (n + i) (eff_pads a) 0)
          (nth (2 + i) w 0) (nth i (eff_strides a) 0) (nth i (eff_dilations a) 0))).
  { intros i I. unfold convt_axis. replace (2 + Z.of_nat i) with (Z.of_nat (2 + i)) by lia.
    change (w_pads (ct_window a)) with (eff_pads a). change (w_strides (ct_window a)) with (eff_strides a).
    change (w_dilations (ct_window a)) with (eff_dilations a).
    repeat (rewrite py_index_nat by lia; cbn [sbind]). reflexivity. }
  assert (K : forall i, (i < n)%nat -> forall pad,
     let o := convtranspose_output_shape (nth (2 + i) x 0) (nth i (eff_opad a) 0) pad (nth (2 + i) w 0) (nth i (eff_strides a) 0) (nth i (eff_dilations a) 0) in
     window_count (o + pad) (nth (2 + i) w 0) (nth i (eff_strides a) 0) (nth i (eff_dilations a) 0) (nth (2 + i) x 0) /\
     o - nth i (eff_opad a) 0 = nth i (eff_strides a) 0 * (nth (2 + i) x 0 - 1) + (nth (2 + i) w 0 - 1) * nth i (eff_dilations a) 0 + 1 - pad).
  { intros i I pad o. destruct (H i I) as (A & B & C). split; [apply C59_transpose_inverts; auto|].
    unfold o, convtranspose_output_shape. ring. }
  unfold conv_transpose. cbv zeta. change (ct_default (ct_oshape a) [0; 0]) with (eff_oshape a). rewrite V. change (0 =? 0) with true. cbv iota.
  change (ct_default (ct_opad a) [0; 0; 0; 0]) with (eff_opad a).
  unfold convtranspose_shape. rewrite (py_index_lit w 1 1) by (reflexivity || lia). cbn [sbind].
  assert (C : n = 1%nat \/ n = 2%nat \/ n = 3%nat) by lia. destruct C as [->|[->| ->]]; rewrite Lx; cbn [Nat.eqb Nat.add].
  - pose proof (G 0%nat ltac:(lia)) as G0. cbn [Z.of_nat Nat.add Pos.of_succ_nat] in G0.
    rewrite G0. cbn [sbind]. rewrite (py_index_lit x 0 0) by (reflexivity || lia). cbn [sbind]. eexists. split; [reflexivity|].
    split; [reflexivity|]. split; [reflexivity|]. split; [reflexivity|].
    intros [|i] Hi; [|lia]; cbv zeta; cbn [Nat.add nth]. exact (K 0%nat Hi _).
  - pose proof (G 0%nat ltac:(lia)) as G0. pose proof (G 1%nat ltac:(lia)) as G1.
    cbn [Z.of_nat Nat.add Pos.of_succ_nat Pos.succ] in G0, G1.
    rewrite G0. cbn [sbind]. rewrite G1. cbn [sbind].
    rewrite (py_index_lit x 0 0) by (reflexivity || lia). cbn [sbind]. eexists. split; [reflexivity|].
    split; [reflexivity|]. split; [reflexivity|]. split; [reflexivity|].
    intros [|[|i]] Hi; [| |lia]; cbv zeta; cbn [Nat.add nth]; [exact (K 0%nat Hi _)|exact (K 1%nat Hi _)].
  - pose proof (G 0%nat ltac:(lia)) as G0. pose proof (G 1%nat ltac:(lia)) as G1. pose proof (G 2%nat ltac:(lia)) as G2.
    cbn [Z.of_nat Nat.add Pos.of_succ_nat Pos.succ] in G0, G1, G2.
    rewrite G0. cbn [sbind]. rewrite G1. cbn [sbind]. rewrite G2. cbn [sbind].
    rewrite (py_index_lit x 0 0) by (reflexivity || lia). cbn [sbind]. eexists. split; [reflexivity|].
    split; [reflexivity|]. split; [reflexivity|]. split; [reflexivity|].
    intros [|[|[|i]]] Hi; [| | |lia]; cbv zeta; cbn [Nat.add nth]; [exact (K 0%nat Hi _)|exact (K 1%nat Hi _)|exact (K 2%nat Hi _)].
Qed.
(** the defaults are long enough for one axis and for two *)
Example C59_node_cases :
  conv_transpose {| ct_pads := None; ct_opad := None; ct_strides := None; ct_dilations := None; ct_oshape := None; ct_group := Some 2 |} [3; 8; 7] [8; 5; 4] = SOk [3; 10; 10] /\
  conv_transpose {| ct_pads := Some [1; 1; 1; 1]; ct_opad := Some [1; 0]; ct_strides := Some [2; 2]; ct_dilations := None; ct_oshape := None; ct_group := None |}
    [1; 8; 7; 5] [8; 3; 3; 3] = SOk [1; 3; 14; 9].
Proof. split; reflexivity. Qed.

(** An [output_shape] attribute without a zero decides the spatial sizes on 2 and 3 axes, whatever they are and however many. *)
Theorem C59_output_shape : forall a x w s os, ct_oshape a = Some os -> volume os <> 0 ->
  convtranspose_shape (ct_window a) (eff_opad a) (ct_default (ct_group a) 1) x w = SOk s ->
  conv_transpose a x w =
    (if (length x =? 4)%nat || (length x =? 5)%nat then SOk ([nth 0 x 0; ct_default (ct_group a) 1 * nth 1 w 0] ++ os)
     else if (length x =? 3)%nat then SOk [nth 0 x 0; ct_default (ct_group a) 1 * nth 1 w 0; hd 0 os]
     else SOk []).
Proof.
  intros a x w s os E V S. unfold conv_transpose. cbv zeta. change (ct_default (ct_opad a) [0; 0; 0; 0]) with (eff_opad a). rewrite S, E. cbn [sbind ct_default].
  destruct (Z.eqb_spec (volume os) 0) as [|_]; [contradiction|].
  assert (N1 : forall k, py_index w 1 = SOk k -> k = nth 1 w 0).
  { intros k Q. destruct w as [|w0 [|w1 w]]; try discriminate. rewrite (py_index_lit (w0 :: w1 :: w) 1 1) in Q by (reflexivity || (cbn; lia)). now injection Q. }
  assert (N0 : forall k, py_index x 0 = SOk k -> k = nth 0 x 0).
  { intros k Q. destruct x as [|x0 x]; try discriminate. rewrite (py_index_lit (x0 :: x) 0 0) in Q by (reflexivity || (cbn; lia)). now injection Q. }
  unfold convtranspose_shape in S. destruct (py_index w 1) as [w1|] eqn:W; cbn [sbind] in S; [|discriminate]. rewrite (N1 _ eq_refl) in S.
  assert (O : forall o r, os = o :: r -> py_index os 0 = SOk o).
  { intros o r ->. rewrite (py_index_lit (o :: r) 0 0) by (reflexivity || (cbn; lia)). reflexivity. }
  destruct (Nat.eqb_spec (length x) 5) as [L5|L5].
  - rewrite orb_true_r. cbn [orb].
    repeat match type of S with sbind ?c _ = _ => let E := fresh "E" in destruct c eqn:E; cbn [sbind] in S; [|discriminate] end.
    injection S as <-. rewrite (N0 _ eq_refl). reflexivity.
  - rewrite orb_false_r, orb_false_l. destruct (Nat.eqb_spec (length x) 4) as [L4|L4].
    + repeat match type of S with sbind ?c _ = _ => let E := fresh "E" in destruct c eqn:E; cbn [sbind] in S; [|discriminate] end.
      injection S as <-. rewrite (N0 _ eq_refl). reflexivity.
    + destruct (Nat.eqb_spec (length x) 3) as [L3|L3]; [|now injection S as <-].
      repeat match type of S with sbind ?c _ = _ => let E := fresh "E" in destruct c eqn:E; cbn [sbind] in S; [|discriminate] end.
      injection S as <-. destruct os as [|o r]; [elim V; reflexivity|]. rewrite (O o r eq_refl). cbn [sbind firstn app hd]. rewrite (N0 _ eq_refl). reflexivity.
Qed.
(** ... so the inverse relation fails for it: no pads make the recorded size fit, since the pads of the node are still the given ones. *)
Theorem C59_output_shape_refuted :
  exists a x w out, conv_transpose a x w = SOk out /\ out = [1; 3; 100; 1] /\ ct_pads a = None /\ ct_strides a = None /\
    ~ window_count (nth 2 out 0) (nth 2 w 0) 1 1 (nth 2 x 0).
Proof.
  exists {| ct_pads := None; ct_opad := None; ct_strides := None; ct_dilations := None; ct_oshape := Some [100; 1]; ct_group := None |}, [1; 8; 7; 7], [8; 3; 3; 3], [1; 3; 100; 1].
  split; [reflexivity|]. split; [reflexivity|]. split; [reflexivity|]. split; [reflexivity|]. cbn [nth].
  intros [_ W]. specialize (W 7 ltac:(lia)). lia.
Qed.
(** Four or more spatial axes (or none): the recorded shape is the empty list. *)
Theorem C59_rank_refuted : forall a x w, (length x < 3 \/ 5 < length x)%nat -> (2 <= length w)%nat -> conv_transpose a x w = SOk [].
Proof.
  intros a x w L W. unfold conv_transpose, convtranspose_shape. cbv zeta. rewrite (py_index_lit w 1 1) by (reflexivity || lia). cbn [sbind].
  destruct (Nat.eqb_spec (length x) 5); [lia|]. destruct (Nat.eqb_spec (length x) 4); [lia|]. destruct (Nat.eqb_spec (length x) 3); [lia|].
  cbn [sbind orb]. destruct (_ =? 0); reflexivity.
Qed.
(** Three spatial axes need explicit strides, dilations and pads: the defaults are those of two axes, and reading past them raises. *)
Theorem C59_defaults_refuted : forall a x w, length x = 5%nat -> ct_strides a = None \/ ct_dilations a = None \/ ct_pads a = None ->
  exists e, conv_transpose a x w = SRaise e.
Proof.
  intros a x w L D. unfold conv_transpose, convtranspose_shape. destruct (py_index w 1) as [w1|e]; cbn [sbind]; [|now exists e]. rewrite L. cbn [Nat.eqb].
  assert (E : (exists e, convt_axis (ct_window a) (ct_default (ct_opad a) [0; 0; 0; 0]) x w 2 2 5 = SRaise e)).
  { unfold convt_axis. destruct D as [D|[D|D]].
    all: repeat match goal with |- exists _, sbind ?c _ = _ =>
      let E := fresh "E" in destruct c eqn:E; cbn [sbind]; [|eexists; reflexivity] end.
    - exfalso. unfold ct_window in *. cbn [w_strides] in *. rewrite D in *. cbn in *. discriminate.
    - exfalso. unfold ct_window in *. cbn [w_dilations] in *. rewrite D in *. cbn in *. discriminate.
    - exfalso. unfold ct_window in *. cbn [w_pads] in *. rewrite D in *. cbn in *. discriminate. }
  destruct E as [e E].
  destruct (convt_axis _ _ x w 0 0 3) as [|e0]; cbn [sbind]; [|now exists e0].
  destruct (convt_axis _ _ x w 1 1 4) as [|e0]; cbn [sbind]; [|now exists e0].
  rewrite E. cbn [sbind]. now exists e.
Qed.
Example C59_defaults_case : conv_transpose {| ct_pads := None; ct_opad := None; ct_strides := None; ct_dilations := None; ct_oshape := None; ct_group := None |}
  [1; 8; 7; 7; 7] [8; 3; 3; 3; 3] = SRaise IndexErr.
Proof. reflexivity. Qed.
