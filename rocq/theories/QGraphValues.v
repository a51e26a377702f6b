(** What the stored tensors stand for: transposition, float16 scales, packed codes. *)
From Coq Require Import Reals Lra.
From Flocq Require Import Core Relative IEEE754.Binary IEEE754.Bits.
From Verif Require Import PyBase PyBaseFacts GraphModel FloatPy ShapeModel QuantModel QuantProofs QuantTop Props_Quant QGraphModel QGraphProofs.
Open Scope nat_scope.

(** ** specification *)
(** a matrix: at least one row, at least one column, rows of equal length *)
Definition matrix {A} (rows : list (list A)) (r c : nat) : Prop := 0 < r /\ 0 < c /\ length rows = r /\ forall x, In x rows -> length x = c.
(** is the quantized matrix the transposed one? *)
Definition turned (nd : qnode) : bool := (is_gemm (qn_op nd) && Z.eqb (qn_transB nd) 0)%bool.
(** the parameter of the code in row a, column b *)
Definition at_parr {A} (p : parr A) (block : Z) (a b : nat) : option A :=
  match p with AOne x => Some x | ARow l => nth_error l a | ABlock m => cell m a (b / Z.to_nat block) end.
(** where the weight in row i, column j of the original matrix is stored *)
Definition place (nd : qnode) (i j : nat) : nat * nat := if turned nd then (j, i) else (i, j).

Lemma at_parr_map : forall B (f : f32 * Z -> B) ps block a b p, param_at ps block a b = Some p -> at_parr (pmap f ps) block a b = Some (f p).
Proof.
  intros B f [x|l|m] block a b p E; simpl in *.
  - congruence.
  - rewrite nth_error_map, E. reflexivity.
  - unfold cell in *. rewrite nth_error_map. destruct (nth_error m a) as [r|]; [|discriminate]. simpl. rewrite nth_error_map, E. reflexivity.
Qed.
Lemma cell_map : forall A B (f : A -> B) m a b x, cell m a b = Some x -> cell (map (map f) m) a b = Some (f x).
Proof.
  intros A B f m a b x E. unfold cell in *. rewrite nth_error_map. destruct (nth_error m a) as [r|]; [|discriminate]. simpl. rewrite nth_error_map, E. reflexivity.
Qed.
Lemma transpose_cell : forall rows r c i j w, matrix rows r c -> cell rows i j = Some w -> cell (transpose rows) j i = Some w.
Proof.
  intros rows r c i j w (R0 & C0 & LR & LC) E. unfold cell in E. destruct (nth_error rows i) as [row|] eqn:RI; [|discriminate].
  assert (IR : In row rows) by (eapply nth_error_In; eauto).
  assert (JC : j < c) by (rewrite <- (LC row IR); apply nth_error_Some; congruence).
  assert (HC : length (hd [] rows) = c) by (destruct rows as [|r0 rows']; [destruct IR|]; simpl; apply LC; simpl; auto).
  unfold cell, transpose. rewrite nth_error_map. rewrite HC.
  rewrite (nth_error_nth' (seq 0 c) 0) by (rewrite seq_length; exact JC). rewrite seq_nth by exact JC. simpl.
  rewrite nth_error_map, RI. simpl. f_equal. eapply nth_error_nth; eauto.
Qed.
Lemma transpose_matrix : forall rows r c, matrix rows r c -> matrix (transpose rows) c r.
Proof.
  intros rows r c (R0 & C0 & LR & LC).
  assert (HC : length (hd [] rows) = c) by (destruct rows as [|r0 rows']; [simpl in LR; lia|]; simpl; apply LC; simpl; auto).
  repeat split; auto; unfold transpose.
  - rewrite map_length, seq_length. exact HC.
  - intros x X. apply in_map_iff in X. destruct X as (k & <- & _). rewrite map_length. exact LR.
Qed.
Lemma oriented_cell : forall nd rows r c i j w, matrix rows r c -> cell rows i j = Some w -> cell (oriented nd rows) (fst (place nd i j)) (snd (place nd i j)) = Some w.
Proof. intros nd rows r c i j w M E. unfold oriented, place, turned. destruct (_ && _)%bool; simpl; [eapply transpose_cell; eauto|exact E]. Qed.
Lemma oriented_matrix : forall nd rows r c, matrix rows r c -> exists r' c', matrix (oriented nd rows) r' c'.
Proof. intros nd rows r c M. unfold oriented. destruct (_ && _)%bool; [exists c, r; apply transpose_matrix; exact M|exists r, c; exact M]. Qed.
Lemma matrix_shaped : forall rows r c, matrix rows r c -> shaped rows.
Proof.
  intros rows r c (R0 & C0 & LR & LC). split; [intros ->; simpl in LR; lia|]. intros x X ->. apply LC in X. simpl in X. lia.
Qed.
(** every cell of the turned matrix is a weight *)
Lemma cell_oriented : forall nd rows r c a b w, matrix rows r c -> cell (oriented nd rows) a b = Some w -> exists i j, cell rows i j = Some w.
Proof.
  intros nd rows r c a b w M E. unfold oriented in E. destruct (_ && _)%bool; [|eauto].
  pose proof (transpose_matrix rows r c M) as (_ & _ & LT & LTC). unfold cell in E.
  destruct (nth_error (transpose rows) a) as [row|] eqn:RA; [|discriminate].
  assert (AC : a < c) by (rewrite <- LT; apply nth_error_Some; congruence).
  assert (BR : b < r) by (rewrite <- (LTC row) by (eapply nth_error_In; eauto); apply nth_error_Some; congruence).
  destruct M as (R0 & C0 & LR & LC).
  assert (X : exists w', cell rows b a = Some w').
  { unfold cell. destruct (nth_error rows b) as [x|] eqn:RB; [|apply nth_error_None in RB; lia].
    assert (length x = c) by (apply LC; eapply nth_error_In; eauto). destruct (nth_error x a) as [w'|] eqn:XA; [eauto|]. apply nth_error_None in XA. lia. }
  destruct X as (w' & X). exists b, a. pose proof (transpose_cell rows r c b a w' (conj R0 (conj C0 (conj LR LC))) X) as Y.
  unfold cell in Y. rewrite RA in Y. rewrite E in Y. rewrite X. symmetry. exact Y.
Qed.

(** ** float16 *)
Open Scope R_scope.
Definition val16 (x : f16) : R := B2R 11 16 x.
Definition fin16 (x : f16) : bool := is_finite 11 16 x.
Theorem to_f16_val : forall x, fin x = true -> bpow radix2 (-14) <= val x <= 65504 ->
  fin16 (to_f16 x) = true /\ Rabs (val16 (to_f16 x) - val x) <= val x * / 2048.
Proof.
  intros x F (L & U). pose proof (bpow_gt_0 radix2 (-14)) as P.
  destruct x as [s|s|s pl|s m e B]; simpl in F; try discriminate.
  { exfalso. simpl in L. lra. }
  set (x := B754_finite 24 128 s m e B) in *.
  assert (VX : val x = F2R (Float radix2 (cond_Zopp s (Zpos m)) e)) by reflexivity.
  pose proof (binary_normalize_correct 11 16 eq_refl eq_refl BinarySingleNaN.mode_NE (cond_Zopp s (Zpos m)) e s) as C.
  rewrite <- VX in C.
  set (rd := round radix2 (SpecFloat.fexp 11 16) (BinarySingleNaN.round_mode BinarySingleNaN.mode_NE) (val x)) in *.
  assert (REL : Rabs (rd - val x) <= / 2 * bpow radix2 (- 11 + 1) * Rabs (val x)).
  { pose proof (relative_error_N_FLT radix2 (-24) 11 eq_refl (fun z => negb (Z.even z)) (val x)) as E.
    change (FLT_exp (-24) 11) with (SpecFloat.fexp 11 16) in E. apply E. change (-24 + 11 - 1)%Z with (-14)%Z. rewrite Rabs_pos_eq by lra. exact L. }
  rewrite (Rabs_pos_eq (val x)) in REL by lra.
  assert (B10 : / 2 * bpow radix2 (- 11 + 1) = / 2048) by (simpl; lra). rewrite B10 in REL.
  assert (TOP : Rabs rd <= 65504).
  { assert (G : round radix2 (SpecFloat.fexp 11 16) (BinarySingleNaN.round_mode BinarySingleNaN.mode_NE) 65504 = 65504).
    { apply round_generic; [apply valid_rnd_N|]. apply generic_format_FLT with (emin := (-24)%Z).
      exists (Float radix2 2047 5); [unfold F2R; simpl; lra|simpl; lia|simpl; lia]. }
    assert (0 <= rd). { apply Rabs_le_inv in REL. nra. }
    rewrite Rabs_pos_eq by auto. rewrite <- G. apply round_le; [apply FLT_exp_valid; reflexivity|apply valid_rnd_N|exact U]. }
  rewrite Rlt_bool_true in C by (eapply Rle_lt_trans; [exact TOP|simpl; lra]).
  destruct C as (C1 & C2 & _). change (to_f16 x) with (binary_normalize 11 16 eq_refl eq_refl BinarySingleNaN.mode_NE (cond_Zopp s (Zpos m)) e s).
  split; [exact C2|]. unfold val16. rewrite C1. lra.
Qed.

(** the scale of a group is at most its largest weight *)
Lemma sym_scale_le : forall l bits mm s, (2 <= bits <= 8)%Z -> finites l -> l <> [] -> min_max l = SOk mm -> group_param Sym bits mm = SOk (s, 0%Z) ->
  forall B, B <= bpow radix2 127 -> (forall v, In v l -> Rabs (val v) <= B) -> val s <= B.
Proof.
  intros l bits mm s Hb F N MM G B BB K. destruct (min_max_ok l N F) as (a & b & MM' & Ia & Ib & _). rewrite MM in MM'. injection MM' as ->.
  unfold group_param, get_param, sym_param in G. cbn [fst snd] in G. injection G as <-.
  destruct (abs_val a) as [Va Aa]. destruct (abs_val b) as [Vb Ab]. rewrite (F a Ia) in Aa. rewrite (F b Ib) in Ab.
  destruct (py_max_val (f_abs a) (f_abs b) Aa Ab) as [Vm Fm]. rewrite Va, Vb in Vm.
  set (L := (2 ^ (bits - 1) - 1)%Z). assert (HL : (1 <= L <= 127)%Z).
  { unfold L. assert (2 ^ 1 <= 2 ^ (bits - 1) <= 2 ^ 7)%Z by (split; apply Z.pow_le_mono_r; lia). simpl in H. lia. }
  assert (L1 : 1 <= IZR L <= 127) by (split; [apply IZR_le|apply IZR_le]; lia).
  destruct (int_val L ltac:(lia)) as [VL FL]. set (al := py_max (f_abs a) (f_abs b)) in *.
  assert (A : 0 <= val al <= B).
  { rewrite Vm. split; [eapply Rle_trans; [apply Rabs_pos|apply Rmax_l]|]. apply Rmax_lub; apply K; auto. }
  assert (D : Rabs (val al / IZR L) <= val al).
  { unfold Rdiv. rewrite Rabs_mult, Rabs_inv, (Rabs_pos_eq (val al)), (Rabs_pos_eq (IZR L)) by lra.
    rewrite <- (Rmult_1_r (val al)) at 2. apply Rmult_le_compat_l; [lra|]. rewrite <- Rinv_1. apply Rinv_le; lra. }
  destruct (div_val al (f_of_int L) Fm) as [V _]; [rewrite VL; lra|rewrite VL; lra|]. rewrite V, VL.
  apply Rle_trans with (val al); [|lra].
  assert (GA : r32 (val al) = val al) by (apply round_generic; [apply valid_rnd_N|apply generic_format_B2R]).
  rewrite <- GA at 2. apply r32_le. eapply Rle_trans; [apply Rle_abs|exact D].
Qed.

(** ** packed codes *)
Open Scope Z_scope.
Lemma packed_cell : forall Q a b q, (forall row, In row Q -> Nat.Even (length row) /\ forall v, In v row -> signed4 v) ->
  cell Q a b = Some q -> cell (map unpack_row (pack_4bits Q)) a b = Some q.
Proof. intros Q a b q H E. destruct (C37_pack_signed_partial Q H) as [-> _]. exact E. Qed.
