(** Python float arithmetic used by the size formulas: IEEE-754 binary64 with
    round-to-nearest-even, as real numbers rounded with Flocq's [round].
    This file models the Python language runtime, not /repo code.
    Simplification: overflow to infinity and NaN are not represented (the
    results are real numbers); every theorem that uses these operations bounds
    its integers by 2^52, far below the overflow threshold 2^1024. *)
From Coq Require Import ZArith Reals Lra Lia.
From Flocq Require Import Core Relative.
Open Scope R_scope.

(** binary64 rounding: precision 53, minimal exponent -1074, ties to even. *)
Definition b64exp := FLT_exp (-1074) 53.
Definition rnd (x : R) : R := round radix2 b64exp ZnearestE x.

(** [a / b] of two Python ints: the exact quotient rounded once. *)
Definition fdiv_int (a b : Z) : R := rnd (IZR a / IZR b).
(** [x + y], [x - y], [x * y], [x / y] of two Python floats. *)
Definition fadd (x y : R) : R := rnd (x + y).
Definition fsub (x y : R) : R := rnd (x - y).
Definition fmul (x y : R) : R := rnd (x * y).
Definition fdiv (x y : R) : R := rnd (x / y).
(** [int(x)]: truncation towards zero; [math.floor], [math.ceil]; [round(x)]: ties to even. *)
Definition py_int (x : R) : Z := Ztrunc x.
Definition py_floor (x : R) : Z := Zfloor x.
Definition py_ceil (x : R) : Z := Zceil x.
Definition py_round (x : R) : Z := ZnearestE x.

Global Instance b64_valid : Valid_exp b64exp.
Proof. apply FLT_exp_valid. reflexivity. Qed.

(** Every integer of magnitude at most 2^53 is a binary64 number. *)
Lemma int_format : forall z, (Z.abs z <= 2 ^ 53)%Z -> generic_format radix2 b64exp (IZR z).
Proof.
  intros z H.
  assert (L : (Z.abs z < 2 ^ 53)%Z \/ (Z.abs z = 2 ^ 53)%Z) by lia.
  destruct L as [L|L].
  - apply generic_format_FLT. exists (Float radix2 z 0).
    + unfold F2R; simpl. ring.
    + simpl. exact L.
    + simpl. lia.
  - assert (E : generic_format radix2 b64exp (bpow radix2 53)).
    { apply generic_format_bpow. unfold b64exp, FLT_exp. lia. }
    assert (P : bpow radix2 53 = IZR (2 ^ 53)) by reflexivity.
    rewrite P in E.
    destruct (Z.abs_eq_or_opp z) as [Hz|Hz]; rewrite Hz in L.
    + rewrite L. exact E.
    + replace z with (- (2 ^ 53))%Z by lia. rewrite opp_IZR. apply generic_format_opp. exact E.
Qed.

Lemma rnd_int : forall z, (Z.abs z <= 2 ^ 53)%Z -> rnd (IZR z) = IZR z.
Proof. intros. apply round_generic; [apply valid_rnd_N|apply int_format; auto]. Qed.

Lemma rnd_le : forall x y, x <= y -> rnd x <= rnd y.
Proof. intros. apply round_le; auto; [apply b64_valid|apply valid_rnd_N]. Qed.

(** Relative error bound away from the subnormal range. *)
Lemma rnd_err : forall x, bpow radix2 (-1022) <= Rabs x -> Rabs (rnd x - x) <= / 2 * bpow radix2 (-52) * Rabs x.
Proof.
  intros x H. unfold rnd.
  apply (relative_error_N_FLT radix2 (-1074) 53 eq_refl (fun z => negb (Z.even z)) x). exact H.
Qed.

Lemma ulp_small : / 2 * bpow radix2 (-52) = / IZR (2 ^ 53).
Proof. simpl. unfold Z.pow_pos; simpl. lra. Qed.

(** floor and ceil survive one rounding when the value is an integer multiple
    of 1/b with a small numerator. *)
Lemma rnd_near : forall x, bpow radix2 (-1022) <= Rabs x -> Rabs (rnd x - x) <= Rabs x / IZR (2 ^ 53).
Proof. intros x H. apply rnd_err in H. rewrite ulp_small in H. lra. Qed.

Lemma tiny : forall r, 0 < r -> / IZR (2 ^ 53) <= r -> bpow radix2 (-1022) <= r.
Proof.
  intros r Hr H. eapply Rle_trans; [|exact H].
  replace (/ IZR (2 ^ 53)) with (bpow radix2 (-53)).
  - apply bpow_le. lia.
  - reflexivity.
Qed.

Lemma quot_big : forall a b, (0 < b < 2 ^ 53)%Z -> a <> 0%Z -> bpow radix2 (-1022) <= Rabs (IZR a / IZR b).
Proof.
  intros a b Hb Ha.
  assert (B : 0 < IZR b) by (apply IZR_lt; lia).
  assert (A : 1 <= Rabs (IZR a)).
  { rewrite <- abs_IZR. apply IZR_le. lia. }
  assert (C : / IZR (2 ^ 53) <= Rabs (IZR a / IZR b)).
  { unfold Rdiv. rewrite Rabs_mult, Rabs_inv, (Rabs_pos_eq (IZR b)) by lra.
    apply Rle_trans with (1 * / IZR b).
    - rewrite Rmult_1_l. apply Rinv_le; auto. apply IZR_le. lia.
    - apply Rmult_le_compat_r; auto. left. apply Rinv_0_lt_compat; auto. }
  apply tiny; auto. eapply Rlt_le_trans; [|exact C]. apply Rinv_0_lt_compat. apply IZR_lt. reflexivity.
Qed.

Lemma floor_quot : forall a b, (0 < b)%Z -> Zfloor (IZR a / IZR b) = (a / b)%Z.
Proof.
  intros a b Hb. apply Zfloor_imp.
  assert (B : 0 < IZR b) by (apply IZR_lt; lia).
  pose proof (Z.div_mod a b ltac:(lia)) as D. pose proof (Z.mod_pos_bound a b Hb) as M.
  set (q := (a / b)%Z) in *. set (m := (a mod b)%Z) in *.
  split.
  - apply Rmult_le_reg_r with (IZR b); auto. unfold Rdiv. rewrite Rmult_assoc, Rinv_l by lra.
    rewrite Rmult_1_r, <- mult_IZR. apply IZR_le. lia.
  - apply Rmult_lt_reg_r with (IZR b); auto. unfold Rdiv. rewrite Rmult_assoc, Rinv_l by lra.
    rewrite Rmult_1_r, <- mult_IZR. apply IZR_lt. lia.
Qed.

(** Below a float-representable integer n, a multiple of 1/b stays at least 1/b away. *)
Lemma below_int : forall a b n, (0 < b)%Z -> (a < n * b)%Z -> IZR a / IZR b <= IZR n - / IZR b.
Proof.
  intros a b n Hb H.
  assert (B : 0 < IZR b) by (apply IZR_lt; lia).
  apply Rmult_le_reg_r with (IZR b); auto.
  replace (IZR a / IZR b * IZR b) with (IZR a) by (field; lra).
  replace ((IZR n - / IZR b) * IZR b) with (IZR n * IZR b - 1) by (field; lra).
  rewrite <- mult_IZR, <- minus_IZR. apply IZR_le. lia.
Qed.

Lemma above_int : forall a b n, (0 < b)%Z -> (n * b < a)%Z -> IZR n + / IZR b <= IZR a / IZR b.
Proof.
  intros a b n Hb H.
  assert (B : 0 < IZR b) by (apply IZR_lt; lia).
  apply Rmult_le_reg_r with (IZR b); auto.
  replace (IZR a / IZR b * IZR b) with (IZR a) by (field; lra).
  replace ((IZR n + / IZR b) * IZR b) with (IZR n * IZR b + 1) by (field; lra).
  rewrite <- mult_IZR, <- plus_IZR. apply IZR_le. lia.
Qed.

(** The rounded quotient is on the same side of every integer as the exact one. *)
Lemma fdiv_lt : forall a b n, (0 < b < 2 ^ 53)%Z -> (Z.abs a < 2 ^ 53)%Z -> (a < n * b)%Z -> fdiv_int a b < IZR n.
Proof.
  intros a b n Hb Ha H. unfold fdiv_int.
  assert (B : 0 < IZR b) by (apply IZR_lt; lia).
  assert (B' : 0 < / IZR b) by (apply Rinv_0_lt_compat; auto).
  destruct (Z.eq_dec a 0) as [->|Na].
  - replace (IZR 0 / IZR b) with (IZR 0) by (simpl; field; lra).
    rewrite rnd_int by lia. apply IZR_lt. nia.
  - pose proof (below_int a b n ltac:(lia) H) as L.
    pose proof (rnd_near _ (quot_big a b ltac:(lia) Na)) as E.
    assert (S : Rabs (IZR a / IZR b) / IZR (2 ^ 53) < / IZR b).
    { unfold Rdiv. rewrite Rabs_mult, Rabs_inv, (Rabs_pos_eq (IZR b)) by lra.
      replace (Rabs (IZR a) * / IZR b * / IZR (2 ^ 53)) with (/ IZR b * (Rabs (IZR a) * / IZR (2 ^ 53))) by ring.
      rewrite <- (Rmult_1_r (/ IZR b)) at 2. apply Rmult_lt_compat_l; auto.
      apply Rmult_lt_reg_r with (IZR (2 ^ 53)); [apply IZR_lt; reflexivity|].
      rewrite Rmult_assoc, Rinv_l, Rmult_1_r, Rmult_1_l by (apply Rgt_not_eq; apply IZR_lt; reflexivity).
      rewrite <- abs_IZR. apply IZR_lt. lia. }
    apply Rabs_le_inv in E. lra.
Qed.

Lemma fdiv_gt : forall a b n, (0 < b < 2 ^ 53)%Z -> (Z.abs a < 2 ^ 53)%Z -> (n * b < a)%Z -> IZR n < fdiv_int a b.
Proof.
  intros a b n Hb Ha H.
  assert (X : fdiv_int (- a) b = - fdiv_int a b).
  { unfold fdiv_int, rnd. rewrite opp_IZR. unfold Rdiv. rewrite Ropp_mult_distr_l_reverse.
    apply round_NE_opp. }
  pose proof (fdiv_lt (- a) b (- n) Hb ltac:(lia) ltac:(lia)) as L.
  rewrite X, opp_IZR in L. lra.
Qed.

Lemma fdiv_ge : forall a b n, (0 < b < 2 ^ 53)%Z -> (Z.abs n <= 2 ^ 53)%Z -> (n * b <= a)%Z -> IZR n <= fdiv_int a b.
Proof.
  intros a b n Hb Hn H. unfold fdiv_int. rewrite <- (rnd_int n Hn). apply rnd_le.
  assert (B : 0 < IZR b) by (apply IZR_lt; lia).
  apply Rmult_le_reg_r with (IZR b); auto.
  replace (IZR a / IZR b * IZR b) with (IZR a) by (field; lra).
  rewrite <- mult_IZR. apply IZR_le. lia.
Qed.

Lemma fdiv_le : forall a b n, (0 < b < 2 ^ 53)%Z -> (Z.abs n <= 2 ^ 53)%Z -> (a <= n * b)%Z -> fdiv_int a b <= IZR n.
Proof.
  intros a b n Hb Hn H. unfold fdiv_int. rewrite <- (rnd_int n Hn). apply rnd_le.
  assert (B : 0 < IZR b) by (apply IZR_lt; lia).
  apply Rmult_le_reg_r with (IZR b); auto.
  replace (IZR a / IZR b * IZR b) with (IZR a) by (field; lra).
  rewrite <- mult_IZR. apply IZR_le. lia.
Qed.

Lemma div_abs : forall a b, (0 < b)%Z -> (Z.abs (a / b) <= Z.abs a)%Z.
Proof.
  intros. destruct (Z.le_gt_cases 0 a).
  - rewrite !Z.abs_eq; auto; [|apply Z.div_pos; auto]. apply Z.div_le_upper_bound; auto. nia.
  - assert (a / b < 0)%Z by (apply Z.div_lt_upper_bound; nia).
    assert (a <= a / b)%Z by (apply Z.div_le_lower_bound; nia). lia.
Qed.

Theorem floor_fdiv : forall a b, (0 < b < 2 ^ 53)%Z -> (Z.abs a < 2 ^ 53)%Z ->
  py_floor (fdiv_int a b) = (a / b)%Z.
Proof.
  intros a b Hb Ha. unfold py_floor. apply Zfloor_imp.
  pose proof (Z.div_mod a b ltac:(lia)) as D. pose proof (Z.mod_pos_bound a b ltac:(lia)) as M.
  pose proof (div_abs a b ltac:(lia)).
  split; [apply fdiv_ge|apply fdiv_lt]; lia.
Qed.

Theorem ceil_fdiv : forall a b, (0 < b < 2 ^ 53)%Z -> (Z.abs a < 2 ^ 53)%Z ->
  py_ceil (fdiv_int a b) = (- ((- a) / b))%Z.
Proof.
  intros a b Hb Ha. unfold py_ceil. apply Zceil_imp.
  pose proof (Z.div_mod (- a) b ltac:(lia)) as D. pose proof (Z.mod_pos_bound (- a) b ltac:(lia)) as M.
  pose proof (div_abs (- a) b ltac:(lia)).
  split; [apply fdiv_gt|apply fdiv_le]; lia.
Qed.

(** ** quotient plus one *)
Definition fdiv1 (a b : Z) : R := fadd (fdiv_int a b) 1.

Lemma fdiv1_ge : forall a b n, (0 < b < 2 ^ 53)%Z -> (Z.abs n < 2 ^ 52)%Z -> (n * b <= a)%Z -> IZR (n + 1) <= fdiv1 a b.
Proof.
  intros a b n Hb Hn H. unfold fdiv1, fadd. rewrite <- (rnd_int (n + 1)) by lia. apply rnd_le.
  rewrite plus_IZR. pose proof (fdiv_ge a b n Hb ltac:(lia) H). simpl. lra.
Qed.

Lemma fdiv1_le : forall a b n, (0 < b < 2 ^ 53)%Z -> (Z.abs n < 2 ^ 52)%Z -> (a <= n * b)%Z -> fdiv1 a b <= IZR (n + 1).
Proof.
  intros a b n Hb Hn H. unfold fdiv1, fadd. rewrite <- (rnd_int (n + 1)) by lia. apply rnd_le.
  rewrite plus_IZR. pose proof (fdiv_le a b n Hb ltac:(lia) H). simpl. lra.
Qed.

Lemma err_quot : forall a b, (0 < b < 2 ^ 53)%Z -> (Z.abs a < 2 ^ 53)%Z ->
  Rabs (fdiv_int a b - IZR a / IZR b) <= (IZR (Z.abs a) / IZR b) / IZR (2 ^ 53).
Proof.
  intros a b Hb Ha. assert (B : 0 < IZR b) by (apply IZR_lt; lia).
  destruct (Z.eq_dec a 0) as [->|Na].
  - unfold fdiv_int. replace (IZR 0 / IZR b) with (IZR 0) by (simpl; field; lra).
    rewrite rnd_int by lia. simpl. unfold Rdiv. rewrite Rminus_0_r, Rabs_R0. lra.
  - unfold fdiv_int. pose proof (rnd_near _ (quot_big a b ltac:(lia) Na)) as E.
    assert (Qa : Rabs (IZR a / IZR b) = IZR (Z.abs a) / IZR b).
    { unfold Rdiv. rewrite Rabs_mult, Rabs_inv, (Rabs_pos_eq (IZR b)), abs_IZR; lra. }
    rewrite Qa in E. exact E.
Qed.

Lemma fdiv1_err : forall a b, (0 < b)%Z -> (Z.abs a + b < 2 ^ 50)%Z ->
  Rabs (fdiv1 a b - (IZR a / IZR b + 1)) < / IZR b.
Proof.
  intros a b Hb Ha. unfold fdiv1, fadd.
  assert (B : 1 <= IZR b) by (apply IZR_le; lia).
  assert (B' : 0 < / IZR b) by (apply Rinv_0_lt_compat; lra).
  pose proof (err_quot a b ltac:(lia) ltac:(lia)) as E. apply Rabs_le_inv in E.
  set (q := fdiv_int a b) in *.
  assert (A0 : 0 <= IZR (Z.abs a)) by (apply IZR_le; lia).
  assert (AB : IZR (Z.abs a) + IZR b < IZR (2 ^ 50)) by (rewrite <- plus_IZR; apply IZR_lt; lia).
  assert (P : IZR (2 ^ 53) = 8 * IZR (2 ^ 50)) by (rewrite <- mult_IZR; reflexivity).
  assert (P0 : 0 < IZR (2 ^ 50)) by (apply IZR_lt; reflexivity).
  assert (Q1 : IZR (Z.abs a) / IZR b <= (IZR (2 ^ 50) - IZR b) * / IZR b).
  { unfold Rdiv. apply Rmult_le_compat_r; lra. }
  assert (Q2 : (IZR (2 ^ 50) - IZR b) * / IZR b = IZR (2 ^ 50) * / IZR b - 1) by (field; lra).
  set (BIG := IZR (2 ^ 50) * / IZR b) in *.
  assert (BB : BIG * IZR b = IZR (2 ^ 50)) by (unfold BIG; field; lra).
  assert (D53 : forall r c, 0 <= r -> r <= c * BIG -> r / IZR (2 ^ 53) <= c * / IZR b / 8).
  { intros r c R0 R1. rewrite P. unfold BIG in R1.
    apply Rmult_le_reg_r with (8 * IZR (2 ^ 50)); [lra|].
    replace (r / (8 * IZR (2 ^ 50)) * (8 * IZR (2 ^ 50))) with r by (field; lra). lra. }
  assert (Ab : 0 <= IZR (Z.abs a) / IZR b) by (unfold Rdiv; apply Rmult_le_pos; lra).
  assert (Q3 : IZR (Z.abs a) / IZR b / IZR (2 ^ 53) <= 1 * / IZR b / 8) by (apply D53; lra).
  assert (Qa : Rabs (IZR a / IZR b) = IZR (Z.abs a) / IZR b).
  { unfold Rdiv. rewrite Rabs_mult, Rabs_inv, (Rabs_pos_eq (IZR b)), abs_IZR; lra. }
  assert (AI : IZR a / IZR b <= IZR (Z.abs a) / IZR b) by (rewrite <- Qa; apply Rle_abs).
  assert (AI' : - (IZR (Z.abs a) / IZR b) <= IZR a / IZR b).
  { rewrite <- Qa. apply Ropp_le_cancel. rewrite Ropp_involutive. rewrite <- Rabs_Ropp. apply Rle_abs. }
  assert (IB : / IZR b <= 1) by (rewrite <- Rinv_1; apply Rinv_le; lra).
  destruct (Rle_or_lt (bpow radix2 (-1022)) (Rabs (q + 1))) as [G|G].
  - pose proof (rnd_near _ G) as E2.
    assert (R1 : Rabs (q + 1) <= 2 * BIG).
    { apply Rabs_le. assert (1 <= BIG).
      { apply Rmult_le_reg_r with (IZR b); [lra|]. rewrite BB. lra. }
      split; lra. }
    assert (R2 : Rabs (q + 1) / IZR (2 ^ 53) <= 2 * / IZR b / 8) by (apply D53; [apply Rabs_pos|exact R1]).
    apply Rabs_le_inv in E2. apply Rabs_lt. lra.
  - assert (G1 : q + 1 <= bpow radix2 (-1022)) by (left; eapply Rle_lt_trans; [apply Rle_abs|exact G]).
    assert (G2 : - bpow radix2 (-1022) <= q + 1).
    { apply Ropp_le_cancel. rewrite Ropp_involutive. left. eapply Rle_lt_trans; [|exact G]. rewrite <- Rabs_Ropp. apply Rle_abs. }
    assert (GF : generic_format radix2 b64exp (bpow radix2 (-1022))).
    { apply generic_format_bpow. unfold b64exp, FLT_exp. lia. }
    assert (F : rnd (bpow radix2 (-1022)) = bpow radix2 (-1022)).
    { apply round_generic; [apply valid_rnd_N|exact GF]. }
    assert (F' : rnd (- bpow radix2 (-1022)) = - bpow radix2 (-1022)).
    { apply round_generic; [apply valid_rnd_N|apply generic_format_opp; exact GF]. }
    assert (T : bpow radix2 (-1022) < / IZR b / 4).
    { apply Rle_lt_trans with (bpow radix2 (-53)); [apply bpow_le; lia|].
      change (bpow radix2 (-53)) with (/ IZR (2 ^ 53)).
      rewrite P. apply Rlt_le_trans with (/ (4 * IZR b)).
      - apply Rinv_lt_contravar; [|lra]. apply Rmult_lt_0_compat; lra.
      - rewrite Rinv_mult. lra. }
    pose proof (rnd_le _ _ G1) as H1. pose proof (rnd_le _ _ G2) as H2. rewrite F in H1. rewrite F' in H2.
    apply Rabs_lt. split; lra.
Qed.

Lemma fdiv1_lt : forall a b n, (0 < b)%Z -> (Z.abs a + b < 2 ^ 50)%Z -> (a < n * b)%Z -> fdiv1 a b < IZR (n + 1).
Proof.
  intros a b n Hb Ha H. pose proof (fdiv1_err a b Hb Ha) as E. apply Rabs_lt_inv in E.
  pose proof (below_int a b n Hb H). rewrite plus_IZR. lra.
Qed.

Lemma fdiv1_gt : forall a b n, (0 < b)%Z -> (Z.abs a + b < 2 ^ 50)%Z -> (n * b < a)%Z -> IZR (n + 1) < fdiv1 a b.
Proof.
  intros a b n Hb Ha H. pose proof (fdiv1_err a b Hb Ha) as E. apply Rabs_lt_inv in E.
  pose proof (above_int a b n Hb H). rewrite plus_IZR. lra.
Qed.

Theorem ceil_fdiv1 : forall a b, (0 < b)%Z -> (Z.abs a + b < 2 ^ 50)%Z ->
  py_ceil (fdiv1 a b) = (- ((- a) / b) + 1)%Z.
Proof.
  intros a b Hb Ha. unfold py_ceil. apply Zceil_imp.
  pose proof (Z.div_mod (- a) b ltac:(lia)) as D. pose proof (Z.mod_pos_bound (- a) b ltac:(lia)) as M.
  pose proof (div_abs (- a) b ltac:(lia)).
  split.
  - replace (- (- a / b) + 1 - 1)%Z with ((- (- a / b) - 1) + 1)%Z by lia. apply fdiv1_gt; lia.
  - apply fdiv1_le; lia.
Qed.

Theorem floor_fdiv1 : forall a b, (0 < b)%Z -> (Z.abs a + b < 2 ^ 50)%Z ->
  py_floor (fdiv1 a b) = (a / b + 1)%Z.
Proof.
  intros a b Hb Ha. unfold py_floor. apply Zfloor_imp.
  pose proof (Z.div_mod a b ltac:(lia)) as D. pose proof (Z.mod_pos_bound a b ltac:(lia)) as M.
  pose proof (div_abs a b ltac:(lia)).
  split; [apply fdiv1_ge|apply fdiv1_lt]; lia.
Qed.

(** [int] truncates towards zero: floor for non-negative quotients. *)
Theorem int_fdiv1 : forall a b, (0 < b)%Z -> (Z.abs a + b < 2 ^ 50)%Z -> (- b <= a)%Z ->
  py_int (fdiv1 a b) = (a / b + 1)%Z.
Proof.
  intros a b Hb Ha N. unfold py_int. rewrite Ztrunc_floor.
  - apply (floor_fdiv1 a b Hb Ha).
  - pose proof (fdiv1_ge a b (-1) ltac:(lia) ltac:(lia) ltac:(lia)) as G. simpl in G. exact G.
Qed.

