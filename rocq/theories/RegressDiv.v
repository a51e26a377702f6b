(** Exactness of the shape regression for dimensions that divide the variable (strided windows). *)
From Coq Require Import Reals Lra.
From Flocq Require Import Core Relative.
From Verif Require Import PyBase PyBaseFacts GraphModel FloatPy ShapeModel SerialModel RegressModel RegressProofs.
Open Scope R_scope.

Lemma rnd_abs : forall x, Rabs (rnd x - x) <= Rabs x / IZR (2 ^ 53) + bpow radix2 (-60).
Proof.
  intros x. destruct (error_N_FLT radix2 (-1074) 53 eq_refl (fun z => negb (Z.even z)) x) as (eps & eta & He & Ht & _ & E).
  change (rnd x) with (round radix2 (FLT_exp (-1074) 53) (Znearest (fun z => negb (Z.even z))) x). rewrite E. replace (x * (1 + eps) + eta - x) with (x * eps + eta) by ring.
  eapply Rle_trans; [apply Rabs_triang|]. apply Rplus_le_compat.
  - rewrite Rabs_mult. unfold Rdiv. apply Rmult_le_compat_l; [apply Rabs_pos|].
    eapply Rle_trans; [exact He|]. unfold u_ro. right. simpl. unfold Z.pow_pos; simpl. lra.
  - eapply Rle_trans; [exact Ht|]. apply Rle_trans with (bpow radix2 (-1074)); [|apply bpow_le; lia].
    pose proof (bpow_gt_0 radix2 (-1074)). lra.
Qed.

Lemma quot_err : forall a b c s, (0 < b)%Z -> (Z.abs a + (Z.abs c + 1) * b < 2 ^ 50)%Z -> s = 1 \/ s = -1 ->
  Rabs (rnd (s * fdiv_int a b + IZR c) - (s * (IZR a / IZR b) + IZR c)) < / (2 * IZR b).
Proof.
  intros a b c s Hb Ha S.
  assert (B : 1 <= IZR b) by (apply IZR_le; lia). assert (B' : 0 < / IZR b) by (apply Rinv_0_lt_compat; lra).
  pose proof (err_quot a b ltac:(nia) ltac:(nia)) as E.
  set (q := fdiv_int a b) in *. pose proof (rnd_abs (s * q + IZR c)) as E2.
  assert (A0 : 0 <= IZR (Z.abs a)) by (apply IZR_le; lia). assert (C0 : 0 <= IZR (Z.abs c)) by (apply IZR_le; lia).
  assert (AB : IZR (Z.abs a) + (IZR (Z.abs c) + 1) * IZR b <= IZR (2 ^ 50)).
  { rewrite <- plus_IZR, <- mult_IZR, <- plus_IZR. apply IZR_le. lia. }
  assert (P : IZR (2 ^ 53) = 8 * IZR (2 ^ 50)) by (rewrite <- mult_IZR; reflexivity).
  set (K := IZR (2 ^ 50)) in *. assert (K0 : K = 1125899906842624) by reflexivity.
  assert (T : bpow radix2 (-60) = / (1024 * K)) by (rewrite K0; simpl; unfold Z.pow_pos; simpl; f_equal; lra).
  rewrite P in *. rewrite T in *.
  assert (Q1 : IZR (Z.abs a) / IZR b + IZR (Z.abs c) + 1 <= K / IZR b).
  { apply Rmult_le_reg_r with (IZR b); [lra|]. unfold Rdiv. rewrite (Rmult_assoc K), Rinv_l, Rmult_1_r by lra.
    rewrite !Rmult_plus_distr_r, Rmult_assoc, Rinv_l by lra. lra. }
  assert (Q0 : 0 <= IZR (Z.abs a) / IZR b) by (unfold Rdiv; apply Rmult_le_pos; lra).
  assert (M1 : IZR (Z.abs a) / IZR b / (8 * K) <= / IZR b / 8).
  { apply Rmult_le_reg_r with (8 * K); [lra|]. unfold Rdiv at 1. rewrite Rmult_assoc, Rinv_l by lra.
    replace (/ IZR b / 8 * (8 * K)) with (K / IZR b) by (field; lra). lra. }
  assert (Qa : Rabs (IZR a / IZR b) = IZR (Z.abs a) / IZR b).
  { unfold Rdiv. rewrite Rabs_mult, Rabs_inv, (Rabs_pos_eq (IZR b)), abs_IZR; lra. }
  assert (Ca : Rabs (IZR c) = IZR (Z.abs c)) by (rewrite abs_IZR; reflexivity).
  assert (Sq : Rabs (s * q + IZR c) <= K / IZR b).
  { assert (IB : / IZR b <= 1) by (rewrite <- Rinv_1; apply Rinv_le; lra).
    assert (Rabs q <= IZR (Z.abs a) / IZR b + 1).
    { replace q with (IZR a / IZR b + (q - IZR a / IZR b)) by ring. eapply Rle_trans; [apply Rabs_triang|]. rewrite Qa. lra. }
    eapply Rle_trans; [apply Rabs_triang|]. rewrite Ca, Rabs_mult.
    assert (Rabs s = 1) by (destruct S as [->| ->]; [apply Rabs_R1|unfold Rabs; destruct (Rcase_abs (-1)); lra]).
    rewrite H0. lra. }
  assert (M2 : Rabs (s * q + IZR c) / (8 * K) <= / IZR b / 8).
  { apply Rmult_le_reg_r with (8 * K); [lra|]. unfold Rdiv at 1. rewrite Rmult_assoc, Rinv_l by lra.
    replace (/ IZR b / 8 * (8 * K)) with (K / IZR b) by (field; lra). lra. }
  assert (M3 : / (1024 * K) <= / IZR b / 8).
  { assert (IZR b <= K). { assert (0 <= IZR (Z.abs c) * IZR b) by (apply Rmult_le_pos; lra). lra. }
    apply Rle_trans with (/ (8 * IZR b)); [apply Rinv_le; lra|]. right. field. lra. }
  replace (/ (2 * IZR b)) with (/ IZR b / 2) by (field; lra).
  apply Rabs_le_inv in E. apply Rabs_le_inv in E2.
  apply Rabs_lt. destruct S as [->| ->]; split; lra.
Qed.

Lemma near_half : forall a b n, (0 < b)%Z -> (2 * Z.abs (a - n * b) < b)%Z -> Rabs (IZR a / IZR b - IZR n) <= / 2 - / (2 * IZR b).
Proof.
  intros a b n Hb H. assert (B : 1 <= IZR b) by (apply IZR_le; lia).
  assert (L : IZR (Z.abs (a - n * b)) * 2 <= IZR b - 1). { rewrite <- mult_IZR, <- minus_IZR. apply IZR_le. lia. }
  replace (IZR a / IZR b - IZR n) with (IZR (a - n * b) / IZR b) by (rewrite minus_IZR, mult_IZR; field; lra).
  unfold Rdiv. rewrite Rabs_mult, Rabs_inv, (Rabs_pos_eq (IZR b)), <- abs_IZR by lra.
  apply Rmult_le_reg_r with (IZR b); [lra|]. rewrite Rmult_assoc, Rinv_l by lra.
  replace ((/ 2 - / (2 * IZR b)) * IZR b) with ((IZR b - 1) / 2) by (field; lra). lra.
Qed.
Lemma round_near : forall a b n, (0 < b)%Z -> (Z.abs a + b < 2 ^ 50)%Z -> (2 * Z.abs (a - n * b) < b)%Z -> py_round (fdiv_int a b) = n.
Proof.
  intros a b n Hb Ha H. unfold py_round. apply Znearest_imp.
  pose proof (err_quot a b ltac:(lia) ltac:(lia)) as E. pose proof (near_half a b n Hb H) as N.
  assert (B : 1 <= IZR b) by (apply IZR_le; lia).
  assert (M1 : IZR (Z.abs a) / IZR b / IZR (2 ^ 53) < / (2 * IZR b)).
  { assert (A : IZR (Z.abs a) < IZR (2 ^ 50)) by (apply IZR_lt; lia).
    assert (P : IZR (2 ^ 53) = 8 * IZR (2 ^ 50)) by (rewrite <- mult_IZR; reflexivity).
    assert (P0 : 0 < IZR (2 ^ 50)) by (apply IZR_lt; reflexivity).
    rewrite P. apply Rmult_lt_reg_r with (8 * IZR (2 ^ 50) * IZR b); [apply Rmult_lt_0_compat; lra|].
    replace (IZR (Z.abs a) / IZR b / (8 * IZR (2 ^ 50)) * (8 * IZR (2 ^ 50) * IZR b)) with (IZR (Z.abs a)) by (field; lra).
    replace (/ (2 * IZR b) * (8 * IZR (2 ^ 50) * IZR b)) with (4 * IZR (2 ^ 50)) by (field; lra). lra. }
  apply Rabs_le_inv in E. apply Rabs_le_inv in N. apply Rabs_lt. lra.
Qed.
Lemma floor_div_add : forall x k c, (0 < k)%Z -> (Z.abs x + (Z.abs c + 1) * k < 2 ^ 50)%Z ->
  py_floor (fadd (fdiv_int x k) (rnd (IZR c))) = (x / k + c)%Z.
Proof.
  intros x k c Hk Hx. rewrite rnd_int by nia. unfold fadd, py_floor.
  pose proof (quot_err x k c 1 Hk Hx (or_introl eq_refl)) as E. rewrite !Rmult_1_l in E.
  assert (K : 1 <= IZR k) by (apply IZR_le; lia).
  assert (L : / (2 * IZR k) < / IZR k) by (apply Rinv_lt_contravar; nra).
  pose proof (Z.div_mod x k ltac:(lia)) as D. pose proof (Z.mod_pos_bound x k Hk) as M.
  apply Zfloor_imp. split.
  - rewrite <- (rnd_int (x / k + c)) by nia. apply rnd_le. rewrite plus_IZR. apply Rplus_le_compat_r. apply fdiv_ge; nia.
  - apply Rabs_lt_inv in E. assert (x < (x / k + 1) * k)%Z as X by nia. pose proof (below_int x k (x / k + 1) Hk X) as Y.
    rewrite !plus_IZR in *. lra.
Qed.
Lemma ceil_div_add : forall x k c, (0 < k)%Z -> (Z.abs x + (Z.abs c + 1) * k < 2 ^ 50)%Z ->
  py_ceil (fadd (fdiv_int x k) (rnd (IZR c))) = (- (- x / k) + c)%Z.
Proof.
  intros x k c Hk Hx. rewrite rnd_int by nia. unfold fadd, py_ceil.
  pose proof (quot_err x k c 1 Hk Hx (or_introl eq_refl)) as E. rewrite !Rmult_1_l in E.
  assert (K : 1 <= IZR k) by (apply IZR_le; lia).
  assert (L : / (2 * IZR k) < / IZR k) by (apply Rinv_lt_contravar; nra).
  pose proof (Z.div_mod (- x) k ltac:(lia)) as D. pose proof (Z.mod_pos_bound (- x) k Hk) as M.
  apply Zceil_imp. split.
  - apply Rabs_lt_inv in E. assert ((- (- x / k) - 1) * k < x)%Z as X by nia. pose proof (above_int x k _ Hk X) as Y.
    rewrite !minus_IZR in *. rewrite plus_IZR. lra.
  - rewrite <- (rnd_int (- (- x / k) + c)) by nia. apply rnd_le. rewrite plus_IZR. apply Rplus_le_compat_r. apply fdiv_le; nia.
Qed.
Lemma beta_round : forall d s k c, (0 < k)%Z -> (Z.abs s + (Z.abs d + 1) * k < 2 ^ 50)%Z -> (2 * Z.abs (s - (d - c) * k) < k)%Z ->
  py_round (fsub (rnd (IZR d)) (fdiv_int s k)) = c.
Proof.
  intros d s k c Hk Hs H. rewrite rnd_int by nia. unfold fsub, py_round. apply Znearest_imp.
  pose proof (quot_err s k d (-1) Hk Hs (or_intror eq_refl)) as E. pose proof (near_half s k (d - c) Hk H) as N.
  replace (-1 * fdiv_int s k + IZR d) with (IZR d - fdiv_int s k) in E by ring.
  rewrite minus_IZR in N. apply Rabs_lt_inv in E. apply Rabs_le_inv in N. apply Rabs_lt. lra.
Qed.

Open Scope Z_scope.
(** the regression of [x / k + c] (rounding down) or of its ceiling from the three samples of shape_regress *)
Definition down (k c x : Z) : Z := x / k + c.
Definition up (k c x : Z) : Z := - (- x / k) + c.
Definition small (k c x : Z) : Prop := Z.abs x + (Z.abs c + 1) * k < 2 ^ 48.

Lemma call_down : forall k c x, 0 < k -> small k c x -> expr_call {| e_alpha := k; e_beta := c; e_factor := 1; e_trunc := 1 |} x = SOk (down k c x).
Proof.
  intros k c x Hk S. unfold small in S. unfold expr_call. cbn [e_factor e_alpha e_beta e_trunc Z.eqb].
  destruct (Z.eqb_spec k 0); [lia|]. unfold truncate_float. cbn [Z.eqb]. rewrite floor_div_add by (auto; nia). reflexivity.
Qed.
Lemma call_up : forall k c x, 0 < k -> small k c x -> expr_call {| e_alpha := k; e_beta := c; e_factor := 1; e_trunc := 0 |} x = SOk (up k c x).
Proof.
  intros k c x Hk S. unfold small in S. unfold expr_call. cbn [e_factor e_alpha e_beta e_trunc Z.eqb].
  destruct (Z.eqb_spec k 0); [lia|]. unfold truncate_float. cbn [Z.eqb]. rewrite ceil_div_add by (auto; nia). reflexivity.
Qed.
Lemma build_div : forall k c a m b d0 d1 d2, 2 <= k -> small k c a -> small k c m -> small k c b -> Z.abs d0 + Z.abs d2 < 2 ^ 49 ->
  0 < d2 - d0 < b - a -> 2 * Z.abs ((b - a) - k * (d2 - d0)) < d2 - d0 -> 2 * Z.abs (b - (d2 - c) * k) < k ->
  Z.abs b + (Z.abs d2 + 1) * k < 2 ^ 50 ->
  build_expr [a; m; b] [d0; d1; d2] = SOk {| e_alpha := k; e_beta := c; e_factor := 1;
     e_trunc := if (up k c a - d0) + (up k c m - d1) + (up k c b - d2) =? 0 then 0 else 1 |}.
Proof.
  intros k c a m b d0 d1 d2 Hk Sa Sm Sb Sd L A B C. unfold build_expr.
  change (py_index [a; m; b] (zlen [a; m; b] - 1)) with (@SOk Z b). change (py_index [a; m; b] 0) with (@SOk Z a).
  change (py_index [d0; d1; d2] (zlen [a; m; b] - 1)) with (@SOk Z d2). change (py_index [d0; d1; d2] 0) with (@SOk Z d0).
  cbn [sbind]. destruct (Z.leb_spec (b - a) (d2 - d0)); [lia|]. destruct (Z.eqb_spec (d2 - d0) 0); [lia|].
  unfold small in *.
  rewrite (round_near (b - a) (d2 - d0) k) by lia.
  destruct (Z.eqb_spec k 0); [lia|]. rewrite (beta_round d2 b k c) by (auto; lia). cbn [sbind].
  cbn [smap]. rewrite !call_up by (unfold small; auto; lia). cbn [sbind]. unfold sum_diff. cbn [combine map fold_left fst snd].
  replace (0 + (up k c a - d0) + (up k c m - d1) + (up k c b - d2)) with ((up k c a - d0) + (up k c m - d1) + (up k c b - d2)) by lia.
  destruct (_ =? 0); reflexivity.
Qed.
Lemma up_down : forall k c x, 0 < k -> up k c x = down k c x + (if x mod k =? 0 then 0 else 1).
Proof.
  intros k c x Hk. unfold up, down. destruct (Z.eqb_spec (x mod k) 0) as [E|E].
  - rewrite Z.div_opp_l_z by lia. lia.
  - rewrite Z.div_opp_l_nz by lia. lia.
Qed.
(** the side conditions of [build_div] in terms of quotients and remainders *)
Lemma build_div_q : forall k c a m b qa qb ra rb d1, 2 <= k -> small k c a -> small k c m -> small k c b ->
  a = k * qa + ra -> b = k * qb + rb -> Z.abs ra < k -> Z.abs qa <= Z.abs a -> Z.abs qb <= Z.abs b ->
  2 * Z.abs (rb - ra) < qb - qa -> 2 * Z.abs rb < k ->
  build_expr [a; m; b] [qa + c; d1; qb + c] = SOk {| e_alpha := k; e_beta := c; e_factor := 1;
     e_trunc := if (up k c a - (qa + c)) + (up k c m - d1) + (up k c b - (qb + c)) =? 0 then 0 else 1 |}.
Proof.
  intros k c a m b qa qb ra rb d1 Hk Sa Sm Sb Ea Eb Ra Qa Qb Spread Half.
  assert (D : 2 * (qb - qa) <= k * (qb - qa)) by nia.
  assert (KQ : Z.abs qb * k <= Z.abs b + k).
  { assert (Z.abs qb * k = Z.abs (k * qb)) by (rewrite Z.abs_mul, (Z.abs_eq k) by lia; lia). lia. }
  assert (KC : Z.abs c <= Z.abs c * k) by nia.
  apply build_div; auto; unfold small in *.
  - lia.
  - replace (qb + c - (qa + c)) with (qb - qa) by lia. lia.
  - replace (b - a - k * (qb + c - (qa + c))) with (rb - ra) by (subst; ring). lia.
  - replace (b - (qb + c - c) * k) with rb by (subst; ring). lia.
  - assert ((Z.abs (qb + c) + 1) * k <= (Z.abs qb + Z.abs c + 1) * k) by (apply Z.mul_le_mono_nonneg_r; lia). lia.
Qed.
