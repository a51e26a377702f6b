(** Error bounds of the block quantizer, with the binary32 rounding of scale and quotient. *)
From Coq Require Import Reals Lra.
From Flocq Require Import Core Relative IEEE754.Binary IEEE754.Bits.
From Verif Require Import PyBase GraphModel FloatPy ShapeModel QuantModel.
Open Scope R_scope.

Notation val := (B2R 24 128).
Notation fin := (is_finite 24 128).
Definition r32 (x : R) : R := round radix2 (FLT_exp (-149) 24) ZnearestE x.
Global Instance f32_valid : Valid_exp (FLT_exp (-149) 24).
Proof. apply FLT_exp_valid. reflexivity. Qed.

Definition u24 : R := / 16777216. (* 2^-24 *)
Definition eta : R := bpow radix2 (-140).
Lemma eta_pos : 0 < eta. Proof. apply bpow_gt_0. Qed.
Lemma eta_small : eta <= / 1267650600228229401496703205376. (* 2^-100 *)
Proof.
  unfold eta. apply Rle_trans with (bpow radix2 (-100)); [apply bpow_le; lia|]. right. simpl. unfold Z.pow_pos; simpl. f_equal; try lra.
Qed.
Lemma r32_abs : forall x, Rabs (r32 x - x) <= Rabs x * u24 + eta.
Proof.
  intros x. destruct (error_N_FLT radix2 (-149) 24 eq_refl (fun z => negb (Z.even z)) x) as (ep & et & He & Ht & _ & E).
  change (r32 x) with (round radix2 (FLT_exp (-149) 24) (Znearest (fun z => negb (Z.even z))) x). rewrite E.
  replace (x * (1 + ep) + et - x) with (x * ep + et) by ring.
  eapply Rle_trans; [apply Rabs_triang|]. apply Rplus_le_compat.
  - rewrite Rabs_mult. apply Rmult_le_compat_l; [apply Rabs_pos|].
    eapply Rle_trans; [exact He|]. unfold u_ro, u24. right. simpl. unfold Z.pow_pos; simpl. lra.
  - eapply Rle_trans; [exact Ht|]. unfold eta. apply Rle_trans with (bpow radix2 (-149)); [|apply bpow_le; lia].
    pose proof (bpow_gt_0 radix2 (-149)). lra.
Qed.
Lemma r32_rel : forall x, bpow radix2 (-126) <= Rabs x -> Rabs (r32 x - x) <= Rabs x * u24.
Proof.
  intros x H. pose proof (relative_error_N_FLT radix2 (-149) 24 eq_refl (fun z => negb (Z.even z)) x H) as E.
  eapply Rle_trans; [exact E|]. unfold u24. right. simpl. unfold Z.pow_pos; simpl. lra.
Qed.
Lemma r32_le : forall x y, x <= y -> r32 x <= r32 y.
Proof. intros. apply round_le; auto; [apply f32_valid|apply valid_rnd_N]. Qed.
Lemma r32_opp : forall x, r32 (- x) = - r32 x.
Proof. intros. apply round_NE_opp. Qed.
Lemma r32_bpow : forall e, (-149 <= e)%Z -> r32 (bpow radix2 e) = bpow radix2 e.
Proof. intros. apply round_generic; [apply valid_rnd_N|]. apply generic_format_bpow. unfold FLT_exp. lia. Qed.
Lemma r32_int : forall z, (Z.abs z <= 2 ^ 24)%Z -> r32 (IZR z) = IZR z.
Proof.
  intros z H. destruct (Z.eq_dec (Z.abs z) (2 ^ 24)) as [E|E].
  - assert (A : r32 (IZR (2 ^ 24)) = IZR (2 ^ 24)) by (change (IZR (2 ^ 24)) with (bpow radix2 24); apply r32_bpow; lia).
    destruct (Z.abs_eq_or_opp z) as [Q|Q]; rewrite Q in E.
    + rewrite E. exact A.
    + replace z with (- 2 ^ 24)%Z by lia. rewrite opp_IZR, r32_opp, A. reflexivity.
  - apply round_generic; [apply valid_rnd_N|]. apply generic_format_FLT. exists (Float radix2 z 0).
    + unfold F2R; simpl. ring.
    + simpl. lia.
    + simpl. lia.
Qed.

(** ** the float32 operations on reals *)
Lemma not_over : forall x, Rabs x <= bpow radix2 127 -> Rlt_bool (Rabs (r32 x)) (bpow radix2 128) = true.
Proof.
  intros x H. apply Rlt_bool_true. apply Rle_lt_trans with (bpow radix2 127); [|apply bpow_lt; lia].
  apply abs_round_le_generic; auto; [apply f32_valid|apply valid_rnd_N|]. apply generic_format_bpow. unfold FLT_exp. lia.
Qed.
Lemma div_val : forall x y, fin x = true -> val y <> 0 -> Rabs (val x / val y) <= bpow radix2 127 ->
  val (f_div x y) = r32 (val x / val y) /\ fin (f_div x y) = true.
Proof.
  intros x y Fx Ny H.
  pose proof (Bdiv_correct 24 128 eq_refl eq_refl binop_nan_pl32 BinarySingleNaN.mode_NE x y Ny) as C.
  change (round radix2 (SpecFloat.fexp 24 128) (BinarySingleNaN.round_mode BinarySingleNaN.mode_NE) (val x / val y)) with (r32 (val x / val y)) in C.
  rewrite (not_over _ H) in C. destruct C as (A & B & _). split; [exact A|]. rewrite <- Fx. exact B.
Qed.
Lemma sub_val : forall x y, fin x = true -> fin y = true -> Rabs (val x - val y) <= bpow radix2 127 ->
  val (f_sub x y) = r32 (val x - val y) /\ fin (f_sub x y) = true.
Proof.
  intros x y Fx Fy H.
  pose proof (Bminus_correct 24 128 eq_refl eq_refl binop_nan_pl32 BinarySingleNaN.mode_NE x y Fx Fy) as C.
  change (round radix2 (SpecFloat.fexp 24 128) (BinarySingleNaN.round_mode BinarySingleNaN.mode_NE) (val x - val y)) with (r32 (val x - val y)) in C.
  rewrite (not_over _ H) in C. destruct C as (A & B & _). split; [exact A|exact B].
Qed.
Lemma int_val : forall z, (Z.abs z <= 2 ^ 24)%Z -> val (f_of_int z) = IZR z /\ fin (f_of_int z) = true.
Proof.
  intros z H. pose proof (binary_normalize_correct 24 128 eq_refl eq_refl BinarySingleNaN.mode_NE z 0 false) as C.
  assert (E : F2R (Float radix2 z 0) = IZR z) by (unfold F2R; simpl; ring).
  rewrite E in C. change (round radix2 (SpecFloat.fexp 24 128) (BinarySingleNaN.round_mode BinarySingleNaN.mode_NE) (IZR z)) with (r32 (IZR z)) in C.
  rewrite not_over in C.
  - destruct C as (A & B & _). rewrite (r32_int z H) in A. split; [exact A|exact B].
  - rewrite <- abs_IZR. apply Rle_trans with (IZR (2 ^ 24)); [apply IZR_le; exact H|]. change (IZR (2 ^ 24)) with (bpow radix2 24). apply bpow_le. lia.
Qed.
Lemma lt_val : forall x y, fin x = true -> fin y = true -> f_lt x y = true <-> val x < val y.
Proof.
  intros x y Fx Fy. unfold f_lt, b32_compare. rewrite Bcompare_correct by auto.
  destruct (Rcompare_spec (val x) (val y)); split; intros; try discriminate; auto; lra.
Qed.
Lemma abs_val : forall x, val (f_abs x) = Rabs (val x) /\ fin (f_abs x) = fin x.
Proof. intros x. split; [apply B2R_Babs|apply is_finite_Babs]. Qed.
Lemma opp_val : forall x, val (f_opp x) = - val x /\ fin (f_opp x) = fin x.
Proof. intros x. split; [apply B2R_Bopp|apply is_finite_Bopp]. Qed.
Lemma fin_nan : forall x, fin x = true -> f_nan x = false.
Proof. intros [] H; try reflexivity; discriminate. Qed.

(** [round] of a float32 is the nearest integer, ties to even *)
Lemma round_scaled_ok : forall m e, (0 < m)%Z -> round_scaled m e = ZnearestE (IZR m * bpow radix2 e).
Proof.
  intros m e Hm. unfold round_scaled. destruct (Z.leb_spec 0 e) as [L|L].
  - replace (IZR m * bpow radix2 e) with (IZR (m * 2 ^ e)); [symmetry; apply (Zrnd_IZR ZnearestE)|].
    rewrite mult_IZR. f_equal. apply (IZR_Zpower radix2). exact L.
  - assert (D : (0 < 2 ^ (- e))%Z) by (apply Z.pow_pos_nonneg; lia). set (d := (2 ^ (- e))%Z) in *.
    assert (B : bpow radix2 e = / IZR d).
    { unfold d. replace e with (- (- e))%Z at 1 by lia. rewrite bpow_opp. f_equal. symmetry. apply (IZR_Zpower radix2). lia. }
    rewrite B. pose proof (Z.div_mod m d ltac:(lia)) as DM. pose proof (Z.mod_pos_bound m d D) as MB.
    set (q := (m / d)%Z) in *. set (r := (m mod d)%Z) in *. cbv zeta.
    assert (Dp : 0 < IZR d) by (apply IZR_lt; lia).
    assert (X : IZR m * / IZR d = IZR q + IZR r / IZR d) by (rewrite DM, plus_IZR, mult_IZR; field; lra).
    assert (R0 : 0 <= IZR r / IZR d) by (apply Rmult_le_pos; [apply IZR_le; lia|left; apply Rinv_0_lt_compat; auto]).
    assert (FL : Zfloor (IZR m * / IZR d) = q).
    { apply Zfloor_imp. rewrite X, plus_IZR. split; [lra|]. apply Rplus_lt_compat_l. apply Rmult_lt_reg_r with (IZR d); auto.
      unfold Rdiv. rewrite Rmult_assoc, Rinv_l by lra. rewrite Rmult_1_l, Rmult_1_r. apply IZR_lt. lia. }
    unfold Znearest. rewrite FL. rewrite X. replace (IZR q + IZR r / IZR d - IZR q) with (IZR r / IZR d) by ring.
    assert (CE : IZR r / IZR d < / 2 \/ IZR r / IZR d = / 2 \/ / 2 < IZR r / IZR d) by lra.
    assert (M2 : forall a b, (a < b)%Z <-> IZR a < IZR b) by (split; [apply IZR_lt|apply lt_IZR]).
    assert (Y : IZR (2 * r) = 2 * (IZR r / IZR d) * IZR d) by (rewrite mult_IZR; field; lra).
    assert (CF : IZR r / IZR d <> 0 -> Zceil (IZR q + IZR r / IZR d) = (q + 1)%Z).
    { intros NZ. apply Zceil_imp. rewrite minus_IZR, plus_IZR. split; [lra|]. left. apply Rplus_lt_compat_l.
      apply Rmult_lt_reg_r with (IZR d); auto. unfold Rdiv. rewrite Rmult_assoc, Rinv_l by lra. rewrite Rmult_1_l, Rmult_1_r. apply IZR_lt. lia. }
    destruct (Z.ltb_spec (2 * r) d) as [A|A].
    + rewrite Rcompare_Lt; [reflexivity|]. apply M2 in A. nra.
    + destruct (Z.ltb_spec d (2 * r)) as [A'|A'].
      * apply M2 in A'. rewrite Rcompare_Gt by nra. symmetry. apply CF. nra.
      * assert (E : (2 * r = d)%Z) by lia. apply f_equal with (f := IZR) in E.
        assert (H : IZR r / IZR d = / 2) by nra. rewrite Rcompare_Eq by exact H.
        rewrite CF by lra. destruct (Z.even q); reflexivity.
Qed.
Lemma nearE_opp : forall x, ZnearestE (- x) = (- ZnearestE x)%Z.
Proof.
  intros x. rewrite Znearest_opp. f_equal. unfold Znearest. destruct (Rcompare _ _); auto.
  replace (negb (negb (Z.even (- (Zfloor x + 1))))) with (negb (Z.even (Zfloor x))); auto.
  rewrite negb_involutive, Z.even_opp, Z.even_add. destruct (Z.even (Zfloor x)); reflexivity.
Qed.
Lemma round_val : forall x, fin x = true -> f_round x = SOk (ZnearestE (val x)).
Proof.
  intros [s|s|s pl H|s m e H] F; try discriminate; unfold f_round.
  - simpl. f_equal. symmetry. apply (Zrnd_IZR ZnearestE 0).
  - cbn [B2R]. f_equal. unfold F2R. cbn [Fnum Fexp]. rewrite round_scaled_ok by lia. destruct s; cbn [cond_Zopp].
    + rewrite opp_IZR, Ropp_mult_distr_l_reverse, nearE_opp. reflexivity.
    + reflexivity.
Qed.

(** ** minimum, maximum and the magnitude of a group *)
Definition finites (l : list f32) : Prop := forall v, In v l -> fin v = true.
Lemma np_min_ok : forall r x, finites (x :: r) -> In (fold_left np_min2 r x) (x :: r) /\
  forall v, In v (x :: r) -> val (fold_left np_min2 r x) <= val v.
Proof.
  induction r as [|y r IH]; intros x F; simpl fold_left.
  - split; [left; reflexivity|]. intros v [<-|[]]. lra.
  - assert (Fx : fin x = true) by (apply F; simpl; auto). assert (Fy : fin y = true) by (apply F; simpl; auto).
    assert (E : np_min2 x y = x /\ val x <= val y \/ np_min2 x y = y /\ val y <= val x).
    { unfold np_min2. rewrite !fin_nan by auto. destruct (f_lt y x) eqn:L.
      - apply lt_val in L; auto. right. split; auto. lra.
      - left. split; auto. destruct (Rle_or_lt (val x) (val y)) as [Q|Q]; auto. apply (lt_val y x) in Q; auto. congruence. }
    destruct (IH (np_min2 x y)) as [A B].
    { intros v [<-|V]; [destruct E as [[-> _]|[-> _]]; auto|apply F; simpl; auto]. }
    split.
    + destruct A as [A|A]; [|simpl; auto]. rewrite <- A. destruct E as [[-> _]|[-> _]]; simpl; auto.
    + assert (M : val (fold_left np_min2 r (np_min2 x y)) <= val (np_min2 x y)) by (apply B; simpl; auto).
      intros v [<-|[<-|V]]; [| |apply B; simpl; auto]; destruct E as [[Q L]|[Q L]]; rewrite Q in *; lra.
Qed.
Lemma np_max_ok : forall r x, finites (x :: r) -> In (fold_left np_max2 r x) (x :: r) /\
  forall v, In v (x :: r) -> val v <= val (fold_left np_max2 r x).
Proof.
  induction r as [|y r IH]; intros x F; simpl fold_left.
  - split; [left; reflexivity|]. intros v [<-|[]]. lra.
  - assert (Fx : fin x = true) by (apply F; simpl; auto). assert (Fy : fin y = true) by (apply F; simpl; auto).
    assert (E : np_max2 x y = x /\ val y <= val x \/ np_max2 x y = y /\ val x <= val y).
    { unfold np_max2. rewrite !fin_nan by auto. destruct (f_lt x y) eqn:L.
      - apply lt_val in L; auto. right. split; auto. lra.
      - left. split; auto. destruct (Rle_or_lt (val y) (val x)) as [Q|Q]; auto. apply (lt_val x y) in Q; auto. congruence. }
    destruct (IH (np_max2 x y)) as [A B].
    { intros v [<-|V]; [destruct E as [[-> _]|[-> _]]; auto|apply F; simpl; auto]. }
    split.
    + destruct A as [A|A]; [|simpl; auto]. rewrite <- A. destruct E as [[-> _]|[-> _]]; simpl; auto.
    + assert (M : val (np_max2 x y) <= val (fold_left np_max2 r (np_max2 x y))) by (apply B; simpl; auto).
      intros v [<-|[<-|V]]; [| |apply B; simpl; auto]; destruct E as [[Q L]|[Q L]]; rewrite Q in *; lra.
Qed.
Lemma min_max_ok : forall l, l <> [] -> finites l -> exists a b, min_max l = SOk (a, b) /\ In a l /\ In b l /\
  forall v, In v l -> val a <= val v <= val b.
Proof.
  intros [|x r] N F; [congruence|]. unfold min_max, np_min, np_max. cbn [sbind]. do 2 eexists. split; [reflexivity|].
  destruct (np_min_ok r x F) as [A B]. destruct (np_max_ok r x F) as [C D]. repeat split; auto.
Qed.
Lemma py_max_val : forall a b, fin a = true -> fin b = true -> val (py_max a b) = Rmax (val a) (val b) /\ fin (py_max a b) = true.
Proof.
  intros a b Fa Fb. unfold py_max. destruct (f_lt a b) eqn:L.
  - apply lt_val in L; auto. split; auto. rewrite Rmax_right; lra.
  - split; auto. rewrite Rmax_left; auto. destruct (Rle_or_lt (val b) (val a)) as [Q|Q]; auto. apply (lt_val a b) in Q; auto. congruence.
Qed.
Lemma py_min_val : forall a b, fin a = true -> fin b = true -> val (py_min a b) = Rmin (val a) (val b) /\ fin (py_min a b) = true.
Proof.
  intros a b Fa Fb. unfold py_min. destruct (f_lt b a) eqn:L.
  - apply lt_val in L; auto. split; auto. rewrite Rmin_right; lra.
  - split; auto. rewrite Rmin_left; auto. destruct (Rle_or_lt (val a) (val b)) as [Q|Q]; auto. apply (lt_val b a) in Q; auto. congruence.
Qed.

Lemma near_half_int : forall x, Rabs (IZR (ZnearestE x) - x) <= / 2.
Proof. intros x. pose proof (Znearest_half (fun z => negb (Z.even z)) x) as H. rewrite Rabs_minus_sym. exact H. Qed.
Lemma bpow127 : IZR (2 ^ 100) <= bpow radix2 127.
Proof. change (IZR (2 ^ 100)) with (bpow radix2 100). apply bpow_le. lia. Qed.
Lemma small127 : forall x, Rabs x <= 1000 -> Rabs x <= bpow radix2 127.
Proof. intros x H. apply Rle_trans with 1000; auto. apply Rle_trans with (IZR (2 ^ 100)); [apply IZR_le; vm_compute; discriminate|apply bpow127]. Qed.

(** one step of quotient and rounding: a quotient below 1000 in magnitude is rounded to an integer within 1/2 plus
    the error of the float32 division *)
Lemma quot_round : forall w s, fin w = true -> val s <> 0 -> Rabs (val w / val s) <= 1000 ->
  exists t, f_round (f_div w s) = SOk (ZnearestE t) /\ t = r32 (val w / val s) /\ Rabs (t - val w / val s) <= Rabs (val w / val s) * u24 + eta.
Proof.
  intros w s Fw Ns H. destruct (div_val w s Fw Ns (small127 _ H)) as [V F]. exists (r32 (val w / val s)).
  rewrite round_val by exact F. rewrite V. split; [reflexivity|]. split; [reflexivity|]. apply r32_abs.
Qed.

(** magnitude of the largest weight of a group *)
Definition magnitude (a b : f32) : R := Rmax (Rabs (val a)) (Rabs (val b)).
Lemma scale_rel : forall x, bpow radix2 (-126) <= x -> exists d, Rabs d <= u24 /\ r32 x = x * (1 + d).
Proof.
  intros x H. assert (P : 0 < x) by (pose proof (bpow_gt_0 radix2 (-126)); lra).
  assert (A : Rabs x = x) by (apply Rabs_pos_eq; lra).
  pose proof (r32_rel x ltac:(rewrite A; exact H)) as E. rewrite A in E.
  exists ((r32 x - x) / x). split; [|field; lra]. unfold Rdiv. rewrite Rabs_mult, Rabs_inv, A.
  apply Rmult_le_reg_r with x; [exact P|]. rewrite Rmult_assoc, Rinv_l by lra. lra.
Qed.

Theorem sym_core : forall l bits, (2 <= bits <= 8)%Z -> finites l -> l <> [] ->
  (exists v, In v l /\ bpow radix2 (-119) <= Rabs (val v)) ->
  exists mm s, min_max l = SOk mm /\ group_param Sym bits mm = SOk (s, 0%Z) /\ fin s = true /\ 0 < val s /\
    forall w, In w l -> exists q, sym_quant w s 0 = SOk q /\ (Z.abs q <= 2 ^ (bits - 1) - 1)%Z /\
      Rabs (dequant q s 0 - val w) <= val s * (/ 2 + IZR (2 ^ (bits - 1)) * u24).
Proof.
  intros l bits Hb F N (v0 & V0 & M0). destruct (min_max_ok l N F) as (a & b & MM & Ia & Ib & R).
  assert (Fa : fin a = true) by auto. assert (Fb : fin b = true) by auto.
  set (L := (2 ^ (bits - 1) - 1)%Z). assert (HL : (1 <= L <= 127)%Z).
  { unfold L. assert (2 ^ 1 <= 2 ^ (bits - 1) <= 2 ^ 7)%Z by (split; apply Z.pow_le_mono_r; lia). simpl in H. lia. }
  assert (L1 : 1 <= IZR L <= 127) by (split; [apply IZR_le|apply IZR_le]; lia).
  destruct (abs_val a) as [Va Aa]. destruct (abs_val b) as [Vb Ab]. rewrite Fa in Aa. rewrite Fb in Ab.
  destruct (py_max_val (f_abs a) (f_abs b) Aa Ab) as [Vm Fm]. rewrite Va, Vb in Vm.
  set (al := py_max (f_abs a) (f_abs b)) in *. set (A := val al) in *.
  assert (W : forall v, In v l -> Rabs (val v) <= A).
  { intros v Iv. specialize (R v Iv). rewrite Vm. unfold Rmax, Rabs. repeat destruct (Rcase_abs _); repeat destruct (Rle_dec _ _); lra. }
  assert (A0 : bpow radix2 (-119) <= A) by (specialize (W v0 V0); lra).
  assert (T1 : bpow radix2 (-119) = 128 * bpow radix2 (-126)).
  { change 128 with (bpow radix2 7). rewrite <- bpow_plus. reflexivity. }
  pose proof (bpow_gt_0 radix2 (-126)) as P126.
  assert (Amax : A < bpow radix2 128).
  { unfold A. rewrite <- (Rabs_pos_eq (val al)) by (unfold A in A0; lra). apply abs_B2R_lt_emax. }
  destruct (int_val L ltac:(lia)) as [VL FL].
  assert (Q : bpow radix2 (-126) <= A / IZR L).
  { apply Rmult_le_reg_r with (IZR L); [lra|]. unfold Rdiv. rewrite Rmult_assoc, Rinv_l, Rmult_1_r by lra. nra. }
  (** the scale *)
  assert (SD : exists d, Rabs d <= u24 /\ val (f_div al (f_of_int L)) = A / IZR L * (1 + d) /\ fin (f_div al (f_of_int L)) = true).
  { destruct (scale_rel (A / IZR L) Q) as (d & Hd & E). exists d. split; [exact Hd|].
    pose proof (Bdiv_correct 24 128 eq_refl eq_refl binop_nan_pl32 BinarySingleNaN.mode_NE al (f_of_int L)) as C.
    rewrite VL in C. specialize (C ltac:(lra)).
    change (round radix2 (SpecFloat.fexp 24 128) (BinarySingleNaN.round_mode BinarySingleNaN.mode_NE) (val al / IZR L)) with (r32 (A / IZR L)) in C.
    rewrite Rlt_bool_true in C.
    - destruct C as (C1 & C2 & _). split; [rewrite <- E; exact C1|]. rewrite <- Fm. exact C2.
    - apply Rle_lt_trans with A; [|exact Amax].
      assert (GA : r32 A = A) by (apply round_generic; [apply valid_rnd_N|apply generic_format_B2R]).
      rewrite Rabs_pos_eq; [|rewrite E; unfold u24 in Hd; apply Rabs_le_inv in Hd; apply Rmult_le_pos; lra].
      rewrite <- GA. apply r32_le. apply Rmult_le_reg_r with (IZR L); [lra|]. unfold Rdiv. rewrite Rmult_assoc, Rinv_l, Rmult_1_r by lra. nra. }
  destruct SD as (d & Hd & Vs & Fs). set (s := f_div al (f_of_int L)) in *.
  exists (a, b), s. split; [exact MM|]. split; [reflexivity|]. split; [exact Fs|].
  unfold u24 in Hd. apply Rabs_le_inv in Hd.
  assert (S0 : 0 < val s) by (rewrite Vs; apply Rmult_lt_0_compat; lra). split; [exact S0|].
  assert (AS : A / val s <= IZR L * (1 + / 8388608)).
  { rewrite Vs. replace (A / (A / IZR L * (1 + d))) with (IZR L * / (1 + d)) by (field; repeat split; lra).
    apply Rmult_le_compat_l; [lra|]. apply Rmult_le_reg_r with (1 + d); [lra|]. rewrite Rinv_l by lra. nra. }
  intros w Iw. assert (Fw : fin w = true) by auto.
  assert (X : Rabs (val w / val s) <= A / val s).
  { unfold Rdiv. rewrite Rabs_mult, Rabs_inv, (Rabs_pos_eq (val s)) by lra. apply Rmult_le_compat_r; [left; apply Rinv_0_lt_compat; lra|auto]. }
  destruct (quot_round w s Fw ltac:(lra)) as (t & RT & Et & Er); [lra|].
  pose proof (near_half_int t) as NH. pose proof eta_small as ES. pose proof eta_pos as EP. set (q := ZnearestE t) in *.
  assert (Er' : Rabs (t - val w / val s) <= (IZR L + / 2) * u24).
  { eapply Rle_trans; [exact Er|]. apply Rle_trans with (IZR L * (1 + / 8388608) * u24 + eta).
    - apply Rplus_le_compat_r. apply Rmult_le_compat_r; [unfold u24; lra|lra].
    - unfold u24 in *. nra. }
  assert (Q1 : (Z.abs q <= L)%Z).
  { apply Z.lt_succ_r. apply lt_IZR. rewrite succ_IZR, abs_IZR. unfold u24 in Er'.
    assert (Rabs t <= IZR L + / 4).
    { replace t with (val w / val s + (t - val w / val s)) by ring. eapply Rle_trans; [apply Rabs_triang|]. lra. }
    replace (IZR q) with (t + (IZR q - t)) by ring. eapply Rle_lt_trans; [apply Rabs_triang|]. lra. }
  exists q. split; [|split].
  - unfold sym_quant. rewrite RT. cbn [sbind]. unfold clip. fold q. f_equal. clear - Q1 HL. lia.
  - exact Q1.
  - unfold dequant. rewrite Z.sub_0_r.
    replace (IZR q * val s - val w) with (val s * ((IZR q - t) + (t - val w / val s))) by (field; lra).
    rewrite Rabs_mult, (Rabs_pos_eq (val s)) by lra. apply Rmult_le_compat_l; [lra|].
    eapply Rle_trans; [apply Rabs_triang|]. apply Rplus_le_compat; [exact NH|].
    eapply Rle_trans; [exact Er'|]. unfold L. rewrite minus_IZR. apply Rmult_le_compat_r; [unfold u24; lra|lra].
Qed.

(** the range the asymmetric quantizer covers: from min(0, smallest) to max(0, largest) *)
Definition lowest (a : f32) : R := Rmin (val a) 0.
Definition highest (b : f32) : R := Rmax (val b) 0.
Theorem asym_core : forall l bits, (1 <= bits <= 8)%Z -> finites l -> l <> [] ->
  (forall v w, In v l -> In w l -> highest v - lowest w <= bpow radix2 127) ->
  (exists v, In v l /\ bpow radix2 (-117) <= Rabs (val v)) ->
  exists mm s zp, min_max l = SOk mm /\ group_param Asym bits mm = SOk (s, zp) /\ fin s = true /\ 0 < val s /\ (0 <= zp <= 2 ^ bits - 1)%Z /\
    forall w, In w l -> exists q, asym_quant w s zp = SOk q /\ (0 <= q <= Z.min 255 (2 ^ bits))%Z /\
      Rabs (dequant q s zp - val w) <= val s * (/ 2 + / 4096).
Proof.
  intros l bits Hb F N WD (v0 & V0 & M0). destruct (min_max_ok l N F) as (a & b & MM & Ia & Ib & R).
  assert (Fa : fin a = true) by auto. assert (Fb : fin b = true) by auto.
  set (L := (2 ^ bits - 1)%Z). assert (HL : (1 <= L <= 255)%Z).
  { unfold L. assert (2 ^ 1 <= 2 ^ bits <= 2 ^ 8)%Z by (split; apply Z.pow_le_mono_r; lia). simpl in H. lia. }
  assert (L1 : 1 <= IZR L <= 255) by (split; [apply IZR_le|apply IZR_le]; lia).
  assert (Fz : fin fz = true) by reflexivity. assert (Vz : val fz = 0) by reflexivity.
  destruct (py_min_val a fz Fa Fz) as [Va Fa']. destruct (py_max_val b fz Fb Fz) as [Vb Fb']. rewrite Vz in Va, Vb.
  set (lo := py_min a fz) in *. set (hi := py_max b fz) in *.
  assert (W : forall v, In v l -> val lo <= val v <= val hi).
  { intros v Iv. specialize (R v Iv). rewrite Va, Vb. pose proof (Rmin_l (val a) 0). pose proof (Rmax_l (val b) 0). lra. }
  assert (Lo : val lo <= 0) by (rewrite Va; apply Rmin_r). assert (Hi : 0 <= val hi) by (rewrite Vb; apply Rmax_r).
  set (D := val hi - val lo). assert (D2 : D <= bpow radix2 127) by (unfold D; rewrite Va, Vb; apply WD; auto).
  assert (D1 : bpow radix2 (-117) <= D).
  { specialize (W v0 V0). unfold D. unfold Rabs in M0. destruct (Rcase_abs (val v0)); lra. }
  pose proof (bpow_gt_0 radix2 (-117)) as P117. pose proof (bpow_gt_0 radix2 (-126)) as P126.
  assert (T1 : bpow radix2 (-117) = 512 * bpow radix2 (-126)). { change 512 with (bpow radix2 9). rewrite <- bpow_plus. reflexivity. }
  assert (DA : Rabs D = D) by (apply Rabs_pos_eq; lra).
  destruct (sub_val hi lo Fb' Fa') as [Vd Fd]; [fold D; rewrite DA; exact D2|]. fold D in Vd.
  destruct (scale_rel D) as (d1 & Hd1 & E1); [lra|]. rewrite E1 in Vd.
  unfold u24 in Hd1. apply Rabs_le_inv in Hd1.
  destruct (int_val L ltac:(lia)) as [VL FL].
  set (de := f_sub hi lo) in *.
  assert (De : 0 < val de) by (rewrite Vd; apply Rmult_lt_0_compat; lra).
  assert (DeL : bpow radix2 (-126) <= val de / IZR L).
  { apply Rmult_le_reg_r with (IZR L); [lra|]. unfold Rdiv. rewrite Rmult_assoc, Rinv_l, Rmult_1_r by lra. rewrite Vd. nra. }
  destruct (scale_rel (val de / IZR L) DeL) as (d2 & Hd2 & E2). unfold u24 in Hd2. apply Rabs_le_inv in Hd2.
  destruct (div_val de (f_of_int L) Fd) as [Vs Fs]; [rewrite VL; lra| |].
  { rewrite VL. rewrite Rabs_pos_eq by lra. apply Rle_trans with (val de).
    - apply Rmult_le_reg_r with (IZR L); [lra|]. unfold Rdiv. rewrite Rmult_assoc, Rinv_l, Rmult_1_r by lra. nra.
    - rewrite Vd, <- E1. rewrite <- (r32_bpow 127) by lia. apply r32_le. exact D2. }
  rewrite VL, E2 in Vs. set (s := f_div de (f_of_int L)) in *.
  assert (S0 : 0 < val s) by (rewrite Vs; apply Rmult_lt_0_compat; lra).
  assert (AS : D / val s <= IZR L * (1 + / 4000000)).
  { rewrite Vs, Vd. replace (D / (D * (1 + d1) / IZR L * (1 + d2))) with (IZR L * / ((1 + d1) * (1 + d2))) by (field; repeat split; lra).
    apply Rmult_le_compat_l; [lra|]. assert (P : 0 < (1 + d1) * (1 + d2)) by (apply Rmult_lt_0_compat; lra).
    apply Rmult_le_reg_r with ((1 + d1) * (1 + d2)); [exact P|]. rewrite Rinv_l by lra.
    assert ((1 - / 16777216) * (1 - / 16777216) <= (1 + d1) * (1 + d2)) by (apply Rmult_le_compat; lra). lra. }
  assert (IS : 0 < / val s) by (apply Rinv_0_lt_compat; lra).
  set (za := - val lo / val s). assert (Za0 : 0 <= za) by (unfold za, Rdiv; apply Rmult_le_pos; lra).
  assert (Zh : val hi / val s = D / val s - za) by (unfold D, za; field; lra).
  assert (Zh0 : 0 <= val hi / val s) by (unfold Rdiv; apply Rmult_le_pos; lra).
  destruct (opp_val lo) as [Vo Fo]. rewrite Fa' in Fo.
  assert (HQ : Rabs (val (f_opp lo) / val s) <= 1000) by (rewrite Vo; change (- val lo / val s) with za; rewrite Rabs_pos_eq by exact Za0; lra).
  destruct (quot_round (f_opp lo) s Fo ltac:(lra) HQ) as (ta & RA & Eta & Era). rewrite Vo in Eta, Era.
  change (- val lo / val s) with za in Eta, Era.
  rewrite (Rabs_pos_eq za Za0) in Era.
  set (zp := ZnearestE ta) in *. pose proof (near_half_int ta) as Na. fold zp in Na.
  pose proof eta_small as ES. pose proof eta_pos as EP.
  assert (Zlo : (0 <= zp)%Z).
  { apply Z.le_trans with (ZnearestE (IZR 0)); [rewrite (Zrnd_IZR ZnearestE 0); apply Z.le_refl|]. unfold zp. apply Zrnd_le; [apply valid_rnd_N|].
    rewrite Eta. rewrite <- (r32_int 0) by (clear; lia). apply r32_le. exact Za0. }
  assert (Zhi : (zp <= L)%Z).
  { apply Z.lt_succ_r. apply lt_IZR. rewrite succ_IZR. apply Rabs_le_inv in Era. apply Rabs_le_inv in Na. unfold u24 in Era. lra. }
  exists (a, b), s, zp. split; [exact MM|]. split; [|split; [exact Fs|split; [exact S0|split; [clear - Zlo Zhi; unfold L in *; lia|]]]].
  { unfold group_param, get_param, asym_param. cbn [fst snd]. fold lo hi. fold L. fold de. fold s. rewrite RA. reflexivity. }
  intros w Iw. assert (Fw : fin w = true) by auto. destruct (W w Iw) as [W1 W2].
  assert (X1 : - za <= val w / val s) by (unfold za, Rdiv; rewrite <- Ropp_mult_distr_l_reverse, Ropp_involutive; apply Rmult_le_compat_r; lra).
  assert (X2 : val w / val s <= D / val s - za) by (rewrite <- Zh; unfold Rdiv; apply Rmult_le_compat_r; lra).
  assert (X : Rabs (val w / val s) <= 256) by (apply Rabs_le; lra).
  destruct (quot_round w s Fw ltac:(lra)) as (t & RT & Et & Er); [lra|].
  pose proof (near_half_int t) as NH. set (r := ZnearestE t) in *.
  assert (Er' : Rabs (t - val w / val s) <= / 60000).
  { eapply Rle_trans; [exact Er|]. unfold u24 in *. nra. }
  assert (Era' : Rabs (ta - za) <= / 60000).
  { eapply Rle_trans; [exact Era|]. unfold u24 in *. nra. }
  assert (Low : (0 <= r + zp)%Z).
  { assert (A : (- zp <= r)%Z); [|clear - A; lia]. unfold zp, r. rewrite <- nearE_opp. apply Zrnd_le; [apply valid_rnd_N|]. rewrite Et, Eta, <- r32_opp. apply r32_le. exact X1. }
  apply Rabs_le_inv in Er'. apply Rabs_le_inv in Era'. apply Rabs_le_inv in NH. apply Rabs_le_inv in Na.
  assert (Up : (r + zp <= L + 1)%Z).
  { apply Z.lt_succ_r. apply lt_IZR. rewrite succ_IZR, !plus_IZR. lra. }
  exists (clip (r + zp) 0 255). split; [unfold asym_quant; rewrite RT; reflexivity|]. split; [clear - Low Up HL; unfold clip, L in *; lia|].
  unfold dequant.
  assert (E : forall q, Rabs (IZR (q - zp) - val w / val s) <= / 2 + / 4096 -> Rabs (IZR (q - zp) * val s - val w) <= val s * (/ 2 + / 4096)).
  { intros q H. replace (IZR (q - zp) * val s - val w) with (val s * (IZR (q - zp) - val w / val s)) by (field; lra).
    rewrite Rabs_mult, (Rabs_pos_eq (val s)) by lra. apply Rmult_le_compat_l; lra. }
  apply E. destruct (Z.le_gt_cases (r + zp) 255) as [C|C].
  - unfold clip. rewrite Z.min_l by exact C. rewrite Z.max_r by exact Low. rewrite Z.add_simpl_r. apply Rabs_le. lra.
  - assert (Q : (r + zp = 256)%Z) by (clear - C Up HL; lia). assert (L = 255)%Z by (clear - C Up HL; lia). assert (EL : IZR L = 255) by (rewrite H; reflexivity).
    unfold clip. rewrite Q. change (Z.max 0 (Z.min 256 255)) with 255%Z. replace (255 - zp)%Z with (r - 1)%Z by (clear - Q; lia).
    apply (f_equal IZR) in Q. rewrite plus_IZR in Q. rewrite minus_IZR. apply Rabs_le. lra.
Qed.
