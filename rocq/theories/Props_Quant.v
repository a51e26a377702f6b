(** Properties C35-C38: weight quantization. *)
From Coq Require Import Reals Lra.
From Flocq Require Import Core IEEE754.Binary IEEE754.Bits.
From Verif Require Import PyBase GraphModel FloatPy ShapeModel QuantModel QuantProofs QuantTop.
Open Scope Z_scope.

Definition layout (block : Z) : Prop := block = 0 \/ block = -1 \/ 0 < block.
Definition finite_array (rows : list (list f32)) : Prop := forall i j w, cell rows i j = Some w -> fin w = true.

Lemma group_finite : forall rows block i j w, layout block -> finite_array rows -> cell rows i j = Some w -> finites (group rows block i j) /\ group rows block i j <> [].
Proof.
  intros rows block i j w B F C. split.
  - intros v V. assert (X : exists a b, cell rows a b = Some v).
    { unfold group in V. destruct (Z.eqb_spec block 0).
      - apply in_concat in V. destruct V as (r & R & V). apply In_nth_error in R. destruct R as (a & R). apply In_nth_error in V. destruct V as (b & V).
        exists a, b. unfold cell. rewrite R. exact V.
      - assert (V' : In v (row_of rows i)).
        { destruct (Z.eqb_spec block (-1)); [exact V|]. cbv zeta in V.
          clear - V. revert V. generalize (Z.to_nat block) (j / Z.to_nat block * Z.to_nat block)%nat. intros n k V.
          assert (V1 : In v (skipn k (row_of rows i))) by (rewrite <- (firstn_skipn n); apply in_or_app; left; exact V).
          rewrite <- (firstn_skipn k). apply in_or_app. right. exact V1. }
        unfold row_of in V'. destruct (nth_error rows i) as [r|] eqn:R; [|contradiction].
        apply In_nth_error in V'. destruct V' as (b & V'). exists i, b. unfold cell. rewrite R. exact V'. }
    destruct X as (a & b & X). eapply F; eauto.
  - pose proof (group_member rows block i j w B C) as M. intros E. rewrite E in M. contradiction.
Qed.

(** a closed computation, checked by the kernel's virtual machine *)
Ltac vmrefl := match goal with |- @eq ?T _ ?b => vm_cast_no_check (@eq_refl T b) end.

(** ** C35 *)
(** [error at most half a step, plus the rounding of the float32 quotient] for every cell of every array of finite
    weights, every layout and 2 to 8 bits, when each group has a weight of magnitude at least 2^-119 *)
Theorem C35_symmetric_error_partial : forall rows block bits, layout block -> 2 <= bits <= 8 -> shaped rows -> finite_array rows ->
  (forall i j w, cell rows i j = Some w -> exists v, In v (group rows block i j) /\ (bpow radix2 (-119) <= Rabs (val v))%R) ->
  exists Q ps, quantize rows block Sym bits = SOk (Q, ps) /\ map (@length Z) Q = map (@length f32) rows /\
    forall i j w, cell rows i j = Some w -> exists q s, cell Q i j = Some q /\ param_at ps block i j = Some (s, 0) /\
      fin s = true /\ (0 < val s)%R /\ Z.abs q <= 2 ^ (bits - 1) - 1 /\
      (Rabs (IZR q * val s - val w) <= val s * (/ 2 + IZR (2 ^ (bits - 1)) / IZR (2 ^ 24)))%R.
Proof.
  intros rows block bits B Hb S F M.
  destruct (quantize_generic Sym bits (fun w q p => snd p = 0 /\ fin (fst p) = true /\ (0 < val (fst p))%R /\ Z.abs q <= 2 ^ (bits - 1) - 1 /\
      (Rabs (IZR q * val (fst p) - val w) <= val (fst p) * (/ 2 + IZR (2 ^ (bits - 1)) / IZR (2 ^ 24)))%R) rows block B S) as (Q & ps & E & L & K).
  - intros i j w C. destruct (group_finite rows block i j w B F C) as [FG NG].
    destruct (sym_core (group rows block i j) bits Hb FG NG (M i j w C)) as (mm & s & MM & P & Fs & S0 & V).
    exists mm, (s, 0). split; [exact MM|]. split; [exact P|]. intros v Iv. destruct (V v Iv) as (q & Q & A & D).
    exists q. cbn [fst snd]. repeat split; auto. unfold dequant in D. rewrite Z.sub_0_r in D.
    replace (IZR (2 ^ (bits - 1)) / IZR (2 ^ 24))%R with (IZR (2 ^ (bits - 1)) * u24)%R by (unfold u24; reflexivity). exact D.
  - exists Q, ps. split; [exact E|]. split; [exact L|]. intros i j w C. destruct (K i j w C) as (q & [s zp] & CQ & P & Z0 & Fs & S0 & A & D).
    cbn [fst snd] in *. subst zp. exists q, s. auto 10.
Qed.
Print Assumptions C35_symmetric_error_partial.
(** a float32 literal m * 2^e *)
Notation lit s m e := (B754_finite 24 128 s m e eq_refl).
Definition one : f32 := lit false 8388608 (-23).
Definition mtwo : f32 := lit true 8388608 (-22).
Definition zero : f32 := fz.
Lemma one_val : val one = 1%R. Proof. unfold one. cbn [B2R]. unfold F2R. simpl. lra. Qed.
Lemma mtwo_val : val mtwo = (-2)%R. Proof. unfold mtwo. cbn [B2R]. unfold F2R. simpl. lra. Qed.
Definition demo : list (list f32) := [[one; mtwo; zero]; [mtwo; one; one]].
Lemma demo_cells : forall i j w, cell demo i j = Some w -> w = one \/ w = mtwo \/ w = zero.
Proof. intros [|[|[|i]]] [|[|[|[|j]]]] w E; cbn in E; try discriminate; injection E as <-; auto. Qed.
(** a case, with per-row groups (with blocks of two the last column of row 0 would be an all-zero group, see C38) *)
Example C35_case : shaped demo /\ finite_array demo /\
  forall i j w, cell demo i j = Some w -> exists v, In v (group demo (-1) i j) /\ (bpow radix2 (-119) <= Rabs (val v))%R.
Proof.
  assert (B1 : (bpow radix2 (-119) <= 1)%R) by (change 1%R with (bpow radix2 0); apply bpow_le; lia).
  split; [split; [discriminate|]; intros r [<-|[<-|[]]]; discriminate|]. split.
  - intros i j w E. destruct (demo_cells i j w E) as [->|[->| ->]]; reflexivity.
  - intros [|[|i]] j w E; try (destruct i; discriminate); exists one; (split; [simpl; auto|]; rewrite one_val, Rabs_R1; exact B1).
Qed.
(** what is missing: the bound is not exactly half a step, because the quotient is rounded before it is rounded to an integer *)
Definition top : f32 := lit false 9515737 (-23).  (* 1.1343642 *)
Definition tie : f32 := lit false 16259173 (-24).  (* 0.96912223 *)
Lemma FF_val : forall x s m e, B2FF 24 128 x = F754_finite s m e -> val x = F2R (Float radix2 (cond_Zopp s (Zpos m)) e).
Proof. intros x s m e E. rewrite <- (FF2R_B2FF 24 128). rewrite E. reflexivity. Qed.
Definition s_half : f32 := f_div top (f_of_int 127).
Lemma half_run : quantize [[top; tie]] (-1) Sym 8 = SOk ([[127; 108]], PRow [(s_half, 0)]).
Proof. vm_cast_no_check (@eq_refl (sres (list (list Z) * params)) (SOk ([[127; 108]], PRow [(s_half, 0)]))). Qed.
Lemma half_scale : B2FF 24 128 s_half = F754_finite false 9590664 (-30).
Proof. vm_cast_no_check (@eq_refl _ (F754_finite false 9590664 (-30))). Qed.
Theorem C35_half_step_refuted : exists s, quantize [[top; tie]] (-1) Sym 8 = SOk ([[127; 108]], PRow [(s, 0)]) /\
  (val s / 2 < Rabs (108 * val s - val tie))%R.
Proof.
  exists s_half. split; [apply half_run|].
  rewrite (FF_val _ _ _ _ half_scale). unfold tie. cbn [B2R]. unfold F2R. cbn [Fnum Fexp cond_Zopp]. simpl. unfold Z.pow_pos; simpl.
  apply Rlt_le_trans with (-(108 * (9590664 * / 1073741824) - 16259173 * / 16777216))%R; [lra|]. rewrite <- Rabs_Ropp. apply Rle_abs.
Qed.
(** more than 8 bits: the codes are still clipped to 8 bits, and the error is hundreds of steps *)
Theorem C35_wide_codes_refuted : exists s, quantize [[one]] (-1) Sym 16 = SOk ([[127]], PRow [(s, 0)]) /\
  (30000 * val s < Rabs (127 * val s - val one))%R.
Proof.
  exists (f_div one (f_of_int 32767)). split; [vmrefl|]. rewrite one_val.
  assert (E : B2FF 24 128 (f_div one (f_of_int 32767)) = F754_finite false 8388864 (-38)) by (vmrefl).
  rewrite (FF_val _ _ _ _ E). unfold F2R. simpl. unfold Z.pow_pos; simpl. rewrite Rabs_left by lra. lra.
Qed.

(** ** C36 *)
(** asymmetric codes: 8 bits always in [0, 255]; with b bits the largest possible code is 2^b, one more than fits;
    the decoded value is within half a step plus 1/4096 step *)
Theorem C36_asymmetric_error_partial : forall rows block bits, layout block -> 1 <= bits <= 8 -> shaped rows -> finite_array rows ->
  (forall i j w, cell rows i j = Some w -> exists v, In v (group rows block i j) /\ (bpow radix2 (-117) <= Rabs (val v))%R) ->
  (forall i j w u v, cell rows i j = Some w -> In u (group rows block i j) -> In v (group rows block i j) ->
     (Rmax (val u) 0 - Rmin (val v) 0 <= bpow radix2 127)%R) ->
  exists Q ps, quantize rows block Asym bits = SOk (Q, ps) /\ map (@length Z) Q = map (@length f32) rows /\
    forall i j w, cell rows i j = Some w -> exists q s zp, cell Q i j = Some q /\ param_at ps block i j = Some (s, zp) /\
      fin s = true /\ (0 < val s)%R /\ 0 <= zp <= 2 ^ bits - 1 /\ 0 <= q <= Z.min 255 (2 ^ bits) /\
      (Rabs (IZR (q - zp) * val s - val w) <= val s * (/ 2 + / 4096))%R.
Proof.
  intros rows block bits B Hb S F M W.
  destruct (quantize_generic Asym bits (fun w q p => fin (fst p) = true /\ (0 < val (fst p))%R /\ 0 <= snd p <= 2 ^ bits - 1 /\ 0 <= q <= Z.min 255 (2 ^ bits) /\
      (Rabs (IZR (q - snd p) * val (fst p) - val w) <= val (fst p) * (/ 2 + / 4096))%R) rows block B S) as (Q & ps & E & L & K).
  - intros i j w C. destruct (group_finite rows block i j w B F C) as [FG NG].
    destruct (asym_core (group rows block i j) bits Hb FG NG) as (mm & s & zp & MM & P & Fs & S0 & Z0 & V).
    + intros v u Iv Iu. apply (W i j w v u C Iv Iu).
    + apply (M i j w C).
    + exists mm, (s, zp). split; [exact MM|]. split; [exact P|]. intros v Iv. destruct (V v Iv) as (q & Q & A & D).
      exists q. cbn [fst snd]. repeat split; auto; lia.
  - exists Q, ps. split; [exact E|]. split; [exact L|]. intros i j w C. destruct (K i j w C) as (q & [s zp] & CQ & P & R).
    cbn [fst snd] in *. exists q, s, zp. auto.
Qed.
(** the full claim for 8 bits: codes fit a byte and decode within one step *)
Theorem C36_eight_bits : forall rows block, layout block -> shaped rows -> finite_array rows ->
  (forall i j w, cell rows i j = Some w -> exists v, In v (group rows block i j) /\ (bpow radix2 (-117) <= Rabs (val v))%R) ->
  (forall i j w u v, cell rows i j = Some w -> In u (group rows block i j) -> In v (group rows block i j) ->
     (Rmax (val u) 0 - Rmin (val v) 0 <= bpow radix2 127)%R) ->
  exists Q ps, quantize rows block Asym 8 = SOk (Q, ps) /\
    forall i j w, cell rows i j = Some w -> exists q s zp, cell Q i j = Some q /\ param_at ps block i j = Some (s, zp) /\
      0 <= q <= 255 /\ 0 <= zp <= 255 /\ (Rabs (IZR (q - zp) * val s - val w) < val s)%R.
Proof.
  intros rows block B S F M W. destruct (C36_asymmetric_error_partial rows block 8 B ltac:(lia) S F M W) as (Q & ps & E & _ & K).
  exists Q, ps. split; [exact E|]. intros i j w C. destruct (K i j w C) as (q & s & zp & CQ & P & Fs & S0 & Z0 & QB & D).
  change (2 ^ 8) with 256 in *. exists q, s, zp. repeat split; auto; try lia. lra.
Qed.
Example C36_case : shaped demo /\ finite_array demo /\
  (forall i j w, cell demo i j = Some w -> exists v, In v (group demo (-1) i j) /\ (bpow radix2 (-117) <= Rabs (val v))%R) /\
  (forall i j w u v, cell demo i j = Some w -> In u (group demo (-1) i j) -> In v (group demo (-1) i j) ->
     (Rmax (val u) 0 - Rmin (val v) 0 <= bpow radix2 127)%R).
Proof.
  destruct C35_case as (S & F & _). split; [exact S|]. split; [exact F|].
  assert (B1 : (bpow radix2 (-117) <= 1)%R) by (change 1%R with (bpow radix2 0); apply bpow_le; lia).
  assert (B2 : (8 <= bpow radix2 127)%R) by (change 8%R with (bpow radix2 3); apply bpow_le; lia).
  split.
  - intros [|[|i]] j w E; try (destruct i; discriminate); exists one; (split; [simpl; auto|]; rewrite one_val, Rabs_R1; exact B1).
  - assert (V : forall i j w u, cell demo i j = Some w -> In u (group demo (-1) i j) -> (-2 <= val u <= 1)%R).
    { intros i j w u E I. assert (u = one \/ u = mtwo \/ u = zero).
      { destruct i as [|[|i]]; [| |destruct i; discriminate]; cbn in I; tauto || (intuition congruence). }
      destruct H as [->|[->| ->]]; rewrite ?one_val, ?mtwo_val; try lra. change (val zero) with 0%R. lra. }
    intros i j w u v E Iu Iv. pose proof (V i j w u E Iu). pose proof (V i j w v E Iv).
    unfold Rmax, Rmin. destruct (Rle_dec (val u) 0), (Rle_dec (val v) 0); lra.
Qed.
(** four bits: the code 16 does occur, and packing it stores 0 *)
Definition p75 : f32 := lit false 15728640 (-21).
Definition m75 : f32 := lit true 15728640 (-21).
Theorem C36_code_16_refuted : exists s, quantize [[m75; p75]] (-1) Asym 4 = SOk ([[0; 16]], PRow [(s, 8)]) /\ val s = 1%R /\
  pack_4bits [[0; 16]] = [[0]].
Proof.
  exists (f_div (f_sub p75 m75) (f_of_int 15)). split; [vmrefl|]. split; [|reflexivity].
  assert (E : B2FF 24 128 (f_div (f_sub p75 m75) (f_of_int 15)) = F754_finite false 8388608 (-23)) by (vmrefl).
  rewrite (FF_val _ _ _ _ E). unfold F2R. simpl. lra.
Qed.

(** ** C37 *)
(** reading back: two codes per byte, low nibble first, in two's complement *)
Definition nibble (n : Z) : Z := if n <? 8 then n else n - 16.
Definition unpack_row (bs : list Z) : list Z := flat_map (fun b => [nibble (b mod 16); nibble (b / 16)]) bs.
Definition signed4 (v : Z) : Prop := -8 <= v <= 7.
Lemma signed4_cases : forall v, signed4 v -> In v [-8; -7; -6; -5; -4; -3; -2; -1; 0; 1; 2; 3; 4; 5; 6; 7].
Proof. intros v H. unfold signed4 in H. simpl. lia. Qed.
Lemma pack_pair : forall a b, signed4 a -> signed4 b ->
  let p := Z.lor (s8_to_s4 (c_uint8 a)) (Z.shiftl (s8_to_s4 (c_uint8 b)) 4) in nibble (p mod 16) = a /\ nibble (p / 16) = b /\ 0 <= p <= 255.
Proof.
  intros a b Ha Hb. apply signed4_cases in Ha. apply signed4_cases in Hb.
  assert (A : forallb (fun x => forallb (fun y => let p := Z.lor (s8_to_s4 (c_uint8 x)) (Z.shiftl (s8_to_s4 (c_uint8 y)) 4) in
      ((nibble (p mod 16) =? x) && (nibble (p / 16) =? y) && (0 <=? p) && (p <=? 255))%bool)
      [-8; -7; -6; -5; -4; -3; -2; -1; 0; 1; 2; 3; 4; 5; 6; 7]) [-8; -7; -6; -5; -4; -3; -2; -1; 0; 1; 2; 3; 4; 5; 6; 7] = true) by (vmrefl).
  rewrite forallb_forall in A. specialize (A a Ha). rewrite forallb_forall in A. specialize (A b Hb). cbv zeta in A.
  rewrite !Bool.andb_true_iff in A. destruct A as (((A & B) & C) & D). cbv zeta.
  apply Z.eqb_eq in A. apply Z.eqb_eq in B. apply Z.leb_le in C. apply Z.leb_le in D. auto.
Qed.
(** signed codes and an even last dimension: lossless, and every stored value is a byte *)
Theorem C37_pack_signed_partial : forall Q, (forall row, In row Q -> Nat.Even (length row) /\ forall v, In v row -> signed4 v) ->
  map unpack_row (pack_4bits Q) = Q /\ forall row b, In row (pack_4bits Q) -> In b row -> 0 <= b <= 255.
Proof.
  assert (ROW : forall n row, (length row <= n)%nat -> Nat.Even (length row) -> (forall v, In v row -> signed4 v) ->
    unpack_row (pack_row row) = row /\ forall b, In b (pack_row row) -> 0 <= b <= 255).
  { induction n as [|n IH]; intros row L E S.
    - destruct row; [|simpl in L; lia]. split; [reflexivity|]. intros b [].
    - destruct row as [|x [|y row]]; [split; [reflexivity|intros b []]|destruct E as (k & E); simpl in E; lia|].
      destruct (pack_pair x y) as (P1 & P2 & P3); [apply S; simpl; auto|apply S; simpl; auto|].
      destruct (IH row) as [U B]; [simpl in L; lia|destruct E as (k & E); exists (k - 1)%nat; simpl in E; lia|intros v V; apply S; simpl; auto|].
      cbn [pack_row]. unfold unpack_row. cbn [flat_map app]. fold (unpack_row (pack_row row)). rewrite P1, P2, U. split; [reflexivity|].
      intros b [<-|I]; auto. }
  intros Q H. unfold pack_4bits. split.
  - induction Q as [|row Q IH]; [reflexivity|]. simpl. destruct (H row (or_introl eq_refl)) as [E S].
    destruct (ROW _ row (Nat.le_refl _) E S) as [-> _]. rewrite IH; [reflexivity|]. intros r R. apply H. simpl; auto.
  - intros row b R I. apply in_map_iff in R. destruct R as (r & <- & R). destruct (H r R) as [E S].
    destruct (ROW _ r (Nat.le_refl _) E S) as [_ B]. auto.
Qed.
Example C37_case : forall row, In row [[-8; 7; 0; -1]; [3; -5; 6; 1]] -> Nat.Even (length row) /\ forall v, In v row -> signed4 v.
Proof. intros row [<-|[<-|[]]]; (split; [exists 2%nat; reflexivity|]); intros v I; unfold signed4; simpl in I; lia. Qed.
(** the symmetric quantizer's 4-bit codes are such codes *)
Theorem C37_symmetric_codes_fit : forall q, Z.abs q <= 2 ^ (4 - 1) - 1 -> signed4 q.
Proof. intros q H. unfold signed4. change (2 ^ (4 - 1)) with 8 in H. lia. Qed.
(** what is missing: an unsigned code of 8 or more (every asymmetric zero point included) loses its top bit *)
Theorem C37_unsigned_refuted : forall a b, 8 <= a <= 15 -> pack_4bits [[a; b]] = pack_4bits [[a - 8; b]].
Proof.
  intros a b Ha. unfold pack_4bits. cbn [map pack_row]. do 3 f_equal.
  assert (C : In a [8; 9; 10; 11; 12; 13; 14; 15]) by (simpl; lia). simpl in C.
  destruct C as [<-|[<-|[<-|[<-|[<-|[<-|[<-|[<-|[]]]]]]]]]; reflexivity.
Qed.
(** an odd last column is not stored *)
Theorem C37_odd_refuted : forall a, pack_4bits [[a]] = [[]].
Proof. reflexivity. Qed.

(** ** C38 *)
(** quantization succeeds under the conditions of C35 and C36 (both give finite scales); what is missing: *)
Theorem C38_all_zero_refuted : forall ty block, block = 0 \/ block = -1 \/ block = 2 -> quantize [[zero; zero]; [zero; zero]] block ty 8 = SRaise ValueErr.
Proof. intros [] block [->|[->| ->]]; vmrefl. Qed.
(** one all-zero row is enough *)
Theorem C38_zero_row_refuted : forall ty, quantize [[one; mtwo]; [zero; zero]] (-1) ty 8 = SRaise ValueErr /\ quantize [[one; mtwo]; [zero; zero]] 2 ty 4 = SRaise ValueErr.
Proof. intros []; split; vmrefl. Qed.
(** a subnormal row: the scale underflows to zero *)
Theorem C38_underflow_refuted : quantize [[lit false 1 (-149)]] (-1) Sym 8 = SRaise OverflowErr.
Proof. vmrefl. Qed.
(** a row from the smallest to the largest float: the scale is infinite and every code is 0 *)
Theorem C38_infinite_scale_refuted : exists s, quantize [[lit true 16777215 104; lit false 16777215 104]] (-1) Asym 8 = SOk ([[0; 0]], PRow [(s, 0)]) /\ fin s = false.
Proof.
  eexists (f_div (f_sub (lit false 16777215 104) (lit true 16777215 104)) (f_of_int 255)). split; vmrefl.
Qed.
(** and when it succeeds on an array, one bit width, all scales are finite *)
Theorem C38_success_partial : forall rows block bits ty, layout block -> 2 <= bits <= 8 -> shaped rows -> finite_array rows ->
  (forall i j w, cell rows i j = Some w -> exists v, In v (group rows block i j) /\ (bpow radix2 (-117) <= Rabs (val v))%R) ->
  (forall i j w u v, cell rows i j = Some w -> In u (group rows block i j) -> In v (group rows block i j) ->
     (Rmax (val u) 0 - Rmin (val v) 0 <= bpow radix2 127)%R) ->
  exists Q ps, quantize rows block ty bits = SOk (Q, ps) /\
    forall i j w, cell rows i j = Some w -> exists q s zp, cell Q i j = Some q /\ param_at ps block i j = Some (s, zp) /\ fin s = true.
Proof.
  intros rows block bits [] B Hb S F M W.
  - destruct (C35_symmetric_error_partial rows block bits B Hb S F) as (Q & ps & E & _ & K).
    { intros i j w C. destruct (M i j w C) as (v & I & V). exists v. split; [exact I|]. eapply Rle_trans; [|exact V]. apply bpow_le. lia. }
    exists Q, ps. split; [exact E|]. intros i j w C. destruct (K i j w C) as (q & s & A & P & Fs & _). exists q, s, 0. auto.
  - destruct (C36_asymmetric_error_partial rows block bits B ltac:(lia) S F M W) as (Q & ps & E & _ & K).
    exists Q, ps. split; [exact E|]. intros i j w C. destruct (K i j w C) as (q & s & zp & A & P & Fs & _). exists q, s, zp. auto.
Qed.
