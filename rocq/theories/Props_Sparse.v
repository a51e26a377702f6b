(** C56: the block sparsity search. *)
From Coq Require Import Reals Lra.
From Verif Require Import PyBase PyBaseFacts FloatPy SparseModel SparseSpec SparseProofs.
Open Scope nat_scope.

(** ** C56 *)
(** The search always ends: after at most max(R, C) doublings (in fact log2 of it). *)
Theorem C56_terminates : forall R C K z2 z4, 0 < R -> 0 < C -> 0 < K ->
  exists r2 r4, search2 R C z2 (Nat.max R C) = Some r2 /\ search4 R C K z4 (Nat.max R C) = Some r4.
Proof.
  intros R C K z2 z4 HR HC HK. unfold search2, search4. rewrite !block_ratio_true.
  destruct (run_some R C 1 (fun i j _ => z2 i j) HR HC ltac:(lia) (Nat.max R C) (Nat.le_refl _)) as (s & ->).
  destruct (run_some R C K z4 HR HC HK (Nat.max R C) (Nat.le_refl _)) as (s' & ->). cbn. eauto.
Qed.

(** Rank 2: the block always tiles the matrix, and the ratio is that of the block, except when a square block of
    more than one element per side is reported although its own ratio was rejected. *)
Theorem C56_honest_2d_partial : forall R C z fuel a b r, 0 < R -> 0 < C -> search2 R C z fuel = Some ((a, b), r) ->
  let tr := true_ratio R C 1 (fun i j _ => z i j) in
  R mod a = 0 /\ C mod b = 0 /\
  (r = tr a b \/ (1 < a /\ a = b /\ accepts (tr 1 1) (tr a b) = false /\ r = tr a 1)).
Proof.
  intros R C z fuel a b r HR HC H. unfold search2 in H. rewrite block_ratio_true in H. destruct (sloop _ _ _ _ _ _ _) as [s|] eqn:L; [|discriminate]. cbn in H. injection H as H.
  pose proof (finish2_case R C 1 _ HR HC ltac:(lia) s (run_good R C 1 _ HR HC ltac:(lia) fuel s L)) as F. cbn zeta in F. rewrite H in F. exact F.
Qed.
(** Both ranks: the pair is honest whenever the block tiles the tensor and its own ratio is within the
    tolerance the search uses. *)
Theorem C56_honest_partial : forall R C K z2 z4 fuel a b r, 0 < R -> 0 < C -> 0 < K ->
  (search2 R C z2 fuel = Some ((a, b), r) ->
     accepts (true_ratio R C 1 (fun i j _ => z2 i j) 1 1) (true_ratio R C 1 (fun i j _ => z2 i j) a b) = true ->
     r = true_ratio R C 1 (fun i j _ => z2 i j) a b) /\
  (search4 R C K z4 fuel = Some ((a, b), r) -> R mod a = 0 -> C mod b = 0 ->
     accepts (true_ratio R C K z4 1 1) (true_ratio R C K z4 a b) = true -> r = true_ratio R C K z4 a b).
Proof.
  intros R C K z2 z4 fuel a b r HR HC HK. split; intros H.
  - intros A. destruct (C56_honest_2d_partial R C z2 fuel a b r HR HC H) as (_ & _ & [E|(_ & _ & N & _)]); [exact E|congruence].
  - unfold search4 in H. rewrite block_ratio_true in H. destruct (sloop _ _ _ _ _ _ _) as [s|] eqn:L; [|discriminate]. cbn in H. injection H as H.
    pose proof (finish4_case R C K z4 s (run_good R C K z4 HR HC HK fuel s L)) as F. cbn zeta in F. rewrite H in F. cbn [fst snd] in F. intros Da Db A.
    destruct F as [(_ & _ & E)|[(-> & w & p & _ & _ & _ & N)|(-> & w & p & _ & _ & _ & N)]]; [exact E|rewrite N in A by assumption; discriminate|rewrite N in A by assumption; discriminate].
Qed.
(** Rank 4 reports a block with one side 1, or a square one with its true ratio. *)
Theorem C56_shape_4d : forall R C K z fuel a b r, 0 < R -> 0 < C -> 0 < K -> search4 R C K z fuel = Some ((a, b), r) ->
  a = 1 \/ b = 1 \/ (a = b /\ R mod a = 0 /\ C mod b = 0 /\ r = true_ratio R C K z a b).
Proof.
  intros R C K z fuel a b r HR HC HK H. unfold search4 in H. rewrite block_ratio_true in H. destruct (sloop _ _ _ _ _ _ _) as [s|] eqn:L; [|discriminate]. cbn in H. injection H as H.
  pose proof (run_good R C K z HR HC HK fuel s L) as G. unfold finish4 in H. rewrite block_ratio_true in H.
  destruct ((1 <? s_size s) && s_prev1 s && s_prev0 s && _) eqn:Sq.
  - rewrite !andb_true_iff in Sq. destruct Sq as [[[_ S1] S0] _]. injection H as <- <- <-. right; right. split; [reflexivity|]. split; [apply (g_div0 _ _ _ _ _ s G); exact S0|]. split; [apply (g_div1 _ _ _ _ _ s G); exact S1|reflexivity].
  - destruct (Rlt_dec _ _); injection H as <- <- <-; auto.
Qed.
(** Whatever goes wrong, the reported ratio errs upwards: it is at least the true fraction of zero blocks. *)
Theorem C56_never_understates : forall R C K z2 z4 fuel a b r, 0 < R -> 0 < C -> 0 < K ->
  (search2 R C z2 fuel = Some ((a, b), r) -> frac_le (true_ratio R C 1 (fun i j _ => z2 i j) a b) r) /\
  (search4 R C K z4 fuel = Some ((a, b), r) -> R mod a = 0 -> C mod b = 0 -> frac_le (true_ratio R C K z4 a b) r).
Proof.
  intros R C K z2 z4 fuel a b r HR HC HK. split; intros H.
  - destruct (C56_honest_2d_partial R C z2 fuel a b r HR HC H) as (Da & Db & [->|(La & <- & _ & ->)]); [unfold frac_le; lia|].
    destruct (mod_div R a ltac:(lia) Da) as (p & Ep). destruct (mod_div C a ltac:(lia) Db) as (q & Eq).
    replace a with (a * 1) at 1 by lia. replace a with (1 * a) at 2 by lia. apply (coarser_frac R C 1 _ a 1 1 a p q); lia.
  - unfold search4 in H. rewrite block_ratio_true in H. destruct (sloop _ _ _ _ _ _ _) as [s|] eqn:L; [|discriminate]. cbn in H. injection H as H.
    pose proof (finish4_case R C K z4 s (run_good R C K z4 HR HC HK fuel s L)) as F. cbn zeta in F. rewrite H in F. cbn [fst snd] in F. intros Da Db.
    assert (Pa : 0 < a). { destruct a; [exfalso; cbn in Da; lia|lia]. } assert (Pb : 0 < b). { destruct b; [exfalso; cbn in Db; lia|lia]. }
    destruct F as [(_ & _ & ->)|[(-> & w & p & -> & _ & -> & _)|(-> & w & p & -> & _ & -> & _)]]; [unfold frac_le; lia| |].
    + destruct (mod_div C (w * p) Pb Db) as (q & Eq). apply (coarser_frac R C K z4 1 w 1 p R q); nia.
    + destruct (mod_div R (w * p) Pa Da) as (q & Eq). apply (coarser_frac R C K z4 w 1 p 1 q C); nia.
Qed.

(** *** The counterexamples *)
(** Rank 2: two rows, 2x2 blocks in the order all-zero, one-nonzero (below), three times, then all-zero, full. *)
Definition z2 (i j : nat) : bool :=
  let m := j mod 16 in let bl := m / 2 in
  if Nat.even bl then true else if bl =? 7 then false else negb ((i =? 1) && (m mod 2 =? 1)).
Ltac dyad m := apply (fratio_dyadic _ m); [clear; vm_compute; lia|vm_compute; reflexivity|clear; lia].
Theorem C56_2d_refuted : searched 2 2064 1 (fun i j _ => z2 i j) /\
  exists r, search2 2 2064 z2 2064 = Some ((2, 2), r) /\
    fratio r = (704 / 1024)%R /\ fratio (true_ratio 2 2064 1 (fun i j _ => z2 i j) 2 2) = (512 / 1024)%R.
Proof.
  set (zz := fun i j (_ : nat) => z2 i j).
  assert (B : block_ratio 2 2064 1 zz 1 1 = (3225, 4128)) by (vm_compute; reflexivity).
  assert (B12 : block_ratio 2 2064 1 zz 1 2 = (1419, 2064)) by (vm_compute; reflexivity).
  assert (B21 : block_ratio 2 2064 1 zz 2 1 = (1419, 2064)) by (vm_compute; reflexivity).
  assert (B14 : block_ratio 2 2064 1 zz 1 4 = (387, 1032)) by (vm_compute; reflexivity).
  assert (B22 : block_ratio 2 2064 1 zz 2 2 = (516, 1032)) by (vm_compute; reflexivity).
  assert (F : fratio (3225, 4128) = (800 / 1024)%R) by dyad 800%Z.
  assert (F2 : fratio (1419, 2064) = (704 / 1024)%R) by dyad 704%Z.
  assert (F4 : fratio (387, 1032) = (384 / 1024)%R) by dyad 384%Z.
  assert (FS : fratio (516, 1032) = (512 / 1024)%R) by dyad 512%Z.
  assert (A2 : accepts (3225, 4128) (1419, 2064) = true) by (apply (accepts_yes _ _ 800 704 F F2); clear; lia).
  assert (A4 : accepts (3225, 4128) (387, 1032) = false) by (apply (accepts_no _ _ 800 384 F F4); clear; lia).
  assert (AS : accepts (3225, 4128) (516, 1032) = false) by (apply (accepts_no _ _ 800 512 F FS); clear; lia).
  split.
  - split; [clear; vm_compute; lia|]. rewrite B, F. assert (L : (fdiv_int 4 10 <= 512 / 1024)%R) by (unfold fdiv_int; rewrite <- (dyadic_rnd 512) by (clear; lia); apply rnd_le; clear; lra). clear -L; lra.
  - exists (1419, 2064). split; [|split; [exact F2|rewrite <- block_ratio_true, B22; exact FS]].
    unfold search2. fold zz. rewrite B. set (acc := accepts (3225, 4128)) in *.
    assert (S1 : sstep 2 2064 1 zz acc (sstart (3225, 4128)) = Some {| s_size := 2; s_prev0 := true; s_prev1 := true; s_r0 := (1419, 2064); s_r1 := (1419, 2064); s_last := (1419, 2064) |}).
    { unfold sstep, sstart. cbn [s_size s_prev0 s_prev1 s_r0 s_r1 s_last]. change (2 * 1) with 2. rewrite B12, B21, A2. reflexivity. }
    assert (S2 : sstep 2 2064 1 zz acc {| s_size := 2; s_prev0 := true; s_prev1 := true; s_r0 := (1419, 2064); s_r1 := (1419, 2064); s_last := (1419, 2064) |} = None).
    { unfold sstep. cbn [s_size s_prev0 s_prev1 s_r0 s_r1 s_last]. change (2 * 2) with 4. rewrite B14, A4. reflexivity. }
    rewrite (sloop_next 2 2064 1 zz acc 2063 _ _ _ S1 (sloop_stop 2 2064 1 zz acc 2062 _ S2)).
    cbn [option_map]. f_equal. unfold finish2. cbn [s_size s_prev0 s_prev1 s_r0 s_r1 s_last andb]. rewrite B22, AS. reflexivity.
Qed.
(** Rank 4, one spatial position: 8-column stripes; the zero stripes of rows 0-1 (mod 4) are the odd ones, those of
    rows 2-3 the even ones, and the first column of every stripe is zero. *)
Definition z4 (i j k : nat) : bool := Bool.eqb (Nat.even (j / 8)) (2 <=? i mod 4) || (j mod 8 =? 0).
Theorem C56_4d_refuted : searched 8 528 1 z4 /\
  exists r, search4 8 528 1 z4 528 = Some ((8, 1), r) /\
    fratio r = (576 / 1024)%R /\ fratio (true_ratio 8 528 1 z4 8 1) = (128 / 1024)%R.
Proof.
  assert (B : block_ratio 8 528 1 z4 1 1 = (2376, 4224)) by (vm_compute; reflexivity).
  assert (B12 : block_ratio 8 528 1 z4 1 2 = (1056, 2112)) by (vm_compute; reflexivity).
  assert (B21 : block_ratio 8 528 1 z4 2 1 = (1188, 2112)) by (vm_compute; reflexivity).
  assert (B14 : block_ratio 8 528 1 z4 1 4 = (528, 1056)) by (vm_compute; reflexivity).
  assert (B41 : block_ratio 8 528 1 z4 4 1 = (132, 1056)) by (vm_compute; reflexivity).
  assert (B18 : block_ratio 8 528 1 z4 1 8 = (264, 528)) by (vm_compute; reflexivity).
  assert (B116 : block_ratio 8 528 1 z4 1 16 = (0, 264)) by (vm_compute; reflexivity).
  assert (B81 : block_ratio 8 528 1 z4 8 1 = (66, 528)) by (vm_compute; reflexivity).
  assert (F : fratio (2376, 4224) = (576 / 1024)%R) by dyad 576%Z.
  assert (F12 : fratio (1056, 2112) = (512 / 1024)%R) by dyad 512%Z.
  assert (F21 : fratio (1188, 2112) = (576 / 1024)%R) by dyad 576%Z.
  assert (F14 : fratio (528, 1056) = (512 / 1024)%R) by dyad 512%Z.
  assert (F41 : fratio (132, 1056) = (128 / 1024)%R) by dyad 128%Z.
  assert (F18 : fratio (264, 528) = (512 / 1024)%R) by dyad 512%Z.
  assert (F116 : fratio (0, 264) = (0 / 1024)%R) by dyad 0%Z.
  assert (F81 : fratio (66, 528) = (128 / 1024)%R) by dyad 128%Z.
  assert (A12 : accepts (2376, 4224) (1056, 2112) = true) by (apply (accepts_yes _ _ 576 512 F F12); clear; lia).
  assert (A21 : accepts (2376, 4224) (1188, 2112) = true) by (apply (accepts_yes _ _ 576 576 F F21); clear; lia).
  assert (A14 : accepts (2376, 4224) (528, 1056) = true) by (apply (accepts_yes _ _ 576 512 F F14); clear; lia).
  assert (A41 : accepts (2376, 4224) (132, 1056) = false) by (apply (accepts_no _ _ 576 128 F F41); clear; lia).
  assert (A18 : accepts (2376, 4224) (264, 528) = true) by (apply (accepts_yes _ _ 576 512 F F18); clear; lia).
  assert (A116 : accepts (2376, 4224) (0, 264) = false) by (apply (accepts_no _ _ 576 0 F F116); clear; lia).
  split.
  - split; [clear; vm_compute; lia|]. rewrite B, F. assert (L : (fdiv_int 4 10 <= 512 / 1024)%R) by (unfold fdiv_int; rewrite <- (dyadic_rnd 512) by (clear; lia); apply rnd_le; clear; lra). clear -L; lra.
  - exists (1188, 2112). split; [|split; [exact F21|rewrite <- block_ratio_true, B81; exact F81]].
    unfold search4. rewrite B.
    set (acc := accepts (2376, 4224)) in *.
    assert (S1 : sstep 8 528 1 z4 acc (sstart (2376, 4224)) = Some {| s_size := 2; s_prev0 := true; s_prev1 := true; s_r0 := (1188, 2112); s_r1 := (1056, 2112); s_last := (1188, 2112) |}).
    { unfold sstep, sstart. cbn [s_size s_prev0 s_prev1 s_r0 s_r1 s_last]. change (2 * 1) with 2. rewrite B12, B21, A12, A21. reflexivity. }
    assert (S2 : sstep 8 528 1 z4 acc {| s_size := 2; s_prev0 := true; s_prev1 := true; s_r0 := (1188, 2112); s_r1 := (1056, 2112); s_last := (1188, 2112) |}
      = Some {| s_size := 4; s_prev0 := false; s_prev1 := true; s_r0 := (1188, 2112); s_r1 := (528, 1056); s_last := (528, 1056) |}).
    { unfold sstep. cbn [s_size s_prev0 s_prev1 s_r0 s_r1 s_last]. change (2 * 2) with 4. rewrite B14, B41, A14, A41. reflexivity. }
    assert (S3 : sstep 8 528 1 z4 acc {| s_size := 4; s_prev0 := false; s_prev1 := true; s_r0 := (1188, 2112); s_r1 := (528, 1056); s_last := (528, 1056) |}
      = Some {| s_size := 8; s_prev0 := false; s_prev1 := true; s_r0 := (1188, 2112); s_r1 := (264, 528); s_last := (264, 528) |}).
    { unfold sstep. cbn [s_size s_prev0 s_prev1 s_r0 s_r1 s_last andb]. change (2 * 4) with 8. rewrite B18, A18. reflexivity. }
    assert (S4 : sstep 8 528 1 z4 acc {| s_size := 8; s_prev0 := false; s_prev1 := true; s_r0 := (1188, 2112); s_r1 := (264, 528); s_last := (264, 528) |} = None).
    { unfold sstep. cbn [s_size s_prev0 s_prev1 s_r0 s_r1 s_last andb]. change (2 * 8) with 16. rewrite B116, A116. reflexivity. }
    rewrite (sloop_next 8 528 1 z4 acc 527 _ _ _ S1 (sloop_next 8 528 1 z4 acc 526 _ _ _ S2 (sloop_next 8 528 1 z4 acc 525 _ _ _ S3 (sloop_stop 8 528 1 z4 acc 524 _ S4)))). cbn [option_map]. f_equal. unfold finish4. cbn [s_size s_prev0 s_prev1 s_r0 s_r1 s_last andb]. rewrite F21, F18. destruct (Rlt_dec _ _) as [|N]; [reflexivity|]. exfalso. apply N. clear; lra.
Qed.
(** Rank 4 with two rows: the block reported need not even tile the tensor (8 rows out of 2). *)
Definition z4b (i j k : nat) : bool := Nat.even (j / 8) || (j mod 8 =? 0).
Theorem C56_4d_tiling_refuted : searched 2 2064 1 z4b /\
  exists r, search4 2 2064 1 z4b 2064 = Some ((8, 1), r) /\ fratio r = (576 / 1024)%R /\ 2 mod 8 <> 0.
Proof.
  assert (B : block_ratio 2 2064 1 z4b 1 1 = (2322, 4128)) by (vm_compute; reflexivity).
  assert (B12 : block_ratio 2 2064 1 z4b 1 2 = (1032, 2064)) by (vm_compute; reflexivity).
  assert (B21 : block_ratio 2 2064 1 z4b 2 1 = (1161, 2064)) by (vm_compute; reflexivity).
  assert (B22 : block_ratio 2 2064 1 z4b 2 2 = (516, 1032)) by (vm_compute; reflexivity).
  assert (B14 : block_ratio 2 2064 1 z4b 1 4 = (516, 1032)) by (vm_compute; reflexivity).
  assert (B18 : block_ratio 2 2064 1 z4b 1 8 = (258, 516)) by (vm_compute; reflexivity).
  assert (B116 : block_ratio 2 2064 1 z4b 1 16 = (0, 258)) by (vm_compute; reflexivity).
  assert (F : fratio (2322, 4128) = (576 / 1024)%R) by dyad 576%Z.
  assert (F12 : fratio (1032, 2064) = (512 / 1024)%R) by dyad 512%Z.
  assert (F21 : fratio (1161, 2064) = (576 / 1024)%R) by dyad 576%Z.
  assert (F14 : fratio (516, 1032) = (512 / 1024)%R) by dyad 512%Z.
  assert (F18 : fratio (258, 516) = (512 / 1024)%R) by dyad 512%Z.
  assert (F116 : fratio (0, 258) = (0 / 1024)%R) by dyad 0%Z.
  assert (A12 : accepts (2322, 4128) (1032, 2064) = true) by (apply (accepts_yes _ _ 576 512 F F12); clear; lia).
  assert (A21 : accepts (2322, 4128) (1161, 2064) = true) by (apply (accepts_yes _ _ 576 576 F F21); clear; lia).
  assert (A14 : accepts (2322, 4128) (516, 1032) = true) by (apply (accepts_yes _ _ 576 512 F F14); clear; lia).
  assert (A18 : accepts (2322, 4128) (258, 516) = true) by (apply (accepts_yes _ _ 576 512 F F18); clear; lia).
  assert (A116 : accepts (2322, 4128) (0, 258) = false) by (apply (accepts_no _ _ 576 0 F F116); clear; lia).
  split.
  - split; [clear; vm_compute; lia|]. rewrite B, F. assert (L : (fdiv_int 4 10 <= 512 / 1024)%R) by (unfold fdiv_int; rewrite <- (dyadic_rnd 512) by (clear; lia); apply rnd_le; clear; lra). clear -L; lra.
  - exists (1161, 2064). split; [|split; [exact F21|vm_compute; discriminate]].
    unfold search4. rewrite B. set (acc := accepts (2322, 4128)) in *.
    assert (S1 : sstep 2 2064 1 z4b acc (sstart (2322, 4128)) = Some {| s_size := 2; s_prev0 := true; s_prev1 := true; s_r0 := (1161, 2064); s_r1 := (1032, 2064); s_last := (1161, 2064) |}).
    { unfold sstep, sstart. cbn [s_size s_prev0 s_prev1 s_r0 s_r1 s_last]. change (2 * 1) with 2. rewrite B12, B21, A12, A21. reflexivity. }
    assert (S2 : sstep 2 2064 1 z4b acc {| s_size := 2; s_prev0 := true; s_prev1 := true; s_r0 := (1161, 2064); s_r1 := (1032, 2064); s_last := (1161, 2064) |}
      = Some {| s_size := 4; s_prev0 := false; s_prev1 := true; s_r0 := (1161, 2064); s_r1 := (516, 1032); s_last := (516, 1032) |}).
    { unfold sstep. cbn [s_size s_prev0 s_prev1 s_r0 s_r1 s_last]. change (2 * 2) with 4. rewrite B14, A14. reflexivity. }
    assert (S3 : sstep 2 2064 1 z4b acc {| s_size := 4; s_prev0 := false; s_prev1 := true; s_r0 := (1161, 2064); s_r1 := (516, 1032); s_last := (516, 1032) |}
      = Some {| s_size := 8; s_prev0 := false; s_prev1 := true; s_r0 := (1161, 2064); s_r1 := (258, 516); s_last := (258, 516) |}).
    { unfold sstep. cbn [s_size s_prev0 s_prev1 s_r0 s_r1 s_last andb]. change (2 * 4) with 8. rewrite B18, A18. reflexivity. }
    assert (S4 : sstep 2 2064 1 z4b acc {| s_size := 8; s_prev0 := false; s_prev1 := true; s_r0 := (1161, 2064); s_r1 := (258, 516); s_last := (258, 516) |} = None).
    { unfold sstep. cbn [s_size s_prev0 s_prev1 s_r0 s_r1 s_last andb]. change (2 * 8) with 16. rewrite B116, A116. reflexivity. }
    rewrite (sloop_next 2 2064 1 z4b acc 2063 _ _ _ S1 (sloop_next 2 2064 1 z4b acc 2062 _ _ _ S2 (sloop_next 2 2064 1 z4b acc 2061 _ _ _ S3 (sloop_stop 2 2064 1 z4b acc 2060 _ S4)))). cbn [option_map]. f_equal. unfold finish4. cbn [s_size s_prev0 s_prev1 s_r0 s_r1 s_last andb]. rewrite F21, F18. destruct (Rlt_dec _ _) as [|N]; [reflexivity|]. exfalso. apply N. clear; lra.
Qed.
