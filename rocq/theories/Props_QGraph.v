(** Properties C81, C82: quantizing the weights of a graph. *)
From Coq Require Import Reals Lra.
From Flocq Require Import Core IEEE754.Binary IEEE754.Bits.
From Verif Require Import PyBase PyBaseFacts GraphModel FloatPy ShapeModel QuantModel QuantProofs QuantTop Props_Quant QGraphModel QGraphProofs QGraphValues.
Open Scope Z_scope.

(** ** C81 *)
(** the graph: the one reader takes the codes, scales (and zero points) in the place of the weight, nothing else changes *)
Theorem C81_rewired_partial : forall g t n nd rows block ty bits Q ps,
  weight_of g t n nd rows -> dget (q_consumed g) (t ++ "_ot_q") = None ->
  quantize (oriented nd rows) block ty bits = SOk (Q, ps) ->
  exists g', graph_quantize g t block ty bits = SOk g' /\
    (exists pre post, qn_in nd = pre ++ t :: post /\ ~ In t pre /\
       dget (q_nodes g') n = Some (mkQN (qn_op nd) (pre ++ news t ty ++ post) (qn_transB nd) (Some (block, ty, bits)))) /\
    (forall m, m <> n -> dget (q_nodes g') m = dget (q_nodes g) m) /\
    (NoDup (dkeys (q_tensors g)) -> dget (q_tensors g') t = None) /\
    (forall x, In x (news t ty) -> exists d, dget (q_tensors g') x = Some d) /\
    (forall x, x <> t -> ~ In x (news t ty) -> dget (q_tensors g') x = dget (q_tensors g) x) /\
    (exists a b, q_initials g = a ++ t :: b /\ ~ In t a /\ q_initials g' = a ++ b ++ news t ty).
Proof.
  intros g t n nd rows block ty bits Q ps W FR E. destruct (quantize_step g t n nd rows block ty bits Q ps W FR E) as (g' & EG & D).
  exists g'. split; [exact EG|]. destruct D as [D1 D2 D3 D4 D5 D6 D7 D8 D9 D10]. split; [exact D1|]. split; [exact D2|]. split; [exact D6|].
  split; [|split; [exact D7|exact D8]]. intros x X. destruct ty; simpl in X; intuition subst; eauto.
Qed.
(** names that are not weights, names of an earlier call and arrays that are not two-dimensional floats are left alone *)
Theorem C81_untouched : forall g t block ty bits d, dget (q_tensors g) t = Some d ->
  ~ In t (q_initials g) \/ suffixed t = true \/ d = TOther -> graph_quantize g t block ty bits = SOk g.
Proof.
  intros g t block ty bits d D H. destruct (quantize_skip g t block ty bits) as [E|E]; [|exact E|congruence].
  destruct H as [H|[H|H]]; subst; auto.
Qed.

(** the values: every weight is stored where its reader expects it, and is decoded within half a step (plus rounding) *)
Theorem C81_sym8_values : forall g t n nd rows r c block,
  weight_of g t n nd rows -> dget (q_consumed g) (t ++ "_ot_q") = None -> matrix rows r c -> layout block ->
  (forall i j w, cell rows i j = Some w -> fin w = true) ->
  (forall a b w, cell (oriented nd rows) a b = Some w -> exists v, In v (group (oriented nd rows) block a b) /\ (bpow radix2 (-119) <= Rabs (val v))%R) ->
  exists g' codes scales, graph_quantize g t block Sym 8 = SOk g' /\
    dget (q_tensors g') (t ++ "_ot_q") = Some (TCodes codes) /\ dget (q_tensors g') (t ++ "_ot_s") = Some (TScale scales) /\
    forall i j w, cell rows i j = Some w -> exists q s,
      cell codes (fst (place nd i j)) (snd (place nd i j)) = Some q /\ at_parr scales block (fst (place nd i j)) (snd (place nd i j)) = Some s /\
      -127 <= q <= 127 /\ fin s = true /\ (0 < val s)%R /\ (Rabs (IZR q * val s - val w) <= val s * (/ 2 + / 131072))%R.
Proof.
  intros g t n nd rows r c block W FR M LB F BIG. destruct (oriented_matrix nd rows r c M) as (r' & c' & MO).
  destruct (C35_symmetric_error_partial (oriented nd rows) block 8 LB ltac:(lia) (matrix_shaped _ _ _ MO)) as (Q & ps & E & LQ & K).
  { intros a b w C. destruct (cell_oriented nd rows r c a b w M C) as (i & j & C'). eauto. }
  { exact BIG. }
  destruct (quantize_step g t n nd rows block Sym 8 Q ps W FR E) as (g' & EG & D).
  exists g'. eexists. eexists. split; [exact EG|]. split; [exact (qd_codes _ _ _ _ _ _ _ _ _ _ D)|]. split; [exact (qd_scale _ _ _ _ _ _ _ _ _ _ D)|].
  intros i j w C. pose proof (oriented_cell nd rows r c i j w M C) as C'.
  destruct (K _ _ w C') as (q & s & CQ & P & Fs & S0 & AQ & D'). change (2 ^ (8 - 1) - 1) with 127 in AQ. exists q, s.
  split; [|split; [|split; [lia|split; [exact Fs|split; [exact S0|]]]]].
  - erewrite cell_map; [|exact CQ]. f_equal. unfold to_int8. rewrite Z.mod_small by lia. lia.
  - erewrite at_parr_map; [|exact P]. reflexivity.
  - eapply Rle_trans; [exact D'|]. apply Rmult_le_compat_l; [lra|]. apply Rplus_le_compat_l. change (2 ^ (8 - 1)) with 128. change (2 ^ 24) with 16777216. lra.
Qed.
Theorem C81_asym8_values : forall g t n nd rows r c block,
  weight_of g t n nd rows -> dget (q_consumed g) (t ++ "_ot_q") = None -> matrix rows r c -> layout block ->
  (forall i j w, cell rows i j = Some w -> fin w = true) ->
  (forall a b w, cell (oriented nd rows) a b = Some w -> exists v, In v (group (oriented nd rows) block a b) /\ (bpow radix2 (-117) <= Rabs (val v))%R) ->
  (forall a b w u v, cell (oriented nd rows) a b = Some w -> In u (group (oriented nd rows) block a b) -> In v (group (oriented nd rows) block a b) ->
     (Rmax (val u) 0 - Rmin (val v) 0 <= bpow radix2 127)%R) ->
  exists g' codes scales zeros, graph_quantize g t block Asym 8 = SOk g' /\
    dget (q_tensors g') (t ++ "_ot_q") = Some (TCodes codes) /\ dget (q_tensors g') (t ++ "_ot_s") = Some (TScale scales) /\
    dget (q_tensors g') (t ++ "_ot_z") = Some (TZero zeros) /\
    forall i j w, cell rows i j = Some w -> exists q s z,
      cell codes (fst (place nd i j)) (snd (place nd i j)) = Some q /\ at_parr scales block (fst (place nd i j)) (snd (place nd i j)) = Some s /\
      at_parr zeros block (fst (place nd i j)) (snd (place nd i j)) = Some z /\
      0 <= q <= 255 /\ 0 <= z <= 255 /\ (Rabs (IZR (q - z) * val s - val w) < val s)%R.
Proof.
  intros g t n nd rows r c block W FR M LB F BIG RNG. destruct (oriented_matrix nd rows r c M) as (r' & c' & MO).
  destruct (C36_eight_bits (oriented nd rows) block LB (matrix_shaped _ _ _ MO)) as (Q & ps & E & K).
  { intros a b w C. destruct (cell_oriented nd rows r c a b w M C) as (i & j & C'). eauto. }
  { exact BIG. } { exact RNG. }
  destruct (quantize_step g t n nd rows block Asym 8 Q ps W FR E) as (g' & EG & D).
  exists g'. eexists. eexists. eexists. split; [exact EG|]. split; [exact (qd_codes _ _ _ _ _ _ _ _ _ _ D)|]. split; [exact (qd_scale _ _ _ _ _ _ _ _ _ _ D)|].
  split; [exact (qd_zero _ _ _ _ _ _ _ _ _ _ D eq_refl)|].
  intros i j w C. pose proof (oriented_cell nd rows r c i j w M C) as C'.
  destruct (K _ _ w C') as (q & s & z & CQ & P & QB & ZB & D'). exists q, s, z.
  split; [|split; [|split; [|split; [exact QB|split; [exact ZB|exact D']]]]].
  - erewrite cell_map; [|exact CQ]. f_equal. unfold to_uint8. apply Z.mod_small. lia.
  - erewrite at_parr_map; [|exact P]. reflexivity.
  - erewrite at_parr_map; [|exact P]. cbn [snd]. f_equal. unfold to_uint8. apply Z.mod_small. lia.
Qed.
(** four bits, symmetric: two codes per byte and a float16 scale; each group needs a weight of at least 2^-11 and none above 65504 *)
Theorem C81_sym4_values : forall g t n nd rows r c block r' c',
  weight_of g t n nd rows -> dget (q_consumed g) (t ++ "_ot_q") = None -> matrix rows r c -> layout block ->
  matrix (oriented nd rows) r' c' -> Nat.Even c' ->
  (forall i j w, cell rows i j = Some w -> fin w = true /\ (Rabs (val w) <= 65504)%R) ->
  (forall a b w, cell (oriented nd rows) a b = Some w -> exists v, In v (group (oriented nd rows) block a b) /\ (bpow radix2 (-11) <= Rabs (val v))%R) ->
  exists g' bytes scales, graph_quantize g t block Sym 4 = SOk g' /\
    dget (q_tensors g') (t ++ "_ot_q") = Some (TCodes bytes) /\ dget (q_tensors g') (t ++ "_ot_s") = Some (TScale16 scales) /\
    (forall row x, In row bytes -> In x row -> 0 <= x <= 255) /\
    forall i j w, cell rows i j = Some w -> exists q s s16,
      cell (map unpack_row bytes) (fst (place nd i j)) (snd (place nd i j)) = Some q /\
      at_parr scales block (fst (place nd i j)) (snd (place nd i j)) = Some s16 /\
      -7 <= q <= 7 /\ fin16 s16 = true /\ (0 < s)%R /\ (Rabs (val16 s16 - s) <= s / 2048)%R /\
      (Rabs (IZR q * val16 s16 - val w) <= s * (/ 2 + 1 / 256))%R.
Proof.
  intros g t n nd rows r c block r' c' W FR M LB MO EV F BIG.
  assert (FA : finite_array (oriented nd rows)). { intros a b w C. destruct (cell_oriented nd rows r c a b w M C) as (i & j & C'). apply (F i j w C'). }
  assert (BD : forall a b w, cell (oriented nd rows) a b = Some w -> forall v, In v (group (oriented nd rows) block a b) -> (Rabs (val v) <= 65504)%R).
  { intros a b w C v V.
    assert (X : exists a' b', cell (oriented nd rows) a' b' = Some v).
    { unfold group in V. destruct (Z.eqb_spec block 0).
      - apply in_concat in V. destruct V as (x & R & V). apply In_nth_error in R. destruct R as (p & R). apply In_nth_error in V. destruct V as (q & V).
        exists p, q. unfold cell. rewrite R. exact V.
      - assert (V' : In v (row_of (oriented nd rows) a)).
        { destruct (Z.eqb_spec block (-1)); [exact V|]. cbv zeta in V. revert V. generalize (Z.to_nat block) (b / Z.to_nat block * Z.to_nat block)%nat. intros m k V.
          assert (V1 : In v (skipn k (row_of (oriented nd rows) a))) by (rewrite <- (firstn_skipn m); apply in_or_app; left; exact V).
          rewrite <- (firstn_skipn k). apply in_or_app. right. exact V1. }
        unfold row_of in V'. destruct (nth_error (oriented nd rows) a) as [x|] eqn:R; [|contradiction].
        apply In_nth_error in V'. destruct V' as (q & V'). exists a, q. unfold cell. rewrite R. exact V'. }
    destruct X as (a' & b' & X). destruct (cell_oriented nd rows r c a' b' v M X) as (i & j & C'). apply (F i j v C'). }
  destruct (quantize_generic Sym 4 (fun w q p => snd p = 0 /\ fin (fst p) = true /\ (0 < val (fst p))%R /\ (bpow radix2 (-14) <= val (fst p) <= 65504)%R /\ Z.abs q <= 7 /\
      (Rabs (IZR q * val (fst p) - val w) <= val (fst p) * (/ 2 + / 2097152))%R) (oriented nd rows) block LB (matrix_shaped _ _ _ MO)) as (Q & ps & E & LQ & K).
  { intros a b w C. destruct (group_finite _ block a b w LB FA C) as [FG NG]. destruct (BIG a b w C) as (v0 & V0 & BV0).
    destruct (sym_core (group (oriented nd rows) block a b) 4 ltac:(lia) FG NG) as (mm & s & MM & P & Fs & S0 & V).
    { exists v0. split; [exact V0|]. eapply Rle_trans; [|exact BV0]. apply bpow_le. lia. }
    exists mm, (s, 0). split; [exact MM|]. split; [exact P|]. intros v Iv. destruct (V v Iv) as (q & Qv & A & D).
    exists q. cbn [fst snd]. change (2 ^ (4 - 1) - 1) with 7 in *. change (2 ^ (4 - 1)) with 8 in *.
    assert (UP : (val s <= 65504)%R).
    { eapply (sym_scale_le _ 4 mm s ltac:(lia) FG NG MM P 65504%R).
      - apply Rle_trans with (bpow radix2 16); [simpl; lra|apply bpow_le; lia].
      - apply (BD a b w C). }
    assert (LO : (bpow radix2 (-14) <= val s)%R).
    { destruct (V v0 V0) as (q0 & _ & A0 & D0). unfold dequant in D0. rewrite Z.sub_0_r in D0.
      assert (Rabs (IZR q0 * val s) <= 7 * val s)%R.
      { rewrite Rabs_mult, (Rabs_pos_eq (val s)) by lra. apply Rmult_le_compat_r; [lra|]. rewrite <- abs_IZR. apply IZR_le. exact A0. }
      assert (Rabs (val v0) <= 7 * val s + val s * (/ 2 + 8 * u24))%R.
      { replace (val v0) with (IZR q0 * val s - (IZR q0 * val s - val v0))%R by ring. eapply Rle_trans; [apply Rabs_triang|]. rewrite Rabs_Ropp. lra. }
      assert (B14 : bpow radix2 (-11) = (8 * bpow radix2 (-14))%R) by (change 8%R with (bpow radix2 3); rewrite <- bpow_plus; reflexivity).
      unfold u24 in *. rewrite B14 in BV0. lra. }
    split; [exact Qv|]. split; [reflexivity|]. split; [exact Fs|]. split; [exact S0|]. split; [split; assumption|]. split; [exact A|].
    unfold dequant in D. rewrite Z.sub_0_r in D. eapply Rle_trans; [exact D|]. apply Rmult_le_compat_l; [lra|]. unfold u24. lra. }
  destruct (quantize_step g t n nd rows block Sym 4 Q ps W FR E) as (g' & EG & D).
  destruct MO as (R0 & C0 & LR & LC).
  assert (ROWS : forall row, In row Q -> Nat.Even (length row) /\ forall v, In v row -> signed4 v).
  { intros row IR. apply In_nth_error in IR. destruct IR as (a & IR).
    assert (LX : exists x, nth_error (oriented nd rows) a = Some x /\ length row = length x).
    { pose proof (f_equal (fun l => nth_error l a) LQ) as X. cbv beta in X. rewrite !nth_error_map, IR in X. simpl in X.
      destruct (nth_error (oriented nd rows) a) as [x|] eqn:NX; [|discriminate]. exists x. split; [reflexivity|]. simpl in X. congruence. }
    destruct LX as (x & NX & LX). assert (length x = c') by (apply LC; eapply nth_error_In; eauto). split; [rewrite LX, H; exact EV|].
    intros v V. apply In_nth_error in V. destruct V as (b & V).
    destruct (nth_error x b) as [w|] eqn:XB; [|apply nth_error_None in XB; assert (b < length row)%nat by (apply nth_error_Some; congruence); lia].
    destruct (K a b w) as (q & p & CQ & _ & _ & _ & _ & _ & AQ & _); [unfold cell; rewrite NX; exact XB|].
    unfold cell in CQ. rewrite IR, V in CQ. injection CQ as <-. unfold signed4. lia. }
  exists g', (pack_4bits Q). eexists. split; [exact EG|]. split; [exact (qd_codes _ _ _ _ _ _ _ _ _ _ D)|]. split; [exact (qd_scale _ _ _ _ _ _ _ _ _ _ D)|].
  split; [exact (proj2 (C37_pack_signed_partial Q ROWS))|].
  intros i j w C. pose proof (oriented_cell nd rows r c i j w M C) as C'.
  destruct (K _ _ w C') as (q & [s z] & CQ & P & Z0 & Fs & S0 & RG & AQ & D'). cbn [fst snd] in *.
  destruct (to_f16_val s Fs RG) as [F16 V16].
  exists q, (val s), (to_f16 s). split; [apply packed_cell; [exact ROWS|exact CQ]|]. split; [erewrite at_parr_map; [|exact P]; reflexivity|].
  split; [lia|]. split; [exact F16|]. split; [exact S0|]. split; [lra|].
  replace (IZR q * val16 (to_f16 s) - val w)%R with ((IZR q * val s - val w) + IZR q * (val16 (to_f16 s) - val s))%R by ring.
  eapply Rle_trans; [apply Rabs_triang|]. rewrite Rabs_mult.
  assert (Rabs (IZR q) <= 7)%R by (rewrite <- abs_IZR; apply IZR_le; exact AQ).
  assert (Rabs (IZR q) * Rabs (val16 (to_f16 s) - val s) <= 7 * (val s * / 2048))%R.
  { apply Rmult_le_compat; try apply Rabs_pos; assumption. }
  lra.
Qed.
(** a graph on which the hypotheses hold: a 2 x 3 weight of a MatMul, stored transposed *)
Definition demo_graph : qgraph :=
  mkQG [("mm", mkQN "MatMul" ["x"; "w"] 0 None)]%string [("w", TFloat demo); ("x", TOther)]%string
       [("x", RList ["mm"]); ("w", RList ["mm"])]%string ["w"]%string.
Definition demo_node : qnode := mkQN "MatMul" ["x"; "w"]%string 0 None.
Example C81_case : weight_of demo_graph "w" "mm" demo_node demo /\ dget (q_consumed demo_graph) ("w" ++ "_ot_q") = None /\ matrix demo 2 3 /\
  turned demo_node = true /\ oriented demo_node demo = [[one; mtwo]; [mtwo; one]; [zero; one]].
Proof.
  split; [constructor; try reflexivity; simpl; auto|]. split; [reflexivity|]. split; [|split; reflexivity].
  repeat split; auto. intros x [<-|[<-|[]]]; reflexivity.
Qed.
Example C81_case_groups : forall a b w, cell (oriented demo_node demo) a b = Some w ->
  exists v, In v (group (oriented demo_node demo) (-1) a b) /\ (bpow radix2 (-11) <= Rabs (val v))%R.
Proof.
  assert (B1 : (bpow radix2 (-11) <= 1)%R) by (change 1%R with (bpow radix2 0); apply bpow_le; lia).
  intros [|[|[|a]]] b w E; try (destruct a; discriminate); exists one; (split; [cbn; auto|]; rewrite one_val, Rabs_R1; exact B1).
Qed.

(** what is missing.  A weight that two nodes read (tied embeddings), or that one node reads twice, cannot be quantized:
    [consumedby] of the new names holds a bare string, and the second reader is an AttributeError *)
Theorem C81_shared_weight_refuted : forall g t n1 n2 rest rows block ty bits,
  In t (q_initials g) -> suffixed t = false -> dget (q_tensors g) t = Some (TFloat rows) ->
  dget (q_consumed g) t = Some (RList (n1 :: n2 :: rest)) -> dget (q_consumed g) (t ++ "_ot_q") = None ->
  forall g', graph_quantize g t block ty bits <> SOk g'.
Proof. exact quantize_shared. Qed.
Example C81_shared_case :
  graph_quantize (mkQG [("a", mkQN "MatMul" ["x"; "w"] 0 None); ("b", mkQN "MatMul" ["y"; "w"] 0 None)]%string [("w", TFloat demo)]%string
    [("x", RList ["a"]); ("w", RList ["a"; "b"]); ("y", RList ["b"])]%string ["w"]%string) "w" 0 Sym 8 = SRaise AttributeErr.
Proof. vmrefl. Qed.
(** a weight that nothing reads any more (its reader was removed) is a KeyError *)
Theorem C81_unread_weight_refuted : forall g t rows block ty bits,
  In t (q_initials g) -> suffixed t = false -> dget (q_tensors g) t = Some (TFloat rows) -> dget (q_consumed g) t = None ->
  graph_quantize g t block ty bits = SRaise KeyErr.
Proof.
  intros g t rows block ty bits I S D R. unfold graph_quantize. rewrite (proj2 (memb_In _ _) I). cbn [negb]. rewrite S, D, R. reflexivity.
Qed.
(** afterwards the readers of the new tensors are recorded as a string, not as a list of nodes, and so are the readers
    of a zero-point tensor that does not exist *)
Theorem C81_readers_refuted : forall g t n nd rows block ty bits Q ps,
  weight_of g t n nd rows -> dget (q_consumed g) (t ++ "_ot_q") = None -> quantize (oriented nd rows) block ty bits = SOk (Q, ps) ->
  exists g', graph_quantize g t block ty bits = SOk g' /\
    forall x, In x [(t ++ "_ot_q")%string; (t ++ "_ot_s")%string; (t ++ "_ot_z")%string] -> dget (q_consumed g') x = Some (RName n).
Proof.
  intros g t n nd rows block ty bits Q ps W FR E. destruct (quantize_step g t n nd rows block ty bits Q ps W FR E) as (g' & EG & D).
  exists g'. split; [exact EG|]. exact (qd_newreaders _ _ _ _ _ _ _ _ _ _ D).
Qed.
(** four bits: weights of magnitude 2^-23 get the scale 0, so that every weight of the group is decoded as 0 *)
Definition tiny : f32 := lit false 8388608 (-46).
Definition mtiny : f32 := lit true 8388608 (-46).
Definition tiny_graph : qgraph := mkQG [("mm", mkQN "MatMul" ["x"; "w"] 0 None)]%string [("w", TFloat [[tiny; tiny]; [mtiny; tiny]])]%string
    [("x", RList ["mm"]); ("w", RList ["mm"])]%string ["w"]%string.
Definition tiny_result : qgraph := match graph_quantize tiny_graph "w" (-1) Sym 4 with SOk g => g | SRaise _ => tiny_graph end.
Theorem C81_small_weights_refuted : exists g' codes,
  graph_quantize tiny_graph "w" (-1) Sym 4 = SOk g' /\
  dget (q_tensors g') "w_ot_q" = Some (TCodes codes) /\
  dget (q_tensors g') "w_ot_s" = Some (TScale16 (ARow [B754_zero 11 16 false; B754_zero 11 16 false])).
Proof. exists tiny_result, [[151]; [119]]. split; [vmrefl|]. split; vmrefl. Qed.

(** ** C82 *)
(** the loop of the examples, [for key in g.initials: graph_quantize(g, key)], ends, and quantizes exactly the weights in
    [reached]: after each quantized weight the next one in the list is passed over and stays as it was *)
Theorem C82_loop : forall g block ty bits,
  NoDup (q_initials g) -> NoDup (dkeys (q_tensors g)) ->
  (forall t, In t (q_initials g) -> suffixed t = false /\ (dget (q_tensors g) t = Some TOther \/ ready g block ty bits t)) ->
  exists g' k, (forall fuel, (k <= fuel)%nat -> quantize_loop fuel 0 g block ty bits = Some (SOk g')) /\
    (forall t, In t (reached (is_float g) (q_initials g)) -> dget (q_tensors g') t = None /\ exists q, dget (q_tensors g') (t ++ "_ot_q") = Some (TCodes q)) /\
    (forall t, In t (q_initials g) -> ~ In t (reached (is_float g) (q_initials g)) -> dget (q_tensors g') t = dget (q_tensors g) t).
Proof.
  intros g block ty bits ND NDT R.
  destruct (loop_result block ty bits (length (q_initials g)) g 0 (q_initials g) (le_n _)) as (g' & (k & K) & [D L]).
  { constructor; auto. exists [], []. rewrite app_nil_r. repeat split; auto; intros x []. }
  exists g', k. split; [exact K|]. split; [exact D|]. intros t I N. apply L. intros u U. split; [intros ->; contradiction|].
  intros X. destruct (news_suf _ _ _ X) as (s & Ss & ->). destruct (R _ I) as [S _]. rewrite app_suffixed in S by auto. discriminate.
Qed.
(** when no two float weights are neighbours in the list, all are quantized *)
Fixpoint spaced (flt : string -> bool) (l : list string) : Prop :=
  match l with
  | [] => True
  | a :: r => match r with [] => True | b :: _ => (flt a = true -> flt b = false) end /\ spaced flt r
  end.
Theorem C82_spaced_weights_partial : forall flt l, spaced flt l -> forall t, In t l -> flt t = true -> In t (reached flt l).
Proof.
  intros flt. assert (H : forall m l, (length l <= m)%nat -> spaced flt l -> forall t, In t l -> flt t = true -> In t (reached flt l)).
  { induction m as [|m IH]; intros l L S t I F.
    - destruct l; [destruct I|simpl in L; lia].
    - destruct l as [|a [|b r]]; [destruct I| |].
      + destruct I as [->|[]]. simpl. rewrite F. simpl; auto.
      + cbn [spaced] in S. destruct S as [S1 S2]. cbn [reached]. destruct (flt a) eqn:FA.
        * destruct I as [->|[->|I]]; [simpl; auto|rewrite S1 in F; [discriminate|reflexivity]|]. right. apply IH; auto; [simpl in L; lia|].
          cbn [spaced] in S2. apply S2.
        * destruct I as [->|I]; [congruence|]. apply (IH (b :: r)); auto. simpl in L |- *. lia. }
  intros l S t. apply (H (length l)); auto.
Qed.
(** what is missing: of two neighbouring weights the second keeps its float values *)
Definition two_weights : qgraph :=
  mkQG [("a", mkQN "MatMul" ["x"; "w1"] 0 None); ("b", mkQN "MatMul" ["y"; "w2"] 0 None)]%string [("w1", TFloat demo); ("w2", TFloat demo)]%string
    [("x", RList ["a"]); ("w1", RList ["a"]); ("y", RList ["b"]); ("w2", RList ["b"])]%string ["w1"; "w2"]%string.
Lemma two_ready : forall t, In t (q_initials two_weights) -> suffixed t = false /\ (dget (q_tensors two_weights) t = Some TOther \/ ready two_weights (-1) Sym 8 t).
Proof.
  assert (E : exists Qp, quantize (oriented demo_node demo) (-1) Sym 8 = SOk Qp).
  { destruct (C35_symmetric_error_partial (oriented demo_node demo) (-1) 8) as (Q & ps & E & _); eauto; try lia.
    - right. left. reflexivity.
    - split; [discriminate|]. intros r [<-|[<-|[<-|[]]]]; discriminate.
    - intros [|[|[|a]]] b w E; try (destruct a; discriminate); destruct b as [|[|b]]; try (destruct b; discriminate); cbn in E; injection E as <-; reflexivity.
    - intros a b w C. destruct (C81_case_groups a b w C) as (v & V & B). exists v. split; [exact V|]. eapply Rle_trans; [|exact B]. apply bpow_le. lia. }
  destruct E as ([Q ps] & E).
  intros t [<-|[<-|[]]]; (split; [reflexivity|right; split; [reflexivity|]]).
  - exists "a"%string, (mkQN "MatMul" ["x"; "w1"]%string 0 None), demo, Q, ps. repeat split; try reflexivity; [simpl; auto|exact E].
  - exists "b"%string, (mkQN "MatMul" ["y"; "w2"]%string 0 None), demo, Q, ps. repeat split; try reflexivity; [simpl; auto|exact E].
Qed.
Theorem C82_neighbours_refuted : exists g' k, (forall fuel, (k <= fuel)%nat -> quantize_loop fuel 0 two_weights (-1) Sym 8 = Some (SOk g')) /\
  dget (q_tensors g') "w1" = None /\ dget (q_tensors g') "w2" = Some (TFloat demo).
Proof.
  destruct (C82_loop two_weights (-1) Sym 8) as (g' & k & K & D & R).
  - repeat constructor; simpl; intuition discriminate.
  - repeat constructor; simpl; intuition discriminate.
  - exact two_ready.
  - exists g', k. split; [exact K|]. split; [apply D; simpl; auto|]. rewrite R; [reflexivity|simpl; auto|]. cbn. intros [X|[]]. discriminate.
Qed.
(** in general: with only float weights, every second one is left *)
Theorem C82_every_second_refuted : forall flt l, (forall t, In t l -> flt t = true) -> forall i t, nth_error l i = Some t -> NoDup l ->
  (In t (reached flt l) <-> Nat.Even i).
Proof.
  intros flt. assert (H : forall m l, (length l <= m)%nat -> (forall t, In t l -> flt t = true) -> forall i t, nth_error l i = Some t -> NoDup l -> (In t (reached flt l) <-> Nat.Even i)).
  { induction m as [|m IH]; intros l L F i t N ND.
    - destruct l; [destruct i; discriminate|simpl in L; lia].
    - destruct l as [|a [|b r]]; [destruct i; discriminate| |]; cbn [reached]; rewrite (F a) by (simpl; auto).
      + destruct i as [|[|i]]; try discriminate. injection N as ->. split; [intros _; exists 0%nat; reflexivity|simpl; auto].
      + inversion ND as [|? ? NA ND1]. subst. inversion ND1 as [|? ? NB ND2]. subst.
        destruct i as [|[|i]]; simpl in N.
        * injection N as ->. split; [intros _; exists 0%nat; reflexivity|simpl; auto].
        * injection N as ->. split; [|intros (q & E); lia]. intros [X|X]; [subst; exfalso; apply NA; simpl; auto|]. apply reached_In in X. tauto.
        * assert (X : In t (reached flt r) <-> Nat.Even i) by (apply IH; auto; [simpl in L; lia|intros u U; apply F; simpl; auto]).
          split.
          -- intros [Y|Y]; [subst t; exfalso; apply NA; right; eapply nth_error_In; eauto|]. apply X in Y. destruct Y as (q & ->). exists (S q). lia.
          -- intros (q & E). right. apply X. exists (q - 1)%nat. lia. }
  intros l F i t. apply (H (length l)); auto.
Qed.
(** cases: weights and one-dimensional biases in turn; three weights in a row *)
Example C82_spaced_case : spaced (fun t => memb t ["w1"; "w2"]%string) ["w1"; "b1"; "w2"; "b2"]%string /\
  reached (fun t => memb t ["w1"; "w2"]%string) ["w1"; "b1"; "w2"; "b2"]%string = ["w1"; "w2"]%string.
Proof. cbn. repeat split; auto; discriminate. Qed.
Example C82_row_case : reached (fun _ => true) ["w1"; "w2"; "w3"]%string = ["w1"; "w3"]%string.
Proof. reflexivity. Qed.
