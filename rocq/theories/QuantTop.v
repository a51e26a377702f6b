(** From one group to the whole array: [quantize] for the three layouts. *)
From Coq Require Import Reals.
From Flocq Require Import Core IEEE754.Binary IEEE754.Bits.
From Verif Require Import PyBase GraphModel FloatPy ShapeModel QuantModel QuantProofs.
Open Scope nat_scope.

(** ** specification: which weights share the parameters of the cell in row i, column j *)
Definition cell {A} (m : list (list A)) (i j : nat) : option A := match nth_error m i with Some r => nth_error r j | None => None end.
Definition row_of (rows : list (list f32)) (i : nat) : list f32 := match nth_error rows i with Some r => r | None => [] end.
Definition group (rows : list (list f32)) (block : Z) (i j : nat) : list f32 :=
  if Z.eqb block 0 then concat rows
  else if Z.eqb block (-1) then row_of rows i
  else let b := Z.to_nat block in firstn b (skipn (j / b * b) (row_of rows i)).
(** where [quantize] stores the parameters of that cell *)
Definition param_at (p : params) (block : Z) (i j : nat) : option (f32 * Z) :=
  match p with
  | PTensor x => Some x
  | PRow ps => nth_error ps i
  | PBlock ps => cell ps i (j / Z.to_nat block)
  end.
Definition shaped (rows : list (list f32)) : Prop := rows <> [] /\ forall r, In r rows -> r <> [].

Section Generic.
Variable (ty : qtype) (Post : f32 -> Z -> f32 * Z -> Prop).
Definition cell_ok (par : sres (f32 * Z)) (w : f32) : Prop :=
  exists p q, par = SOk p /\ quant_val ty w (fst p) (snd p) = SOk q /\ Post w q p.
Lemma quant_row_ok : forall row par j, (forall k w, nth_error row k = Some w -> cell_ok (par (j + k)) w) ->
  exists qs, quant_row ty row par j = SOk qs /\ length qs = length row /\
    forall k w, nth_error row k = Some w -> exists p q, nth_error qs k = Some q /\ par (j + k) = SOk p /\ Post w q p.
Proof.
  induction row as [|v r IH]; intros par j H; simpl quant_row.
  - exists []. split; [reflexivity|]. split; [reflexivity|]. intros [|k] w E; discriminate.
  - destruct (H 0 v eq_refl) as (p & q & P & Q & O). rewrite Nat.add_0_r in P. rewrite P. cbn [sbind]. rewrite Q. cbn [sbind].
    destruct (IH par (S j)) as (qs & R & L & K).
    { intros k w E. replace (S j + k) with (j + S k) by lia. apply H. exact E. }
    rewrite R. cbn [sbind]. exists (q :: qs). split; [reflexivity|]. split; [simpl; lia|].
    intros [|k] w E.
    + simpl in E. injection E as <-. exists p, q. rewrite Nat.add_0_r. auto.
    + simpl in E. destruct (K k w E) as (p' & q' & N & P' & O'). exists p', q'. replace (j + S k) with (S j + k) by lia. auto.
Qed.
Lemma quant_rows_ok : forall rows par i, (forall a b w, cell rows a b = Some w -> cell_ok (par (i + a) b) w) ->
  exists Q, quant_rows ty rows par i = SOk Q /\ map (@length Z) Q = map (@length f32) rows /\
    forall a b w, cell rows a b = Some w -> exists p q, cell Q a b = Some q /\ par (i + a) b = SOk p /\ Post w q p.
Proof.
  induction rows as [|row r IH]; intros par i H; simpl quant_rows.
  - exists []. split; [reflexivity|]. split; [reflexivity|]. intros [|a] b w E; discriminate.
  - destruct (quant_row_ok row (par i) 0) as (qs & R & L & K).
    { intros k w E. replace (par i (0 + k)) with (par (i + 0) k) by (f_equal; lia). apply (H 0 k w). exact E. }
    rewrite R. cbn [sbind]. destruct (IH par (S i)) as (Q & RQ & LQ & KQ).
    { intros a b w E. replace (S i + a) with (i + S a) by lia. apply H. exact E. }
    rewrite RQ. cbn [sbind]. exists (qs :: Q). split; [reflexivity|]. split; [simpl; congruence|].
    intros [|a] b w E.
    + destruct (K b w E) as (p & q & N & P & O). exists p, q. rewrite Nat.add_0_r. split; [exact N|]. split; [exact P|exact O].
    + destruct (KQ a b w E) as (p & q & N & P & O). exists p, q. replace (i + S a) with (S i + a) by lia. split; [exact N|]. split; [exact P|exact O].
Qed.
End Generic.

Lemma smap_ok : forall (A B : Type) (f : A -> sres B) l, (forall x, In x l -> exists y, f x = SOk y) ->
  exists ys, smap f l = SOk ys /\ length ys = length l /\ forall k x, nth_error l k = Some x -> exists y, f x = SOk y /\ nth_error ys k = Some y.
Proof.
  intros A B f. induction l as [|x l IH]; intros H; simpl.
  - exists []. repeat split; auto. intros [|k] y E; discriminate.
  - destruct (H x (or_introl eq_refl)) as (y & Y). rewrite Y. cbn [sbind].
    destruct IH as (ys & R & L & K); [intros z Z; apply H; simpl; auto|]. rewrite R. cbn [sbind].
    exists (y :: ys). split; [reflexivity|]. split; [simpl; lia|]. intros [|k] z E; simpl in E.
    + injection E as <-. exists y. auto.
    + destruct (K k z E) as (w & W & N). exists w. auto.
Qed.

Lemma skipn_skipn : forall (A : Type) n m (l : list A), skipn n (skipn m l) = skipn (n + m) l.
Proof. intros A n m. revert n. induction m as [|m IH]; intros n l; [rewrite Nat.add_0_r; reflexivity|].
  destruct l as [|x l]; [rewrite !skipn_nil; reflexivity|]. rewrite Nat.add_succ_r. simpl. apply IH. Qed.
Lemma blocks_nth : forall fuel b row k, 0 < b -> length row <= fuel -> k * b < length row ->
  nth_error (blocks_of fuel b row) k = Some (firstn b (skipn (k * b) row)).
Proof.
  induction fuel as [|n IH]; intros b row k Hb L K; [lia|]. destruct row as [|x row]; [simpl in K; lia|].
  cbn [blocks_of]. destruct k as [|k]; [reflexivity|]. cbn [nth_error].
  rewrite IH; [|exact Hb| |].
  - rewrite skipn_skipn. replace (k * b + b) with (S k * b) by lia. reflexivity.
  - rewrite skipn_length. cbn [length] in *. lia.
  - rewrite skipn_length. cbn [length Nat.mul] in *. lia.
Qed.
Lemma blocks_in : forall fuel b row g, 0 < b -> In g (blocks_of fuel b row) -> exists k, k * b < length row /\ g = firstn b (skipn (k * b) row).
Proof.
  induction fuel as [|n IH]; intros b row g Hb I; [contradiction|]. destruct row as [|x row]; [contradiction|].
  cbn [blocks_of] in I. destruct I as [<-|I].
  - exists 0. split; [simpl; lia|reflexivity].
  - destruct (IH b _ g Hb I) as (k & K & ->). exists (S k). rewrite skipn_length in K. rewrite skipn_skipn. split; [lia|].
    do 2 f_equal. lia.
Qed.

Lemma skipn_nth : forall (A : Type) (l : list A) k, nth_error (skipn k l) 0 = nth_error l k.
Proof. intros A l. induction l as [|x l IH]; intros [|k]; auto. apply IH. Qed.
Lemma firstn_nth : forall (A : Type) n (l : list A) k, k < n -> nth_error (firstn n l) k = nth_error l k.
Proof. intros A n. induction n as [|n IH]; intros l k H; [lia|]. destruct l, k; simpl; auto. apply IH. lia. Qed.
Lemma skipn_nth' : forall (A : Type) (l : list A) k j, nth_error (skipn k l) j = nth_error l (k + j).
Proof. intros A l. induction l as [|x l IH]; intros [|k] j; auto. - destruct j; reflexivity. - apply IH. Qed.

(** the cell belongs to its own group *)
Lemma group_member : forall rows block i j w, (block = 0 \/ block = -1 \/ 0 < block)%Z -> cell rows i j = Some w -> In w (group rows block i j).
Proof.
  intros rows block i j w B C. unfold cell in C. destruct (nth_error rows i) as [r|] eqn:R; [|discriminate].
  unfold group, row_of. rewrite R. destruct (Z.eqb_spec block 0).
  - apply in_concat. exists r. split; [eapply nth_error_In; eauto|eapply nth_error_In; eauto].
  - destruct (Z.eqb_spec block (-1)); [eapply nth_error_In; eauto|].
    set (b := Z.to_nat block). assert (0 < b) by (unfold b; lia).
    apply (nth_error_In (firstn b (skipn (j / b * b) r)) (j mod b)).
    pose proof (Nat.mod_upper_bound j b ltac:(lia)). rewrite firstn_nth by auto. rewrite skipn_nth'.
    pose proof (Nat.div_mod_eq j b). replace (j / b * b + j mod b) with j by lia. exact C.
Qed.

(** every group is one on which parameters and codes exist *)
Theorem quantize_generic : forall ty bits (Post : f32 -> Z -> f32 * Z -> Prop) rows block,
  (block = 0 \/ block = -1 \/ 0 < block)%Z -> shaped rows ->
  (forall i j w, cell rows i j = Some w -> exists mm p, min_max (group rows block i j) = SOk mm /\ group_param ty bits mm = SOk p /\
     forall v, In v (group rows block i j) -> exists q, quant_val ty v (fst p) (snd p) = SOk q /\ Post v q p) ->
  exists Q ps, quantize rows block ty bits = SOk (Q, ps) /\ map (@length Z) Q = map (@length f32) rows /\
    forall i j w, cell rows i j = Some w -> exists q p, cell Q i j = Some q /\ param_at ps block i j = Some p /\ Post w q p.
Proof.
  intros ty bits Post rows block B (N & NE) H.
  assert (MEM := group_member rows block). unfold quantize.
  assert (first : forall i r, nth_error rows i = Some r -> exists w, cell rows i 0 = Some w).
  { intros i r R. unfold cell. rewrite R. destruct r as [|w r]; [exfalso; apply (NE []); [eapply nth_error_In; eauto|reflexivity]|exists w; reflexivity]. }
  destruct (Z.eqb_spec block 0) as [Z0|Z0].
  - subst block. destruct rows as [|r0 rows]; [congruence|]. destruct (first 0 r0 eq_refl) as (w0 & C0).
    destruct (H 0 0 w0 C0) as (mm & p & M & P & K). change (group (r0 :: rows) 0 0 0) with (concat (r0 :: rows)) in *. rewrite M. cbn [sbind]. rewrite P. cbn [sbind].
    destruct (quant_rows_ok ty Post (r0 :: rows) (fun _ _ => SOk p) 0) as (Q & R & L & KQ).
    { intros a b w C. destruct (K w) as (q & QV & O); [apply (MEM a b w); auto|]. exists p, q. auto. }
    rewrite R. cbn [sbind]. exists Q, (PTensor p). split; [reflexivity|]. split; [exact L|].
    intros i j w C. destruct (KQ i j w C) as (p' & q & CQ & E & O). injection E as <-. exists q, p. auto.
  - destruct (Z.eqb_spec block (-1)) as [Z1|Z1].
    + subst block.
      assert (G : forall i j, group rows (-1) i j = row_of rows i) by reflexivity.
      destruct (smap_ok _ _ min_max rows) as (mms & SM & LM & KM).
      { intros r I. apply In_nth_error in I. destruct I as (i & I). destruct (first i r I) as (w & C).
        destruct (H i 0 w C) as (mm & p & M & _). rewrite G in M. unfold row_of in M. rewrite I in M. eauto. }
      rewrite SM. cbn [sbind].
      destruct (smap_ok _ _ (group_param ty bits) mms) as (ps & SP & LP & KP).
      { intros mm I. apply In_nth_error in I. destruct I as (i & I).
        assert (i < length rows) by (rewrite <- LM; apply nth_error_Some; congruence).
        destruct (nth_error rows i) as [r|] eqn:R; [|apply nth_error_None in R; lia].
        destruct (first i r R) as (w & C). destruct (H i 0 w C) as (mm' & p & M & P & _). rewrite G in M. unfold row_of in M. rewrite R in M.
        destruct (KM i r R) as (mm2 & M2 & I2). assert (mm2 = mm) by congruence. assert (mm2 = mm') by congruence. subst. subst. eauto. }
      rewrite SP. cbn [sbind].
      assert (PAR : forall i j w, cell rows i j = Some w -> exists p, nth_error ps i = Some p /\
                 (forall v, In v (group rows (-1) i j) -> exists q, quant_val ty v (fst p) (snd p) = SOk q /\ Post v q p)).
      { intros i j w C. destruct (H i j w C) as (mm & p & M & P & K). rewrite G in M. unfold row_of in M. unfold cell in C.
        destruct (nth_error rows i) as [r|] eqn:R; [|discriminate]. destruct (KM i r R) as (mm2 & M2 & I2).
        destruct (KP i mm2 I2) as (p2 & P2 & I3). assert (mm2 = mm) by congruence. subst. exists p. split; [congruence|exact K]. }
      destruct (quant_rows_ok ty Post rows (fun i _ => at_nth ps i) 0) as (Q & R & L & KQ).
      { intros a b w C. destruct (PAR a b w C) as (p & I & K). destruct (K w (MEM a b w B C)) as (q & QV & O).
        exists p, q. unfold at_nth. cbn [Nat.add]. rewrite I. auto. }
      rewrite R. cbn [sbind]. exists Q, (PRow ps). split; [reflexivity|]. split; [exact L|].
      intros i j w C. destruct (KQ i j w C) as (p' & q & CQ & E & O). exists q, p'. split; [exact CQ|]. split; [|exact O].
      unfold at_nth in E. cbn [Nat.add] in E. cbn [param_at]. destruct (nth_error ps i); congruence.
    + destruct (Z.ltb_spec 0 block) as [Z2|Z2]; [|lia]. set (b := Z.to_nat block). assert (Hb : 0 < b) by (unfold b; lia).
      assert (G : forall i j, group rows block i j = firstn b (skipn (j / b * b) (row_of rows i))).
      { intros i j. unfold group. destruct (Z.eqb_spec block 0); [congruence|]. destruct (Z.eqb_spec block (-1)); [congruence|reflexivity]. }
      (** every block of a row is the group of its first cell *)
      assert (BG : forall i r g, nth_error rows i = Some r -> In g (row_blocks b r) -> exists j w, cell rows i j = Some w /\ g = group rows block i j).
      { intros i r g R I. destruct (blocks_in _ _ _ _ Hb I) as (k & K & ->). exists (k * b). unfold cell. rewrite R.
        destruct (nth_error r (k * b)) as [w|] eqn:W; [|apply nth_error_None in W; lia]. exists w. split; [reflexivity|].
        rewrite G. unfold row_of. rewrite R. rewrite Nat.div_mul by lia. reflexivity. }
      assert (BI : forall i j w r, nth_error rows i = Some r -> cell rows i j = Some w -> nth_error (row_blocks b r) (j / b) = Some (group rows block i j)).
      { intros i j w r R C. unfold row_blocks. rewrite blocks_nth; auto.
        - rewrite G. unfold row_of. rewrite R. reflexivity.
        - unfold cell in C. rewrite R in C. assert (j < length r) by (apply nth_error_Some; congruence).
          pose proof (Nat.div_mod_eq j b). lia. }
      destruct (smap_ok _ _ (fun row => smap min_max (row_blocks b row)) rows) as (mms & SM & LM & KM).
      { intros r I. apply In_nth_error in I. destruct I as (i & I).
        destruct (smap_ok _ _ min_max (row_blocks b r)) as (m & M & _); [|eauto].
        intros g Ig. destruct (BG i r g I Ig) as (j & w & C & ->). destruct (H i j w C) as (mm & p & M & _). eauto. }
      rewrite SM. cbn [sbind].
      assert (ROW : forall i r, nth_error rows i = Some r -> exists m, nth_error mms i = Some m /\ length m = length (row_blocks b r) /\
                forall k g, nth_error (row_blocks b r) k = Some g -> exists mm, min_max g = SOk mm /\ nth_error m k = Some mm).
      { intros i r R. destruct (KM i r R) as (m & M & I). exists m. split; [exact I|].
        destruct (smap_ok _ _ min_max (row_blocks b r)) as (m' & M' & L' & K').
        { intros g Ig. destruct (BG i r g R Ig) as (j & w & C & ->). destruct (H i j w C) as (mm & p & MM & _). eauto. }
        assert (m' = m) by congruence. subst m'. auto. }
      destruct (smap_ok _ _ (smap (group_param ty bits)) mms) as (ps & SP & LP & KP).
      { intros m I. apply In_nth_error in I. destruct I as (i & I).
        assert (i < length rows) by (rewrite <- LM; apply nth_error_Some; congruence).
        destruct (nth_error rows i) as [r|] eqn:R; [|apply nth_error_None in R; lia].
        destruct (ROW i r R) as (m' & I' & Lm & K). assert (m' = m) by congruence. subst m'.
        destruct (smap_ok _ _ (group_param ty bits) m) as (p & P & _); [|eauto].
        intros mm Im. apply In_nth_error in Im. destruct Im as (k & Ik).
        assert (k < length (row_blocks b r)) by (rewrite <- Lm; apply nth_error_Some; congruence).
        destruct (nth_error (row_blocks b r) k) as [g|] eqn:Gk; [|apply nth_error_None in Gk; lia].
        destruct (K k g Gk) as (mm' & M' & I2). assert (mm' = mm) by congruence. subst mm'.
        destruct (BG i r g R (nth_error_In _ _ Gk)) as (j & w & C & ->). destruct (H i j w C) as (mm2 & p & M2 & P & _).
        assert (mm2 = mm) by congruence. subst. eauto. }
      rewrite SP. cbn [sbind].
      assert (PAR : forall i j w, cell rows i j = Some w -> exists p, cell ps i (j / b) = Some p /\
                 (forall v, In v (group rows block i j) -> exists q, quant_val ty v (fst p) (snd p) = SOk q /\ Post v q p)).
      { intros i j w C. destruct (H i j w C) as (mm & p & M & P & K).
        destruct (nth_error rows i) as [r|] eqn:R; [|unfold cell in C; rewrite R in C; discriminate].
        destruct (ROW i r R) as (m & I & Lm & KR). destruct (KR _ _ (BI i j w r R C)) as (mm2 & M2 & I2).
        assert (mm2 = mm) by congruence. subst mm2. destruct (KP i m I) as (pr & PR & I3).
        assert (exists y, group_param ty bits mm = SOk y /\ nth_error pr (j / b) = Some y) as (y & Y & Iy).
        { clear - PR I2. revert pr PR I2. generalize (j / b). induction m as [|x m IH]; intros k pr PR I2; [destruct k; discriminate|].
          simpl in PR. destruct (group_param ty bits x) as [y|] eqn:Y; [|discriminate]. cbn [sbind] in PR.
          destruct (smap (group_param ty bits) m) as [ys|] eqn:S; [|discriminate]. cbn [sbind] in PR. injection PR as <-.
          destruct k as [|k]; simpl in *; [injection I2 as <-; eauto|]. eapply IH; eauto. }
        exists y. split; [unfold cell; rewrite I3; exact Iy|]. assert (y = p) by congruence. subst. exact K. }
      destruct (quant_rows_ok ty Post rows (fun i j => let* row := at_nth ps i in at_nth row (j / b)) 0) as (Q & R & L & KQ).
      { intros a c w C. destruct (PAR a c w C) as (p & I & K). destruct (K w (MEM a c w B C)) as (q & QV & O).
        exists p, q. unfold at_nth. cbn [Nat.add]. unfold cell in I. destruct (nth_error ps a) as [pr|]; [|discriminate]. cbn [sbind]. rewrite I. auto. }
      rewrite R. cbn [sbind]. exists Q, (PBlock ps). split; [reflexivity|]. split; [exact L|].
      intros i j w C. destruct (KQ i j w C) as (p' & q & CQ & E & O). exists q, p'. split; [exact CQ|]. split; [|exact O].
      cbn [param_at]. fold b. unfold at_nth in E. cbn [Nat.add] in E. unfold cell. destruct (nth_error ps i) as [pr|]; [|discriminate].
      cbn [sbind] in E. destruct (nth_error pr (j / b)); congruence.
Qed.
