(** Slice, Unsqueeze, Squeeze and Split move the values where ONNX says. *)
From Verif Require Import PyBase GraphModel FloatPy ShapeModel ShapeSpec BcastProofs WindowProofs SliceProofs LayoutProofs CostSpec ValueModel ValueSpec.
From Coq Require Import Lia.
Open Scope list_scope. Open Scope Z_scope.

Lemma slice_len_count dim s e st : 0 <= dim -> st <> 0 -> (st < 0 -> - dim <= s) ->
  0 <= slice_len dim s e st /\ slice_count dim s e st (slice_len dim s e st)
  /\ (0 < slice_len dim s e st -> slice_start dim s st = slice_first dim s st).
Proof.
  intros Hd Hs Hb0. unfold slice_len, slice_start, slice_first.
  assert (A : forall i, adjust dim st i = if st <? 0 then Z.max (-1) (Z.min (from_end dim i) (dim - 1)) else Z.max 0 (Z.min (from_end dim i) dim)).
  { intro i. unfold adjust, from_end. destruct (Z.ltb_spec i 0), (Z.ltb_spec st 0); try destruct (Z.ltb_spec (i + dim) 0); try destruct (Z.leb_spec dim i); lia. }
  rewrite !A. destruct (Z.ltb_spec st 0) as [Neg|Pos].
  - assert (Hs0 : 0 <= from_end dim s) by (unfold from_end; destruct (Z.ltb_spec s 0); lia).
    set (s0 := Z.max (-1) (Z.min (from_end dim s) (dim - 1))). set (e0 := Z.max (-1) (Z.min (from_end dim e) (dim - 1))).
    destruct (Z.ltb_spec e0 s0) as [L|L].
    + set (n := (s0 - e0 - 1) / - st + 1).
      assert (Hn : 0 < n) by (unfold n; assert (0 <= (s0 - e0 - 1) / - st) by (apply Z.div_pos; lia); lia).
      assert (Hk : forall k, 0 <= k -> (k < n <-> k * - st < s0 - e0)).
      { intros k Hk. unfold n. rewrite Z.add_1_r, Z.lt_succ_r. split; intro X.
        - assert (k * - st <= s0 - e0 - 1); [|lia]. etransitivity; [apply Z.mul_le_mono_nonneg_r; [lia|exact X]|]. rewrite Z.mul_comm. apply Z.mul_div_le. lia.
        - apply Z.div_le_lower_bound; lia. }
      assert (F : slice_first dim s st = s0). { unfold slice_first. destruct (Z.ltb_spec st 0); lia. }
      split; [lia|]. split; [|intros _; unfold slice_first in F; destruct (Z.ltb_spec st 0); lia].
      exists (progression s0 st (Z.to_nat n)). split; [apply progression_NoDup; exact Hs|]. split.
      * intro i. rewrite progression_In. unfold slice_selects. rewrite F, Z2Nat.id by lia. destruct (Z.ltb_spec st 0); [|lia]. split.
        -- intros (k & K & ->). assert (k * - st < s0 - e0) by (apply Hk; lia). split; [nia|]. split; [exists k; lia|]. nia.
        -- intros (Hi & (k & K & E) & Hb). exists k. split; [|exact E]. split; [lia|]. apply Hk; [lia|]. nia.
      * unfold progression. rewrite map_length, seq_length. lia.
    + split; [lia|]. split; [|lia]. exists []. split; [constructor|]. split; [|reflexivity]. intro i. split; [intros []|].
      intros (Hi & (k & K & E) & Hb). unfold slice_first in E. destruct (Z.ltb_spec st 0); [|lia]. nia.
  - set (s0 := Z.max 0 (Z.min (from_end dim s) dim)). set (e0 := Z.max 0 (Z.min (from_end dim e) dim)).
    assert (F : slice_first dim s st = s0). { unfold slice_first. destruct (Z.ltb_spec st 0); lia. }
    destruct (Z.ltb_spec s0 e0) as [L|L].
    + set (n := (e0 - s0 - 1) / st + 1).
      assert (Hn : 0 < n) by (unfold n; assert (0 <= (e0 - s0 - 1) / st) by (apply Z.div_pos; lia); lia).
      assert (Hk : forall k, 0 <= k -> (k < n <-> k * st < e0 - s0)).
      { intros k Hk. unfold n. rewrite Z.add_1_r, Z.lt_succ_r. split; intro X.
        - assert (k * st <= e0 - s0 - 1); [|lia]. etransitivity; [apply Z.mul_le_mono_nonneg_r; [lia|exact X]|]. rewrite Z.mul_comm. apply Z.mul_div_le. lia.
        - apply Z.div_le_lower_bound; lia. }
      split; [lia|]. split; [|intros _; reflexivity].
      exists (progression s0 st (Z.to_nat n)). split; [apply progression_NoDup; exact Hs|]. split.
      * intro i. rewrite progression_In. unfold slice_selects. rewrite F, Z2Nat.id by lia. destruct (Z.ltb_spec st 0); [lia|]. split.
        -- intros (k & K & ->). assert (k * st < e0 - s0) by (apply Hk; lia). split; [nia|]. split; [exists k; lia|]. nia.
        -- intros (Hi & (k & K & E) & Hb). exists k. split; [|exact E]. split; [lia|]. apply Hk; [lia|]. nia.
      * unfold progression. rewrite map_length, seq_length. lia.
    + split; [lia|]. split; [|lia]. exists []. split; [constructor|]. split; [|reflexivity]. intro i. split; [intros []|].
      intros (Hi & (k & K & E) & Hb). rewrite F in E. destruct (Z.ltb_spec st 0); [lia|]. nia.
Qed.
(** each selected position is inside the axis *)
Lemma slice_source_range dim s e st k : 0 <= dim -> st <> 0 -> 0 <= k < slice_len dim s e st -> 0 <= slice_first dim s st + k * st < dim.
Proof.
  intros Hd Hs Hk'. rename k into k'. revert Hk'. unfold slice_len, slice_first.
  assert (A : forall i, adjust dim st i = if st <? 0 then Z.max (-1) (Z.min (from_end dim i) (dim - 1)) else Z.max 0 (Z.min (from_end dim i) dim)).
  { intro i. unfold adjust, from_end. destruct (Z.ltb_spec i 0), (Z.ltb_spec st 0); try destruct (Z.ltb_spec (i + dim) 0); try destruct (Z.leb_spec dim i); lia. }
  rewrite !A. destruct (Z.ltb_spec st 0) as [Neg|Pos].
  - destruct (Z.ltb_spec (Z.max (-1) (Z.min (from_end dim e) (dim - 1))) (Z.max (-1) (Z.min (from_end dim s) (dim - 1)))); [|lia].
    intro Hk'. assert (k' * - st <= Z.max (-1) (Z.min (from_end dim s) (dim - 1)) - Z.max (-1) (Z.min (from_end dim e) (dim - 1)) - 1).
    { assert (X : k' <= (Z.max (-1) (Z.min (from_end dim s) (dim - 1)) - Z.max (-1) (Z.min (from_end dim e) (dim - 1)) - 1) / - st) by lia.
      etransitivity; [apply Z.mul_le_mono_nonneg_r; [lia|exact X]|]. rewrite Z.mul_comm. apply Z.mul_div_le. lia. }
    nia.
  - destruct (Z.ltb_spec (Z.max 0 (Z.min (from_end dim s) dim)) (Z.max 0 (Z.min (from_end dim e) dim))); [|lia].
    intro Hk'. assert (k' * st <= Z.max 0 (Z.min (from_end dim e) dim) - Z.max 0 (Z.min (from_end dim s) dim) - 1).
    { assert (X : k' <= (Z.max 0 (Z.min (from_end dim e) dim) - Z.max 0 (Z.min (from_end dim s) dim) - 1) / st) by lia.
      etransitivity; [apply Z.mul_le_mono_nonneg_r; [lia|exact X]|]. rewrite Z.mul_comm. apply Z.mul_div_le. lia. }
    nia.
Qed.

Lemma in_range_spec sh i : in_range sh i = true <-> length i = length sh /\ forall a, (a < length sh)%nat -> 0 <= nth a i 0 < nth a sh 0.
Proof.
  revert i. induction sh as [|d s IH]; intros [|x r]; simpl.
  - split; [intros _; split; [reflexivity|intros; lia]|reflexivity].
  - split; [discriminate|intros [H _]; discriminate].
  - split; [discriminate|intros [H _]; discriminate].
  - rewrite !andb_true_iff, Z.leb_le, Z.ltb_lt, IH. split.
    + intros ((H1 & H2) & E & H). split; [lia|]. intros [|a] Ha; [lia|]. apply H. lia.
    + intros (E & H). split; [specialize (H O ltac:(lia)); simpl in H; lia|]. split; [lia|]. intros a Ha. apply (H (S a)). lia.
Qed.

Section SliceLoop.
Context {T : Type}.
Lemma axis_pos_nonneg n a : 0 <= a -> axis_pos n a = a.
Proof. intro H. unfold axis_pos. destruct (Z.ltb_spec a 0); lia. Qed.
Lemma py_index_nth {A} (l : list A) (i : nat) d : (i < length l)%nat -> py_index l (Z.of_nat i) = SOk (nth i l d).
Proof.
  intro H. unfold py_index. destruct (Z.ltb_spec (Z.of_nat i) 0); [lia|]. destruct (Z.ltb_spec (Z.of_nat i) 0); [lia|].
  rewrite Nat2Z.id. rewrite (nth_error_nth' _ d H). reflexivity.
Qed.
Definition nth_step (steps : option (list Z)) (j : nat) : Z := match steps with Some l => nth j l 0 | None => 1 end.

(** the state after the remaining axes: as the ONNX relation, with the starts read from position [k] on *)
Lemma slice_values_ok starts ends steps : forall axes k (x : arr T),
  NoDup axes -> (forall a, In a axes -> 0 <= a <= 4 /\ a < Z.of_nat (length (shp x))) -> nonneg (shp x) ->
  (k + length axes <= length starts)%nat -> (k + length axes <= length ends)%nat ->
  (match steps with Some l => (k + length axes <= length l)%nat | None => True end) ->
  (forall j, (j < length axes)%nat -> nth_step steps (k + j) <> 0 /\
     (nth_step steps (k + j) < 0 -> - nth (Z.to_nat (nth j axes 0)) (shp x) 0 <= nth (k + j) starts 0)) ->
  exists y, slice_values axes starts ends steps (Z.of_nat k) x = SOk y
    /\ length (shp y) = length (shp x) /\ nonneg (shp y)
    /\ (forall j, (j < length axes)%nat -> let a := Z.to_nat (nth j axes 0) in
         slice_count (nth a (shp x) 0) (nth (k + j) starts 0) (nth (k + j) ends 0) (nth_step steps (k + j)) (nth a (shp y) 0))
    /\ (forall a, (a < length (shp x))%nat -> ~ In (Z.of_nat a) axes -> nth a (shp y) 0 = nth a (shp x) 0)
    /\ forall i, in_range (shp y) i = true -> exists o, length o = length (shp x) /\ in_range (shp x) o = true /\ el y i = el x o
         /\ (forall j, (j < length axes)%nat -> let a := Z.to_nat (nth j axes 0) in
              nth a o 0 = slice_first (nth a (shp x) 0) (nth (k + j) starts 0) (nth_step steps (k + j)) + nth a i 0 * nth_step steps (k + j))
         /\ (forall a, (a < length (shp x))%nat -> ~ In (Z.of_nat a) axes -> nth a o 0 = nth a i 0).
Proof.
  induction axes as [|a axes IH]; intros k x Hn Ha Hx Hs He Hst Hj.
  - exists x. repeat split; auto; try (simpl; intros; lia).
    intros i Hi. exists i. apply in_range_spec in Hi as Hi'. destruct Hi' as (L & _). repeat split; auto; simpl; intros; lia.
  - inversion Hn as [|? ? Hna Hn']; subst. destruct (Ha a (or_introl eq_refl)) as (Ha4 & Har). simpl length in Hs, He, Hst.
    destruct (Hj 0%nat ltac:(simpl; lia)) as (Hs0 & Hneg). rewrite Nat.add_0_r in Hs0, Hneg. cbn [nth] in Hneg.
    set (p := Z.to_nat a) in *. assert (Hp : (p < length (shp x))%nat) by (unfold p; lia).
    set (dim := nth p (shp x) 0) in *. set (s := nth k starts 0) in *. set (e := nth k ends 0). set (st := nth_step steps k) in *.
    assert (Hdim : 0 <= dim) by (unfold dim; apply (proj1 (Forall_nth _ _) Hx); exact Hp).
    destruct (slice_len_count dim s e st Hdim Hs0 Hneg) as (Hl0 & Hcount & Hfirst).
    set (x1 := {| shp := set_nth (shp x) p (slice_len dim s e st); el := fun i => el x (set_nth i p (slice_start dim s st + nth p i 0 * st)) |}).
    assert (E1 : np_slice p s e st x = SOk x1).
    { unfold np_slice. destruct (Nat.leb_spec (length (shp x)) p); [lia|]. destruct (Z.eqb_spec st 0); [contradiction|]. reflexivity. }
    assert (L1 : length (shp x1) = length (shp x)) by (unfold x1; cbn [shp]; apply set_nth_length).
    assert (N1 : nonneg (shp x1)).
    { apply Forall_nth. intros i d Hi. rewrite L1 in Hi. rewrite (nth_indep _ d 0) by lia. unfold x1; cbn [shp]. destruct (Nat.eq_dec i p) as [->|D].
      - rewrite set_nth_same by exact Hp. exact Hl0.
      - rewrite set_nth_other by congruence. apply (proj1 (Forall_nth _ _) Hx). exact Hi. }
    assert (O1 : forall b, b <> p -> nth b (shp x1) 0 = nth b (shp x) 0) by (intros; unfold x1; cbn [shp]; apply set_nth_other; congruence).
    assert (Neq : forall j, (j < length axes)%nat -> Z.to_nat (nth j axes 0) <> p).
    { intros j Hjl X. apply Hna. pose proof (nth_In axes 0 Hjl) as I. destruct (Ha _ (or_intror I)) as (Q & _). replace a with (nth j axes 0); [exact I|]. unfold p in X. lia. }
    destruct (IH (S k) x1 Hn') as (y & Ey & Ly & Ny & Cy & Oy & Vy).
    { intros b Hb. rewrite L1. apply Ha. right. exact Hb. }
    { exact N1. } { lia. } { lia. } { destruct steps; [lia|exact I]. }
    { intros j Hjl. specialize (Hj (S j) ltac:(simpl; lia)). replace (k + S j)%nat with (S k + j)%nat in Hj by lia. cbn [nth] in Hj.
      split; [apply Hj|]. intro X. rewrite O1 by (apply Neq; exact Hjl). apply Hj. exact X. }
    exists y. split; [|split; [congruence|split; [exact Ny|split; [|split]]]].
    + cbn [slice_values]. destruct (Z.leb_spec 0 a); [|lia]. destruct (Z.leb_spec a 4); [|lia]. cbn [andb].
      rewrite (py_index_nth starts k 0), (py_index_nth ends k 0) by lia. cbn [sbind].
      assert (Est : match steps with Some l => py_index l (Z.of_nat k) | None => SOk 1 end = SOk st).
      { unfold st, nth_step. destruct steps; [apply py_index_nth; lia|reflexivity]. }
      rewrite Est. cbn [sbind]. change (Z.to_nat a) with p. fold s e. rewrite E1. cbn [sbind].
      replace (Z.of_nat k + 1) with (Z.of_nat (S k)) by lia. exact Ey.
    + intros [|j] Hjl; cbn [nth].
      * rewrite Nat.add_0_r. change (Z.to_nat a) with p. cbv zeta. rewrite (Oy p); [|lia|].
        -- unfold x1; cbn [shp]. rewrite set_nth_same by exact Hp. exact Hcount.
        -- unfold p. rewrite Z2Nat.id by lia. exact Hna.
      * cbv zeta. simpl in Hjl. specialize (Cy j ltac:(lia)). cbv zeta in Cy. rewrite O1 in Cy by (apply Neq; lia).
        replace (k + S j)%nat with (S k + j)%nat by lia. exact Cy.
    + intros b Hb Hnb. rewrite (Oy b); [|lia|intro X; apply Hnb; right; exact X]. apply O1. intros ->. apply Hnb. left. unfold p. lia.
    + intros i Hi. destruct (Vy i Hi) as (o1 & Lo & Ro & Eo & Co & Uo).
      apply in_range_spec in Ro as Ro'. destruct Ro' as (Lr & Rr). rewrite L1 in Lr, Rr.
      assert (Pi : nth p o1 0 = nth p i 0). { apply Uo; [lia|]. unfold p. rewrite Z2Nat.id by lia. exact Hna. }
      exists (set_nth o1 p (slice_start dim s st + nth p o1 0 * st)).
      assert (Lp : 0 <= nth p o1 0 < slice_len dim s e st).
      { specialize (Rr p Hp). unfold x1 in Rr; cbn [shp] in Rr. rewrite set_nth_same in Rr by exact Hp. exact Rr. }
      assert (F : slice_start dim s st = slice_first dim s st) by (apply Hfirst; lia).
      split; [rewrite set_nth_length; lia|]. split; [|split; [|split]].
      * apply in_range_spec. rewrite set_nth_length. split; [exact Lr|]. intros b Hb. destruct (Nat.eq_dec b p) as [->|D].
        -- rewrite set_nth_same by lia. rewrite F. apply slice_source_range with (e := e); assumption.
        -- rewrite set_nth_other by congruence. rewrite <- (O1 b D). apply Rr. exact Hb.
      * rewrite Eo. reflexivity.
      * intros [|j] Hjl; cbn [nth]; cbv zeta.
        -- rewrite Nat.add_0_r. change (Z.to_nat a) with p. rewrite set_nth_same by lia. rewrite F, Pi. reflexivity.
        -- simpl in Hjl. rewrite set_nth_other by (intro X; apply (Neq j); [lia|congruence]). specialize (Co j ltac:(lia)). cbv zeta in Co.
           rewrite Co, O1 by (apply Neq; lia). replace (k + S j)%nat with (S k + j)%nat by lia. reflexivity.
      * intros b Hb Hnb. rewrite set_nth_other by (intro X; apply Hnb; left; rewrite <- X; unfold p; lia). apply Uo; [lia|]. intro X. apply Hnb. right. exact X.
Qed.

Theorem slice_value_ok (x : arr T) axes starts ends steps :
  nonneg (shp x) -> valid_axes (length (shp x)) axes -> (forall a, In a axes -> 0 <= a <= 4) ->
  length starts = length axes -> length ends = length axes -> length steps = length axes ->
  (forall j, (j < length axes)%nat -> nth j steps 0 <> 0 /\
     (nth j steps 0 < 0 -> - nth (Z.to_nat (nth j axes 0)) (shp x) 0 <= nth j starts 0)) ->
  exists y, slice_value x starts ends (Some axes) (Some steps) = SOk y /\ onnx_slice x axes starts ends steps y.
Proof.
  intros Hx (Hv & Hn) Ha Hs He Hst Hj.
  assert (M : map (axis_pos (length (shp x))) axes = axes).
  { rewrite <- (map_id axes) at 2. apply map_ext_in. intros a I. apply axis_pos_nonneg. apply Ha. exact I. }
  rewrite M in Hn.
  destruct (slice_values_ok starts ends (Some steps) axes 0 x Hn) as (y & Ey & Ly & Ny & Cy & Oy & Vy).
  { intros a I. split; [apply Ha; exact I|]. specialize (Hv a I). rewrite axis_pos_nonneg in Hv by (apply Ha; exact I). lia. }
  { exact Hx. } { lia. } { lia. } { lia. } { exact Hj. }
  exists y. split; [exact Ey|]. unfold onnx_slice, sliced, slice_source. rewrite M.
  assert (P : forall j b, (j < length axes)%nat -> axis_pos (length (shp x)) (nth j axes 0) = Z.of_nat b -> b = Z.to_nat (nth j axes 0)).
  { intros j b Hjl E. rewrite axis_pos_nonneg in E by (apply Ha, nth_In; exact Hjl). lia. }
  split; [split; [exact Ly|split; [|exact Oy]]|].
  - intros j b Hjl E. rewrite (P j b Hjl E). exact (Cy j Hjl).
  - intros i Hi. destruct (Vy i Hi) as (o & Lo & Ro & Eo & Co & Uo). exists o. split; [|split; assumption].
    split; [exact Lo|]. split; [|exact Uo]. intros j b Hjl E. rewrite (P j b Hjl E). exact (Co j Hjl).
Qed.
End SliceLoop.
