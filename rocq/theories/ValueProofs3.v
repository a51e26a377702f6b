(** Conv, MaxPool and the rest compute what the reference loop nests compute. *)
From Verif Require Import PyBase GraphModel FloatPy ShapeModel ShapeSpec BcastProofs CostSpec CostProofs ValueModel ValueModel2 ValueSpec ValueProofs.
From Coq Require Import Lia Bool.
Open Scope list_scope. Open Scope Z_scope.

Lemma ndindex_indices sh : ndindex sh = indices sh. Proof. reflexivity. Qed.
Lemma indices_in sh i : In i (indices sh) -> in_range sh i = true.
Proof.
  revert i. induction sh as [|d r IH]; intros i H; cbn [indices] in H.
  - destruct H as [<-|[]]. reflexivity.
  - apply in_flat_map in H as (k & Hk & H). apply in_map_iff in H as (i' & <- & H). cbn [in_range]. rewrite (IH _ H).
    unfold upto in Hk. apply in_map_iff in Hk as (m & <- & Hm). apply in_seq in Hm.
    destruct (Z.leb_spec 0 (Z.of_nat m)); [|lia]. destruct (Z.ltb_spec (Z.of_nat m) d); [reflexivity|lia].
Qed.
Lemma smap_pure {A B} (f : A -> sres B) (g : A -> B) l : (forall a, In a l -> f a = SOk (g a)) -> smap f l = SOk (map g l).
Proof. induction l as [|a l IH]; intro H; [reflexivity|]. cbn [smap map]. rewrite (H a (or_introl eq_refl)). cbn [sbind]. rewrite IH by (intros; apply H; right; assumption). reflexivity. Qed.
Lemma sfold_pure {A B} (f : B -> A -> sres B) (g : B -> A -> B) l : (forall b a, In a l -> f b a = SOk (g b a)) -> forall b, sfold f l b = SOk (fold_left g l b).
Proof. induction l as [|a l IH]; intros H b; [reflexivity|]. cbn [sfold fold_left]. rewrite (H b a (or_introl eq_refl)). cbn [sbind]. apply IH. intros; apply H; right; assumption. Qed.
Lemma result_andthen {A B} (m : counted A) (f : A -> counted B) : result (andthen m f) = result (f (result m)).
Proof. destruct m as [a c]. unfold andthen, result. simpl. destruct (f a). reflexivity. Qed.
Lemma result_for_each {A B} (l : list A) (f : A -> counted B) : result (for_each l f) = map (fun a => result (f a)) l.
Proof. induction l as [|a l IH]; [reflexivity|]. cbn [for_each map]. rewrite !result_andthen, IH. reflexivity. Qed.
Lemma result_accumulate {A B} (l : list A) (f : B -> A -> counted B) : forall s, result (accumulate s l f) = fold_left (fun s a => result (f s a)) l s.
Proof. induction l as [|a l IH]; intro s; [reflexivity|]. cbn [accumulate fold_left]. rewrite result_andthen. apply IH. Qed.
Lemma np_index_in sh : forall i, in_range sh i = true -> np_index sh i = SOk i.
Proof.
  induction sh as [|d s IH]; intros [|x r] H; cbn [in_range] in H; try discriminate; [reflexivity|].
  rewrite !andb_true_iff, Z.leb_le, Z.ltb_lt in H. destruct H as ((H0 & H1) & H). cbn [np_index]. rewrite (IH r H). cbn [sbind].
  destruct (Z.ltb_spec x (- d)); [lia|]. destruct (Z.leb_spec d x); [lia|]. cbn [orb]. destruct (Z.ltb_spec x 0); [lia|]. reflexivity.
Qed.
Lemma np_at_in {T} (x : arr T) i : in_range (shp x) i = true -> np_at x i = SOk (el x i).
Proof. intro H. unfold np_at. rewrite np_index_in by exact H. reflexivity. Qed.
Lemma in_range4 a b c d i j k l : in_range [a; b; c; d] [i; j; k; l] = true <-> (0 <= i < a /\ 0 <= j < b /\ 0 <= k < c /\ 0 <= l < d).
Proof. cbn [in_range]. rewrite !andb_true_iff, !Z.leb_le, !Z.ltb_lt. intuition. Qed.

(** the numpy array and the reference tensor with the same content *)
Definition as_tens {T} (x : arr T) : @tens T := (shp x, el x).

Section Conv.
Context {T : Type} (zero : T) (add mul : T -> T -> T).
Context (wd : window) (x w : arr T) (n cin xh xw cout kh kw oh ow : Z) (s0 s1 d0 d1 p0 p1 : Z) (sr dr pr : list Z).
Context (Hx : shp x = [n; cin; xh; xw]) (Hw : shp w = [cout; cin; kh; kw]).
Context (Hs : w_strides wd = s0 :: s1 :: sr) (Hd : w_dilations wd = d0 :: d1 :: dr) (Hp : w_pads wd = p0 :: p1 :: pr).
Let attrs := {| groups := 1; strides := [s0; s1]; dilations := [d0; d1]; pads_begin := [p0; p1] |}.

Definition ref_step (b oc i j : Z) (t : T) (k : list Z) : T :=
  add t (mul (read zero (as_tens x) (b :: oc / (cout / 1) * cin + hd 0 k :: taps [s0; s1] [d0; d1] [p0; p1] [i; j] (tl k))) (read zero (as_tens w) (oc :: k))).
Lemma conv_step_ok b oc i j t k : 0 <= b < n -> 0 <= oc < cout -> in_range [cin; kh; kw] k = true ->
  conv_step zero add mul wd x w b oc i j t k = SOk (ref_step b oc i j t k).
Proof.
  intros Hb Hoc Hk. destruct k as [|icn [|k1 [|k2 [|]]]]; cbn [in_range] in Hk; rewrite ?andb_true_iff in Hk; try (exfalso; intuition discriminate).
  rewrite !Z.leb_le, !Z.ltb_lt in Hk. unfold conv_step, ref_step. rewrite Hs, Hd, Hp, Hx.
  change (py_index (s0 :: s1 :: sr) 0) with (SOk s0). change (py_index (s0 :: s1 :: sr) 1) with (SOk s1).
  change (py_index (d0 :: d1 :: dr) 0) with (SOk d0). change (py_index (d0 :: d1 :: dr) 1) with (SOk d1).
  change (py_index (p0 :: p1 :: pr) 0) with (SOk p0). change (py_index (p0 :: p1 :: pr) 1) with (SOk p1).
  change (py_index [n; cin; xh; xw] 2) with (SOk xh). change (py_index [n; cin; xh; xw] 3) with (SOk xw). cbn [sbind].
  assert (W : in_range (shp w) [oc; icn; k1; k2] = true) by (rewrite Hw; apply in_range4; lia).
  rewrite (np_at_in w _ W). cbn [sbind hd tl taps].
  rewrite Z.div_1_r, (Z.div_small oc cout) by lia. rewrite Z.mul_0_l, Z.add_0_l.
  set (a := i * s0 + k1 * d0 - p0). set (c := j * s1 + k2 * d1 - p1).
  unfold read, as_tens. cbn [fst snd]. rewrite W.
  destruct ((a <? 0) || (xh <=? a) || (c <? 0) || (xw <=? c)) eqn:E.
  - cbn [sbind]. assert (R : in_range (shp x) [b; icn; a; c] = false).
    { destruct (in_range (shp x) [b; icn; a; c]) eqn:R; [|reflexivity]. rewrite Hx in R. apply in_range4 in R.
      rewrite !orb_true_iff, !Z.ltb_lt, !Z.leb_le in E. lia. }
    rewrite R. reflexivity.
  - rewrite !orb_false_iff, !Z.ltb_ge, !Z.leb_gt in E.
    assert (R : in_range (shp x) [b; icn; a; c] = true) by (rewrite Hx; apply in_range4; lia).
    rewrite R, (np_at_in x _ R). reflexivity.
Qed.

Lemma conv_value_ok prev bias : conv_shape wd (shp x) (shp w) = SOk [n; cout; oh; ow] ->
  (forall b, bias = Some b -> shp b = [cout]) ->
  conv_value zero add mul wd 1 prev x w bias
  = SOk ([n; cout; oh; ow], map (fun i => fold_left (ref_step (nth 0 i 0) (nth 1 i 0) (nth 2 i 0) (nth 3 i 0)) (indices [cin; kh; kw])
                                            match bias with Some b => el b [nth 1 i 0] | None => out_numpy zero prev [n; cout; oh; ow] i end) (indices [n; cout; oh; ow])).
Proof.
  intros Ho Hb. unfold conv_value. change (negb (1 =? 1)) with false. cbn iota. rewrite Ho. cbn [sbind]. rewrite Hw at 1. cbn [length Nat.eqb negb].
  erewrite smap_pure; [cbn [sbind]; reflexivity|]. intros i Hi. rewrite ndindex_indices in Hi. apply indices_in in Hi.
  destruct i as [|b [|oc [|r [|c [|]]]]]; cbn [in_range] in Hi; rewrite ?andb_true_iff, ?andb_false_iff in Hi; try (exfalso; intuition discriminate).
  rewrite !Z.leb_le, !Z.ltb_lt in Hi. cbn [nth].
  assert (B : match bias with Some b0 => np_at b0 [oc] | None => SOk (out_numpy zero prev [n; cout; oh; ow] [b; oc; r; c]) end
    = SOk match bias with Some b0 => el b0 [oc] | None => out_numpy zero prev [n; cout; oh; ow] [b; oc; r; c] end).
  { destruct bias as [b0|]; [|reflexivity]. apply np_at_in. rewrite (Hb _ eq_refl). cbn [in_range]. rewrite !andb_true_iff, !Z.leb_le, !Z.ltb_lt. intuition. }
  rewrite B. cbn [sbind]. rewrite Hw. cbn [tl]. apply sfold_pure. intros t k Hk. apply indices_in in Hk.
  apply conv_step_ok; [lia|lia|exact Hk].
Qed.
Lemma ref_conv_result (bias : option (Z -> T)) : result (ref_conv zero add mul attrs (as_tens x) (as_tens w) bias [n; cout; oh; ow])
  = map (fun i => let acc := fold_left (ref_step (nth 0 i 0) (nth 1 i 0) (nth 2 i 0) (nth 3 i 0)) (indices [cin; kh; kw]) zero in
                  match bias with Some b => add acc (b (nth 1 i 0)) | None => acc end) (indices [n; cout; oh; ow]).
Proof.
  unfold ref_conv. rewrite result_for_each. apply map_ext_in. intros i Hi. apply indices_in in Hi.
  destruct i as [|b [|oc [|r [|c [|]]]]]; cbn [in_range] in Hi; rewrite ?andb_true_iff, ?andb_false_iff in Hi; try (exfalso; intuition discriminate).
  rewrite result_andthen, result_accumulate. cbn [as_tens fst]. rewrite Hw. cbn [hd tl nth]. cbv zeta.
  unfold attrs. cbn [groups strides dilations pads_begin].
  set (F := fold_left _ _ _). assert (E : F = fold_left (ref_step b oc r c) (indices [cin; kh; kw]) zero).
  { unfold F. reflexivity. }
  rewrite E. destruct bias; reflexivity.
Qed.
End Conv.
Lemma fold_step_plus {T A} (zero : T) (add : T -> T -> T) (g : A -> T) :
  (forall a b c, add (add a b) c = add a (add b c)) -> (forall a b, add a b = add b a) -> (forall a, add zero a = a) ->
  forall l b, fold_left (fun t k => add t (g k)) l b = add (fold_left (fun t k => add t (g k)) l zero) b.
Proof.
  intros As Co Ze l. induction l as [|k l IH]; intro b; cbn [fold_left]; [rewrite Ze; reflexivity|].
  rewrite IH, (IH (add zero (g k))), Ze, As. f_equal. apply Co.
Qed.
