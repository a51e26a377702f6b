From Verif Require Import PyBase PyBaseFacts GraphModel ShapeModel RelSpec RelProofs FusionModel FusionSpec FusionProofs.
From Coq Require Import Lia.
Open Scope string_scope. Open Scope Z_scope.

(** ** place *)
Lemma set_nth_length {A} i (x : A) l : length (set_nth i x l) = length l.
Proof. revert i; induction l; intros [|i]; cbn; auto. Qed.
Lemma set_nth_same {A} i (x : A) l : (i < length l)%nat -> nth_error (set_nth i x l) i = Some x.
Proof. revert i; induction l; intros [|i] H; cbn in *; try lia; auto. apply IHl. lia. Qed.
Lemma set_nth_other {A} i j (x : A) l : i <> j -> nth_error (set_nth i x l) j = nth_error l j.
Proof. revert i j; induction l; intros [|i] [|j] H; cbn; auto; try lia. Qed.
Lemma index_of_spec x l i : index_of x l = SOk i -> 0 <= i /\ nth_error l (Z.to_nat i) = Some x.
Proof.
  revert i; induction l as [|y r IH]; intros i H; cbn [index_of] in H; [discriminate|].
  destruct (String.eqb_spec x y).
  - injection H as <-. subst. split; [lia|reflexivity].
  - apply sbind_ok in H as (j & Hj & H). injection H as <-. apply IH in Hj as [A B]. split; [lia|].
    replace (Z.to_nat (j + 1)) with (S (Z.to_nat j)) by lia. exact B.
Qed.
Lemma index_of_in x l : In x l -> exists i, index_of x l = SOk i.
Proof.
  induction l as [|y r IH]; intros H; [contradiction|]. cbn [index_of]. destruct (String.eqb_spec x y); [eauto|].
  destruct H as [->|H]; [congruence|]. destruct (IH H) as [i ->]. cbn. eauto.
Qed.
Lemma nth_error_nodup {A} (l : list A) i j x : NoDup l -> nth_error l i = Some x -> nth_error l j = Some x -> i = j.
Proof.
  intros N A1 A2. eapply (proj1 (NoDup_nth_error l)); eauto; [|congruence]. apply nth_error_Some. congruence.
Qed.
(** every entry is the old one or a path pair of that descriptor; a descriptor on the path is set *)
Lemma place_spec keys : NoDup keys -> forall p nodes ns, place keys p nodes = SOk ns -> length nodes = length keys ->
  length ns = length keys /\
  forall i dk, nth_error keys i = Some dk -> exists k, nth_error ns i = Some k /\
    (In (dk, k) p \/ (nth_error nodes i = Some k /\ ~ In dk (map fst p))).
Proof.
  intros N. induction p as [|[dk0 nk0] p IH]; intros nodes ns E L; cbn [place] in E.
  - injection E as <-. split; [exact L|]. intros i dk Hi. destruct (nth_error nodes i) eqn:Q.
    + exists s. split; [reflexivity|]. right; split; [reflexivity|]. intros [].
    + apply nth_error_None in Q. assert (i < length keys)%nat by (apply nth_error_Some; congruence). lia.
  - apply sbind_ok in E as (j & J & E). apply index_of_spec in J as [Jp Jn].
    assert (HL : length (set_nth (Z.to_nat j) nk0 nodes) = length keys) by (rewrite set_nth_length; exact L).
    destruct (IH _ _ E HL) as [A B]. split; [exact A|]. intros i dk Hi.
    destruct (B i dk Hi) as (k & Hk & [Hin|[Ho Hn]]); exists k; (split; [exact Hk|]).
    + left; right; exact Hin.
    + destruct (Nat.eq_dec i (Z.to_nat j)) as [->|D].
      * rewrite Hi in Jn. injection Jn as ->. rewrite set_nth_same in Ho; [|rewrite L; apply nth_error_Some; congruence].
        injection Ho as <-. left; left; reflexivity.
      * rewrite set_nth_other in Ho by auto. right. split; [exact Ho|]. cbn [map fst]. intros [->|C]; [|auto].
        apply D. eapply nth_error_nodup; eauto.
Qed.

Lemma search_from_in fuel G P first names : forall ls, search_from fuel G P first names = SOk ls -> forall ns, In ns ls ->
  exists k n v p SS, In k names /\ dget (nodemap (fg G)) k = Some n /\ is_node G first n = SOk true /\ v = true /\
    search_node fuel G P (p_first P, k) [] = SOk (v, p, SS) /\
    place (dkeys (p_desc P)) p (repeat "a" (length (dkeys (p_desc P)))) = SOk ns.
Proof.
  induction names as [|k r IH]; intros ls E ns Hin; cbn [search_from] in E.
  - injection E as <-. contradiction.
  - apply sbind_ok in E as (n & O & E). apply sbind_ok in E as (isn & IS & E). apply dlook_ok in O.
    apply sbind_ok in E as (here & H & E). apply sbind_ok in E as (rest & R & E). injection E as <-.
    apply in_app_or in Hin. destruct Hin as [Hin|Hin].
    + destruct isn; [|injection H as <-; contradiction].
      apply sbind_ok in H as ([[v p] SS] & Q & H). destruct v; [|injection H as <-; contradiction].
      apply sbind_ok in H as (ns' & Pl & H). injection H as <-. destruct Hin as [<-|[]].
      exists k, n, true, p, SS. repeat split; auto. left; reflexivity.
    + destruct (IH _ R ns Hin) as (k' & n' & v & p & SS & A & B). exists k', n', v, p, SS. split; [right; exact A|exact B].
Qed.

Lemma search_from_no_rt fuel G P first names : (length (nodemap (fg G)) < fuel)%nat ->
  search_from fuel G P first names <> SRaise RuntimeErr.
Proof.
  intros F. induction names as [|k r IH]; cbn [search_from]; [discriminate|].
  apply no_rt_bind; [apply no_rt_dlook|intros n O]. apply no_rt_bind; [apply no_rt_isnode|intros isn IS].
  apply no_rt_bind.
  - destruct isn; [|discriminate]. apply no_rt_bind.
    + apply search_no_rt; [intros []|constructor|intros x []|]. unfold dkeys. rewrite map_length. cbn [length]. lia.
    + intros [[v p] SS] Q. clear Q. destruct v; [|discriminate]. apply no_rt_bind; [|intros; discriminate].
      generalize (repeat "a" (length (dkeys (p_desc P)))). induction p as [|[d k'] p IHp]; intros l; cbn [place]; [discriminate|].
      apply no_rt_bind; [apply no_rt_index|intros; apply IHp].
  - intros here H. apply no_rt_bind; [exact IH|intros; discriminate].
Qed.

Lemma search_path G P k n first v p SS fuel :
  dget (p_desc P) (p_first P) = Some first -> dget (nodemap (fg G)) k = Some n -> is_node G first n = SOk true ->
  search_node fuel G P (p_first P, k) [] = SOk (v, p, SS) ->
  Forall (good G P) p /\ NoDup (map snd p) /\ (v = true -> In (p_first P, k) p).
Proof.
  intros D O IS E. assert (I := search_inv G P fuel (p_first P, k) [] _ (NoDup_nil _) (fun x H => match H with end) (fun H => match H with end)
    (ex_intro _ first (ex_intro _ n (conj D (conj O IS)))) E).
  destruct I as (_ & _ & _ & A & B & _). repeat split; auto. intros ->.
  destruct fuel; [discriminate|]. cbn [search_node] in E. eapply body_succ_has_self; eauto.
Qed.

(** ** The ConvBN search *)
Definition convd : desc := nth 0 ConvBN (Build_desc "" (OneOp "") [] [] []).
Definition bnd : desc := nth 1 ConvBN (Build_desc "" (OneOp "") [] [] []).
Definition CB : pattern := mk_pattern ConvBN false.

Definition convb (G : fgraph) (n : node) : bool :=
  match fattr G (n_name n) "kernel_shape" with
  | Some (AvList (a :: b :: _)) => String.eqb (n_op n) "Conv" && (a <=? 7) && (1 <=? a) && (b <=? 7) && (1 <=? b)
  | _ => false
  end.
Lemma convb_spec G n : convb G n = true <-> small_conv G n.
Proof.
  unfold convb, small_conv. split.
  - destruct (fattr G (n_name n) "kernel_shape") as [[|l|]|]; try discriminate. destruct l as [|a [|b r]]; try discriminate.
    intros H. repeat (apply andb_prop in H as [H ?]). apply String.eqb_eq in H. split; [exact H|]. exists a, b, r. repeat split; lia.
  - intros (E & a & b & r & F & A & B). rewrite F, E. change (String.eqb "Conv" "Conv") with true. lia.
Qed.
Lemma conv_is_node G k n : kernels_2d G -> In (k, n) (nodemap (fg G)) -> n_name n = k -> is_node G convd n = SOk (convb G n).
Proof.
  intros H Hin <-. unfold is_node, convd, convb. cbn [nth ConvBN d_attrs d_op op_ok attrs_ok attr_call x_name x_idx x_op x_num].
  unfold attr_call. cbn [x_name x_idx x_op x_num].
  change (String.eqb "Conv" "Any") with false. cbv iota.
  destruct (fattr G (n_name n) "kernel_shape") as [v|] eqn:F.
  - destruct (H _ _ Hin v F) as (a & b & r & ->). cbn [sbind]. reflexivity.
  - cbn [sbind]. rewrite !andb_false_r. reflexivity.
Qed.
Lemma bn_is_node G n : is_node G bnd n = SOk (String.eqb (n_op n) "BatchNormalization").
Proof. reflexivity. Qed.

(** the first consumer of [t] that normalises it *)
Definition bn_of (G : fgraph) (t : string) (k : string) : bool :=
  match dget (nodemap (fg G)) k with
  | Some b => String.eqb (n_op b) "BatchNormalization" && match n_in b with i :: _ => String.eqb t i | [] => false end
  | None => false
  end.
Definition convbn_match (G : fgraph) (n : node) : list (list string) :=
  if convb G n then
    match n_out n with
    | t :: _ => match find (bn_of G t) (occurrences n_in (nodes_of (fg G)) t) with Some k => [[n_name n; k]] | None => [] end
    | [] => []
    end
  else [].

Section CONVBN.
Context (G : fgraph) (HX : exact (fg G)) (HK : kernels_2d G).
Local Notation g := (fg G).

Lemma look_In k n : In (k, n) (nodemap g) -> dlook (nodemap g) k = SOk n.
Proof. intros H. unfold dlook. rewrite (In_dget _ _ _ _ (ex_nodup _ HX) H). reflexivity. Qed.
Lemma nodes_In n : In n (nodes_of g) -> In (n_name n, n) (nodemap g).
Proof.
  unfold nodes_of. intros H. apply in_map_iff in H as ([k m] & E & H). cbn in E. subst m.
  rewrite (ex_names _ HX _ _ H). exact H.
Qed.

Lemma prod_unique c t r : In c (nodes_of g) -> n_out c = t :: r -> dget (producedby g) t = Some [n_name c].
Proof.
  intros Hc Ho. rewrite (ex_prod _ HX). fold g.
  assert (Hlen : length (occurrences n_out (nodes_of g) t) = count t (flat_map n_out (nodes_of g))) by apply occurrences_count.
  assert (N := ex_ssa _ HX). fold g in N.
  assert (C : (count t (flat_map n_out (nodes_of g)) <= 1)%nat).
  { clear -N. induction N as [|x l Hx N IH]; cbn [count]; [lia|]. destruct (String.eqb_spec t x); [|exact IH]. subst.
    apply count_zero in Hx. lia. }
  assert (I : In (n_name c) (occurrences n_out (nodes_of g) t)).
  { apply In_occurrences. exists c. repeat split; auto. rewrite Ho. left; reflexivity. }
  destruct (occurrences n_out (nodes_of g) t) as [|x [|y l]]; cbn [length] in *; [contradiction| |lia].
  destruct I as [<-|[]]. reflexivity.
Qed.

Lemma bn_call f c b t ro ri : In c (nodes_of g) -> In b (nodes_of g) -> convb G c = true ->
  n_out c = t :: ro -> n_in b = t :: ri -> n_op b = "BatchNormalization" ->
  search_node (S f) G CB ("bn_0", n_name b) [n_name c] = SOk (true, [("bn_0", n_name b)], [n_name c; n_name b]).
Proof.
  intros Hc Hb Hcb Ho Hi Hop. cbn [search_node]. unfold search_body. cbn [fst snd].
  change (dlook (p_desc CB) "bn_0") with (SOk bnd). cbn [sbind].
  fold g. rewrite (look_In _ _ (nodes_In _ Hb)). cbn [sbind].
  change (d_in bnd) with [{| e_idx := 0; e_desc := "conv_0"; e_other := 0 |}].
  cbn [up_edges e_idx e_desc e_other]. change (dlook (p_desc CB) "conv_0") with (SOk convd). cbn [sbind].
  rewrite Hi. change (0 =? -1) with false. cbv iota.
  replace (0 <? zlen (t :: ri)) with true by (symmetry; apply Z.ltb_lt; unfold zlen; cbn [length]; lia).
  change (py_index (t :: ri) 0) with (SOk t). cbn [sbind].
  unfold dlook at 1. fold g. rewrite (prod_unique _ _ _ Hc Ho). cbn [sbind up_producers].
  fold g. rewrite (look_In _ _ (nodes_In _ Hc)). cbn [sbind].
  unfold port_ok. change (0 =? -1) with false. cbv iota. rewrite Ho. cbn [index_of]. rewrite String.eqb_refl. cbn [sbind].
  change (0 =? 0) with true. cbv iota.
  rewrite (conv_is_node _ _ _ HK (nodes_In _ Hc) eq_refl), Hcb. cbn [sbind app memb]. rewrite String.eqb_refl. cbn [negb].
  change (d_out bnd) with (@nil edge). cbn [down_edges sbind app]. reflexivity.
Qed.

Lemma conv_down f c t ro : In c (nodes_of g) -> convb G c = true -> n_out c = t :: ro -> forall ks,
  (forall k, In k ks -> exists b, In b (nodes_of g) /\ n_name b = k /\ In t (n_in b)) ->
  down_consumers G (search_node (S f) G CB) true "bn_0" bnd 0 t ks (false, [], [n_name c]) =
  match find (bn_of G t) ks with
  | Some k => SOk (true, [("bn_0", k)], [n_name c; k])
  | None => SOk (false, [], [n_name c])
  end.
Proof.
  intros Hc Hcb Ho. induction ks as [|k ks IH]; intros HH; cbn [down_consumers find]; [reflexivity|].
  destruct (HH k (or_introl eq_refl)) as (b & Hb & <- & Hin).
  unfold bn_of at 1. fold g. rewrite (In_dget _ _ _ _ (ex_nodup _ HX) (nodes_In _ Hb)).
  rewrite (look_In _ _ (nodes_In _ Hb)). cbn [sbind].
  unfold port_ok. change (0 =? -1) with false. cbv iota.
  destruct (n_in b) as [|i ri] eqn:Ei; [contradiction|]. cbn [index_of].
  destruct (String.eqb_spec t i) as [<-|D].
  - cbn [sbind]. change (0 =? 0) with true. cbv iota. rewrite bn_is_node. cbn [sbind].
    destruct (String.eqb_spec (n_op b) "BatchNormalization") as [Hop|Hop]; cbn [andb].
    + assert (NE : n_name b <> n_name c).
      { intros E. assert (b = c).
        { assert (A := In_dget _ _ _ _ (ex_nodup _ HX) (nodes_In _ Hb)). assert (B := In_dget _ _ _ _ (ex_nodup _ HX) (nodes_In _ Hc)). rewrite E in A. congruence. }
        subst b. apply convb_spec in Hcb as [Hcb _]. rewrite Hcb in Hop. discriminate. }
      cbn [memb]. destruct (String.eqb_spec (n_name b) (n_name c)); [contradiction|]. cbn [negb].
      rewrite (bn_call f c b t ro ri) by auto. cbn [sbind app]. reflexivity.
    + apply IH. intros k Hk. apply HH. right; exact Hk.
  - destruct Hin as [->|Hin]; [congruence|]. destruct (index_of_in _ _ Hin) as [j Hj]. rewrite Hj. cbn [sbind].
    apply index_of_spec in Hj as [Hj _]. destruct (Z.eqb_spec (j + 1) 0); [lia|]. rewrite andb_false_r.
    apply IH. intros k Hk. apply HH. right; exact Hk.
Qed.

Lemma conv_call f c : In c (nodes_of g) -> convb G c = true ->
  (let* q := search_node (S (S f)) G CB ("conv_0", n_name c) [] in
   let '(v, p, _) := q in
   if v then let keys := dkeys (p_desc CB) in let* ns := place keys p (repeat "a" (length keys)) in SOk [ns] else SOk [])
  = SOk (convbn_match G c).
Proof.
  intros Hc Hcb. remember (S f) as f1. cbn [search_node]. unfold search_body. cbn [fst snd].
  change (dlook (p_desc CB) "conv_0") with (SOk convd). cbn [sbind]. fold g. rewrite (look_In _ _ (nodes_In _ Hc)). cbn [sbind].
  change (d_in convd) with (@nil edge). cbn [up_edges sbind negb app].
  change (d_out convd) with [{| e_idx := 0; e_desc := "bn_0"; e_other := 0 |}]. cbn [down_edges e_idx e_desc e_other].
  change (dlook (p_desc CB) "bn_0") with (SOk bnd). cbn [sbind]. change (0 =? -1) with false. cbv iota.
  unfold convbn_match. rewrite Hcb. destruct (n_out c) as [|t ro] eqn:Ho.
  - reflexivity.
  - replace (0 <? zlen (t :: ro)) with true by (symmetry; apply Z.ltb_lt; unfold zlen; cbn [length]; lia).
    change (py_index (t :: ro) 0) with (SOk t). cbn [sbind]. fold g. rewrite (ex_cons _ HX). fold g.
    destruct (occurrences n_in (nodes_of g) t) as [|k0 ks] eqn:Eo; [reflexivity|].
    cbn [none_if_empty]. unfold too_many. change (p_append CB) with false. cbn [andb]. rewrite <- Eo.
    subst f1. rewrite (conv_down f c t ro Hc Hcb Ho).
    + destruct (find (bn_of G t) (occurrences n_in (nodes_of g) t)); reflexivity.
    + intros k Hk. apply In_occurrences in Hk as (b & A & B & C). eauto.
Qed.

Lemma search_from_exact f : forall names, (forall k, In k names -> exists n, In (k, n) (nodemap g)) ->
  search_from (S (S f)) G CB convd names =
  SOk (flat_map (fun k => match dget (nodemap g) k with Some n => convbn_match G n | None => [] end) names).
Proof.
  induction names as [|k r IH]; intros HH; [reflexivity|]. destruct (HH k (or_introl eq_refl)) as (n & Hn).
  remember (S (S f)) as ff. cbn [search_from flat_map]. fold g. rewrite (look_In _ _ Hn), (In_dget _ _ _ _ (ex_nodup _ HX) Hn). cbn [sbind].
  assert (En := ex_names _ HX _ _ Hn).
  rewrite (conv_is_node G k n HK Hn En). cbn [sbind].
  rewrite IH by (intros k' H'; apply HH; right; exact H').
  destruct (convb G n) eqn:C.
  - change (p_first CB) with "conv_0". subst ff. rewrite <- En.
    assert (Hc : In n (nodes_of g)); [|assert (Q := conv_call f n Hc C); cbv zeta in Q |- *; rewrite Q; reflexivity].
    unfold nodes_of. apply in_map_iff. exists (k, n). auto.
  - cbn [sbind app]. unfold convbn_match. rewrite C. reflexivity.
Qed.

Lemma search_convbn : search_pattern G CB = SOk (flat_map (convbn_match G) (nodes_of g)).
Proof.
  unfold search_pattern. change (dlook (p_desc CB) (p_first CB)) with (SOk convd). cbn [sbind]. fold g.
  destruct (nodemap g) as [|kn0 rest] eqn:E.
  - unfold nodes_of. rewrite E. reflexivity.
  - rewrite <- E. replace (length (nodemap g)) with (S (length rest)) by (rewrite E; reflexivity).
    rewrite search_from_exact.
    + f_equal. unfold nodes_of, dkeys. 
      assert (Q : forall l, (forall k n, In (k, n) l -> dget (nodemap g) k = Some n) ->
        flat_map (fun k => match dget (nodemap g) k with Some n => convbn_match G n | None => [] end) (map fst l) = flat_map (convbn_match G) (map snd l)).
      { induction l as [|[k n] l IH]; intros Hl; [reflexivity|]. cbn [map flat_map fst snd]. rewrite (Hl k n) by (left; reflexivity).
        f_equal. apply IH. intros; apply Hl; right; auto. }
      apply Q. intros k n Hin. apply In_dget; auto. apply (ex_nodup _ HX).
    + intros k Hk. unfold dkeys in Hk. apply in_map_iff in Hk as ([k' n] & <- & Hk). eauto.
Qed.
End CONVBN.
