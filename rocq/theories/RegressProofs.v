(** Exactness of the shape regression for integer-linear dimensions of one variable. *)
From Coq Require Import DecimalString DecimalNat DecimalFacts Reals Lra.
From Flocq Require Import Core.
From Verif Require Import PyBase PyBaseFacts GraphModel FloatPy ShapeModel SerialModel RegressModel WindowProofs.
Open Scope Z_scope.

(** every expression reads a variable that neither it nor a later expression defines *)
Definition sources_first (ex : dict (string * expr)) : Prop :=
  forall pre k src e post, ex = (pre ++ (k, (src, e)) :: post)%list -> src <> k /\ ~ In src (dkeys post).

(** ** ValueExpr *)
Lemma round_quot : forall q b, 0 < b -> Z.abs q <= 2 ^ 53 -> py_round (fdiv_int (q * b) b) = q.
Proof.
  intros q b Hb Hq. unfold fdiv_int. rewrite mult_IZR.
  replace (IZR q * IZR b / IZR b)%R with (IZR q) by (field; apply not_0_IZR; lia).
  rewrite rnd_int by auto. unfold py_round. apply (Zrnd_IZR ZnearestE q).
Qed.

Lemma smap_all : forall (A B : Type) (f : A -> sres B) (h : A -> B) l, (forall x, In x l -> f x = SOk (h x)) -> smap f l = SOk (map h l).
Proof.
  intros A B f h l. induction l as [|x l IH]; intros H; [reflexivity|]. cbn [smap map].
  rewrite H by (simpl; auto). cbn [sbind]. rewrite IH by (intros; apply H; simpl; auto). reflexivity.
Qed.
Lemma sum_diff_same : forall l, sum_diff l l = 0.
Proof.
  intros l. unfold sum_diff. induction l as [|x l IH]; [reflexivity|]. cbn [combine map fold_left fst snd].
  replace (0 + (x - x)) with 0 by lia. exact IH.
Qed.
Lemma py_index_last : forall (x : Z) l, py_index (x :: l) (zlen (x :: l) - 1) = SOk (last l x).
Proof.
  intros x l. rewrite (py_index_lit (x :: l) _ (length l)); [|unfold zlen; cbn [length]; lia|cbn [length]; lia]. f_equal.
  revert x. induction l as [|y l IH]; intros x; [reflexivity|]. change (nth (length (y :: l)) (x :: y :: l) 0) with (nth (length l) (y :: l) 0).
  destruct l; [reflexivity|]. exact (IH x).
Qed.
Lemma last_map : forall (f : Z -> Z) l x, last (map f l) (f x) = f (last l x).
Proof. intros f l. induction l as [|y l IH]; intros x; [reflexivity|]. destruct l; [reflexivity|]. simpl in *. apply IH. Qed.

Theorem build_linear : forall s src q c, s < last src s -> 1 <= q <= 2 ^ 53 ->
  build_expr (s :: src) (map (fun x => q * x + c) (s :: src)) = SOk {| e_alpha := q; e_beta := c; e_factor := 0; e_trunc := 0 |}.
Proof.
  intros s src q c L Q. unfold build_expr. rewrite py_index_last. cbn [sbind].
  replace (py_index (s :: src) 0) with (@SOk Z s) by reflexivity. cbn [sbind].
  cbn [map]. replace (zlen (s :: src)) with (zlen ((q * s + c) :: map (fun x => q * x + c) src))
    by (unfold zlen; simpl; rewrite map_length; reflexivity).
  rewrite py_index_last. cbn [sbind]. rewrite (last_map (fun x => q * x + c)).
  replace (py_index ((q * s + c) :: map (fun x => q * x + c) src) 0) with (@SOk Z (q * s + c)) by reflexivity. cbn [sbind].
  set (e := last src s) in *.
  replace (q * e + c - (q * s + c)) with (q * (e - s)) by lia.
  destruct (Z.leb_spec (e - s) (q * (e - s))); [|nia].
  destruct (Z.eqb_spec (e - s) 0); [lia|].
  rewrite round_quot by lia. cbn [sbind].
  rewrite (smap_all Z Z _ (fun x => q * x + c)).
  2:{ intros x _. unfold expr_call. cbn [e_factor e_alpha e_beta Z.eqb]. unfold truncate_int. f_equal. lia. }
  cbn [sbind]. cbn [map]. rewrite sum_diff_same. cbn [Z.eqb]. f_equal. f_equal. lia.
Qed.
Lemma call_linear : forall q c x, expr_call {| e_alpha := q; e_beta := c; e_factor := 0; e_trunc := 0 |} x = SOk (q * x + c).
Proof. reflexivity. Qed.

(** ** update_variables *)
Lemma run_other : forall ex vars vars' v, run_exprs ex vars = SOk vars' -> ~ In v (dkeys ex) -> dget vars' v = dget vars v.
Proof.
  induction ex as [|[k [src e]] r IH]; intros vars vars' v H N; cbn [run_exprs] in H.
  - injection H as <-. reflexivity.
  - destruct (dget vars src) as [x|]; [|discriminate]. destruct (expr_call e x) as [y|]; [|discriminate]. cbn [sbind] in H.
    simpl in N. rewrite (IH _ _ v H) by tauto. apply dget_dset_neq. tauto.
Qed.
Lemma run_defined : forall ex vars vars', NoDup (dkeys ex) -> sources_first ex -> run_exprs ex vars = SOk vars' ->
  forall k src e, In (k, (src, e)) ex -> exists x y, dget vars' src = Some x /\ expr_call e x = SOk y /\ dget vars' k = Some y.
Proof.
  induction ex as [|[k0 [src0 e0]] r IH]; intros vars vars' ND SF H k src e I; [contradiction|].
  cbn [run_exprs] in H. destruct (dget vars src0) as [x|] eqn:X; [|discriminate].
  destruct (expr_call e0 x) as [y|] eqn:Y; [|discriminate]. cbn [sbind] in H.
  inversion ND as [|? ? N0 ND']; subst. change (map fst r) with (dkeys r) in N0.
  assert (SF' : sources_first r).
  { intros pre k1 s1 e1 post E. apply (SF ((k0, (src0, e0)) :: pre) k1 s1 e1 post). rewrite E. reflexivity. }
  destruct I as [I|I].
  - injection I as <- <- <-. destruct (SF [] k0 src0 e0 r eq_refl) as [S1 S2]. exists x, y. split; [|split; [exact Y|]].
    + rewrite (run_other _ _ _ src0 H S2). rewrite dget_dset_neq by auto. exact X.
    + rewrite (run_other _ _ _ k0 H N0). apply dget_dset_eq.
  - apply (IH _ _ ND' SF' H k src e I).
Qed.
(** the values depend only on the variables that no expression defines *)
Lemma run_agree : forall ex v1 v2 v1' v2', 
  NoDup (dkeys ex) -> sources_first ex ->
  (forall k, ~ In k (dkeys ex) -> dget v1 k = dget v2 k) ->
  run_exprs ex v1 = SOk v1' -> run_exprs ex v2 = SOk v2' -> forall k, dget v1' k = dget v2' k.
Proof.
  induction ex as [|[k0 [s0 e0]] r IH]; intros v1 v2 v1' v2' ND SF A R1 R2 k; cbn [run_exprs] in R1, R2.
  - injection R1 as <-. injection R2 as <-. apply A. simpl. tauto.
  - inversion ND as [|? ? N0 ND']; subst. change (map fst r) with (dkeys r) in N0.
    destruct (SF [] k0 s0 e0 r eq_refl) as [S1 S2].
    assert (E : dget v1 s0 = dget v2 s0).
    { apply A. simpl. intros [Q|Q]; [congruence|contradiction]. }
    rewrite E in R1. destruct (dget v2 s0) as [x|]; [|discriminate]. destruct (expr_call e0 x) as [y|]; [|discriminate].
    cbn [sbind] in R1, R2. refine (IH _ _ _ _ ND' _ _ R1 R2 k).
    + intros pre k1 s1 e1 post Q. apply (SF ((k0, (s0, e0)) :: pre) k1 s1 e1 post). rewrite Q. reflexivity.
    + intros k' N'. rewrite !dget_dset. destruct (String.eqb_spec k' k0) as [->|D]; [reflexivity|]. apply A. simpl. intros [Q|Q]; congruence.
Qed.

(** ** decimal names *)
Lemma to_uint_nonnil : forall n, Nat.to_uint n <> Decimal.Nil.
Proof.
  intros n E. pose proof (DecimalNat.Unsigned.of_to n) as X. pose proof (f_equal Nat.of_uint E) as Y.
  assert (n = 0%nat) by (rewrite X in Y; exact Y). subst. discriminate.
Qed.
Lemma dec_value : forall n, numeric_value (dec n) = Some n.
Proof.
  intros n. unfold dec, numeric_value, NilZero.string_of_uint. pose proof (to_uint_nonnil n) as N.
  assert (E : match Nat.to_uint n with Decimal.Nil => "0"%string | _ => NilEmpty.string_of_uint (Nat.to_uint n) end = NilEmpty.string_of_uint (Nat.to_uint n))
    by (destruct (Nat.to_uint n); congruence).
  rewrite E. rewrite NilEmpty.usu. simpl. rewrite DecimalNat.Unsigned.of_to.
  destruct (Nat.to_uint n); try congruence; reflexivity.
Qed.
Lemma dec_inj : forall n m, dec n = dec m -> n = m.
Proof. intros n m E. pose proof (dec_value n) as A. rewrite E, dec_value in A. congruence. Qed.

Lemma nth_error_set_nth : forall (A : Type) (l : list A) i v j, (i < length l)%nat ->
  nth_error (set_nth l i v) j = if Nat.eqb j i then Some v else nth_error l j.
Proof.
  intros A l. induction l as [|x l IH]; intros i v j H; simpl in H; [lia|].
  destruct i as [|i]; destruct j as [|j]; simpl; auto. apply IH. lia.
Qed.
Lemma set_nth_length : forall (A : Type) (l : list A) i v, length (set_nth l i v) = length l.
Proof. intros A l. induction l; intros [|i] v; simpl; auto. Qed.

(** ** One variable, integer-linear dimensions *)
Definition lin (f : Z * Z) (x : Z) : Z := fst f * x + snd f.
(** what the theorem assumes about the graph: tensor [t] of [dyn] has [rank t] dimensions, dimension [i] being
    [slope t i * x + offset t i] for every value [x] of the variable in [dom] *)
Record linear_graph (g : rgraph) (input_desc : dict (list delem)) (key : string) (mn mx : Z)
    (dyn : list string) (rank : string -> nat) (slope offset : string -> nat -> Z) (dom : Z -> Prop) : Prop := {
  lg_infer : forall vars x, dget vars key = Some x -> dom x ->
    rg_infer g vars = SOk (map (fun t => (t, map (fun i => slope t i * x + offset t i) (seq 0 (rank t)))) dyn);
  lg_nodup : NoDup dyn;
  lg_slope : forall t i, In t dyn -> 0 <= slope t i <= 2 ^ 53;
  lg_inputs : NoDup (dkeys input_desc);
  lg_desc : forall t d e, In (t, d) input_desc -> In e d -> (exists z, e = DI z) \/ e = DV key;
  lg_key : numeric_value key = None;
  lg_range : mn < mx;
  lg_dom : dom mn /\ dom ((mn + mx) / 2) /\ dom mx;
  (** the producer of a computed tensor exists, and the slopes of its inputs' computed dimensions divide its own *)
  lg_producer : forall t, In t dyn -> ~ In t (dkeys input_desc) -> exists ins, rg_producer g t = Some ins /\
    forall u i j, In u ins -> In u dyn -> ~ In u (dkeys input_desc) -> (i < rank t)%nat -> (j < rank u)%nat ->
      1 <= slope t i -> 1 <= slope u j -> (slope u j, offset u j) <> (1, 0) -> (slope u j | slope t i)
}.

Section Single.
Variable (g : rgraph) (input_desc : dict (list delem)) (key : string) (mn mx : Z)
    (dyn : list string) (rank : string -> nat) (slope offset : string -> nat -> Z) (dom : Z -> Prop).
Hypothesis G : linear_graph g input_desc key mn mx dyn rank slope offset dom.
Let mid := (mn + mx) / 2.
Let src := [mn; mid; mx].
Definition samples (f : Z * Z) : list Z := [lin f mn; lin f mid; lin f mx].
Definition dimf (t : string) (i : nat) : Z * Z := (slope t i, offset t i).
Definition vname (j : nat) : string := match j with O => key | S _ => dec j end.
Definition shapes (x : Z) : dict (list Z) := map (fun t => (t, map (fun i => slope t i * x + offset t i) (seq 0 (rank t)))) dyn.

Lemma samples_inj : forall f f', samples f = samples f' -> f = f'.
Proof.
  intros [a b] [a' b'] E. unfold samples, lin in E. simpl in E.
  assert (E1 : a * mn + b = a' * mn + b') by congruence. assert (E2 : a * mx + b = a' * mx + b') by congruence.
  pose proof (lg_range _ _ _ _ _ _ _ _ _ _ G). assert (a = a') by nia. subst. f_equal. lia.
Qed.
Lemma vname_inj : forall i j, vname i = vname j -> i = j.
Proof.
  pose proof (lg_key _ _ _ _ _ _ _ _ _ _ G) as K.
  intros [|i] [|j] E; cbn [vname] in E; auto.
  - exfalso. rewrite E, dec_value in K. discriminate.
  - exfalso. rewrite <- E, dec_value in K. discriminate.
  - apply dec_inj in E. exact E.
Qed.

(** the expressions: entry [j] defines variable [vname (S j)] from an earlier one *)
Definition expr_entry (fs : list (Z * Z)) (j : nat) (p : string * (string * expr)) : Prop :=
  fst p = vname (S j) /\ exists m fm f, (m <= j)%nat /\ fst (snd p) = vname m /\ nth_error fs m = Some fm /\
    nth_error fs (S j) = Some f /\ forall x, expr_call (snd (snd p)) (lin fm x) = SOk (lin f x).

Record Inv (en : sengine) (dst : list (list Z)) (trm : dict (list Z)) (done : string -> nat -> Prop) (fs : list (Z * Z)) : Prop := {
  i_dst : dst = map samples fs;
  i_hd : nth_error fs 0 = Some (1, 0);
  i_nodup : NoDup fs;
  i_slope : forall f, In f fs -> 1 <= fst f <= 2 ^ 53;
  i_trm : forall k r, dget trm k = Some r -> exists j f, k = vname (S j) /\ nth_error fs (S j) = Some f /\ r = samples f;
  i_trm' : forall j f, nth_error fs (S j) = Some f -> dget trm (vname (S j)) = Some (samples f);
  i_elen : S (length (se_expr en)) = length fs;
  i_expr : forall j p, nth_error (se_expr en) j = Some p -> expr_entry fs j p;
  i_input : forall t, In t (dkeys input_desc) -> dget (se_desc en) t = dget input_desc t;
  i_desc : forall t, In t dyn -> ~ In t (dkeys input_desc) -> exists d, dget (se_desc en) t = Some d /\ length d = rank t /\
     forall i, (i < rank t)%nat -> 
       (slope t i = 0 -> nth_error d i = Some (DI (offset t i))) /\
       (slope t i <> 0 -> (done t i /\ exists j, nth_error d i = Some (DV (vname j)) /\ nth_error fs j = Some (dimf t i)) \/
                          (~ done t i /\ nth_error d i = Some (DV "")));
  i_only : forall t d, dget (se_desc en) t = Some d -> In t dyn \/ In t (dkeys input_desc)
}.

Lemma find_range_ok : forall fs f k, match find_range (samples f) (map samples fs) k with
  | Some i => (k <= i)%nat /\ nth_error fs (i - k) = Some f
  | None => ~ In f fs end.
Proof.
  induction fs as [|h fs IH]; intros f k; cbn [map find_range]; [auto|].
  assert (E : same_range (samples f) (samples h) = true <-> f = h).
  { split; [|intros ->; unfold same_range; cbn; rewrite !Z.eqb_refl; reflexivity].
    intros S. apply samples_inj. unfold same_range, samples in S. cbn in S. 
    apply andb_prop in S. destruct S as [S1 S2]. apply andb_prop in S2. destruct S2 as [S2 S3]. apply andb_prop in S3. destruct S3 as [S3 _].
    apply Z.eqb_eq in S1, S2, S3. unfold samples. congruence. }
  destruct (same_range (samples f) (samples h)).
  - rewrite Nat.sub_diag. split; auto. simpl. f_equal. symmetry. apply E. reflexivity.
  - assert (N : f <> h) by (intros X; apply E in X; discriminate).
    specialize (IH f (S k)). destruct (find_range (samples f) (map samples fs) (S k)) as [i|].
    + destruct IH as [L Q]. split; [lia|]. replace (i - k)%nat with (S (i - S k)) by lia. exact Q.
    + intros [X|X]; [congruence|auto].
Qed.

Lemma source_keys_ok : forall en dst trm done fs ins k ks, Inv en dst trm done fs -> source_keys en 0 ins = k :: ks ->
  exists m f u i, (0 < m)%nat /\ k = vname m /\ nth_error fs m = Some f /\ In u ins /\ In u dyn /\ ~ In u (dkeys input_desc) /\
     (i < rank u)%nat /\ slope u i <> 0 /\ f = dimf u i.
Proof.
  intros en dst trm done fs ins k ks I E.
  assert (H : In k (source_keys en 0 ins)) by (rewrite E; simpl; auto). clear E.
  unfold source_keys in H. apply in_flat_map in H. destruct H as (u & Iu & H).
  destruct (dget (se_desc en) u) as [d|] eqn:D; [|contradiction].
  apply in_flat_map in H. destruct H as (e & Ie & H). destruct e as [z|v]; [contradiction|].
  destruct (numeric_value v) as [n|] eqn:NV; [|contradiction]. cbn [Nat.leb] in H. destruct H as [<-|[]].
  destruct (in_dec string_dec u (dkeys input_desc)) as [Q|Q].
  - exfalso. rewrite (i_input _ _ _ _ _ I u Q) in D. apply dget_In in D.
    destruct (lg_desc _ _ _ _ _ _ _ _ _ _ G u d (DV v) D Ie) as [[z Z]|Z]; [discriminate|]. injection Z as ->.
    rewrite (lg_key _ _ _ _ _ _ _ _ _ _ G) in NV. discriminate.
  - destruct (i_only _ _ _ _ _ I u d D) as [Du|]; [|contradiction].
    destruct (i_desc _ _ _ _ _ I u Du Q) as (d' & D' & L & H'). rewrite D in D'. injection D' as <-.
    apply In_nth_error in Ie. destruct Ie as (i & Ie).
    assert (Li : (i < rank u)%nat) by (rewrite <- L; apply nth_error_Some; congruence).
    destruct (H' i Li) as [H0 H1]. destruct (Z.eq_dec (slope u i) 0) as [Z|Z]; [rewrite (H0 Z) in Ie; discriminate|].
    destruct (H1 Z) as [(_ & j & N & F)|(_ & N)].
    + rewrite Ie in N. injection N as ->. destruct j as [|j].
      * exfalso. cbn [vname] in NV. rewrite (lg_key _ _ _ _ _ _ _ _ _ _ G) in NV. discriminate.
      * exists (S j), (dimf u i), u, i. repeat split; auto. lia.
    + rewrite Ie in N. injection N as ->. discriminate.
Qed.

Lemma build_samples : forall a b q c, 1 <= a -> 1 <= q <= 2 ^ 53 ->
  build_expr (samples (a, b)) (samples (q * a, q * b + c)) = SOk {| e_alpha := q; e_beta := c; e_factor := 0; e_trunc := 0 |}.
Proof.
  intros a b q c A Q.
  replace (samples (q * a, q * b + c)) with (map (fun x => q * x + c) (samples (a, b))).
  - apply build_linear; auto. unfold lin. simpl. pose proof (lg_range _ _ _ _ _ _ _ _ _ _ G). nia.
  - unfold samples, lin. cbn [map fst snd]. do 3 (apply f_equal2; [ring|]). reflexivity.
Qed.

(** the effect of writing a variable name into one descriptor entry *)
Lemma Inv_desc : forall en dst trm done fs t i j, Inv en dst trm done fs -> In t dyn -> ~ In t (dkeys input_desc) -> (i < rank t)%nat ->
  slope t i <> 0 -> nth_error fs j = Some (dimf t i) ->
  exists en', update_tensor_desc en t i (vname j) = SOk en' /\ Inv en' dst trm (fun t' i' => done t' i' \/ (t' = t /\ i' = i)) fs.
Proof.
  intros en dst trm done fs t i j I Dt Nt Li Z F.
  destruct (i_desc _ _ _ _ _ I t Dt Nt) as (d & D & L & H). destruct (H i Li) as [_ H1]. specialize (H1 Z).
  unfold update_tensor_desc. rewrite D.
  assert (V : exists v, nth_error d i = Some (DV v)) by (destruct H1 as [(_ & j' & N & _)|(_ & N)]; eauto).
  destruct V as (v & ->). eexists. split; [reflexivity|]. destruct I.
  constructor; auto; cbn [se_desc se_expr add_tensor_desc].
  - intros u U. rewrite dget_dset_neq by (intros ->; contradiction). auto.
  - intros u Du Nu. destruct (string_dec u t) as [->|Nut].
    + rewrite dget_dset_eq. eexists. split; [reflexivity|]. rewrite set_nth_length. split; [exact L|].
      intros i' Li'. rewrite nth_error_set_nth by lia. destruct (Nat.eqb_spec i' i) as [->|Ni].
      * split; [intros; contradiction|]. intros _. left. split; [auto|]. exists j. auto.
      * destruct (H i' Li') as [A B]. split; [exact A|]. intros Z'. destruct (B Z') as [(Dn & X)|(Dn & X)]; [left; auto|right].
        split; auto. intros [Y|[_ Y]]; auto.
    + rewrite dget_dset_neq by auto. destruct (i_desc0 u Du Nu) as (du & Eu & Lu & Hu). exists du. split; auto. split; auto.
      intros i' Li'. destruct (Hu i' Li') as [A B]. split; auto. intros Z'. destruct (B Z') as [(Dn & X)|(Dn & X)]; [left; auto|right].
      split; auto. intros [Y|[Y _]]; auto.
  - intros u du. rewrite dget_dset. destruct (String.eqb_spec u t) as [->|]; [auto|]. apply i_only0.
Qed.

(** adding a new function with its expression *)
Lemma Inv_expr : forall en dst trm done fs f m fm e, Inv en dst trm done fs -> ~ In f fs -> 1 <= fst f <= 2 ^ 53 ->
  nth_error fs m = Some fm -> (forall x, expr_call e (lin fm x) = SOk (lin f x)) ->
  Inv (add_expr en (vname (length fs)) (vname m) e) (dst ++ [samples f]) (dset trm (vname (length fs)) (samples f)) done (fs ++ [f]).
Proof.
  intros en dst trm done fs f m fm e I Nf Sf Fm Ex. destruct I.
  assert (Lm : (m < length fs)%nat) by (apply nth_error_Some; congruence).
  assert (L0 : (0 < length fs)%nat) by (apply nth_error_Some; congruence).
  assert (EX : forall j x, nth_error fs j = Some x -> nth_error (fs ++ [f]) j = Some x).
  { intros j x H. rewrite nth_error_app1; auto. apply nth_error_Some. congruence. }
  assert (KN : ~ In (vname (length fs)) (dkeys (se_expr en))).
  { intros K. unfold dkeys in K. apply in_map_iff in K. destruct K as (p & P & K). apply In_nth_error in K. destruct K as (j & K).
    assert (j < length (se_expr en))%nat by (apply nth_error_Some; congruence).
    destruct (i_expr0 j p K) as [Q _]. rewrite P in Q. apply vname_inj in Q. lia. }
  constructor; cbn [se_expr se_desc add_expr]; auto.
  - rewrite i_dst0, map_app. reflexivity.
  - apply NoDup_snoc; auto.
  - intros h H. apply in_app_or in H. destruct H as [H|[<-|[]]]; auto.
  - intros k r. rewrite dget_dset. destruct (String.eqb_spec k (vname (length fs))) as [->|].
    + intros E. injection E as <-. exists (Nat.pred (length fs)), f. replace (S (Nat.pred (length fs))) with (length fs) by lia.
      split; auto. split; auto. rewrite nth_error_app2 by lia. rewrite Nat.sub_diag. reflexivity.
    + intros E. destruct (i_trm0 k r E) as (j & h & A & B & C). exists j, h. auto.
  - intros j h H. rewrite dget_dset. destruct (Nat.eq_dec (S j) (length fs)) as [E|E].
    + rewrite E, String.eqb_refl. rewrite nth_error_app2 in H by lia. rewrite E, Nat.sub_diag in H. simpl in H. congruence.
    + assert (Lj : (S j < length (fs ++ [f]))%nat) by (apply nth_error_Some; congruence). rewrite app_length in Lj. simpl in Lj.
      rewrite nth_error_app1 in H by lia. rewrite (i_trm'0 j h H).
      destruct (String.eqb_spec (vname (S j)) (vname (length fs))) as [Q|]; auto. apply vname_inj in Q. lia.
  - rewrite dset_new by auto. rewrite !app_length. simpl. lia.
  - intros j p H. rewrite dset_new in H by auto. destruct (Nat.lt_ge_cases j (length (se_expr en))) as [Q|Q].
    + rewrite nth_error_app1 in H by auto. destruct (i_expr0 j p H) as (A & m' & fm' & f' & B & C & D & E & F).
      split; auto. exists m', fm', f'. auto 10.
    + assert (Lj : (j < length (se_expr en ++ [(vname (length fs), (vname m, e))]))%nat) by (apply nth_error_Some; congruence).
      rewrite app_length in Lj. simpl in Lj. assert (j = length (se_expr en)) by lia. subst j.
      rewrite nth_error_app2 in H by lia. rewrite Nat.sub_diag in H. simpl in H. injection H as <-.
      split; cbn [fst snd]; [rewrite i_elen0; reflexivity|]. exists m, fm, f. split; [lia|]. split; auto. split; auto. split; auto.
      rewrite i_elen0, nth_error_app2 by lia. rewrite Nat.sub_diag. reflexivity.
  - intros t Dt Nt. destruct (i_desc0 t Dt Nt) as (d & A & B & C). exists d. split; auto. split; auto.
    intros i Li. destruct (C i Li) as [C0 C1]. split; auto. intros Z. destruct (C1 Z) as [(X & j & Y1 & Y2)|X]; [left|right; auto].
    split; auto. exists j. auto.
Qed.

Lemma regress_dim_ok : forall en dst trm done fs t i, Inv en dst trm done fs -> In t dyn -> ~ In t (dkeys input_desc) -> (i < rank t)%nat ->
  slope t i <> 0 ->
  exists en' dst' trm' fs', regress_dim g key src 0 t i (samples (dimf t i)) (en, dst, trm) = SOk (en', dst', trm') /\
    Inv en' dst' trm' (fun t' i' => done t' i' \/ (t' = t /\ i' = i)) fs'.
Proof.
  intros en dst trm done fs t i I Dt Nt Li Z.
  pose proof (lg_slope _ _ _ _ _ _ _ _ _ _ G t i Dt) as SL.
  unfold regress_dim. pose proof (find_range_ok fs (dimf t i) 0) as FR. rewrite <- (i_dst _ _ _ _ _ I) in FR.
  destruct (find_range (samples (dimf t i)) dst 0) as [j|] eqn:FE.
  - destruct FR as [_ FR]. rewrite Nat.sub_0_r in FR.
    destruct (Inv_desc _ _ _ _ _ t i j I Dt Nt Li Z FR) as (en' & E & I').
    exists en', dst, trm, fs. split; [|exact I']. destruct j as [|j]; cbn [vname] in E; simpl Nat.add; rewrite E; reflexivity.
  - destruct (lg_producer _ _ _ _ _ _ _ _ _ _ G t Dt Nt) as (ins & -> & DIV).
    assert (LEN : length dst = length fs) by (rewrite (i_dst _ _ _ _ _ I), map_length; reflexivity).
    assert (L0 : (0 < length fs)%nat) by (apply nth_error_Some; rewrite (i_hd _ _ _ _ _ I); discriminate).
    assert (VN : dec (0 + length dst) = vname (length fs)) by (rewrite LEN; simpl; destruct (length fs); [lia|reflexivity]).
    assert (X : exists e m fm, match source_keys en 0 ins with
            | [] => let* e := build_expr src (samples (dimf t i)) in SOk (e, key)
            | k :: _ => match dget trm k with None => SRaise KeyErr | Some r => let* e := build_expr r (samples (dimf t i)) in SOk (e, k) end
            end = SOk (e, vname m) /\ nth_error fs m = Some fm /\ forall x, expr_call e (lin fm x) = SOk (lin (dimf t i) x)).
    { destruct (source_keys en 0 ins) as [|k ks] eqn:SK.
      - exists {| e_alpha := slope t i; e_beta := offset t i; e_factor := 0; e_trunc := 0 |}, 0%nat, (1, 0).
        split; [|split; [apply (i_hd _ _ _ _ _ I)|]].
        + pose proof (build_samples 1 0 (slope t i) (offset t i) ltac:(lia) ltac:(lia)) as B.
          replace (samples (1, 0)) with src in B by (unfold samples, lin, src; cbn [fst snd]; rewrite !Z.mul_1_l, !Z.add_0_r; reflexivity).
          replace (slope t i * 1, slope t i * 0 + offset t i) with (dimf t i) in B by (unfold dimf; f_equal; lia).
          rewrite B. reflexivity.
        + intros x. rewrite call_linear. unfold lin, dimf. cbn [fst snd]. f_equal. lia.
      - destruct (source_keys_ok _ _ _ _ _ _ _ _ I SK) as (m & f & u & i' & M & -> & F & Iu & Du & Nu & Li' & Zu & ->).
        destruct m as [|m]; [lia|]. rewrite (i_trm' _ _ _ _ _ I m _ F).
        pose proof (lg_slope _ _ _ _ _ _ _ _ _ _ G u i' Du) as SU.
        assert (NE : (slope u i', offset u i') <> (1, 0)).
        { intros Q. pose proof (i_nodup _ _ _ _ _ I) as ND. rewrite NoDup_nth_error in ND.
          assert (0%nat = S m); [|discriminate]. apply ND; [exact L0|].
          rewrite (i_hd _ _ _ _ _ I). unfold dimf in F. rewrite Q in F. symmetry. exact F. }
        destruct (DIV u i i' Iu Du Nu Li Li' ltac:(lia) ltac:(lia) NE) as (q & Hq).
        assert (Q1 : 1 <= q <= 2 ^ 53) by nia.
        exists {| e_alpha := q; e_beta := offset t i - q * offset u i'; e_factor := 0; e_trunc := 0 |}, (S m), (dimf u i').
        split; [|split; [exact F|]].
        + pose proof (build_samples (slope u i') (offset u i') q (offset t i - q * offset u i') ltac:(lia) Q1) as B.
          replace (q * slope u i', q * offset u i' + (offset t i - q * offset u i')) with (dimf t i) in B
            by (unfold dimf; rewrite Hq; f_equal; lia).
          unfold dimf at 1. rewrite B. reflexivity.
        + intros x. rewrite call_linear. unfold lin, dimf. cbn [fst snd]. f_equal. rewrite Hq. ring. }
    destruct X as (e & m & fm & -> & Fm & Ex). cbn [sbind fst snd]. rewrite VN.
    assert (I1 := Inv_expr _ _ _ _ _ (dimf t i) m fm e I FR ltac:(unfold dimf; simpl; lia) Fm Ex).
    destruct (Inv_desc _ _ _ _ _ t i (length fs) I1 Dt Nt Li Z) as (en' & E & I').
    { rewrite nth_error_app2 by lia. rewrite Nat.sub_diag. reflexivity. }
    rewrite E. cbn [sbind]. do 4 eexists. split; [reflexivity|exact I'].
Qed.

Lemma shape_index : forall t x i, (i < rank t)%nat ->
  py_index (map (fun i => slope t i * x + offset t i) (seq 0 (rank t))) (Z.of_nat i) = SOk (lin (dimf t i) x).
Proof.
  intros t x i L. rewrite (py_index_lit _ _ i eq_refl) by (rewrite map_length, seq_length; lia). f_equal.
  rewrite (nth_indep _ 0 (slope t 0 * x + offset t 0)) by (rewrite map_length, seq_length; lia).
  rewrite (map_nth (fun i => slope t i * x + offset t i)). rewrite seq_nth by lia. reflexivity.
Qed.
Definition shape_at (t : string) (x : Z) : list Z := map (fun i => slope t i * x + offset t i) (seq 0 (rank t)).

Lemma regress_dims_ok : forall is en dst trm done fs t, Inv en dst trm done fs -> In t dyn -> ~ In t (dkeys input_desc) ->
  (forall i, In i is -> (i < rank t)%nat) ->
  exists en' dst' trm' fs', regress_dims g key src 0 t (shape_at t mn) (shape_at t mid) (shape_at t mx) is (en, dst, trm) = SOk (en', dst', trm') /\
    Inv en' dst' trm' (fun t' i' => done t' i' \/ (t' = t /\ In i' is /\ slope t i' <> 0)) fs'.
Proof.
  induction is as [|i is IH]; intros en dst trm done fs t I Dt Nt L.
  - exists en, dst, trm, fs. split; [reflexivity|]. destruct I. constructor; auto.
    intros u Du Nu. destruct (i_desc0 u Du Nu) as (d & A & B & C). exists d. split; auto. split; auto. intros i Li. destruct (C i Li) as [C0 C1].
    split; auto. intros Z. destruct (C1 Z) as [(X & Y)|(X & Y)]; [left; auto|right; split; auto]. simpl. tauto.
  - cbn [regress_dims]. unfold shape_at. rewrite !shape_index by (apply L; simpl; auto). cbn [sbind]. fold (shape_at t mn) (shape_at t mid) (shape_at t mx).
    assert (Li : (i < rank t)%nat) by (apply L; simpl; auto).
    pose proof (lg_range _ _ _ _ _ _ _ _ _ _ G) as RG.
    destruct (Z.eq_dec (slope t i) 0) as [Z|Z].
    + assert (E : forall x y, (lin (dimf t i) x =? lin (dimf t i) y) = true).
      { intros. apply Z.eqb_eq. unfold lin, dimf. cbn [fst snd]. rewrite Z. lia. }
      rewrite !E. cbn [negb sbind].
      destruct (IH en dst trm done fs t I Dt Nt) as (en' & dst' & trm' & fs' & R & I'); [intros; apply L; simpl; auto|].
      exists en', dst', trm', fs'. split; [exact R|]. destruct I'. constructor; auto.
      intros u Du Nu. destruct (i_desc0 u Du Nu) as (d & A & B & C). exists d. split; auto. split; auto. intros i' Li'. destruct (C i' Li') as [C0 C1].
      split; auto. intros Z'. destruct (C1 Z') as [(X & Y)|(X & Y)]; [left|right]; (split; [|exact Y]).
      * destruct X as [X|(-> & X & X')]; [auto|]. right. simpl. auto.
      * intros [Q|(-> & [<-|Q] & Q')]; apply X; auto; try contradiction. 
    + pose proof (lg_slope _ _ _ _ _ _ _ _ _ _ G t i Dt) as SL.
      assert (NE : (lin (dimf t i) mn =? lin (dimf t i) mx) = false).
      { apply Z.eqb_neq. unfold lin, dimf. cbn [fst snd]. nia. }
      destruct (regress_dim_ok en dst trm done fs t i I Dt Nt Li Z) as (en1 & dst1 & trm1 & fs1 & R1 & I1).
      unfold samples in R1.
      destruct (IH en1 dst1 trm1 _ fs1 t I1 Dt Nt) as (en' & dst' & trm' & fs' & R & I'); [intros; apply L; simpl; auto|].
      exists en', dst', trm', fs'. split.
      * destruct (negb (lin (dimf t i) mn =? lin (dimf t i) mid)); cbn [sbind]; rewrite ?NE; cbn [negb sbind]; rewrite R1; cbn [sbind]; exact R.
      * destruct I'. constructor; auto.
        intros u Du Nu. destruct (i_desc0 u Du Nu) as (d & A & B & C). exists d. split; auto. split; auto. intros i' Li'. destruct (C i' Li') as [C0 C1].
        split; auto. intros Z'. destruct (C1 Z') as [(X & Y)|(X & Y)]; [left|right]; (split; [|exact Y]).
        -- destruct X as [[X|(-> & ->)]|(-> & X & X')]; [auto| |]; right; simpl; auto.
        -- intros [Q|(-> & [<-|Q] & Q')]; apply X; auto.
Qed.

Lemma dget_shapes : forall x t, In t dyn -> dget (shapes x) t = Some (shape_at t x).
Proof.
  intros x t I. unfold shapes.
  assert (H : forall l, In t l -> dget (map (fun t => (t, shape_at t x)) l) t = Some (shape_at t x)).
  { induction l as [|u l IH]; intros Il; [contradiction|]. cbn [map dget].
    destruct (String.eqb_spec t u) as [->|N]; [reflexivity|]. destruct Il as [->|Il]; [congruence|]. auto. }
  exact (H dyn I).
Qed.
Lemma regress_tensors_ok : forall ts en dst trm done fs, incl ts dyn -> Inv en dst trm done fs ->
  exists en' dst' trm' fs', regress_tensors g input_desc key src 0 (shapes mn) (shapes mid) (shapes mx) (map (fun t => (t, shape_at t mn)) ts) (en, dst, trm) = SOk (en', dst', trm') /\
    Inv en' dst' trm' (fun t' i' => done t' i' \/ (In t' ts /\ ~ In t' (dkeys input_desc) /\ (i' < rank t')%nat /\ slope t' i' <> 0)) fs'.
Proof.
  induction ts as [|t ts IH]; intros en dst trm done fs IC I.
  - exists en, dst, trm, fs. split; [reflexivity|]. destruct I. constructor; auto.
    intros u Du Nu. destruct (i_desc0 u Du Nu) as (d & A & B & C). exists d. split; auto. split; auto. intros i Li. destruct (C i Li) as [C0 C1].
    split; auto. intros Z. destruct (C1 Z) as [(X & Y)|(X & Y)]; [left; auto|right; split; auto]. simpl. tauto.
  - cbn [map regress_tensors]. assert (Dt : In t dyn) by (apply IC; simpl; auto).
    assert (ICts : incl ts dyn) by (intros z Hz; apply IC; simpl; auto).
    unfold dhas. destruct (dget input_desc t) as [di|] eqn:DI.
    + apply dget_Some_keys in DI.
      destruct (IH en dst trm done fs ICts I) as (en' & dst' & trm' & fs' & R & I').
      exists en', dst', trm', fs'. split; [exact R|]. destruct I'. constructor; auto.
      intros u Du Nu. destruct (i_desc0 u Du Nu) as (d & A & B & C). exists d. split; auto. split; auto. intros i' Li'. destruct (C i' Li') as [C0 C1].
      split; auto. intros Z'. destruct (C1 Z') as [(X & Y)|(X & Y)]; [left|right]; (split; [|exact Y]).
      * destruct X as [X|(X & X')]; [auto|]. right. simpl. auto.
      * intros [Q|([<-|Q] & Q')]; apply X; auto. tauto.
    + apply dget_None in DI. rewrite !dget_shapes by auto.
      assert (LS : length (shape_at t mn) = rank t) by (unfold shape_at; rewrite map_length, seq_length; reflexivity).
      rewrite LS.
      destruct (regress_dims_ok (seq 0 (rank t)) en dst trm done fs t I Dt DI) as (en1 & dst1 & trm1 & fs1 & R1 & I1).
      { intros i Hi. apply in_seq in Hi. lia. }
      rewrite R1. cbn [sbind].
      destruct (IH en1 dst1 trm1 _ fs1 ICts I1) as (en' & dst' & trm' & fs' & R & I').
      exists en', dst', trm', fs'. split; [exact R|]. destruct I'. constructor; auto.
      intros u Du Nu. destruct (i_desc0 u Du Nu) as (d & A & B & C). exists d. split; auto. split; auto. intros i' Li'. destruct (C i' Li') as [C0 C1].
      split; auto. intros Z'. destruct (C1 Z') as [(X & Y)|(X & Y)]; [left|right]; (split; [|exact Y]).
      * destruct X as [[X|(-> & X & X')]|(X & X')]; [auto| |]; right; simpl; auto.
      * intros [Q|([<-|Q] & Q1 & Q2 & Q3)]; apply X; auto. left. right. split; auto. split; auto. apply in_seq. lia.
Qed.

(** the initial descriptors *)
Lemma min_max_desc_ok : forall t l, (forall i, In i l -> slope t i <> 0 -> 0 < slope t i) ->
  min_max_desc (map (fun i => slope t i * mn + offset t i) l) (map (fun i => slope t i * mx + offset t i) l) =
  map (fun i => if slope t i =? 0 then DI (offset t i) else DV "") l.
Proof.
  intros t l. induction l as [|i l IH]; intros H; [reflexivity|]. cbn [map min_max_desc]. rewrite IH by (intros; apply H; simpl; auto).
  f_equal. pose proof (lg_range _ _ _ _ _ _ _ _ _ _ G) as RG.
  destruct (Z.eqb_spec (slope t i) 0) as [E|N].
  - rewrite E. destruct (Z.eqb_spec (0 * mn + offset t i) (0 * mx + offset t i)); [f_equal; lia|lia].
  - specialize (H i (or_introl eq_refl) N). destruct (Z.eqb_spec (slope t i * mn + offset t i) (slope t i * mx + offset t i)); [nia|reflexivity].
Qed.
Lemma new_desc : forall (l d : dict (list delem)), NoDup (dkeys l) -> (forall k, In k (dkeys l) -> ~ In k (dkeys d)) ->
  fold_left (fun d p => dset d (fst p) (snd p)) l d = (d ++ l)%list.
Proof.
  induction l as [|[k v] l IH]; intros d ND DJ; cbn [fold_left fst snd].
  - rewrite app_nil_r. reflexivity.
  - inversion ND as [|? ? N0 ND']; subst. rewrite dset_new by (apply DJ; simpl; auto). rewrite IH; auto.
    + rewrite <- app_assoc. reflexivity.
    + intros k' K'. unfold dkeys. rewrite map_app. intros Q. apply in_app_or in Q. destruct Q as [Q|[Q|[]]].
      * apply (DJ k'); simpl; auto.
      * simpl in Q. subst. contradiction.
Qed.
Lemma init_desc_ok : forall ts en, incl ts dyn -> NoDup ts ->
  exists en', init_desc input_desc (shapes mn) (shapes mx) (map (fun t => (t, shape_at t mn)) ts) en = SOk en' /\
    se_expr en' = se_expr en /\ se_vars en' = se_vars en /\
    (forall t, In t (dkeys input_desc) \/ ~ In t ts -> dget (se_desc en') t = dget (se_desc en) t) /\
    (forall t, In t ts -> ~ In t (dkeys input_desc) ->
       dget (se_desc en') t = Some (map (fun i => if slope t i =? 0 then DI (offset t i) else DV "") (seq 0 (rank t)))).
Proof.
  induction ts as [|t ts IH]; intros en IC ND; cbn [map init_desc].
  - exists en. split; [reflexivity|]. repeat split; auto. intros t [].
  - assert (Dt : In t dyn) by (apply IC; simpl; auto). assert (ICts : incl ts dyn) by (intros z Hz; apply IC; simpl; auto).
    inversion ND as [|? ? N0 ND']; subst.
    unfold dhas. destruct (dget input_desc t) as [di|] eqn:DI.
    + apply dget_Some_keys in DI. destruct (IH en ICts ND') as (en' & R & E & V & A & B). exists en'. split; [exact R|]. split; auto. split; auto. split.
      * intros u [U|U]; apply A; auto. right. intros Q. apply U. simpl. auto.
      * intros u [<-|U] NU; [contradiction|auto].
    + apply dget_None in DI. rewrite dget_shapes by auto.
      destruct (IH (add_tensor_desc en t (min_max_desc (shape_at t mn) (shape_at t mx))) ICts ND') as (en' & R & E & V & A & B).
      exists en'. split; [exact R|]. split; [exact E|]. split; [exact V|]. cbn [add_tensor_desc se_desc] in A. split.
      * intros u U. assert (u <> t) by (intros ->; destruct U as [U|U]; [contradiction|apply U; simpl; auto]).
        rewrite A by (destruct U as [U|U]; [auto|right; intros Q; apply U; simpl; auto]). apply dget_dset_neq. auto.
      * intros u U NU. destruct (string_dec u t) as [->|N].
        -- rewrite A by auto. rewrite dget_dset_eq. f_equal. unfold shape_at. apply min_max_desc_ok.
           intros i _ Z. pose proof (lg_slope _ _ _ _ _ _ _ _ _ _ G t i Dt). lia.
        -- destruct U as [U|U]; [congruence|]. auto.
Qed.

(** running the expressions *)
Lemma run_ok : forall ex fs k vars x, (forall j p, nth_error ex j = Some p -> expr_entry fs (k + j) p) ->
  (forall m f, (m <= k)%nat -> nth_error fs m = Some f -> dget vars (vname m) = Some (lin f x)) ->
  exists vars', run_exprs ex vars = SOk vars' /\
    forall m f, (m <= k + length ex)%nat -> nth_error fs m = Some f -> dget vars' (vname m) = Some (lin f x).
Proof.
  induction ex as [|[v [s e]] ex IH]; intros fs k vars x H V; cbn [run_exprs].
  - exists vars. split; [reflexivity|]. intros m f L. apply V. simpl in L. lia.
  - destruct (H 0%nat _ eq_refl) as (A & m & fm & f & M & S & Fm & F & Ex). cbn [fst snd] in *.
    rewrite Nat.add_0_r in *. subst v s. rewrite (V m fm M Fm), Ex. cbn [sbind].
    destruct (IH fs (S k) (dset vars (vname (S k)) (lin f x)) x) as (vars' & R & W).
    + intros j p P. replace (S k + j)%nat with (k + S j)%nat by lia. apply H. exact P.
    + intros m' f' M' F'. rewrite dget_dset. destruct (String.eqb_spec (vname m') (vname (S k))) as [Q|Q].
      * apply vname_inj in Q. subst. congruence.
      * apply V; auto. assert (m' <> S k) by congruence. lia.
    + exists vars'. split; [exact R|]. intros m' f' L' F'. apply W; auto. simpl in L'. lia.
Qed.

Theorem regress_single : exists en, shape_regress g input_desc [(key, (mn, mx))] = SOk en /\
  forall x, exists en', update_variables (update_variable en key x) = SOk en' /\
    forall t, In t dyn -> ~ In t (dkeys input_desc) -> get_tensorshape en' t = SOk (shape_at t x).
Proof.
  destruct (lg_dom _ _ _ _ _ _ _ _ _ _ G) as (D0 & D1 & D2).
  assert (INF : forall vars x, dget vars key = Some x -> dom x -> rg_infer g vars = SOk (shapes x)) by (intros; apply (lg_infer _ _ _ _ _ _ _ _ _ _ G); auto).
  unfold shape_regress. cbn [fold_left fst snd].
  rewrite (INF _ mx) by (cbn [se_vars update_variable new_engine]; auto using dget_dset_eq). cbn [sbind].
  rewrite (INF _ mn) by (cbn [se_vars update_variable new_engine]; auto using dget_dset_eq). cbn [sbind].
  set (en0 := update_variable (update_variable (new_engine input_desc) key mx) key mn).
  destruct (init_desc_ok dyn en0 (incl_refl _) (lg_nodup _ _ _ _ _ _ _ _ _ _ G)) as (en1 & R1 & E1 & V1 & A1 & B1).
  change (map (fun t => (t, shape_at t mn)) dyn) with (shapes mn) in R1. rewrite R1. cbn [sbind regress_vars].
  assert (SD : se_desc en0 = input_desc).
  { unfold en0. cbn [se_desc update_variable new_engine]. rewrite new_desc; auto. apply (lg_inputs _ _ _ _ _ _ _ _ _ _ G). }
  rewrite (INF _ ((mn + mx) / 2)) by (cbn [se_vars update_variable]; auto using dget_dset_eq). cbn [sbind].
  rewrite (INF _ mx) by (cbn [se_vars update_variable]; auto using dget_dset_eq). cbn [sbind].
  set (en2 := update_variable (update_variable (update_variable en1 key ((mn + mx) / 2)) key mx) key mn).
  assert (I0 : Inv en2 [src] [] (fun _ _ => False) [(1, 0)]).
  { constructor; auto.
    - unfold samples, lin, src. cbn [map fst snd]. rewrite !Z.mul_1_l, !Z.add_0_r. reflexivity.
    - constructor; auto; constructor.
    - intros f [<-|[]]. simpl. lia.
    - intros k r Q. discriminate.
    - intros [|j] f Q; discriminate.
    - unfold en2. cbn [se_expr update_variable]. rewrite E1. reflexivity.
    - unfold en2. cbn [se_expr update_variable]. rewrite E1. intros [|j] p Q; discriminate.
    - intros t T. unfold en2. cbn [se_desc update_variable]. rewrite A1 by auto. rewrite SD. reflexivity.
    - intros t Dt Nt. unfold en2. cbn [se_desc update_variable]. rewrite (B1 t Dt Nt). eexists. split; [reflexivity|].
      split; [rewrite map_length, seq_length; reflexivity|]. intros i Li.
      rewrite nth_error_map, (nth_error_nth' _ 0%nat) by (rewrite seq_length; auto). rewrite seq_nth by auto. cbn [option_map Nat.add].
      destruct (Z.eqb_spec (slope t i) 0); split; intros; try congruence. right. auto.
    - intros t d. unfold en2. cbn [se_desc update_variable]. intros Q.
      destruct (in_dec string_dec t (dkeys input_desc)) as [K|K]; [auto|]. destruct (in_dec string_dec t dyn) as [K'|K']; [auto|].
      rewrite A1 in Q by auto. rewrite SD in Q. apply dget_Some_keys in Q. contradiction. }
  destruct (regress_tensors_ok dyn en2 [src] [] (fun _ _ => False) [(1, 0)] (incl_refl _) I0) as (en & dst & trm & fs & R & I).
  change (map (fun t => (t, shape_at t mn)) dyn) with (shapes mn) in R. fold mid. fold src.
  match goal with |- context [sbind ?q _] => replace q with (SOk (A := rstate) (en, dst, trm)) end. cbn [sbind].
  exists en. split; [reflexivity|]. intros x.
  unfold update_variables. cbn [se_expr se_vars update_variable].
  destruct (run_ok (se_expr en) fs 0 (dset (se_vars en) key x) x) as (vars' & RV & W).
  { intros j p P. apply (i_expr _ _ _ _ _ I j p P). }
  { intros m f M F. assert (m = 0%nat) by lia. subst m. cbn [vname]. rewrite dget_dset_eq.
    rewrite (i_hd _ _ _ _ _ I) in F. injection F as <-. unfold lin. cbn [fst snd]. f_equal. lia. }
  rewrite RV. cbn [sbind]. eexists. split; [reflexivity|].
  intros t Dt Nt. unfold get_tensorshape. cbn [se_desc se_vars update_variable].
  destruct (i_desc _ _ _ _ _ I t Dt Nt) as (d & -> & L & H).
  assert (GEN : forall d k, (forall i, (i < length d)%nat ->
             (exists z, nth_error d i = Some (DI z) /\ z = slope t (k + i) * x + offset t (k + i)) \/
             (exists v, nth_error d i = Some (DV v) /\ dget vars' v = Some (slope t (k + i) * x + offset t (k + i)))) ->
          desc_shape vars' d = SOk (map (fun i => slope t i * x + offset t i) (seq k (length d)))).
  { clear. induction d as [|e d IH]; intros k H; [reflexivity|]. cbn [desc_shape length seq map].
    destruct (H 0%nat ltac:(simpl; lia)) as [(z & Q & Z)|(v & Q & Z)]; simpl in Q; injection Q as ->; rewrite Nat.add_0_r in Z; rewrite ?Z; cbn [sbind];
      (rewrite (IH (S k)); [reflexivity|]); intros i Li; specialize (H (S i) ltac:(simpl; lia)); cbn [nth_error] in H;
      replace (k + S i)%nat with (S k + i)%nat in H by lia; exact H. }
  unfold shape_at. rewrite <- L. apply GEN. intros i Li. rewrite L in Li. cbn [Nat.add]. destruct (H i Li) as [H0 H1].
  destruct (Z.eq_dec (slope t i) 0) as [Z|Z].
  - left. exists (offset t i). split; auto. rewrite Z. lia.
  - right. destruct (H1 Z) as [(_ & j & Q & F)|(N & _)].
    + exists (vname j). split; auto. rewrite (W j (dimf t i)); auto.
      assert (j < length fs)%nat by (apply nth_error_Some; congruence). pose proof (i_elen _ _ _ _ _ I). lia.
    + exfalso. apply N. right. auto.
Qed.
End Single.
