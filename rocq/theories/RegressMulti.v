(** Exactness of the shape regression for several variables, each dimension being integer-linear in one of them. *)
From Coq Require Import DecimalString DecimalNat DecimalFacts Reals Lra.
From Verif Require Import PyBase PyBaseFacts GraphModel FloatPy ShapeModel SerialModel RegressModel WindowProofs RegressProofs.
Open Scope Z_scope.

(** a valuation with one variable changed *)
Definition upd (val : string -> Z) (k : string) (x : Z) (k' : string) : Z := if String.eqb k' k then x else val k'.
Definition minval (ranges : dict (Z * Z)) (k : string) : Z := match dget ranges k with Some (mn, _) => mn | None => 0 end.
Definition maxval (ranges : dict (Z * Z)) (k : string) : Z := match dget ranges k with Some (_, mx) => mx | None => 0 end.
(** what is assumed about the graph: dimension [i] of tensor [t] is [slope t i * v + offset t i], where [v] is the value of
    the variable [owner t i], for every valuation of the variables in [dom] *)
Record independent_linear (g : rgraph) (input_desc : dict (list delem)) (ranges : dict (Z * Z))
    (dyn : list string) (rank : string -> nat) (owner : string -> nat -> string) (slope offset : string -> nat -> Z)
    (dom : (string -> Z) -> Prop) : Prop := {
  il_infer : forall vars val, (forall k, In k (dkeys ranges) -> dget vars k = Some (val k)) -> dom val ->
    rg_infer g vars = SOk (map (fun t => (t, map (fun i => slope t i * val (owner t i) + offset t i) (seq 0 (rank t)))) dyn);
  il_nodup : NoDup dyn;
  il_slope : forall t i, In t dyn -> 0 <= slope t i <= 2 ^ 53;
  il_owner : forall t i, In t dyn -> (i < rank t)%nat -> slope t i <> 0 -> In (owner t i) (dkeys ranges);
  il_inputs : NoDup (dkeys input_desc);
  il_desc : forall t d v, In (t, d) input_desc -> In (DV v) d -> numeric_value v = None;
  il_keys : NoDup (dkeys ranges);
  il_key : forall k, In k (dkeys ranges) -> numeric_value k = None;
  il_range : forall k mn mx, In (k, (mn, mx)) ranges -> mn < mx;
  (** the valuations at which the code samples: all maxima, all minima, and the minima with one variable at its middle or maximum *)
  il_dom : dom (maxval ranges) /\ dom (minval ranges) /\
    forall k mn mx, In (k, (mn, mx)) ranges -> dom (upd (minval ranges) k ((mn + mx) / 2)) /\ dom (upd (minval ranges) k mx);
  (** the producer of a computed tensor exists, and the slopes of its inputs' computed dimensions in a variable divide its own
      slopes in that variable *)
  il_producer : forall t, In t dyn -> ~ In t (dkeys input_desc) -> exists ins, rg_producer g t = Some ins /\
    forall u i j, In u ins -> In u dyn -> ~ In u (dkeys input_desc) -> (i < rank t)%nat -> (j < rank u)%nat ->
      1 <= slope t i -> 1 <= slope u j -> owner u j = owner t i -> (slope u j, offset u j) <> (1, 0) -> (slope u j | slope t i)
}.

Section Multi.
Variable (g : rgraph) (input_desc : dict (list delem)) (ranges : dict (Z * Z))
    (dyn : list string) (rank : string -> nat) (owner : string -> nat -> string) (slope offset : string -> nat -> Z)
    (dom : (string -> Z) -> Prop).
Hypothesis G : independent_linear g input_desc ranges dyn rank owner slope offset dom.
Definition form (t : string) (i : nat) : Z * Z := (slope t i, offset t i).
Definition shape_val (val : string -> Z) (t : string) : list Z := map (fun i => slope t i * val (owner t i) + offset t i) (seq 0 (rank t)).
Definition shapes_val (val : string -> Z) : dict (list Z) := map (fun t => (t, shape_val val t)) dyn.

(** what a name of the engine denotes: the variable itself, or an entry of the table *)
Definition table := list (string * (string * (Z * Z))).
Definition den (tab : table) (v k : string) (f : Z * Z) : Prop := (v = k /\ f = (1, 0)) \/ In (v, (k, f)) tab.

Definition entry_ok (tab : table) (j : nat) (p : string * (string * expr)) : Prop :=
  exists k f fm, nth_error tab j = Some (fst p, (k, f)) /\ In k (dkeys ranges) /\ 1 <= fst f <= 2 ^ 53 /\
    ((fst (snd p) = k /\ fm = (1, 0)) \/ (exists m, (m < j)%nat /\ nth_error tab m = Some (fst (snd p), (k, fm)))) /\
    forall x, expr_call (snd (snd p)) (lin fm x) = SOk (lin f x).

Record GI (en : sengine) (tab : table) (done : string -> nat -> Prop) (N : nat) : Prop := {
  g_len : length (se_expr en) = length tab;
  g_expr : forall j p, nth_error (se_expr en) j = Some p -> entry_ok tab j p;
  g_name : forall v kf, In (v, kf) tab -> exists n, v = dec n /\ (n < N)%nat;
  g_nd : NoDup (map fst tab);
  g_input : forall t, In t (dkeys input_desc) -> dget (se_desc en) t = dget input_desc t;
  g_only : forall t d, dget (se_desc en) t = Some d -> In t dyn \/ In t (dkeys input_desc);
  g_desc : forall t, In t dyn -> ~ In t (dkeys input_desc) -> exists d, dget (se_desc en) t = Some d /\ length d = rank t /\
     forall i, (i < rank t)%nat ->
       (slope t i = 0 -> nth_error d i = Some (DI (offset t i))) /\
       (slope t i <> 0 -> (done t i /\ exists v, nth_error d i = Some (DV v) /\ den tab v (owner t i) (form t i)) \/
                          (~ done t i /\ nth_error d i = Some (DV EmptyString)))
}.
Lemma GI_done : forall en tab done done' N, GI en tab done N ->
  (forall t i, In t dyn -> ~ In t (dkeys input_desc) -> (i < rank t)%nat -> slope t i <> 0 -> (done t i <-> done' t i)) -> GI en tab done' N.
Proof.
  intros en tab done done' N I H. destruct I. constructor; auto.
  intros t Dt Nt. destruct (g_desc0 t Dt Nt) as (d & A & B & C). exists d. split; auto. split; auto. intros i Li. destruct (C i Li) as [C0 C1].
  split; auto. intros Z. specialize (H t i Dt Nt Li Z). destruct (C1 Z) as [(X & Y)|(X & Y)]; [left|right]; split; tauto.
Qed.
Lemma GI_vars : forall en en' tab done N, GI en tab done N -> se_desc en' = se_desc en -> se_expr en' = se_expr en -> GI en' tab done N.
Proof. intros en en' tab done N I D E. destruct I. constructor; rewrite ?D, ?E; auto. Qed.
Lemma GI_bound : forall en tab done N M, GI en tab done N -> (N <= M)%nat -> GI en tab done M.
Proof. intros en tab done N M I L. destruct I. constructor; auto. intros v kf H. destruct (g_name0 v kf H) as (n & E & Q). exists n. split; auto. lia. Qed.

Section Key.
Variable (key : string) (mn mx : Z) (vcount : nat).
Hypothesis HK : In (key, (mn, mx)) ranges.
Let mid := (mn + mx) / 2.
Let src := [mn; mid; mx].
Definition smp (f : Z * Z) : list Z := [lin f mn; lin f mid; lin f mx].
Lemma key_range : mn < mx.
Proof. exact (il_range _ _ _ _ _ _ _ _ _ G _ _ _ HK). Qed.
Lemma key_in : In key (dkeys ranges).
Proof. unfold dkeys. apply in_map_iff. exists (key, (mn, mx)). auto. Qed.
Lemma key_num : numeric_value key = None.
Proof. apply (il_key _ _ _ _ _ _ _ _ _ G). apply key_in. Qed.
Lemma smp_inj : forall f f', smp f = smp f' -> f = f'.
Proof.
  intros [a b] [a' b'] E. unfold smp, lin in E. simpl in E.
  assert (E1 : a * mn + b = a' * mn + b') by congruence. assert (E2 : a * mx + b = a' * mx + b') by congruence.
  pose proof key_range. assert (a = a') by nia. subst. f_equal. lia.
Qed.
Lemma find_smp : forall fs f k, match find_range (smp f) (map smp fs) k with
  | Some i => (k <= i)%nat /\ nth_error fs (i - k) = Some f
  | None => ~ In f fs end.
Proof.
  induction fs as [|h fs IH]; intros f k; cbn [map find_range]; [auto|].
  assert (E : same_range (smp f) (smp h) = true <-> f = h).
  { split; [|intros ->; unfold same_range; cbn; rewrite !Z.eqb_refl; reflexivity].
    intros S. apply smp_inj. unfold same_range, smp in S. cbn in S.
    apply andb_prop in S. destruct S as [S1 S2]. apply andb_prop in S2. destruct S2 as [S2 S3]. apply andb_prop in S3. destruct S3 as [S3 _].
    apply Z.eqb_eq in S1, S2, S3. unfold smp. congruence. }
  destruct (same_range (smp f) (smp h)).
  - rewrite Nat.sub_diag. split; auto. simpl. f_equal. symmetry. apply E. reflexivity.
  - assert (N : f <> h) by (intros X; apply E in X; discriminate).
    specialize (IH f (S k)). destruct (find_range (smp f) (map smp fs) (S k)) as [i|].
    + destruct IH as [L Q]. split; [lia|]. replace (i - k)%nat with (S (i - S k)) by lia. exact Q.
    + intros [X|X]; [congruence|auto].
Qed.
Lemma build_smp : forall a b q c, 1 <= a -> 1 <= q <= 2 ^ 53 ->
  build_expr (smp (a, b)) (smp (q * a, q * b + c)) = SOk {| e_alpha := q; e_beta := c; e_factor := 0; e_trunc := 0 |}.
Proof.
  intros a b q c A Q.
  replace (smp (q * a, q * b + c)) with (map (fun x => q * x + c) (smp (a, b))).
  - apply build_linear; auto. unfold lin. simpl. pose proof key_range. nia.
  - unfold smp, lin. cbn [map fst snd]. do 3 (apply f_equal2; [ring|]). reflexivity.
Qed.

(** the phase of one variable *)
Record PI (tab : table) (dst : list (list Z)) (trm : dict (list Z)) (fs : list (Z * Z)) : Prop := {
  p_dst : dst = map smp fs;
  p_hd : nth_error fs 0 = Some (1, 0);
  p_nodup : NoDup fs;
  p_tab : forall j f, nth_error fs (S j) = Some f -> In (dec (vcount + S j), (key, f)) tab /\ dget trm (dec (vcount + S j)) = Some (smp f);
  p_new : forall n k f, In (dec n, (k, f)) tab -> (vcount <= n)%nat -> k = key /\ exists j, n = (vcount + S j)%nat /\ nth_error fs (S j) = Some f
}.

Lemma source_ok : forall en tab done dst trm fs ins k ks, GI en tab done (vcount + length fs) -> PI tab dst trm fs ->
  source_keys en vcount ins = k :: ks ->
  exists j f u i, k = dec (vcount + S j) /\ nth_error fs (S j) = Some f /\ In u ins /\ In u dyn /\ ~ In u (dkeys input_desc) /\
     (i < rank u)%nat /\ slope u i <> 0 /\ f = form u i /\ owner u i = key.
Proof.
  intros en tab done dst trm fs ins k ks I P E.
  assert (H : In k (source_keys en vcount ins)) by (rewrite E; simpl; auto). clear E.
  unfold source_keys in H. apply in_flat_map in H. destruct H as (u & Iu & H).
  destruct (dget (se_desc en) u) as [d|] eqn:D; [|contradiction].
  apply in_flat_map in H. destruct H as (e & Ie & H). destruct e as [z|v]; [contradiction|].
  destruct (numeric_value v) as [n|] eqn:NV; [|contradiction]. destruct (Nat.leb_spec vcount n) as [Ln|]; [|contradiction]. destruct H as [<-|[]].
  destruct (in_dec string_dec u (dkeys input_desc)) as [Q|Q].
  - exfalso. rewrite (g_input _ _ _ _ I u Q) in D. apply dget_In in D.
    rewrite (il_desc _ _ _ _ _ _ _ _ _ G u d v D Ie) in NV. discriminate.
  - destruct (g_only _ _ _ _ I u d D) as [Du|]; [|contradiction].
    destruct (g_desc _ _ _ _ I u Du Q) as (d' & D' & L & H'). rewrite D in D'. injection D' as <-.
    apply In_nth_error in Ie. destruct Ie as (i & Ie).
    assert (Li : (i < rank u)%nat) by (rewrite <- L; apply nth_error_Some; congruence).
    destruct (H' i Li) as [H0 H1]. destruct (Z.eq_dec (slope u i) 0) as [Z|Z]; [rewrite (H0 Z) in Ie; discriminate|].
    destruct (H1 Z) as [(_ & w & Nw & Dn)|(_ & Nw)].
    + rewrite Ie in Nw. injection Nw as <-. destruct Dn as [[-> _]|Dn].
      * exfalso. rewrite (il_key _ _ _ _ _ _ _ _ _ G) in NV; [discriminate|]. apply (il_owner _ _ _ _ _ _ _ _ _ G); auto.
      * destruct (g_name _ _ _ _ I _ _ Dn) as (n' & -> & _). rewrite dec_value in NV. injection NV as ->.
        destruct (p_new _ _ _ _ P _ _ _ Dn Ln) as (O & j & -> & F). exists j, (form u i), u, i. auto 10.
    + rewrite Ie in Nw. injection Nw as ->. discriminate.
Qed.

Lemma GI_desc : forall en tab done N t i v, GI en tab done N -> In t dyn -> ~ In t (dkeys input_desc) -> (i < rank t)%nat ->
  slope t i <> 0 -> den tab v (owner t i) (form t i) ->
  exists en', update_tensor_desc en t i v = SOk en' /\ se_vars en' = se_vars en /\ GI en' tab (fun t' i' => done t' i' \/ (t' = t /\ i' = i)) N.
Proof.
  intros en tab done N t i v I Dt Nt Li Z F.
  destruct (g_desc _ _ _ _ I t Dt Nt) as (d & D & L & H). destruct (H i Li) as [_ H1]. specialize (H1 Z).
  unfold update_tensor_desc. rewrite D.
  assert (V : exists v, nth_error d i = Some (DV v)) by (destruct H1 as [(_ & j' & Nn & _)|(_ & Nn)]; eauto).
  destruct V as (v0 & ->). eexists. split; [reflexivity|]. split; [reflexivity|]. destruct I.
  constructor; auto; cbn [se_desc se_expr add_tensor_desc].
  - intros u U. rewrite dget_dset_neq by (intros ->; contradiction). auto.
  - intros u du. rewrite dget_dset. destruct (String.eqb_spec u t) as [->|]; [auto|]. apply g_only0.
  - intros u Du Nu. destruct (string_dec u t) as [->|Nut].
    + rewrite dget_dset_eq. eexists. split; [reflexivity|]. rewrite set_nth_length. split; [exact L|].
      intros i' Li'. rewrite nth_error_set_nth by lia. destruct (Nat.eqb_spec i' i) as [->|Ni].
      * split; [intros; contradiction|]. intros _. left. split; [auto|]. exists v. auto.
      * destruct (H i' Li') as [A B]. split; [exact A|]. intros Z'. destruct (B Z') as [(Dn & X)|(Dn & X)]; [left; auto|right].
        split; auto. intros [Y|[_ Y]]; auto.
    + rewrite dget_dset_neq by auto. destruct (g_desc0 u Du Nu) as (du & Eu & Lu & Hu). exists du. split; auto. split; auto.
      intros i' Li'. destruct (Hu i' Li') as [A B]. split; auto. intros Z'. destruct (B Z') as [(Dn & X)|(Dn & X)]; [left; auto|right].
      split; auto. intros [Y|[Y _]]; auto.
Qed.

Lemma GI_expr : forall en tab done N f s fm e, GI en tab done N -> 1 <= fst f <= 2 ^ 53 ->
  den tab s key fm -> (forall x, expr_call e (lin fm x) = SOk (lin f x)) ->
  GI (add_expr en (dec N) s e) (tab ++ [(dec N, (key, f))]) done (S N).
Proof.
  intros en tab done N f s fm e I Sf Dn Ex. destruct I.
  assert (KT : map fst (se_expr en) = map fst tab).
  { apply (nth_ext _ _ EmptyString EmptyString); [rewrite !map_length; auto|]. intros j Lj. rewrite map_length in Lj.
    assert (A : exists p, nth_error (se_expr en) j = Some p) by (destruct (nth_error (se_expr en) j) eqn:Q; [eauto|apply nth_error_None in Q; lia]).
    destruct A as (p & Hp). destruct (g_expr0 j p Hp) as (k & f' & fm' & T & _).
    rewrite (nth_error_nth (map fst (se_expr en)) j EmptyString (x := fst p)) by (rewrite nth_error_map, Hp; reflexivity).
    rewrite (nth_error_nth (map fst tab) j EmptyString (x := fst p)) by (rewrite nth_error_map, T; reflexivity). reflexivity. }
  assert (KN : ~ In (dec N) (map fst tab)).
  { intros K. apply in_map_iff in K. destruct K as ([v kf] & E & K). cbn in E. subst v. destruct (g_name0 _ _ K) as (n & E & L). apply dec_inj in E. lia. }
  assert (KN' : ~ In (dec N) (dkeys (se_expr en))) by (unfold dkeys; rewrite KT; exact KN).
  constructor; cbn [se_expr se_desc add_expr]; auto.
  - rewrite dset_new by auto. rewrite !app_length. simpl. lia.
  - intros j p H. rewrite dset_new in H by auto. destruct (Nat.lt_ge_cases j (length (se_expr en))) as [Q|Q].
    + rewrite nth_error_app1 in H by auto. destruct (g_expr0 j p H) as (k & f' & fm' & A & B & B' & C & D).
      exists k, f', fm'. split; [rewrite nth_error_app1 by lia; exact A|]. split; auto. split; auto. split; auto.
      destruct C as [C|(m & M1 & M2)]; [left; auto|right]. exists m. split; auto. rewrite nth_error_app1 by lia. exact M2.
    + assert (Lj : (j < length (se_expr en ++ [(dec N, (s, e))]))%nat) by (apply nth_error_Some; congruence).
      rewrite app_length in Lj. simpl in Lj. assert (j = length (se_expr en)) by lia. subst j.
      rewrite nth_error_app2 in H by lia. rewrite Nat.sub_diag in H. simpl in H. injection H as <-. cbn [fst snd].
      exists key, f, fm. split; [rewrite nth_error_app2 by lia; rewrite g_len0, Nat.sub_diag; reflexivity|].
      split; [apply key_in|]. split; auto. split; auto. cbn [fst snd]. destruct Dn as [[E1 E2]|Dn]; [left; auto|right].
      apply In_nth_error in Dn. destruct Dn as (m & M). assert (m < length tab)%nat by (apply nth_error_Some; congruence).
      exists m. split; [lia|]. rewrite nth_error_app1 by lia. exact M.
  - intros v kf H. apply in_app_or in H. destruct H as [H|[H|[]]].
    + destruct (g_name0 _ _ H) as (n & A & B). exists n. split; auto.
    + injection H as <- _. exists N. auto.
  - rewrite map_app. apply NoDup_snoc; auto.
  - intros t Dt Nt. destruct (g_desc0 t Dt Nt) as (d & A & B & C). exists d. split; auto. split; auto. intros i Li. destruct (C i Li) as [C0 C1].
    split; auto. intros Z. destruct (C1 Z) as [(X & v & Y1 & Y2)|X]; [left|right; auto]. split; auto. exists v. split; auto.
    destruct Y2 as [Y2|Y2]; [left; auto|right]. apply in_or_app. auto.
Qed.

Definition keeps (en en' : sengine) : Prop := forall k, In k (dkeys ranges) -> dget (se_vars en') k = dget (se_vars en) k.
Lemma regress_dim_multi : forall en tab done dst trm fs t i, GI en tab done (vcount + length fs) -> PI tab dst trm fs ->
  In t dyn -> ~ In t (dkeys input_desc) -> (i < rank t)%nat -> slope t i <> 0 -> owner t i = key ->
  exists en' tab' dst' trm' fs', regress_dim g key src vcount t i (smp (form t i)) (en, dst, trm) = SOk (en', dst', trm') /\ keeps en en' /\
    GI en' tab' (fun t' i' => done t' i' \/ (t' = t /\ i' = i)) (vcount + length fs') /\ PI tab' dst' trm' fs'.
Proof.
  intros en tab done dst trm fs t i I P Dt Nt Li Z O.
  pose proof (il_slope _ _ _ _ _ _ _ _ _ G t i Dt) as SL.
  unfold regress_dim. pose proof (find_smp fs (form t i) 0) as FR. rewrite <- (p_dst _ _ _ _ P) in FR.
  destruct (find_range (smp (form t i)) dst 0) as [j|] eqn:FE.
  - destruct FR as [_ FR]. rewrite Nat.sub_0_r in FR.
    assert (X : exists v, (match j with 0%nat => update_tensor_desc en t i key | S _ => update_tensor_desc en t i (dec (vcount + j)) end) = update_tensor_desc en t i v /\ den tab v (owner t i) (form t i)).
    { rewrite O. destruct j as [|j].
      - exists key. split; auto. left. split; auto. rewrite (p_hd _ _ _ _ P) in FR. congruence.
      - eexists. split; [reflexivity|]. right. apply (p_tab _ _ _ _ P). exact FR. }
    destruct X as (v & X & Dn).
    destruct (GI_desc _ _ _ _ t i v I Dt Nt Li Z Dn) as (en' & E & V & I').
    exists en', tab, dst, trm, fs. split; [|split; [intros k _; rewrite V; reflexivity|split; auto]].
    destruct j; rewrite X, E; reflexivity.
  - destruct (il_producer _ _ _ _ _ _ _ _ _ G t Dt Nt) as (ins & -> & DIV).
    assert (LEN : length dst = length fs) by (rewrite (p_dst _ _ _ _ P), map_length; reflexivity).
    assert (L0 : (0 < length fs)%nat) by (apply nth_error_Some; rewrite (p_hd _ _ _ _ P); discriminate).
    assert (X : exists e s fm, match source_keys en vcount ins with
            | [] => let* e := build_expr src (smp (form t i)) in SOk (e, key)
            | k :: _ => match dget trm k with None => SRaise KeyErr | Some r => let* e := build_expr r (smp (form t i)) in SOk (e, k) end
            end = SOk (e, s) /\ den tab s key fm /\ forall x, expr_call e (lin fm x) = SOk (lin (form t i) x)).
    { destruct (source_keys en vcount ins) as [|k ks] eqn:SK.
      - exists {| e_alpha := slope t i; e_beta := offset t i; e_factor := 0; e_trunc := 0 |}, key, (1, 0).
        split; [|split; [left; auto|]].
        + pose proof (build_smp 1 0 (slope t i) (offset t i) ltac:(lia) ltac:(lia)) as B.
          replace (smp (1, 0)) with src in B by (unfold smp, lin, src; cbn [fst snd]; rewrite !Z.mul_1_l, !Z.add_0_r; reflexivity).
          replace (slope t i * 1, slope t i * 0 + offset t i) with (form t i) in B by (unfold form; f_equal; lia).
          rewrite B. reflexivity.
        + intros x. rewrite call_linear. unfold lin, form. cbn [fst snd]. f_equal. lia.
      - destruct (source_ok _ _ _ _ _ _ _ _ _ I P SK) as (m & f & u & i' & -> & F & Iu & Du & Nu & Li' & Zu & -> & Ou).
        destruct (p_tab _ _ _ _ P m _ F) as [T1 T2]. rewrite T2.
        pose proof (il_slope _ _ _ _ _ _ _ _ _ G u i' Du) as SU.
        assert (NE : (slope u i', offset u i') <> (1, 0)).
        { intros Q. pose proof (p_nodup _ _ _ _ P) as ND. rewrite NoDup_nth_error in ND.
          assert (0%nat = S m); [|discriminate]. apply ND; [exact L0|].
          rewrite (p_hd _ _ _ _ P). unfold form in F. rewrite Q in F. symmetry. exact F. }
        destruct (DIV u i i' Iu Du Nu Li Li' ltac:(lia) ltac:(lia) ltac:(congruence) NE) as (q & Hq).
        assert (Q1 : 1 <= q <= 2 ^ 53) by nia.
        exists {| e_alpha := q; e_beta := offset t i - q * offset u i'; e_factor := 0; e_trunc := 0 |}, (dec (vcount + S m)), (form u i').
        split; [|split; [right; exact T1|]].
        + pose proof (build_smp (slope u i') (offset u i') q (offset t i - q * offset u i') ltac:(lia) Q1) as B.
          replace (q * slope u i', q * offset u i' + (offset t i - q * offset u i')) with (form t i) in B
            by (unfold form; rewrite Hq; f_equal; lia).
          unfold form at 1. rewrite B. reflexivity.
        + intros x. rewrite call_linear. unfold lin, form. cbn [fst snd]. f_equal. rewrite Hq. ring. }
    destruct X as (e & s & fm & -> & Dn & Ex). cbn [sbind fst snd]. rewrite LEN.
    assert (I1 := GI_expr _ _ _ _ (form t i) s fm e I ltac:(unfold form; simpl; lia) Dn Ex).
    set (tab1 := (tab ++ [(dec (vcount + length fs), (key, form t i))])%list) in *.
    destruct (GI_desc _ _ _ _ t i (dec (vcount + length fs)) I1 Dt Nt Li Z) as (en' & E & V & I').
    { right. rewrite O. unfold tab1. apply in_or_app. simpl. auto. }
    rewrite E. cbn [sbind]. exists en', tab1. do 2 eexists. exists (fs ++ [form t i])%list. split; [reflexivity|]. split.
    { intros k Kk. rewrite V. cbn [add_expr se_vars]. apply dget_dset_neq. intros Q.
      apply (il_key _ _ _ _ _ _ _ _ _ G) in Kk. rewrite <- Q, dec_value in Kk || rewrite Q, dec_value in Kk. discriminate. }
    split; [rewrite app_length; cbn [length]; replace (vcount + (length fs + 1))%nat with (S (vcount + length fs)) by lia; exact I'|].
    assert (TN : dget trm (dec (vcount + length fs)) = dget trm (dec (vcount + length fs))) by reflexivity.
    constructor.
    + rewrite (p_dst _ _ _ _ P), map_app. reflexivity.
    + rewrite nth_error_app1 by lia. apply (p_hd _ _ _ _ P).
    + apply NoDup_snoc; auto. apply (p_nodup _ _ _ _ P).
    + intros j f H. rewrite dget_dset. destruct (Nat.eq_dec (S j) (length fs)) as [Ej|Ej].
      * rewrite Ej, String.eqb_refl. rewrite nth_error_app2 in H by lia. rewrite Ej, Nat.sub_diag in H. simpl in H. injection H as <-.
        split; auto. unfold tab1. apply in_or_app. simpl. auto.
      * assert (Lj : (S j < length (fs ++ [form t i]))%nat) by (apply nth_error_Some; congruence). rewrite app_length in Lj. simpl in Lj.
        rewrite nth_error_app1 in H by lia. destruct (p_tab _ _ _ _ P j f H) as [A B]. rewrite B.
        split; [unfold tab1; apply in_or_app; auto|].
        destruct (String.eqb_spec (dec (vcount + S j)) (dec (vcount + length fs))) as [Q|]; auto. apply dec_inj in Q. lia.
    + intros n k f H Ln. unfold tab1 in H. apply in_app_or in H. destruct H as [H|[H|[]]].
      * destruct (p_new _ _ _ _ P n k f H Ln) as (A & j & B & C). split; auto. exists j. split; auto.
        rewrite nth_error_app1; auto. apply nth_error_Some. congruence.
      * injection H as E1 E2 E3. apply dec_inj in E1. split; auto. exists (Nat.pred (length fs)).
        replace (S (Nat.pred (length fs))) with (length fs) by lia. split; [lia|]. rewrite nth_error_app2 by lia. rewrite Nat.sub_diag, <- E3. reflexivity.
Qed.

Lemma shape_index_val : forall t val i, (i < rank t)%nat ->
  py_index (shape_val val t) (Z.of_nat i) = SOk (lin (form t i) (val (owner t i))).
Proof.
  intros t val i L. unfold shape_val. set (h := fun i => slope t i * val (owner t i) + offset t i).
  rewrite (py_index_lit _ _ i eq_refl) by (rewrite map_length, seq_length; lia). f_equal.
  rewrite (nth_indep _ 0 (h 0%nat)) by (rewrite map_length, seq_length; lia). rewrite (map_nth h), seq_nth by lia. reflexivity.
Qed.
Let v0 := minval ranges.
Let v1 := upd v0 key mid.
Let v2 := upd v0 key mx.
Lemma min_key : v0 key = mn.
Proof.
  unfold v0, minval. rewrite (In_dget _ _ _ _ (il_keys _ _ _ _ _ _ _ _ _ G) HK). reflexivity.
Qed.

Lemma regress_dims_multi : forall is en tab done dst trm fs t, GI en tab done (vcount + length fs) -> PI tab dst trm fs ->
  In t dyn -> ~ In t (dkeys input_desc) -> (forall i, In i is -> (i < rank t)%nat) ->
  exists en' tab' dst' trm' fs', regress_dims g key src vcount t (shape_val v0 t) (shape_val v1 t) (shape_val v2 t) is (en, dst, trm) = SOk (en', dst', trm') /\
    keeps en en' /\ GI en' tab' (fun t' i' => done t' i' \/ (t' = t /\ In i' is /\ owner t i' = key)) (vcount + length fs') /\ PI tab' dst' trm' fs'.
Proof.
  induction is as [|i is IH]; intros en tab done dst trm fs t I P Dt Nt L.
  - exists en, tab, dst, trm, fs. split; [reflexivity|]. split; [intros k _; reflexivity|]. split; [|exact P].
    eapply GI_done; [exact I|]. intros. simpl. tauto.
  - cbn [regress_dims]. rewrite !shape_index_val by (apply L; simpl; auto). cbn [sbind].
    assert (Li : (i < rank t)%nat) by (apply L; simpl; auto). pose proof key_range as RG.
    destruct (Z.eq_dec (slope t i) 0) as [Z|Z]; [|destruct (string_dec (owner t i) key) as [O|O]].
    + assert (E : forall x y, (lin (form t i) x =? lin (form t i) y) = true).
      { intros. apply Z.eqb_eq. unfold lin, form. cbn [fst snd]. rewrite Z. lia. }
      rewrite !E. cbn [negb sbind].
      destruct (IH en tab done dst trm fs t I P Dt Nt) as (en' & tab' & dst' & trm' & fs' & R & K & I' & P'); [intros; apply L; simpl; auto|].
      exists en', tab', dst', trm', fs'. split; [exact R|]. split; auto. split; auto. eapply GI_done; [exact I'|].
      intros u j _ _ _ Zu. cbn [In]. split; [tauto|]. intros [?|(-> & [<-|?] & ?)]; auto. contradiction.
    + pose proof (il_slope _ _ _ _ _ _ _ _ _ G t i Dt) as SL.
      replace (v0 (owner t i)) with mn by (rewrite O, min_key; reflexivity).
      replace (v1 (owner t i)) with mid by (rewrite O; unfold v1, upd; rewrite String.eqb_refl; reflexivity).
      replace (v2 (owner t i)) with mx by (rewrite O; unfold v2, upd; rewrite String.eqb_refl; reflexivity).
      assert (NE : (lin (form t i) mn =? lin (form t i) mx) = false).
      { apply Z.eqb_neq. unfold lin, form. cbn [fst snd]. nia. }
      destruct (regress_dim_multi en tab done dst trm fs t i I P Dt Nt Li Z O) as (en1 & tab1 & dst1 & trm1 & fs1 & R1 & K1 & I1 & P1).
      unfold smp in R1.
      destruct (IH en1 tab1 _ dst1 trm1 fs1 t I1 P1 Dt Nt) as (en' & tab' & dst' & trm' & fs' & R & K & I' & P'); [intros; apply L; simpl; auto|].
      exists en', tab', dst', trm', fs'. split.
      * destruct (negb (lin (form t i) mn =? lin (form t i) mid)); cbn [sbind]; rewrite ?NE; cbn [negb sbind]; rewrite R1; cbn [sbind]; exact R.
      * split; [intros k Kk; rewrite K, K1; auto|]. split; auto. eapply GI_done; [exact I'|].
        intros u j _ _ _ Zu. cbn [In]. split; [intros [[?|(-> & ->)]|(-> & ? & ?)]; auto|intros [?|(-> & [<-|?] & ?)]; auto].
    + replace (v1 (owner t i)) with (v0 (owner t i)) by (unfold v1, upd; destruct (String.eqb_spec (owner t i) key); [contradiction|reflexivity]).
      replace (v2 (owner t i)) with (v0 (owner t i)) by (unfold v2, upd; destruct (String.eqb_spec (owner t i) key); [contradiction|reflexivity]).
      rewrite !Z.eqb_refl. cbn [negb sbind].
      destruct (IH en tab done dst trm fs t I P Dt Nt) as (en' & tab' & dst' & trm' & fs' & R & K & I' & P'); [intros; apply L; simpl; auto|].
      exists en', tab', dst', trm', fs'. split; [exact R|]. split; auto. split; auto. eapply GI_done; [exact I'|].
      intros u j _ _ _ Zu. cbn [In]. split; [tauto|]. intros [?|(-> & [<-|?] & ?)]; auto. contradiction.
Qed.

Lemma dget_shapes_val : forall val t, In t dyn -> dget (shapes_val val) t = Some (shape_val val t).
Proof.
  intros val t I. unfold shapes_val. revert I. generalize dyn as l. induction l as [|u l IH]; intros Il; [contradiction|]. cbn [map dget].
  destruct (String.eqb_spec t u) as [->|N]; [reflexivity|]. destruct Il as [->|Il]; [congruence|]. auto.
Qed.
Lemma regress_tensors_multi : forall ts en tab done dst trm fs, incl ts dyn -> GI en tab done (vcount + length fs) -> PI tab dst trm fs ->
  exists en' tab' dst' trm' fs', regress_tensors g input_desc key src vcount (shapes_val v0) (shapes_val v1) (shapes_val v2) (map (fun t => (t, shape_val v0 t)) ts) (en, dst, trm) = SOk (en', dst', trm') /\
    keeps en en' /\ GI en' tab' (fun t' i' => done t' i' \/ (In t' ts /\ owner t' i' = key)) (vcount + length fs') /\ PI tab' dst' trm' fs'.
Proof.
  induction ts as [|t ts IH]; intros en tab done dst trm fs IC I P.
  - exists en, tab, dst, trm, fs. split; [reflexivity|]. split; [intros k _; reflexivity|]. split; [|exact P].
    eapply GI_done; [exact I|]. intros. simpl. tauto.
  - cbn [map regress_tensors]. assert (Dt : In t dyn) by (apply IC; simpl; auto).
    assert (ICts : incl ts dyn) by (intros z Hz; apply IC; simpl; auto).
    unfold dhas. destruct (dget input_desc t) as [di|] eqn:DI.
    + apply dget_Some_keys in DI.
      destruct (IH en tab done dst trm fs ICts I P) as (en' & tab' & dst' & trm' & fs' & R & K & I' & P').
      exists en', tab', dst', trm', fs'. split; [exact R|]. split; auto. split; auto. eapply GI_done; [exact I'|].
      intros u j _ Nu _ _. cbn [In]. split; [tauto|]. intros [?|([<-|?] & ?)]; auto. contradiction.
    + apply dget_None in DI. rewrite !dget_shapes_val by auto.
      assert (LS : length (shape_val v0 t) = rank t) by (unfold shape_val; rewrite map_length, seq_length; reflexivity).
      rewrite LS.
      destruct (regress_dims_multi (seq 0 (rank t)) en tab done dst trm fs t I P Dt DI) as (en1 & tab1 & dst1 & trm1 & fs1 & R1 & K1 & I1 & P1).
      { intros i Hi. apply in_seq in Hi. lia. }
      rewrite R1. cbn [sbind].
      destruct (IH en1 tab1 _ dst1 trm1 fs1 ICts I1 P1) as (en' & tab' & dst' & trm' & fs' & R & K & I' & P').
      exists en', tab', dst', trm', fs'. split; [exact R|]. split; [intros k Kk; rewrite K, K1; auto|]. split; auto. eapply GI_done; [exact I'|].
      intros u j _ Nu Lj _. cbn [In]. split.
      * intros [[?|(-> & ? & ?)]|(? & ?)]; auto.
      * intros [?|([<-|?] & ?)]; auto. left. right. split; auto. split; auto. apply in_seq. lia.
Qed.
End Key.

(** ** all variables *)
Lemma regress_vars_multi : forall todo en tab done N, incl todo ranges -> NoDup (dkeys todo) -> GI en tab done N ->
  (forall k, In k (dkeys ranges) -> dget (se_vars en) k = Some (minval ranges k)) ->
  exists en' tab' N', regress_vars g input_desc (shapes_val (minval ranges)) todo N en = SOk en' /\
    GI en' tab' (fun t i => done t i \/ (In t dyn /\ In (owner t i) (dkeys todo))) N'.
Proof.
  induction todo as [|[key [mn mx]] todo IH]; intros en tab done N IC ND I V.
  - exists en, tab, N. split; [reflexivity|]. eapply GI_done; [exact I|]. intros. simpl. tauto.
  - assert (HK : In (key, (mn, mx)) ranges) by (apply IC; simpl; auto). cbn [regress_vars].
    assert (IC' : incl todo ranges) by (intros z Hz; apply IC; simpl; auto).
    inversion ND as [|? ? N0 ND']; subst. fold (dkeys todo) in ND'. change (map fst todo) with (dkeys todo) in N0.
    destruct (il_dom _ _ _ _ _ _ _ _ _ G) as (DX & DN & DK). destruct (DK key mn mx HK) as [D1 D2].
    rewrite (il_infer _ _ _ _ _ _ _ _ _ G _ (upd (minval ranges) key ((mn + mx) / 2))).
    2:{ intros k Kk. cbn [update_variable se_vars]. rewrite dget_dset. unfold upd. destruct (String.eqb_spec k key); auto. }
    2: exact D1.
    cbn [sbind]. rewrite (il_infer _ _ _ _ _ _ _ _ _ G _ (upd (minval ranges) key mx)).
    2:{ intros k Kk. cbn [update_variable se_vars]. rewrite !dget_dset. unfold upd. destruct (String.eqb_spec k key); auto. }
    2: exact D2.
    cbn [sbind].
    set (en1 := update_variable (update_variable (update_variable en key ((mn + mx) / 2)) key mx) key mn).
    assert (V1 : forall k, In k (dkeys ranges) -> dget (se_vars en1) k = Some (minval ranges k)).
    { intros k Kk. unfold en1. cbn [update_variable se_vars]. rewrite !dget_dset. destruct (String.eqb_spec k key) as [->|]; auto.
      f_equal. symmetry. apply (min_key key mn mx HK). }
    assert (I1 : GI en1 tab done (N + length [(1, 0)])).
    { apply GI_vars with en; [|reflexivity|reflexivity]. apply GI_bound with N; auto. simpl. lia. }
    assert (P1 : PI key mn mx N tab [[mn; (mn + mx) / 2; mx]] [] [(1, 0)]).
    { constructor.
      - unfold smp, lin. cbn [map fst snd]. rewrite !Z.mul_1_l, !Z.add_0_r. reflexivity.
      - reflexivity.
      - constructor; auto; constructor.
      - intros [|j] f Q; discriminate.
      - intros n k f H L. exfalso. destruct (g_name _ _ _ _ I _ _ H) as (n' & E & Q). apply dec_inj in E. lia. }
    destruct (regress_tensors_multi key mn mx N HK dyn en1 tab done _ _ _ (incl_refl _) I1 P1) as (en2 & tab2 & dst2 & trm2 & fs2 & R & K & I2 & P2).
    change (map (fun t => (t, shape_val (minval ranges) t)) dyn) with (shapes_val (minval ranges)) in R.
    match goal with |- context [sbind ?q _] => replace q with (SOk (A := rstate) (en2, dst2, trm2)) end. cbn [sbind].
    assert (LEN : length dst2 = length fs2) by (rewrite (p_dst _ _ _ _ _ _ _ _ P2), map_length; reflexivity). rewrite LEN.
    destruct (IH en2 tab2 _ (N + length fs2)%nat IC' ND' I2) as (en' & tab' & N' & R' & I').
    { intros k Kk. rewrite K by auto. auto. }
    exists en', tab', N'. split; [exact R'|]. eapply GI_done; [exact I'|].
    intros t i Dt _ _ _. cbn [dkeys map fst In]. fold (dkeys todo). split.
    + intros [[?|(? & ?)]|(? & ?)]; auto.
    + intros [?|(? & [<-|?])]; auto.
Qed.

Lemma min_max_multi : forall t l, In t dyn -> (forall i, In i l -> (i < rank t)%nat) ->
  min_max_desc (map (fun i => slope t i * minval ranges (owner t i) + offset t i) l) (map (fun i => slope t i * maxval ranges (owner t i) + offset t i) l) =
  map (fun i => if slope t i =? 0 then DI (offset t i) else DV EmptyString) l.
Proof.
  intros t l Dt. induction l as [|i l IH]; intros H; [reflexivity|]. cbn [map min_max_desc]. rewrite IH by (intros; apply H; simpl; auto).
  f_equal. destruct (Z.eqb_spec (slope t i) 0) as [E|N].
  - rewrite E. match goal with |- context [?x =? ?y] => destruct (Z.eqb_spec x y) end; [f_equal; lia|lia].
  - pose proof (il_owner _ _ _ _ _ _ _ _ _ G t i Dt ltac:(apply H; simpl; auto) N) as O.
    unfold dkeys in O. apply in_map_iff in O. destruct O as ([k [mn mx]] & E & O). cbn in E.
    assert (Q : dget ranges (owner t i) = Some (mn, mx)).
    { apply In_dget; [apply (il_keys _ _ _ _ _ _ _ _ _ G)|]. rewrite <- E. exact O. }
    pose proof (il_range _ _ _ _ _ _ _ _ _ G _ _ _ O) as RG. pose proof (il_slope _ _ _ _ _ _ _ _ _ G t i Dt) as SL.
    unfold minval, maxval. rewrite Q. match goal with |- context [?x =? ?y] => destruct (Z.eqb_spec x y) end; [nia|reflexivity].
Qed.
Lemma init_desc_multi : forall ts en, incl ts dyn -> NoDup ts ->
  exists en', init_desc input_desc (shapes_val (minval ranges)) (shapes_val (maxval ranges)) (map (fun t => (t, shape_val (minval ranges) t)) ts) en = SOk en' /\
    se_expr en' = se_expr en /\ se_vars en' = se_vars en /\
    (forall t, In t (dkeys input_desc) \/ ~ In t ts -> dget (se_desc en') t = dget (se_desc en) t) /\
    (forall t, In t ts -> ~ In t (dkeys input_desc) ->
       dget (se_desc en') t = Some (map (fun i => if slope t i =? 0 then DI (offset t i) else DV EmptyString) (seq 0 (rank t)))).
Proof.
  induction ts as [|t ts IH]; intros en IC ND; cbn [map init_desc].
  - exists en. split; [reflexivity|]. repeat split; auto. intros t [].
  - assert (Dt : In t dyn) by (apply IC; simpl; auto). assert (ICts : incl ts dyn) by (intros z Hz; apply IC; simpl; auto).
    inversion ND as [|? ? N0 ND']; subst.
    unfold dhas. destruct (dget input_desc t) as [di|] eqn:DI.
    + apply dget_Some_keys in DI. destruct (IH en ICts ND') as (en' & R & E & V & A & B). exists en'. split; [exact R|]. split; auto. split; auto. split.
      * intros u [U|U]; apply A; auto. right. intros Q. apply U. simpl. auto.
      * intros u [<-|U] NU; [contradiction|auto].
    + apply dget_None in DI. rewrite dget_shapes_val by auto.
      destruct (IH (add_tensor_desc en t (min_max_desc (shape_val (minval ranges) t) (shape_val (maxval ranges) t))) ICts ND') as (en' & R & E & V & A & B).
      exists en'. split; [exact R|]. split; [exact E|]. split; [exact V|]. cbn [add_tensor_desc se_desc] in A. split.
      * intros u U. assert (u <> t) by (intros ->; destruct U as [U|U]; [contradiction|apply U; simpl; auto]).
        rewrite A by (destruct U as [U|U]; [auto|right; intros Q; apply U; simpl; auto]). apply dget_dset_neq. auto.
      * intros u U NU. destruct (string_dec u t) as [->|N].
        -- rewrite A by auto. rewrite dget_dset_eq. f_equal. unfold shape_val. apply min_max_multi; auto.
           intros i Hi. apply in_seq in Hi. lia.
        -- destruct U as [U|U]; [congruence|]. auto.
Qed.

Lemma fold_update : forall (h : Z * Z -> Z) (l : dict (Z * Z)) en, NoDup (dkeys l) ->
  let en' := fold_left (fun en p => update_variable en (fst p) (h (snd p))) l en in
  se_desc en' = se_desc en /\ se_expr en' = se_expr en /\ forall k, dget (se_vars en') k = match dget l k with Some r => Some (h r) | None => dget (se_vars en) k end.
Proof.
  intros h. induction l as [|[k r] l IH]; intros en ND; cbn [fold_left fst snd]; [auto|].
  inversion ND as [|? ? N0 ND']; subst. destruct (IH (update_variable en k (h r)) ND') as (A & B & C). split; [exact A|]. split; [exact B|].
  intros k'. rewrite C. cbn [dget update_variable se_vars]. destruct (String.eqb_spec k' k) as [->|N].
  - assert (Q : dget l k = None) by (apply dget_None; exact N0). rewrite Q. apply dget_dset_eq.
  - rewrite dget_dset_neq by auto. reflexivity.
Qed.

(** the caller's way of asking: set every variable, then update_variables *)
Definition set_all (en : sengine) (val : string -> Z) : sengine :=
  fold_left (fun en k => update_variable en k (val k)) (dkeys ranges) en.
Lemma set_all_ok : forall en val, se_desc (set_all en val) = se_desc en /\ se_expr (set_all en val) = se_expr en /\
  forall k, In k (dkeys ranges) -> dget (se_vars (set_all en val)) k = Some (val k).
Proof.
  intros en val. unfold set_all.
  assert (H : forall l en, let en' := fold_left (fun en k => update_variable en k (val k)) l en in se_desc en' = se_desc en /\ se_expr en' = se_expr en /\
     forall k, dget (se_vars en') k = if in_dec string_dec k l then Some (val k) else dget (se_vars en) k).
  { induction l as [|x l IH]; intros e; cbn [fold_left]; [simpl; auto|]. destruct (IH (update_variable e x (val x))) as (A & B & C).
    split; [exact A|]. split; [exact B|]. intros k. rewrite C. cbn [update_variable se_vars]. rewrite dget_dset.
    destruct (in_dec string_dec k l) as [I|I]; destruct (in_dec string_dec k (x :: l)) as [J|J]; auto.
    - exfalso. apply J. simpl. auto.
    - destruct J as [->|J]; [rewrite String.eqb_refl; reflexivity|contradiction].
    - destruct (String.eqb_spec k x) as [->|]; auto. exfalso. apply J. simpl. auto. }
  destruct (H (dkeys ranges) en) as (A & B & C). split; auto. split; auto. intros k K. rewrite C. destruct (in_dec string_dec k (dkeys ranges)); [reflexivity|contradiction].
Qed.

Lemma run_multi : forall ex (tab : table) pre vars val, 
  (forall j p, nth_error ex j = Some p -> entry_ok (pre ++ tab) (length pre + j) p) -> length ex = length tab -> NoDup (map fst (pre ++ tab)) ->
  (forall v k f, In (v, (k, f)) (pre ++ tab) -> numeric_value v <> None) ->
  (forall k, In k (dkeys ranges) -> dget vars k = Some (val k)) ->
  (forall v k f, In (v, (k, f)) pre -> dget vars v = Some (lin f (val k))) ->
  exists vars', run_exprs ex vars = SOk vars' /\ (forall k, In k (dkeys ranges) -> dget vars' k = Some (val k)) /\
    forall v k f, In (v, (k, f)) (pre ++ tab) -> dget vars' v = Some (lin f (val k)).
Proof.
  induction ex as [|[v [s e]] ex IH]; intros tab pre vars val H L ND NN VK VP; cbn [run_exprs].
  - destruct tab; [|discriminate]. rewrite app_nil_r. exists vars. auto.
  - destruct tab as [|[v' [k f]] tab]; [discriminate|].
    destruct (H 0%nat _ eq_refl) as (k' & f' & fm & T & Kk & Sf & Sr & Ex). cbn [fst snd] in *. rewrite Nat.add_0_r in *.
    rewrite nth_error_app2 in T by lia. rewrite Nat.sub_diag in T. simpl in T. injection T as -> -> ->.
    assert (X : dget vars s = Some (lin fm (val k'))).
    { destruct Sr as [[-> ->]|(m & M1 & M2)].
      - rewrite (VK k' Kk). unfold lin. cbn [fst snd]. f_equal. lia.
      - rewrite nth_error_app1 in M2 by lia. apply (VP s k' fm). eapply nth_error_In. exact M2. }
    rewrite X, Ex. cbn [sbind].
    assert (AP : forall A (a b : list A) c, (a ++ c :: b = (a ++ [c]) ++ b)%list) by (intros; rewrite <- app_assoc; reflexivity).
    destruct (IH tab (pre ++ [(v, (k', f'))])%list (dset vars v (lin f' (val k'))) val) as (vars' & R & A & B).
    + intros j p Hp. rewrite <- AP, app_length. cbn [length]. replace (length pre + 1 + j)%nat with (length pre + S j)%nat by lia. apply H. exact Hp.
    + simpl in L. lia.
    + rewrite <- AP. exact ND.
    + rewrite <- AP. exact NN.
    + intros q Kq. rewrite dget_dset_neq; auto. intros Q. apply (NN v k' f'); [apply in_or_app; simpl; auto|]. (rewrite Q || rewrite <- Q). apply (il_key _ _ _ _ _ _ _ _ _ G). exact Kq.
    + intros w q fq W. apply in_app_or in W. destruct W as [W|[W|[]]].
      * rewrite dget_dset_neq; [apply (VP _ _ _ W)|]. intros Q. rewrite map_app in ND. cbn [map fst] in ND. apply NoDup_remove_2 in ND. apply ND.
        apply in_or_app. left. apply in_map_iff. exists (w, (q, fq)). auto.
      * injection W as <- <- <-. apply dget_dset_eq.
    + exists vars'. split; [exact R|]. split; auto. intros w q fq W. apply B. rewrite <- AP. exact W.
Qed.

Theorem regress_multi : exists en, shape_regress g input_desc ranges = SOk en /\
  forall val, exists en', update_variables (set_all en val) = SOk en' /\
    forall t, In t dyn -> ~ In t (dkeys input_desc) -> get_tensorshape en' t = SOk (shape_val val t).
Proof.
  destruct (il_dom _ _ _ _ _ _ _ _ _ G) as (DX & DN & DK). pose proof (il_keys _ _ _ _ _ _ _ _ _ G) as NDR.
  unfold shape_regress.
  destruct (fold_update snd ranges (new_engine input_desc) NDR) as (A1 & B1 & C1).
  set (e1 := fold_left _ ranges (new_engine input_desc)) in *.
  destruct (fold_update fst ranges e1 NDR) as (A2 & B2 & C2).
  set (e2 := fold_left _ ranges e1) in *.
  assert (KD : forall k, In k (dkeys ranges) -> exists r, dget ranges k = Some r).
  { intros k K. destruct (dget ranges k) eqn:Q; [eauto|]. apply dget_None in Q. contradiction. }
  rewrite (il_infer _ _ _ _ _ _ _ _ _ G _ (maxval ranges)).
  2:{ intros k K. rewrite C1. unfold maxval. destruct (KD k K) as ([a b] & ->). reflexivity. }
  2: exact DX.
  cbn [sbind]. rewrite (il_infer _ _ _ _ _ _ _ _ _ G _ (minval ranges)).
  2:{ intros k K. rewrite C2. unfold minval. destruct (KD k K) as ([a b] & ->). reflexivity. }
  2: exact DN.
  cbn [sbind].
  destruct (init_desc_multi dyn e2 (incl_refl _) (il_nodup _ _ _ _ _ _ _ _ _ G)) as (en1 & R1 & E1 & V1 & D1 & D1').
  change (map (fun t => (t, shape_val (minval ranges) t)) dyn) with (shapes_val (minval ranges)) in R1.
  change (map (fun t => (t, map (fun i => slope t i * maxval ranges (owner t i) + offset t i) (seq 0 (rank t)))) dyn) with (shapes_val (maxval ranges)).
  change (map (fun t => (t, map (fun i => slope t i * minval ranges (owner t i) + offset t i) (seq 0 (rank t)))) dyn) with (shapes_val (minval ranges)).
  rewrite R1. cbn [sbind].
  assert (SD : se_desc e2 = input_desc).
  { rewrite A2, A1. cbn [new_engine se_desc]. rewrite new_desc; auto. apply (il_inputs _ _ _ _ _ _ _ _ _ G). }
  assert (SE : se_expr en1 = []) by (rewrite E1, B2, B1; reflexivity).
  assert (I0 : GI en1 [] (fun _ _ => False) 0).
  { constructor; rewrite ?SE; auto.
    - intros [|j] p Q; discriminate.
    - intros v kf [].
    - constructor.
    - intros t T. rewrite D1 by auto. rewrite SD. reflexivity.
    - intros t d Q. destruct (in_dec string_dec t (dkeys input_desc)) as [K|K]; [auto|]. destruct (in_dec string_dec t dyn) as [K'|K']; [auto|].
      rewrite D1 in Q by auto. rewrite SD in Q. apply dget_Some_keys in Q. contradiction.
    - intros t Dt Nt. rewrite (D1' t Dt Nt). eexists. split; [reflexivity|].
      split; [rewrite map_length, seq_length; reflexivity|]. intros i Li.
      rewrite nth_error_map, (nth_error_nth' _ 0%nat) by (rewrite seq_length; auto). rewrite seq_nth by auto. cbn [option_map Nat.add].
      destruct (Z.eqb_spec (slope t i) 0); split; intros; try congruence. right. auto. }
  destruct (regress_vars_multi ranges en1 [] (fun _ _ => False) 0 (incl_refl _) NDR I0) as (en & tab & N & R & I).
  { intros k K. rewrite V1, C2. unfold minval. destruct (KD k K) as ([a b] & ->). reflexivity. }
  exists en. split; [exact R|]. intros val. destruct (set_all_ok en val) as (SA & SB & SC).
  unfold update_variables. rewrite SB.
  destruct (run_multi (se_expr en) tab [] (se_vars (set_all en val)) val) as (vars' & RV & W1 & W2); auto.
  { intros j p P. apply (g_expr _ _ _ _ I j p P). }
  { apply (g_len _ _ _ _ I). }
  { apply (g_nd _ _ _ _ I). }
  { intros v k f H. destruct (g_name _ _ _ _ I _ _ H) as (n & -> & _). rewrite dec_value. discriminate. }
  { intros v k f []. }
  cbn [app] in W2. rewrite RV. cbn [sbind]. eexists. split; [reflexivity|].
  intros t Dt Nt. unfold get_tensorshape. cbn [se_desc se_vars]. rewrite SA.
  destruct (g_desc _ _ _ _ I t Dt Nt) as (d & -> & L & H).
  assert (GEN : forall d k, (forall i, (i < length d)%nat ->
             (exists z, nth_error d i = Some (DI z) /\ z = slope t (k + i) * val (owner t (k + i)) + offset t (k + i)) \/
             (exists v, nth_error d i = Some (DV v) /\ dget vars' v = Some (slope t (k + i) * val (owner t (k + i)) + offset t (k + i)))) ->
          desc_shape vars' d = SOk (map (fun i => slope t i * val (owner t i) + offset t i) (seq k (length d)))).
  { clear. induction d as [|e d IH]; intros k H; [reflexivity|]. cbn [desc_shape length seq map].
    destruct (H 0%nat ltac:(simpl; lia)) as [(z & Q & Z)|(v & Q & Z)]; simpl in Q; injection Q as ->; rewrite Nat.add_0_r in Z; rewrite ?Z; cbn [sbind];
      (rewrite (IH (S k)); [reflexivity|]); intros i Li; specialize (H (S i) ltac:(simpl; lia)); cbn [nth_error] in H;
      replace (k + S i)%nat with (S k + i)%nat in H by lia; exact H. }
  unfold shape_val. rewrite <- L. apply GEN. intros i Li. rewrite L in Li. cbn [Nat.add]. destruct (H i Li) as [H0 H1].
  destruct (Z.eq_dec (slope t i) 0) as [Z|Z].
  - left. exists (offset t i). split; auto. rewrite Z. lia.
  - right. destruct (H1 Z) as [(_ & v & Q & F)|(Nd & _)].
    + exists v. split; auto. destruct F as [[-> F]|F].
      * rewrite W1 by (apply (il_owner _ _ _ _ _ _ _ _ _ G); auto). unfold form in F. injection F as -> ->. f_equal. lia.
      * rewrite (W2 _ _ _ F). reflexivity.
    + exfalso. apply Nd. right. split; auto. apply (il_owner _ _ _ _ _ _ _ _ _ G); auto.
Qed.
End Multi.
