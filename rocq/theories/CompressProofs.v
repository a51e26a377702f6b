From Verif Require Import PyBase PyBaseFacts GraphModel CompressModel CompressSpec.
From Coq Require Import Relations.
Local Open Scope Z_scope.

Lemma is_free_true : forall b, is_free b = true <-> b_tag b = ""%string.
Proof. intros b. unfold is_free. apply String.eqb_eq. Qed.
Lemma is_free_false : forall b, is_free b = false <-> b_tag b <> ""%string.
Proof. intros b. unfold is_free. apply String.eqb_neq. Qed.

Lemma In_named : forall x l, In x (named l) <-> In x l /\ x <> ""%string.
Proof.
  intros. unfold named. rewrite filter_In. rewrite negb_true_iff, String.eqb_neq. tauto.
Qed.

Lemma named_app : forall a b, named (a ++ b) = (named a ++ named b)%list.
Proof. intros. apply filter_app. Qed.

(* ------------------------------------------------------------------ *)
(** * Tiling *)
Section Tiling.
Variable pad : Z.

Fixpoint tiled (off : Z) (bs : list block) : Prop :=
  match bs with
  | [] => True
  | b :: r => b_off b = off /\ 0 < b_size b /\ (pad | b_size b) /\ tiled (off + b_size b) r
  end.

Fixpoint tsize (bs : list block) : Z :=
  match bs with [] => 0 | b :: r => b_size b + tsize r end.

Lemma tsize_app : forall a b, tsize (a ++ b) = tsize a + tsize b.
Proof. induction a as [|x r IH]; simpl; intros; [lia|]. rewrite IH. lia. Qed.

Lemma tiled_app : forall a b off, tiled off (a ++ b) <-> tiled off a /\ tiled (off + tsize a) b.
Proof.
  induction a as [|x r IH]; simpl; intros b off.
  - rewrite Z.add_0_r. tauto.
  - rewrite IH. replace (off + (b_size x + tsize r)) with (off + b_size x + tsize r) by lia. tauto.
Qed.

Lemma tiled_tsize_nonneg : forall bs off, tiled off bs -> 0 <= tsize bs.
Proof. induction bs as [|b r IH]; simpl; intros off H; [lia|]. destruct H as (?&?&?&?). apply IH in H2. lia. Qed.

Lemma tiled_tsize_div : forall bs off, tiled off bs -> (pad | tsize bs).
Proof.
  induction bs as [|b r IH]; simpl; intros off H; [apply Z.divide_0_r|].
  destruct H as (?&?&?&?). apply Z.divide_add_r; eauto.
Qed.

Lemma tiled_In : forall bs off b, tiled off bs -> In b bs ->
  off <= b_off b /\ b_end b <= off + tsize bs /\ 0 < b_size b /\ (pad | b_size b) /\ (pad | b_off b - off).
Proof.
  induction bs as [|x r IH]; simpl; intros off b H I; [tauto|].
  destruct H as (H1&H2&H3&H4). destruct I as [->|I].
  - unfold b_end. pose proof (tiled_tsize_nonneg _ _ H4).
    repeat split; try lia; [assumption|]. rewrite H1, Z.sub_diag. apply Z.divide_0_r.
  - destruct (IH _ _ H4 I) as (K1&K2&K3&K4&K5). pose proof (tiled_tsize_nonneg _ _ H4).
    repeat split; try lia; [assumption|].
    replace (b_off b - off) with ((b_off b - (off + b_size x)) + b_size x) by lia.
    apply Z.divide_add_r; assumption.
Qed.

(** two entries of a tiling with different tags do not intersect *)
Lemma tiled_disjoint : forall bs off b c, tiled off bs -> In b bs -> In c bs -> b_tag b <> b_tag c ->
  b_end b <= b_off c \/ b_end c <= b_off b.
Proof.
  induction bs as [|x r IH]; simpl; intros off b c H Ib Ic N; [tauto|].
  destruct H as (H1&H2&H3&H4).
  destruct Ib as [->|Ib], Ic as [->|Ic].
  - congruence.
  - destruct (tiled_In _ _ _ H4 Ic) as (K1&_). left. unfold b_end. lia.
  - destruct (tiled_In _ _ _ H4 Ib) as (K1&_). right. unfold b_end. lia.
  - eapply IH; eauto.
Qed.

Lemma compress_size_tiled_aux : forall r off m, tiled off r -> m = off ->
  fold_left (fun m x => Z.max m (b_end x)) r m = off + tsize r.
Proof.
  induction r as [|x r IH]; simpl; intros off m H E; [lia|].
  destruct H as (H1&H2&H3&H4).
  rewrite (IH (off + b_size x)); [lia|assumption|unfold b_end; lia].
Qed.

Lemma compress_size_tiled : forall bs, tiled 0 bs -> compress_size bs = tsize bs.
Proof.
  intros [|b r] H; [reflexivity|]. simpl in *. destruct H as (H1&H2&H3&H4).
  rewrite (compress_size_tiled_aux r (0 + b_size b)); [lia|assumption|unfold b_end; lia].
Qed.

(* ------------------------------------------------------------------ *)
(** * Phase 1: releases are sequences of local merges *)

Inductive rel1 (live : list string) : list block -> list block -> Prop :=
| rel1_intro : forall A x X B m,
    Forall (fun b => b_tag b = ""%string \/ ~ In (b_tag b) live) (x :: X) ->
    b_tag m = ""%string -> b_off m = b_off x -> b_size m = b_end (last X x) - b_off x ->
    rel1 live (A ++ x :: X ++ B) (A ++ m :: B).

Definition rels live := clos_refl_trans_1n _ (rel1 live).

Lemma last_cons_tiled : forall X x off, tiled off (x :: X) -> b_end (last X x) = off + tsize (x :: X).
Proof.
  induction X as [|y X IH]; intros x off H.
  - simpl in *. unfold b_end. lia.
  - assert (last (y :: X) x = last X y) as ->.
    { clear. revert x y. induction X as [|z X IH]; intros x y; [reflexivity|].
      change (last (y :: z :: X) x) with (last (z :: X) x). rewrite IH.
      symmetry. apply IH. }
    destruct H as (H1&H2&H3&H4). rewrite (IH y _ H4). simpl. lia.
Qed.

Lemma tags_app : forall a b, tags (a ++ b) = (tags a ++ tags b)%list.
Proof. intros. apply map_app. Qed.

Lemma NoDup_app_drop_mid : forall (A : list string) X B, NoDup (A ++ X ++ B) -> NoDup (A ++ B).
Proof.
  induction A as [|a A IH]; simpl; intros X B H.
  - induction X as [|x X IHX]; simpl in H; [assumption|]. inversion H; auto.
  - inversion H; subst. constructor; [|eauto].
    rewrite !in_app_iff in *. tauto.
Qed.

Definition bs_inv (bs : list block) : Prop := tiled 0 bs /\ NoDup (named (tags bs)).

Lemma rel1_inv : forall live bs bs', rel1 live bs bs' -> bs_inv bs ->
  bs_inv bs' /\ tsize bs' = tsize bs
  /\ (forall b, In b bs' -> b_tag b <> ""%string -> In b bs)
  /\ (forall b, In b bs -> b_tag b <> ""%string -> In (b_tag b) live -> In b bs').
Proof.
  intros live bs bs' H [HT HN]. destruct H as [A x X B m HF Hm1 Hm2 Hm3].
  change (x :: X ++ B)%list with ((x :: X) ++ B)%list in *.
  rewrite tiled_app in HT. destruct HT as [HT1 HT2].
  rewrite tiled_app in HT2. destruct HT2 as [HT2 HT3].
  pose proof (last_cons_tiled _ _ _ HT2) as HL.
  assert (Hsz : b_size m = tsize (x :: X)).
  { rewrite Hm3, HL. destruct HT2 as (K1&_). lia. }
  assert (Hpos : 0 < tsize (x :: X)).
  { destruct HT2 as (K1&K2&K3&K4). pose proof (tiled_tsize_nonneg _ _ K4). simpl. lia. }
  split; [split|].
  - rewrite tiled_app. split; [assumption|]. simpl.
    repeat split.
    + rewrite Hm2. destruct HT2 as (K1&_). lia.
    + lia.
    + rewrite Hsz. eapply tiled_tsize_div; eauto.
    + rewrite Hsz. assumption.
  - rewrite tags_app, named_app in *. rewrite tags_app, named_app in HN.
    simpl tags at 2. cbn [named filter]. unfold tags at 2. cbn [map]. cbn [named filter].
    rewrite Hm1. simpl. eapply NoDup_app_drop_mid. exact HN.
  - split; [rewrite !tsize_app; rewrite <- Hsz; simpl; lia|].
    split.
    + intros b I N. rewrite in_app_iff in *. rewrite in_app_iff.
      destruct I as [I|[I|I]]; [tauto|subst; contradiction|tauto].
    + intros b I N L. rewrite !in_app_iff in *. destruct I as [I|[I|I]]; [tauto| |simpl; tauto].
      exfalso. rewrite Forall_forall in HF. destruct (HF _ I); contradiction.
Qed.

Lemma rels_inv : forall live bs bs', rels live bs bs' -> bs_inv bs ->
  bs_inv bs' /\ tsize bs' = tsize bs
  /\ (forall b, In b bs' -> b_tag b <> ""%string -> In b bs)
  /\ (forall b, In b bs -> b_tag b <> ""%string -> In (b_tag b) live -> In b bs').
Proof.
  induction 1 as [|bs bs1 bs2 H1 H2 IH]; intros HI.
  - split; [assumption|]. split; [reflexivity|]. split; auto.
  - destruct (rel1_inv _ _ _ H1 HI) as (K1&K2&K3&K4).
    destruct (IH K1) as (L1&L2&L3&L4).
    split; [assumption|]. split; [congruence|]. split; auto.
Qed.

Lemma rels_refl : forall live l, rels live l l.
Proof. constructor. Qed.

Lemma release_rels_n : forall k live rest prev, (length rest <= k)%nat ->
  rels live (rev prev ++ rest) (release live prev rest).
Proof.
  induction k as [|k IH]; intros live rest prev Hl.
  { destruct rest; [|simpl in Hl; lia]. simpl. rewrite app_nil_r. constructor. }
  destruct rest as [|b rest1].
  { simpl. rewrite app_nil_r. constructor. }
  simpl in Hl. cbn [release].
  destruct (is_free b) eqn:Fb.
  { specialize (IH live rest1 (b :: prev) ltac:(lia)). simpl in IH. rewrite <- app_assoc in IH. exact IH. }
  destruct (memb (b_tag b) live) eqn:Mb.
  { specialize (IH live rest1 (b :: prev) ltac:(lia)). simpl in IH. rewrite <- app_assoc in IH. exact IH. }
  apply memb_nIn in Mb.
  destruct prev as [|p prev1]; destruct rest1 as [|nx rest2].
  - simpl. apply (Relation_Operators.rt1n_trans _ _ _ [mkB "" (b_off b) (b_size b)]); [|apply rels_refl].
    apply (rel1_intro live [] b [] [] (mkB "" (b_off b) (b_size b))); simpl; auto.
    unfold b_end; simpl; lia.
  - destruct (is_free nx) eqn:Fn.
    + specialize (IH live rest2 [mkB "" (b_off b) (b_end nx - b_off b)] ltac:(simpl in Hl; lia)).
      eapply Relation_Operators.rt1n_trans; [|exact IH]. simpl.
      apply (rel1_intro live [] b [nx] rest2 (mkB "" (b_off b) (b_end nx - b_off b))); simpl; auto.
      apply is_free_true in Fn. auto.
    + specialize (IH live (nx :: rest2) [mkB "" (b_off b) (b_size b)] ltac:(simpl in *; lia)).
      eapply Relation_Operators.rt1n_trans; [|exact IH]. simpl.
      apply (rel1_intro live [] b [] (nx :: rest2) (mkB "" (b_off b) (b_size b))); simpl; auto.
      unfold b_end; simpl; lia.
  - destruct (is_free p) eqn:Fp.
    + apply is_free_true in Fp.
      eapply Relation_Operators.rt1n_trans; [|apply rels_refl]. simpl. rewrite <- app_assoc. simpl.
      apply (rel1_intro live (rev prev1) p [b] [] (mkB "" (b_off p) (b_end b - b_off p))); simpl; auto.
    + eapply Relation_Operators.rt1n_trans; [|apply rels_refl]. simpl.
      apply (rel1_intro live (rev prev1 ++ [p]) b [] [] (mkB "" (b_off b) (b_size b))); simpl; auto.
      unfold b_end; simpl; lia.
  - destruct (is_free p) eqn:Fp.
    + apply is_free_true in Fp. destruct (is_free nx) eqn:Fn.
      * apply is_free_true in Fn.
        set (m := mkB "" (b_off p) (b_end nx - b_off p)).
        assert (R : rel1 live (rev (p :: prev1) ++ b :: nx :: rest2) (rev prev1 ++ m :: rest2)).
        { simpl. rewrite <- app_assoc. simpl.
          apply (rel1_intro live (rev prev1) p [b; nx] rest2 m); simpl; auto. }
        eapply Relation_Operators.rt1n_trans; [exact R|].
        destruct rest2 as [|x rest3]; [simpl; apply rels_refl|].
        specialize (IH live rest3 (x :: m :: prev1) ltac:(simpl in *; lia)).
        simpl in IH. rewrite <- !app_assoc in IH. exact IH.
      * set (m := mkB "" (b_off p) (b_end b - b_off p)).
        assert (R : rel1 live (rev (p :: prev1) ++ b :: nx :: rest2) (rev prev1 ++ m :: nx :: rest2)).
        { simpl. rewrite <- app_assoc. simpl.
          apply (rel1_intro live (rev prev1) p [b] (nx :: rest2) m); simpl; auto. }
        eapply Relation_Operators.rt1n_trans; [exact R|].
        specialize (IH live rest2 (nx :: m :: prev1) ltac:(simpl in *; lia)).
        simpl in IH. rewrite <- !app_assoc in IH. exact IH.
    + destruct (is_free nx) eqn:Fn.
      * apply is_free_true in Fn.
        set (m := mkB "" (b_off b) (b_end nx - b_off b)).
        assert (R : rel1 live (rev (p :: prev1) ++ b :: nx :: rest2) (rev (p :: prev1) ++ m :: rest2)).
        { apply (rel1_intro live (rev (p :: prev1)) b [nx] rest2 m); simpl; auto. }
        eapply Relation_Operators.rt1n_trans; [exact R|].
        specialize (IH live rest2 (m :: p :: prev1) ltac:(simpl in *; lia)).
        simpl in IH |- *. rewrite <- !app_assoc in *. simpl in *. exact IH.
      * set (m := mkB "" (b_off b) (b_size b)).
        assert (R : rel1 live (rev (p :: prev1) ++ b :: nx :: rest2) (rev (p :: prev1) ++ m :: nx :: rest2)).
        { apply (rel1_intro live (rev (p :: prev1)) b [] (nx :: rest2) m); simpl; auto.
          unfold b_end; simpl; lia. }
        eapply Relation_Operators.rt1n_trans; [exact R|].
        specialize (IH live (nx :: rest2) (m :: p :: prev1) ltac:(simpl in *; lia)).
        simpl in IH |- *. rewrite <- !app_assoc in *. simpl in *. exact IH.
Qed.

Lemma release_rels : forall live bs, rels live bs (release live [] bs).
Proof. intros. exact (release_rels_n (length bs) live bs [] (Nat.le_refl _)). Qed.

(* ------------------------------------------------------------------ *)
(** * Phase 2 *)

Lemma best_fit_spec : forall sz bs i best j rem,
  best_fit sz bs i best = Some (j, rem) ->
  best = Some (j, rem) \/
  exists k b, j = (i + k)%nat /\ nth_error bs k = Some b /\ is_free b = true /\ sz <= b_size b
              /\ rem = b_size b - sz.
Proof.
  induction bs as [|b r IH]; simpl; intros i best j rem H; [left; assumption|].
  apply IH in H. destruct H as [H|(k & b' & H1 & H2 & H3)].
  - destruct (is_free b && (sz <=? b_size b)) eqn:E; [|left; assumption].
    apply andb_prop in E. destruct E as [E1 E2]. apply Z.leb_le in E2.
    assert (D : Some (i, b_size b - sz) = Some (j, rem) \/ best = Some (j, rem)).
    { destruct best as [[i0 rem0]|]; [destruct (b_size b - sz <? rem0)|]; auto. }
    destruct D as [D|D]; [|left; assumption].
    injection D as <- <-. right. exists 0%nat, b. repeat split; auto; lia.
  - right. exists (S k), b'. split; [lia|]. split; [exact H2|exact H3].
Qed.

Lemma best_fit_none : forall sz bs i best, best_fit sz bs i best = None ->
  best = None /\ forall b, In b bs -> is_free b = true -> b_size b < sz.
Proof.
  induction bs as [|b r IH]; simpl; intros i best H; [split; [assumption|tauto]|].
  apply IH in H. destruct H as [H1 H2].
  destruct (is_free b && (sz <=? b_size b)) eqn:E.
  - destruct best as [[i0 rem0]|]; [destruct (b_size b - sz <? rem0)|]; discriminate.
  - split; [assumption|]. intros b' [->|I] F; [|auto].
    rewrite F in E. simpl in E. lia.
Qed.

(** Outcome of one placement. *)
Definition placed (t : string) (sz : Z) (bs bs' : list block) : Prop :=
  bs_inv bs' /\ tsize bs <= tsize bs' /\ tsize bs' <= tsize bs + sz
  /\ (forall b, In b bs -> b_tag b <> ""%string -> In b bs')
  /\ (forall b, In b bs' -> b_tag b <> ""%string -> b_tag b <> t -> In b bs)
  /\ exists b, In b bs' /\ b_tag b = t /\ sz <= b_size b.

Lemma place_at_app : forall t sz thr rem b B A,
  place_at t sz thr rem (length A) (A ++ b :: B) =
  (A ++ (if thr <=? rem then mkB t (b_off b) sz :: mkB "" (b_off b + sz) rem :: B
         else mkB t (b_off b) (b_size b) :: B))%list.
Proof.
  intros. induction A as [|a A IH]; simpl; [reflexivity|]. rewrite IH. reflexivity.
Qed.

Lemma NoDup_insert : forall (t : string) A B, NoDup (A ++ B) -> ~ In t (A ++ B) -> NoDup (A ++ t :: B).
Proof.
  intros t A B H N. apply (NoDup_Add (a := t) (l := A ++ B)); [apply Add_app|]. split; assumption.
Qed.

Lemma place_at_placed : forall t sz thr rem i bs b,
  bs_inv bs -> t <> ""%string -> ~ In t (tags bs) -> 0 < sz -> (pad | sz) -> 0 < thr ->
  nth_error bs i = Some b -> is_free b = true -> sz <= b_size b -> rem = b_size b - sz ->
  placed t sz bs (place_at t sz thr rem i bs).
Proof.
  intros t sz thr rem i bs b [HT HN] Ht Hn Hsz Hd Hthr Hi Hf Hle ->.
  apply nth_error_split in Hi. destruct Hi as (A & B & -> & <-).
  rewrite place_at_app.
  rewrite tiled_app in HT. destruct HT as [HT1 HT2]. simpl in HT2. destruct HT2 as (T1&T2&T3&T4).
  apply is_free_true in Hf.
  assert (HNm : NoDup (named (tags A) ++ named (tags B))).
  { rewrite tags_app, named_app in HN. cbn [tags map] in HN. cbn [named filter] in HN.
    rewrite Hf in HN. simpl in HN. exact HN. }
  assert (HNI : ~ In t (named (tags A) ++ named (tags B))).
  { rewrite in_app_iff, !In_named. rewrite tags_app, in_app_iff in Hn. simpl in Hn. tauto. }
  destruct (thr <=? b_size b - sz) eqn:E.
  - assert (Hr : 0 < b_size b - sz) by lia.
    split; [split|split; [|split; [|split; [|split]]]].
    + rewrite tiled_app. split; [assumption|]. simpl. repeat split; try lia.
      * assumption.
      * apply Z.divide_sub_r; assumption.
      * match type of T4 with tiled ?z _ => match goal with |- tiled ?y _ => replace y with z by lia end end. assumption.
    + rewrite tags_app, named_app. cbn [tags map b_tag]. cbn [named filter].
      replace (String.eqb t "") with false by (symmetry; apply String.eqb_neq; assumption).
      simpl. apply NoDup_insert; assumption.
    + rewrite !tsize_app. simpl. lia.
    + rewrite !tsize_app. simpl. lia.
    + intros c I N. rewrite in_app_iff in *. simpl in *.
      destruct I as [I|[I|I]]; [tauto|subst; contradiction|tauto].
    + intros c I N N2. rewrite in_app_iff in *. simpl in *.
      destruct I as [I|[I|[I|I]]]; [tauto|subst; simpl in *; contradiction|subst; simpl in *; contradiction|tauto].
    + exists (mkB t (b_off b) sz). split; [rewrite in_app_iff; simpl; tauto|]. simpl. split; [reflexivity|lia].
  - split; [split|split; [|split; [|split; [|split]]]].
    + rewrite tiled_app. split; [assumption|]. simpl. repeat split; try lia; assumption.
    + rewrite tags_app, named_app. cbn [tags map b_tag]. cbn [named filter].
      replace (String.eqb t "") with false by (symmetry; apply String.eqb_neq; assumption).
      simpl. apply NoDup_insert; assumption.
    + rewrite !tsize_app. simpl. lia.
    + rewrite !tsize_app. simpl. lia.
    + intros c I N. rewrite in_app_iff in *. simpl in *.
      destruct I as [I|[I|I]]; [tauto|subst; contradiction|tauto].
    + intros c I N N2. rewrite in_app_iff in *. simpl in *.
      destruct I as [I|[I|I]]; [tauto|subst; simpl in *; contradiction|tauto].
    + exists (mkB t (b_off b) (b_size b)). split; [rewrite in_app_iff; simpl; tauto|]. simpl. split; [reflexivity|lia].
Qed.

Lemma append_block_snoc : forall t sz A b,
  append_block t sz (A ++ [b]) =
  (A ++ (if is_free b then [mkB t (b_off b) sz] else [b; mkB t (b_end b) sz]))%list.
Proof.
  induction A as [|a A IH]; intros b; [reflexivity|].
  cbn [app append_block]. rewrite <- IH. destruct (A ++ [b])%list eqn:E; [destruct A; discriminate|reflexivity].
Qed.

Lemma append_block_placed : forall t sz bs,
  bs_inv bs -> t <> ""%string -> ~ In t (tags bs) -> 0 < sz -> (pad | sz) ->
  (forall b, In b bs -> is_free b = true -> b_size b < sz) ->
  placed t sz bs (append_block t sz bs).
Proof.
  intros t sz bs [HT HN] Ht Hn Hsz Hd Hno.
  destruct bs as [|b0 bs0] using rev_ind; [|clear IHbs0].
  - simpl. split; [split|split; [|split; [|split; [|split]]]]; simpl; auto; try lia.
    + cbn [tags map b_tag]. cbn [named filter].
      replace (String.eqb t "") with false by (symmetry; apply String.eqb_neq; assumption).
      simpl. constructor; [simpl; tauto|constructor].
    + intros c [<-|[]] _ N; simpl in N; contradiction.
    + eexists; split; [left; reflexivity|]. simpl. split; [reflexivity|lia].
  - rewrite append_block_snoc. rename b0 into b, bs0 into A.
    rewrite tiled_app in HT. destruct HT as [HT1 HT2]. simpl in HT2. destruct HT2 as (T1&T2&T3&_).
    assert (HNI : ~ In t (named (tags A))).
    { rewrite In_named. rewrite tags_app, in_app_iff in Hn. tauto. }
    destruct (is_free b) eqn:F.
    + assert (Hb : b_size b < sz) by (apply Hno; [rewrite in_app_iff; simpl; tauto|assumption]).
      apply is_free_true in F.
      split; [split|split; [|split; [|split; [|split]]]].
      * rewrite tiled_app. split; [assumption|]. simpl. repeat split; auto; lia.
      * rewrite tags_app, named_app in *. cbn [tags map b_tag] in *. cbn [named filter] in *.
        replace (String.eqb t "") with false by (symmetry; apply String.eqb_neq; assumption).
        rewrite F in HN. simpl in *. rewrite app_nil_r in HN. apply NoDup_snoc; assumption.
      * rewrite !tsize_app. simpl. lia.
      * rewrite !tsize_app. simpl. lia.
      * intros c I N. rewrite in_app_iff in *. simpl in *. destruct I as [I|[I|[]]]; [tauto|subst; contradiction].
      * intros c I N N2. rewrite in_app_iff in *. simpl in *.
        destruct I as [I|[I|[]]]; [tauto|subst; simpl in *; contradiction].
      * eexists. split; [rewrite in_app_iff; simpl; right; left; reflexivity|]. simpl. split; [reflexivity|lia].
    + apply is_free_false in F.
      split; [split|split; [|split; [|split; [|split]]]].
      * rewrite tiled_app. split; [assumption|]. simpl. unfold b_end. repeat split; auto; lia.
      * change [b; mkB t (b_end b) sz] with ([b] ++ [mkB t (b_end b) sz])%list.
        rewrite app_assoc, tags_app, named_app. cbn [tags map b_tag named filter].
        replace (String.eqb t "") with false by (symmetry; apply String.eqb_neq; assumption).
        simpl. apply NoDup_snoc; [assumption|]. rewrite In_named. tauto.
      * rewrite !tsize_app. simpl. lia.
      * rewrite !tsize_app. simpl. lia.
      * intros c I N. rewrite in_app_iff in *. simpl in *. tauto.
      * intros c I N N2. rewrite in_app_iff in *. simpl in *.
        destruct I as [I|[I|[I|[]]]]; [tauto|tauto|subst; simpl in *; contradiction].
      * eexists. split; [rewrite in_app_iff; simpl; right; right; left; reflexivity|]. simpl. split; [reflexivity|lia].
Qed.

Lemma find_tag_spec : forall t bs b, NoDup (named (tags bs)) -> t <> ""%string ->
  In b bs -> b_tag b = t -> find_tag t bs = Some b.
Proof.
  intros t bs b. induction bs as [|x r IH]; intros HN Ht I E; [destruct I|].
  cbn [tags map] in HN. cbn [named filter] in HN.
  unfold find_tag. cbn [find].
  destruct (String.eqb_spec t (b_tag x)) as [Ex|Ex].
  - f_equal. destruct I as [I|I]; [assumption|]. exfalso.
    rewrite <- Ex in HN. pose proof Ht as Ht'. apply String.eqb_neq in Ht'. rewrite Ht' in HN.
    cbn [negb] in HN. inversion HN as [|? ? N1 N2]; subst. apply N1. apply In_named.
    split; [|assumption]. unfold tags. apply in_map. assumption.
  - fold (find_tag t r). apply IH; auto.
    + destruct (negb (String.eqb (b_tag x) "")); [inversion HN; assumption|assumption].
    + destruct I as [I|I]; [subst; congruence|assumption].
Qed.

(* ------------------------------------------------------------------ *)
(** * The planning loop *)
Variable sizes : dict Z.
Variable thr : Z.
Hypothesis Hthr : 0 < thr.
Hypothesis sizes_ok : forall t s, dget sizes t = Some s -> t <> ""%string /\ 0 < s /\ (pad | s).

Definition sum_sizes (l : list string) : Z := fold_right (fun t a => size_of sizes t + a) 0 l.

Lemma sum_sizes_app : forall a b, sum_sizes (a ++ b) = sum_sizes a + sum_sizes b.
Proof. induction a as [|x r IH]; simpl; intros; [lia|]. rewrite IH. lia. Qed.

Definition entry_ok (total : Z) (t : string) (o s : Z) : Prop :=
  exists sz, dget sizes t = Some sz /\ sz <= s /\ 0 <= o /\ (pad | o) /\ (pad | s) /\ o + s <= total.

Definition SInv (st : list block * dict (Z * Z)) : Prop :=
  let (bs, mem) := st in
  bs_inv bs
  /\ (forall b, In b bs -> b_tag b <> ""%string -> dget mem (b_tag b) = Some (b_off b, b_size b))
  /\ (forall t o s, dget mem t = Some (o, s) -> entry_ok (tsize bs) t o s)
  /\ tsize bs <= sum_sizes (dkeys mem)
  /\ NoDup (dkeys mem).

(** one allocation, when the tensor was never planned before *)
Lemma alloc1_inv : forall bs mem t,
  SInv (bs, mem) ->
  (dget sizes t <> None -> dget mem t <> None -> In t (tags bs)) ->
  forall bs' mem', alloc1 sizes thr (bs, mem) t = (bs', mem') ->
  SInv (bs', mem')
  /\ (forall b, In b bs -> b_tag b <> ""%string -> In b bs')
  /\ (forall u, dget mem u <> None -> dget mem' u = dget mem u)
  /\ (forall u, dget mem' u <> None -> dget mem u <> None \/ u = t)
  /\ (dget sizes t <> None -> In t (tags bs'))
  /\ tsize bs <= tsize bs'.
Proof.
  intros bs mem t HI Hnew bs' mem' E. unfold alloc1 in E.
  destruct (memb t (tags bs)) eqn:M.
  { injection E as <- <-. apply memb_In in M. repeat split; auto; try (apply HI); lia. }
  apply memb_nIn in M.
  destruct (dget sizes t) as [sz|] eqn:S.
  2:{ injection E as <- <-. repeat split; auto; try (apply HI); try congruence; lia. }
  destruct (sizes_ok _ _ S) as (Ht & Hsz & Hdiv).
  assert (Hfresh : dget mem t = None).
  { destruct (dget mem t) eqn:G; [|reflexivity]. exfalso. apply M, Hnew; congruence. }
  destruct HI as (HB & HM & HE & HS & HN).
  set (bs1 := match best_fit sz bs 0 None with
              | Some (i, rem) => place_at t sz thr rem i bs
              | None => append_block t sz bs end) in E.
  assert (HP : placed t sz bs bs1).
  { unfold bs1. destruct (best_fit sz bs 0 None) as [[i rem]|] eqn:BF.
    - apply best_fit_spec in BF. destruct BF as [BF|(k & b & K1 & K2 & K3 & K4 & K5)]; [discriminate|].
      simpl in K1. subst k. eapply place_at_placed; eauto.
    - apply best_fit_none in BF. destruct BF as [_ BF]. apply append_block_placed; auto. }
  destruct HP as (P1 & P2 & P3 & P4 & P5 & (b & P6 & P7 & P8)).
  rewrite (find_tag_spec t bs1 b (proj2 P1) Ht P6 P7) in E.
  injection E as <- <-.
  destruct (tiled_In _ _ _ (proj1 P1) P6) as (Q1 & Q2 & Q3 & Q4 & Q5).
  rewrite Z.sub_0_r in Q5.
  split; [|split; [exact P4|split; [|split; [|split; [|exact P2]]]]].
  - repeat split.
    + apply P1.
    + apply P1.
    + intros c I N. rewrite dget_dset. destruct (String.eqb_spec (b_tag c) t) as [Ec|Ec].
      * f_equal.
        assert (c = b) as ->; [|reflexivity].
        pose proof (find_tag_spec t bs1 c (proj2 P1) Ht I Ec) as F1.
        pose proof (find_tag_spec t bs1 b (proj2 P1) Ht P6 P7) as F2. congruence.
      * apply HM; auto.
    + intros u o s G. rewrite dget_dset in G. destruct (String.eqb_spec u t) as [Eu|Eu]; [rewrite Eu in *|].
      * injection G as <- <-. exists sz. unfold b_end in Q2. repeat split; auto; lia.
      * destruct (HE _ _ _ G) as (z & Z1 & Z2 & Z3 & Z4 & Z5 & Z6).
        exists z. repeat split; auto; lia.
    + rewrite dkeys_dset_new by (now apply dget_None).
      rewrite sum_sizes_app. simpl. unfold size_of at 1. rewrite S. lia.
    + now apply NoDup_dkeys_dset.
  - intros u G. rewrite dget_dset. seq u t; [congruence|reflexivity].
  - intros u G. rewrite dget_dset in G. seq u t; [right; reflexivity|left; assumption].
  - intros _. unfold tags. apply in_map_iff. exists b. auto.
Qed.

Lemma alloc_fold_inv : forall ts bs mem,
  SInv (bs, mem) ->
  (forall t, In t ts -> dget mem t <> None -> In t (tags bs)) ->
  forall bs' mem', fold_left (alloc1 sizes thr) ts (bs, mem) = (bs', mem') ->
  SInv (bs', mem')
  /\ (forall b, In b bs -> b_tag b <> ""%string -> In b bs')
  /\ (forall u, dget mem u <> None -> dget mem' u = dget mem u)
  /\ (forall u, dget mem' u <> None -> dget mem u <> None \/ In u ts)
  /\ (forall t, In t ts -> dget sizes t <> None -> In t (tags bs'))
  /\ tsize bs <= tsize bs'.
Proof.
  induction ts as [|t ts IH]; intros bs mem HI Hnew bs' mem' E; cbn [fold_left] in E.
  { injection E as <- <-. repeat split; auto; try apply HI; try (simpl; tauto); lia. }
  destruct (alloc1 sizes thr (bs, mem) t) as [bs1 mem1] eqn:A.
  destruct (alloc1_inv _ _ _ HI (fun _ => Hnew t (or_introl eq_refl)) _ _ A) as (K1 & K2 & K3 & K4 & K5 & K6).
  assert (Hnew1 : forall u, In u ts -> dget mem1 u <> None -> In u (tags bs1)).
  { intros u I G.
    destruct (string_dec u t) as [->|N].
    - destruct (dget sizes t) eqn:S; [apply K5; congruence|].
      (* t not sized: alloc1 did nothing *)
      unfold alloc1 in A. rewrite S in A.
      assert ((bs1, mem1) = (bs, mem)) as EE by (destruct (memb t (tags bs)); congruence).
      injection EE as -> ->. apply Hnew; [right; assumption|assumption].
    - destruct (K4 _ G) as [G'| ->]; [|congruence].
      specialize (Hnew u (or_intror I) G'). unfold tags in Hnew. apply in_map_iff in Hnew.
      destruct Hnew as (b & B1 & B2).
      destruct HI as (_ & _ & HE & _).
      destruct (dget mem u) as [[o s]|] eqn:GU; [|congruence].
      destruct (HE _ _ _ GU) as (z & Z1 & _). destruct (sizes_ok _ _ Z1) as (Z2 & _).
      unfold tags. apply in_map_iff. exists b. split; [assumption|]. apply K2; [assumption|congruence]. }
  destruct (IH _ _ K1 Hnew1 _ _ E) as (L1 & L2 & L3 & L4 & L5 & L6).
  split; [assumption|]. split; [|split; [|split; [|split; [|lia]]]].
  - intros b I N. apply L2; auto.
  - intros u G. rewrite L3; [apply K3; assumption|]. rewrite K3; assumption.
  - intros u G. destruct (L4 _ G) as [G'|I]; [|right; right; assumption].
    destruct (K4 _ G') as [G''| ->]; [left; assumption|right; left; reflexivity].
  - intros u [<-|I] S; [|auto].
    specialize (K5 S). unfold tags in K5. apply in_map_iff in K5. destruct K5 as (b & B1 & B2).
    destruct (dget sizes t) as [z|] eqn:Z1; [|congruence].
    destruct (sizes_ok _ _ Z1) as (Z2 & _).
    unfold tags. apply in_map_iff. exists b. split; [assumption|]. apply L2; [assumption|congruence].
Qed.

Lemma In_insert_desc : forall t u l, In u (insert_desc sizes t l) <-> u = t \/ In u l.
Proof.
  induction l as [|x r IH]; simpl; [intuition congruence|].
  destruct (size_of sizes x <=? size_of sizes t); simpl; [intuition congruence|].
  rewrite IH. tauto.
Qed.

Lemma In_sort_desc : forall u l, In u (sort_desc sizes l) <-> In u l.
Proof.
  induction l as [|x r IH]; simpl; [tauto|]. rewrite In_insert_desc, IH. intuition congruence.
Qed.

(** one snapshot *)
Lemma step_node_inv : forall bs mem live,
  SInv (bs, mem) ->
  (forall t, In t live -> dget mem t <> None -> In t (tags bs)) ->
  forall bs' mem', step_node sizes thr (bs, mem) live = (bs', mem') ->
  SInv (bs', mem')
  /\ tsize bs <= tsize bs'
  /\ (forall u, dget mem u <> None -> dget mem' u = dget mem u)
  /\ (forall u, dget mem' u <> None -> dget mem u <> None \/ In u live)
  /\ (forall t, In t live -> dget sizes t <> None -> In t (tags bs'))
  /\ (forall t, In t live -> dget mem t <> None -> In t (tags bs')).
Proof.
  intros bs mem live HI Hlive bs' mem' E. unfold step_node in E.
  pose proof (release_rels live bs) as HR.
  set (bs1 := release live [] bs) in *.
  destruct HI as (HB & HM & HE & HS & HN).
  destruct (rels_inv _ _ _ HR HB) as (R1 & R2 & R3 & R4).
  assert (HI1 : SInv (bs1, mem)).
  { repeat split; auto; try apply R1.
    - intros t o s G. rewrite R2. auto.
    - rewrite R2. assumption. }
  assert (Hkeep : forall t, In t live -> dget mem t <> None -> In t (tags bs1)).
  { intros t I G. specialize (Hlive t I G). unfold tags in *. apply in_map_iff in Hlive.
    destruct Hlive as (b & B1 & B2). apply in_map_iff. exists b. split; [assumption|].
    destruct (dget mem t) as [[o s]|] eqn:GU; [|congruence].
    destruct (HE _ _ _ GU) as (z & Z1 & _). destruct (sizes_ok _ _ Z1) as (Z2 & _).
    apply R4; [assumption|congruence|congruence]. }
  set (news := filter (fun t => negb (memb t (tags bs1)) && dhas sizes t) live) in *.
  assert (Hnews : forall t, In t (sort_desc sizes news) -> dget mem t <> None -> In t (tags bs1)).
  { intros t I G. rewrite In_sort_desc in I. unfold news in I. apply filter_In in I. apply Hkeep; tauto. }
  destruct (alloc_fold_inv _ _ _ HI1 Hnews _ _ E) as (K1 & K2 & K3 & K4 & K5 & K6).
  assert (Hsub : forall t, dget sizes t <> None -> In t (tags bs1) -> In t (tags bs')).
  { intros t S I. unfold tags in *. apply in_map_iff in I. destruct I as (b & B1 & B2).
    destruct (dget sizes t) as [z|] eqn:Z1; [|congruence].
    destruct (sizes_ok _ _ Z1) as (Z2 & _).
    apply in_map_iff. exists b. split; [assumption|]. apply K2; [assumption|congruence]. }
  split; [assumption|]. split; [|split; [assumption|split; [|split]]].
  - rewrite <- R2. exact K6.
  - intros u G. destruct (K4 _ G) as [G'|I]; [left; assumption|right].
    rewrite In_sort_desc in I. apply filter_In in I. tauto.
  - intros t I S. destruct (memb t (tags bs1)) eqn:M.
    + apply memb_In in M. auto.
    + apply K5; [|assumption]. rewrite In_sort_desc. apply filter_In. split; [assumption|].
      rewrite M. unfold dhas. destruct (dget sizes t); [reflexivity|congruence].
  - intros t I G. apply Hsub; [|auto].
    destruct (dget mem t) as [[o s]|] eqn:GU; [|congruence].
    destruct (HE _ _ _ GU) as (z & Z1 & _). congruence.
Qed.

(** [t] occurs on a prefix of the remaining snapshots only *)
Fixpoint pfx (t : string) (snaps : list (list string)) : Prop :=
  match snaps with
  | [] => True
  | s :: r => (In t s /\ pfx t r) \/ (forall s', In s' (s :: r) -> ~ In t s')
  end.

Definition future_ok (bs : list block) (mem : dict (Z * Z)) (snaps : list (list string)) : Prop :=
  forall t, dget mem t <> None -> pfx t snaps /\ (In t (hd [] snaps) -> In t (tags bs)).

(** The planner over all snapshots.  [born] says: a tensor seen in a snapshot is never
    re-introduced after it disappeared. *)
Definition convex (snaps : list (list string)) : Prop :=
  forall a s b t, snaps = (a ++ s :: b)%list -> In t s -> t <> ""%string -> pfx t b.

Lemma convex_tl : forall s r, convex (s :: r) -> convex r.
Proof. intros s r H a s' b t E I N. apply (H (s :: a) s' b t); [subst; reflexivity|assumption|assumption]. Qed.

Lemma plan_fold_inv : forall snaps bs mem,
  SInv (bs, mem) -> future_ok bs mem snaps -> convex snaps ->
  forall bs' mem', fold_left (step_node sizes thr) snaps (bs, mem) = (bs', mem') ->
  SInv (bs', mem') /\ tsize bs <= tsize bs'
  /\ (forall u, dget mem u <> None -> dget mem' u = dget mem u)
  /\ (forall u, dget mem' u <> None -> dget mem u <> None \/ exists s, In s snaps /\ In u s)
  /\ (forall s, In s snaps -> exists bsi, bs_inv bsi /\ tsize bsi <= tsize bs' /\
       forall t, In t s -> dget sizes t <> None ->
         exists b, In b bsi /\ b_tag b = t /\ dget mem' t = Some (b_off b, b_size b)).
Proof.
  induction snaps as [|s snaps IH]; intros bs mem HI HF HC bs' mem' E; cbn [fold_left] in E.
  { injection E as <- <-. split; [assumption|]. split; [lia|]. split; [auto|].
    split; [intros u G; left; assumption|]. intros s []. }
  destruct (step_node sizes thr (bs, mem) s) as [bs1 mem1] eqn:A.
  assert (Hl : forall t, In t s -> dget mem t <> None -> In t (tags bs)).
  { intros t I G. apply (HF t G). exact I. }
  destruct (step_node_inv _ _ _ HI Hl _ _ A) as (K1 & K2 & K3 & K4 & K5 & K6).
  assert (HF1 : future_ok bs1 mem1 snaps).
  { intros t G.
    assert (Ht : t <> ""%string).
    { destruct K1 as (_ & _ & HE & _). destruct (dget mem1 t) as [[o z]|] eqn:GG; [|congruence].
      destruct (HE _ _ _ GG) as (zz & Z1 & _). apply (sizes_ok _ _ Z1). }
    assert (Hsz : dget sizes t <> None).
    { destruct K1 as (_ & _ & HE & _). destruct (dget mem1 t) as [[o z]|] eqn:GG; [|congruence].
      destruct (HE _ _ _ GG) as (zz & Z1 & _). congruence. }
    destruct (in_dec string_dec t s) as [I|I].
    - split; [apply (HC [] s snaps t); auto|]. intros _. apply K5; assumption.
    - destruct (K4 _ G) as [G'|I']; [|contradiction].
      destruct (HF t G') as [P _]. cbn [pfx] in P. destruct P as [[P _]|P]; [contradiction|].
      assert (forall s', In s' snaps -> ~ In t s') as PN by (intros; apply P; right; assumption).
      split.
      + destruct snaps as [|s1 r]; [exact Logic.I|]. cbn [pfx]. right. assumption.
      + intros H. destruct snaps as [|s1 r]; [destruct H|]. exfalso. apply (PN s1); [left; reflexivity|exact H]. }
  destruct (IH _ _ K1 HF1 (convex_tl _ _ HC) _ _ E) as (L1 & L2 & L3 & L4 & L5).
  split; [assumption|]. split; [lia|]. split; [|split].
  - intros u G. rewrite L3; [apply K3; assumption|]. rewrite K3; assumption.
  - intros u G. destruct (L4 _ G) as [G'|(s' & S1 & S2)].
    + destruct (K4 _ G') as [G''|I]; [left; assumption|right; exists s; simpl; auto].
    + right. exists s'. simpl. auto.
  - intros s' [<-|I]; [|auto].
    exists bs1. destruct K1 as (B1 & B2 & B3 & B4). split; [assumption|]. split; [lia|].
    intros t I S. specialize (K5 t I S). unfold tags in K5. apply in_map_iff in K5.
    destruct K5 as (b & T1 & T2). exists b. split; [assumption|]. split; [assumption|].
    destruct (dget sizes t) as [z|] eqn:Z1; [|congruence]. destruct (sizes_ok _ _ Z1) as (Z2 & _).
    assert (dget mem1 t = Some (b_off b, b_size b)) as M by (rewrite <- T1; apply B2; congruence).
    rewrite L3; [assumption|congruence].
Qed.

End Tiling.
