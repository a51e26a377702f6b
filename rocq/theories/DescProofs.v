From Verif Require Import PyBase PyBaseFacts GraphModel ShapeModel RelSpec RelProofs EditModel PartitionModel FusionModel FusionSpec FusionProofs FusionTop FusionMeets RegressProofs DescModel DescSpec.
From Coq Require Import Lia.
Open Scope string_scope. Open Scope list_scope. Open Scope Z_scope.

Lemma in_enum {A} (l : list A) : forall z i x, In (i, x) (enum_from z l) <-> z <= i /\ nth_error l (Z.to_nat (i - z)) = Some x.
Proof.
  induction l as [|y l IH]; intros z i x; cbn [enum_from].
  - split; [contradiction|]. intros (_ & H). destruct (Z.to_nat (i - z)); discriminate.
  - cbn [In]. rewrite IH. split.
    + intros [E|(E & H)]; [injection E as -> ->; split; [lia|]; rewrite Z.sub_diag; reflexivity|]. split; [lia|].
      replace (Z.to_nat (i - z)) with (S (Z.to_nat (i - (z + 1)))) by lia. exact H.
    + intros (E & H). destruct (Z.eq_dec i z) as [->|N]; [rewrite Z.sub_diag in H; injection H as ->; auto|]. right. split; [lia|].
      replace (Z.to_nat (i - z)) with (S (Z.to_nat (i - (z + 1)))) in H by lia. exact H.
Qed.
Lemma in_enum0 {A} (l : list A) i x : In (i, x) (enum l) <-> 0 <= i /\ nth_error l (Z.to_nat i) = Some x.
Proof. unfold enum. rewrite in_enum, Z.sub_0_r. reflexivity. Qed.
Lemma at_nth_nth {A} (f : A -> A) i : forall l z k, nth_error (map (fun p => if fst p =? i then f (snd p) else snd p) (enum_from z l)) k = option_map (fun x => if z + Z.of_nat k =? i then f x else x) (nth_error l k).
Proof.
  induction l as [|y l IH]; intros z k; [destruct k; reflexivity|]. cbn [enum_from map]. destruct k as [|k]; cbn [nth_error option_map fst snd].
  - rewrite Z.add_0_r. reflexivity.
  - rewrite IH. replace (z + 1 + Z.of_nat k) with (z + Z.of_nat (S k)) by lia. reflexivity.
Qed.
Lemma at_nth_ok {A} (f : A -> A) i l k : nth_error (at_nth i f l) k = option_map (fun x => if Z.of_nat k =? i then f x else x) (nth_error l k).
Proof. unfold at_nth, enum. rewrite at_nth_nth. reflexivity. Qed.
Lemma enum_length {A} (l : list A) : forall z, length (enum_from z l) = length l.
Proof. induction l as [|y l IH]; intros z; [reflexivity|]. cbn. rewrite IH. reflexivity. Qed.
Lemma at_nth_length {A} (f : A -> A) i l : length (at_nth i f l) = length l.
Proof. unfold at_nth. rewrite map_length. apply enum_length. Qed.

(** ** the descriptors grow by edges only *)
Definition ext (ds ds' : list desc) (IN OUT : nat -> edge -> Prop) : Prop :=
  length ds' = length ds /\ forall k d, nth_error ds k = Some d -> exists d', nth_error ds' k = Some d' /\ d_name d' = d_name d /\ d_op d' = d_op d /\ d_attrs d' = d_attrs d /\
    (forall e, In e (d_in d') <-> In e (d_in d) \/ IN k e) /\ (forall e, In e (d_out d') <-> In e (d_out d) \/ OUT k e).
Lemma ext_trans a b c I1 O1 I2 O2 : ext a b I1 O1 -> ext b c I2 O2 -> ext a c (fun k e => I1 k e \/ I2 k e) (fun k e => O1 k e \/ O2 k e).
Proof.
  intros (L1 & H1) (L2 & H2). split; [lia|]. intros k d E. destruct (H1 k d E) as (d1 & E1 & A1 & B1 & C1 & P1 & Q1). destruct (H2 k d1 E1) as (d2 & E2 & A2 & B2 & C2 & P2 & Q2).
  exists d2. split; [exact E2|]. split; [congruence|]. split; [congruence|]. split; [congruence|]. split; intros e; [rewrite P2, P1|rewrite Q2, Q1]; tauto.
Qed.
Lemma ext_iff a b I O I' O' : (forall k e, I k e <-> I' k e) -> (forall k e, O k e <-> O' k e) -> ext a b I O -> ext a b I' O'.
Proof.
  intros H1 H2 (L & H). split; [exact L|]. intros k d E. destruct (H k d E) as (d1 & E1 & A1 & B1 & C1 & P1 & Q1). exists d1. repeat (split; [assumption|]). split; intros e; [rewrite P1, H1|rewrite Q1, H2]; tauto.
Qed.
Lemma ext_refl a : ext a a (fun _ _ => False) (fun _ _ => False).
Proof. split; [reflexivity|]. intros k d E. exists d. split; [exact E|]. do 3 (split; [reflexivity|]). split; intros e; tauto. Qed.
Lemma sfold_ext {B} (f : list desc -> B -> sres (list desc)) (IN OUT : B -> nat -> edge -> Prop) l :
  (forall x ds, In x l -> exists ds', f ds x = SOk ds' /\ ext ds ds' (IN x) (OUT x)) ->
  forall ds, exists ds', sfold f l ds = SOk ds' /\ ext ds ds' (fun k e => exists x, In x l /\ IN x k e) (fun k e => exists x, In x l /\ OUT x k e).
Proof.
  induction l as [|x l IH]; intros H ds.
  - exists ds. split; [reflexivity|]. refine (ext_iff _ _ _ _ _ _ _ _ (ext_refl ds)); intros k e; (split; [intros []|intros (x & [] & _)]).
  - destruct (H x ds (or_introl eq_refl)) as (d1 & E1 & X1). destruct (IH (fun y dy Hy => H y dy (or_intror Hy)) d1) as (d2 & E2 & X2). exists d2. split; [cbn [sfold]; rewrite E1; exact E2|].
    eapply ext_iff; [| |exact (ext_trans _ _ _ _ _ _ _ X1 X2)]; intros k e; (split; [intros [A|(y & Hy & A)]; [exists x|exists y]; cbn; auto|intros (y & [<-|Hy] & A); [left|right]; eauto]).
Qed.

(** ** the producers *)
Lemma prod_inner (p : string) : forall outs (d : dict string) t, dget (fold_left (fun d t => dset d t p) outs d) t = if memb t outs then Some p else dget d t.
Proof.
  induction outs as [|o outs IH]; intros d t; [reflexivity|]. cbn [fold_left]. rewrite IH. cbn [memb]. rewrite dget_dset. destruct (memb t outs).
  - destruct (String.eqb t o); reflexivity.
  - destruct (String.eqb t o); reflexivity.
Qed.
Lemma memb_in t l : memb t l = true <-> In t l.
Proof. apply memb_In. Qed.
Lemma prod_spec : forall (ns : list (string * node)) (d : dict string) t p, (forall p1 n1 p2 n2, In (p1, n1) ns -> In (p2, n2) ns -> In t (n_out n1) -> In t (n_out n2) -> p1 = p2) ->
  (dget (fold_left (fun d p => fold_left (fun d t => dset d t (fst p)) (n_out (snd p)) d) ns d) t = Some p <->
   (exists n, In (p, n) ns /\ In t (n_out n)) \/ (dget d t = Some p /\ forall q n, In (q, n) ns -> ~ In t (n_out n))).
Proof.
  induction ns as [|[q n] ns IH]; intros d t p U.
  - cbn [fold_left]. split; [intros H; right; split; [exact H|intros ? ? []]|intros [(n & [] & _)|(H & _)]; exact H].
  - cbn [fold_left]. rewrite IH by (intros p1 n1 p2 n2 A1 A2; exact (U p1 n1 p2 n2 (or_intror A1) (or_intror A2))). rewrite prod_inner. cbn [fst snd].
    destruct (memb t (n_out n)) eqn:M.
    + apply memb_in in M. split.
      * intros [(m & Hm & T)|(E & H)]; [left; exists m; split; [right; exact Hm|exact T]|]. injection E as ->. left. exists n. split; [left; reflexivity|exact M].
      * intros [(m & [E|Hm] & T)|(E & H)].
        -- injection E as -> ->. destruct (existsb (fun x => memb t (n_out (snd x))) ns) eqn:X.
           ++ apply existsb_exists in X as ([p' m'] & Hm & T'). apply memb_in in T'. left. exists m'. split; [|exact T']. replace p with p'; [exact Hm|]. eapply U; [right; exact Hm|left; reflexivity|exact T'|exact M].
           ++ right. split; [reflexivity|]. intros q' m' Hm T'. assert (existsb (fun x => memb t (n_out (snd x))) ns = true); [|congruence]. apply existsb_exists. exists (q', m'). split; [exact Hm|apply memb_in; exact T'].
        -- left. exists m. auto.
        -- exfalso. eapply H; [left; reflexivity|exact M].
    + assert (M' : ~ In t (n_out n)) by (intros H; apply memb_in in H; congruence). split.
      * intros [(m & Hm & T)|(E & H)]; [left; exists m; split; [right; exact Hm|exact T]|]. right. split; [exact E|]. intros q' m' [E'|Hm]; [injection E' as <- <-; exact M'|exact (H _ _ Hm)].
      * intros [(m & [E|Hm] & T)|(E & H)]; [injection E as -> ->; contradiction|left; eauto|]. right. split; [exact E|]. intros q' m' Hm. apply (H q' m'). right. exact Hm.
Qed.
Lemma index_unique x : forall l k, NoDup l -> nth_error l k = Some x -> index_of x l = SOk (Z.of_nat k).
Proof.
  induction l as [|y l IH]; intros k N E; [destruct k; discriminate|]. inversion N as [|? ? Hn N']; subst. cbn [index_of]. destruct k as [|k]; cbn in E.
  - injection E as ->. rewrite String.eqb_refl. reflexivity.
  - destruct (String.eqb_spec x y) as [->|D]; [exfalso; apply Hn; eapply nth_error_In; eauto|]. rewrite (IH k N' E). cbn [sbind]. f_equal. lia.
Qed.

Section DESCS.
Context (g : graph) (X : exact g) (names : list string) (ND : NoDup names) (known : forall k, In k names -> exists n, dget (nodemap g) k = Some n).
Definition node_at (k : string) : node := match dget (nodemap g) k with Some n => n | None => mkNode "" "" [] [] end.
Definition picked : list (string * node) := map (fun k => (k, node_at k)) names.
Lemma node_at_ok k : In k names -> dget (nodemap g) k = Some (node_at k).
Proof. intros H. unfold node_at. destruct (known k H) as (n & ->). reflexivity. Qed.
Lemma node_at_in k : In k names -> In (node_at k) (nodes_of g) /\ n_name (node_at k) = k.
Proof.
  intros H. pose proof (dget_In _ _ _ _ (node_at_ok k H)) as I. split; [apply in_map_iff; exists (k, node_at k); auto|]. exact (ex_names g X _ _ I).
Qed.
Lemma out_nodup k : In k names -> NoDup (n_out (node_at k)).
Proof.
  intros H. destruct (node_at_in k H) as (I & _). pose proof (ex_ssa g X) as S0. clear -I S0. induction (nodes_of g) as [|m l IH]; [contradiction|]. cbn [flat_map] in S0.
  destruct I as [->|I].
  - clear IH. induction (n_out (node_at k)) as [|o os IHo]; [constructor|]. cbn in S0. inversion S0; subst. constructor; [intros C; apply H1; apply in_or_app; auto|auto].
  - apply IH; [exact I|]. clear -S0. induction (n_out m) as [|o os IHo]; [exact S0|]. cbn in S0. inversion S0; auto.
Qed.
Lemma same_producer t : forall p1 n1 p2 n2, In (p1, n1) picked -> In (p2, n2) picked -> In t (n_out n1) -> In t (n_out n2) -> p1 = p2.
Proof.
  intros p1 n1 p2 n2 H1 H2 T1 T2. apply in_map_iff in H1 as (k1 & E1 & K1). injection E1 as <- <-. apply in_map_iff in H2 as (k2 & E2 & K2). injection E2 as <- <-.
  destruct (node_at_in k1 K1) as (I1 & N1). destruct (node_at_in k2 K2) as (I2 & N2). pose proof (ex_ssa g X) as S0.
  rewrite <- N1, <- N2. f_equal. revert I1 I2 T1 T2 S0. generalize (node_at k1) (node_at k2). clear. intros a b. induction (nodes_of g) as [|m l IH]; intros I1 I2 T1 T2 S0; [contradiction|].
  cbn [flat_map] in S0. assert (D : forall x, In x l -> In t (n_out m) -> In t (n_out x) -> False).
  { intros x Hx Tm Tx. clear -S0 Hx Tm Tx. induction (n_out m) as [|o os IHo]; [contradiction|]. cbn in S0. inversion S0; subst. destruct Tm as [->|Tm]; [|auto]. apply H1. apply in_or_app. right. apply in_flat_map. eauto. }
  destruct I1 as [->|I1], I2 as [->|I2]; [reflexivity|exfalso; eauto|exfalso; eauto|]. apply IH; auto. clear -S0. induction (n_out m) as [|o os IHo]; [exact S0|]. cbn in S0. inversion S0; auto.
Qed.
(** tensor [t] is output [oi] of the selected node [p] at position [pidx] *)
Definition source (t p : string) (oi pidx : Z) : Prop :=
  0 <= pidx /\ nth_error names (Z.to_nat pidx) = Some p /\ 0 <= oi /\ nth_error (n_out (node_at p)) (Z.to_nat oi) = Some t.
Lemma producer_source t p : dget (desc_producers picked) t = Some p -> exists oi pidx, source t p oi pidx /\ index_of p names = SOk pidx /\ dlook (nodemap g) p = SOk (node_at p) /\ index_of t (n_out (node_at p)) = SOk oi.
Proof.
  intros H. unfold desc_producers in H. apply (prod_spec picked [] t p (same_producer t)) in H as [(n & Hn & T)|(H & _)]; [|discriminate].
  apply in_map_iff in Hn as (k & E & K). injection E as -> <-. destruct (index_of_in p names K) as (pidx & Ep). destruct (index_of_in t _ T) as (oi & Eo). exists oi, pidx.
  destruct (index_of_spec _ _ _ Ep). destruct (index_of_spec _ _ _ Eo). unfold source, dlook. rewrite (node_at_ok p K). auto 10.
Qed.
Lemma source_producer t p oi pidx : source t p oi pidx -> dget (desc_producers picked) t = Some p.
Proof.
  intros (P0 & P1 & Q0 & Q1). unfold desc_producers. apply (prod_spec picked [] t p (same_producer t)). left. exists (node_at p). apply nth_error_In in P1, Q1. split; [|exact Q1]. apply in_map_iff. exists p. auto.
Qed.
Lemma source_unique t p oi pidx p' oi' pidx' : source t p oi pidx -> source t p' oi' pidx' -> p = p' /\ oi = oi' /\ pidx = pidx'.
Proof.
  intros H H'. pose proof (source_producer _ _ _ _ H) as E. pose proof (source_producer _ _ _ _ H') as E'. rewrite E in E'. injection E' as <-. destruct H as (P0 & P1 & Q0 & Q1), H' as (P0' & P1' & Q0' & Q1').
  split; [reflexivity|]. pose proof (out_nodup p (nth_error_In _ _ P1)) as No. pose proof (index_unique _ _ _ ND P1) as A. rewrite (index_unique _ _ _ ND P1') in A. pose proof (index_unique _ _ _ No Q1) as B. rewrite (index_unique _ _ _ No Q1') in B. injection A. injection B. lia.
Qed.
Definition in_edge (i : Z) (jt : Z * string) (k : nat) (e : edge) : Prop := Z.of_nat k = i /\ exists p oi pidx, source (snd jt) p oi pidx /\ e = {| e_idx := fst jt; e_desc := p; e_other := oi |}.
Definition out_edge (name : string) (jt : Z * string) (k : nat) (e : edge) : Prop := exists p oi, source (snd jt) p oi (Z.of_nat k) /\ e = {| e_idx := oi; e_desc := name; e_other := fst jt |}.
Lemma desc_input_ext i name jt ds : exists ds', desc_input g names (desc_producers picked) i name ds jt = SOk ds' /\ ext ds ds' (in_edge i jt) (out_edge name jt).
Proof.
  unfold desc_input. destruct (dget (desc_producers picked) (snd jt)) as [p|] eqn:E.
  - destruct (producer_source _ _ E) as (oi & pidx & S0 & E1 & E2 & E3). rewrite E1. cbn [sbind]. rewrite E2. cbn [sbind]. rewrite E3. cbn [sbind]. eexists. split; [reflexivity|].
    split; [rewrite !at_nth_length; reflexivity|]. intros k d Hk. rewrite !at_nth_ok, Hk. cbn [option_map].
    assert (P : forall d, d_name (if Z.of_nat k =? pidx then push_out d {| e_idx := oi; e_desc := name; e_other := fst jt |} else d) = d_name d) by (intros; destruct (_ =? _); reflexivity).
    eexists. split; [reflexivity|]. split; [destruct (Z.of_nat k =? i), (Z.of_nat k =? pidx); reflexivity|]. split; [destruct (Z.of_nat k =? i), (Z.of_nat k =? pidx); reflexivity|]. split; [destruct (Z.of_nat k =? i), (Z.of_nat k =? pidx); reflexivity|].
    split; intros e.
    + assert (Q : in_edge i jt k e <-> Z.of_nat k = i /\ e = {| e_idx := fst jt; e_desc := p; e_other := oi |}).
      { unfold in_edge. split; intros (A & B); (split; [exact A|]); [|eauto]. destruct B as (p' & oi' & pidx' & S' & ->). destruct (source_unique _ _ _ _ _ _ _ S0 S') as (-> & -> & _). reflexivity. }
      rewrite Q. destruct (Z.eqb_spec (Z.of_nat k) i) as [Ei|Ni], (Z.of_nat k =? pidx); cbn [push_in push_out d_in]; rewrite ?in_app_iff; cbn [In]; intuition (try contradiction; auto).
    + assert (Q : out_edge name jt k e <-> Z.of_nat k = pidx /\ e = {| e_idx := oi; e_desc := name; e_other := fst jt |}).
      { unfold out_edge. split; [intros (p' & oi' & S' & ->); destruct (source_unique _ _ _ _ _ _ _ S0 S') as (-> & -> & ->); auto|intros (-> & ->); eauto]. }
      rewrite Q. destruct (Z.eqb_spec (Z.of_nat k) pidx) as [Ei|Ni], (Z.of_nat k =? i); cbn [push_in push_out d_out]; rewrite ?in_app_iff; cbn [In]; intuition (try contradiction; auto).
  - exists ds. split; [reflexivity|]. refine (ext_iff _ _ _ _ _ _ _ _ (ext_refl ds)); intros k e; (split; [intros []|]).
    + intros (_ & p & oi & pidx & S0 & _). apply source_producer in S0. congruence.
    + intros (p & oi & S0 & _). apply source_producer in S0. congruence.
Qed.
Lemma picked_nth k p : nth_error picked k = Some p <-> exists name, nth_error names k = Some name /\ p = (name, node_at name).
Proof. unfold picked. rewrite nth_error_map. destruct (nth_error names k) as [x|]; cbn; split; [intros [= <-]; eauto|intros (n & [= ->] & ->); reflexivity|discriminate|intros (n & [=] & _)]. Qed.
Theorem create_descs_ok : exists ds, create_descs g names = SOk ds /\ Forall2 (describes g names) names ds.
Proof.
  unfold create_descs. rewrite (smap_all _ _ _ (fun k => (k, node_at k)) names) by (intros k Hk; unfold dlook; rewrite (node_at_ok k Hk); reflexivity). cbn [sbind]. fold picked.
  destruct (sfold_ext (fun ds p => sfold (desc_input g names (desc_producers picked) (fst p) (fst (snd p))) (enum (n_in (snd (snd p)))) ds)
    (fun p k e => exists jt, In jt (enum (n_in (snd (snd p)))) /\ in_edge (fst p) jt k e) (fun p k e => exists jt, In jt (enum (n_in (snd (snd p)))) /\ out_edge (fst (snd p)) jt k e)
    (enum picked)) with (ds := map (fun p => bare_desc (snd p)) picked) as (ds & E & L & H).
  { intros p ds _. apply sfold_ext. intros jt ds' _. apply desc_input_ext. }
  exists ds. split; [exact E|]. assert (LL : length names = length ds) by (rewrite L, map_length; unfold picked; rewrite map_length; reflexivity).
  assert (P : forall k name d, nth_error names k = Some name -> nth_error ds k = Some d -> describes g names name d).
  { intros k name d Hk Hd. destruct (H k (bare_desc (node_at name))) as (d' & Ed & D1 & D2 & D3 & D4 & D5).
    { rewrite nth_error_map. rewrite (proj2 (picked_nth k (name, node_at name)) (ex_intro _ name (conj Hk eq_refl))). reflexivity. }
    rewrite Hd in Ed. injection Ed as <-. pose proof (nth_error_In _ _ Hk) as Kn. exists (node_at name). split; [apply node_at_ok; exact Kn|]. split; [rewrite D1; apply node_at_in; exact Kn|]. split; [exact D2|]. split; [exact D3|]. split; intros e.
    - rewrite D4. cbn [bare_desc d_in In]. split.
      + intros [[]|([i [nm m]] & Hi & [j t] & Hj & Ek & p & oi & pidx & S0 & ->)]. cbn [fst snd] in *. apply in_enum0 in Hi as (I0 & Hi). apply in_enum0 in Hj as (J0 & Hj). apply picked_nth in Hi as (n' & Hi & [= -> ->]).
        rewrite <- Ek, Nat2Z.id in Hi. rewrite Hk in Hi. injection Hi as <-. destruct S0 as (P0 & P1 & Q0 & Q1). apply nth_error_In in P1. exists (node_at p). cbn [e_desc e_idx e_other]. split; [exact P1|]. split; [apply node_at_ok; exact P1|]. repeat split; auto. eauto.
      + intros (m & Hin & Em & O0 & J0 & t & Ho & Hj). right. rewrite (node_at_ok _ Hin) in Em. injection Em as <-. exists (Z.of_nat k, (name, node_at name)). split; [apply in_enum0; split; [lia|]; rewrite Nat2Z.id; apply picked_nth; eauto|]. cbn [fst snd].
        exists (e_idx e, t). split; [apply in_enum0; auto|]. split; [reflexivity|]. destruct (In_nth_error _ _ Hin) as (pk & Hp). exists (e_desc e), (e_other e), (Z.of_nat pk). cbn [fst snd]. split; [|destruct e; reflexivity]. unfold source. rewrite Nat2Z.id. repeat split; auto. lia.
    - rewrite D5. cbn [bare_desc d_out In]. split.
      + intros [[]|([i [nm m]] & Hi & [j t] & Hj & p & oi & S0 & ->)]. cbn [fst snd] in *. apply in_enum0 in Hi as (I0 & Hi). apply in_enum0 in Hj as (J0 & Hj). apply picked_nth in Hi as (n' & Hi & [= -> ->]). apply nth_error_In in Hi.
        destruct S0 as (P0 & P1 & Q0 & Q1). rewrite Nat2Z.id in P1. rewrite Hk in P1. injection P1 as <-. exists (node_at n'). cbn [e_desc e_idx e_other]. split; [exact Hi|]. split; [apply node_at_ok; exact Hi|]. repeat split; auto. eauto.
      + intros (m & Hin & Em & O0 & J0 & t & Ho & Hj). right. rewrite (node_at_ok _ Hin) in Em. injection Em as <-. destruct (In_nth_error _ _ Hin) as (pk & Hp).
        exists (Z.of_nat pk, (e_desc e, node_at (e_desc e))). split; [apply in_enum0; split; [lia|]; rewrite Nat2Z.id; apply picked_nth; eauto|]. cbn [fst snd]. exists (e_other e, t). split; [apply in_enum0; auto|].
        exists name, (e_idx e). cbn [fst snd]. split; [|destruct e; reflexivity]. unfold source. rewrite Nat2Z.id. repeat split; auto. lia. }
  clear -P LL. revert ds LL P. generalize (describes g names) as R. induction names as [|a l IH]; intros R [|d ds] LL P; cbn in LL; try lia; constructor.
  - apply (P 0%nat); reflexivity.
  - apply IH; [lia|]. intros k nm d' Hk Hd. apply (P (S k)); assumption.
Qed.
End DESCS.
