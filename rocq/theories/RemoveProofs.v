From Verif Require Import PyBase PyBaseFacts GraphModel CompressSpec RelSpec RelProofs TopSortSpec TopSortProofs OrderProofs EditModel EditSpec.
Local Open Scope list_scope.

Definition cnt_sel (nm : dict node) (sel : node -> list string) (x t : string) : nat :=
  match dget nm x with Some n => count t (sel n) | None => 0 end.

(** table [R] is exact for [nm], except that [name]'s occurrences [P] have been withdrawn *)
Record tbl (R : dict (list string)) (sel : node -> list string) (nm : dict node) (name : string) (P : list string) : Prop := {
  tb_nd : NoDup (dkeys R);
  tb_ne : noempty R;
  tb_cnt : forall t x, count x (glist R t) = cnt_sel nm sel x t - (if String.eqb x name then count t P else 0)
}.

Record consistent (g : graph) : Prop := {
  co_nd : NoDup (dkeys (nodemap g));
  co_names : names_match g;
  co_uniq : unique_producers (nodemap g);
  co_prod : tbl (producedby g) n_out (nodemap g) "" [];
  co_cons : tbl (consumedby g) n_in (nodemap g) "" []
}.

Lemma tbl_any : forall R sel nm a b, tbl R sel nm a [] -> tbl R sel nm b [].
Proof.
  intros R sel nm a b [H1 H2 H3]. constructor; auto. intros t x. rewrite H3.
  destruct (String.eqb x a), (String.eqb x b); reflexivity.
Qed.

Lemma glist_put : forall d k l t, NoDup (dkeys d) -> glist (put_or_pop d k l) t = if String.eqb t k then l else glist d t.
Proof.
  intros d k l t ND. unfold put_or_pop, glist. destruct l as [|x l].
  - destruct (String.eqb_spec t k) as [->|N]; [now rewrite dget_ddel_eq|]. rewrite dget_ddel_neq by congruence. reflexivity.
  - rewrite dget_dset. destruct (String.eqb t k); reflexivity.
Qed.
Lemma noempty_put : forall d k l, NoDup (dkeys d) -> noempty d -> noempty (put_or_pop d k l).
Proof.
  intros d k l ND H t. unfold put_or_pop. destruct l as [|x l].
  - destruct (String.eqb_spec t k) as [->|N]; [rewrite dget_ddel_eq by exact ND; discriminate|].
    rewrite dget_ddel_neq by congruence. apply H.
  - rewrite dget_dset. destruct (String.eqb t k); [discriminate|apply H].
Qed.
Lemma NoDup_put : forall d k l, NoDup (dkeys d) -> NoDup (dkeys (put_or_pop d k l)).
Proof. intros d k l H. unfold put_or_pop. destruct l; [apply NoDup_dkeys_ddel|apply NoDup_dkeys_dset]; exact H. Qed.

Lemma tbl_withdraw : forall R sel nm name P t l, tbl R sel nm name P -> dget R t = Some l ->
  tbl (put_or_pop R t (remove1 name l)) sel nm name (P ++ [t]).
Proof.
  intros R sel nm name P t l [H1 H2 H3] E. constructor.
  - apply NoDup_put, H1.
  - apply noempty_put; assumption.
  - intros u x. rewrite glist_put by exact H1. specialize (H3 u x). rewrite count_app. cbn [count].
    destruct (String.eqb_spec u t) as [->|Nu].
    + unfold glist in H3. rewrite E in H3. destruct (String.eqb_spec x name) as [Ex|Nx].
      * rewrite Ex in *. rewrite count_remove1_eq. lia.
      * rewrite count_remove1_neq by exact Nx. exact H3.
    + rewrite H3. destruct (String.eqb x name); lia.
Qed.

Lemma tbl_in : forall R sel nm name P t x n, tbl R sel nm name P -> dget nm x = Some n -> In t (sel n) -> x <> name ->
  dhas R t = true /\ In x (glist R t).
Proof.
  intros R sel nm name P t x n [H1 H2 H3] E I N.
  assert (In x (glist R t)) as K.
  { apply count_pos. rewrite H3. unfold cnt_sel. rewrite E. apply count_pos in I.
    destruct (String.eqb_spec x name); [congruence|lia]. }
  split; [|exact K]. unfold dhas. unfold glist in K. destruct (dget R t); [reflexivity|destruct K].
Qed.

Lemma tbl_of : forall R sel nm name P t x, tbl R sel nm name P -> In x (glist R t) ->
  exists n, dget nm x = Some n /\ In t (sel n) /\ (x = name -> count t P < count t (sel n)).
Proof.
  intros R sel nm name P t x [H1 H2 H3] I. apply count_pos in I. rewrite H3 in I. unfold cnt_sel in I.
  destruct (dget nm x) as [n|]; [|lia]. exists n. split; [reflexivity|]. split.
  - apply count_pos. lia.
  - intros ->. rewrite String.eqb_refl in I. lia.
Qed.

(** finished withdrawal = exact for the reduced map *)
Lemma tbl_done : forall R sel nm name n, NoDup (dkeys nm) -> tbl R sel nm name (sel n) -> dget nm name = Some n ->
  tbl R sel (ddel nm name) "" [].
Proof.
  intros R sel nm name n ND [H1 H2 H3] E. constructor; auto. intros t x. rewrite H3. unfold cnt_sel. cbn [count].
  destruct (String.eqb_spec x name) as [->|N].
  - rewrite dget_ddel_eq by exact ND. rewrite E. destruct (String.eqb name ""); lia.
  - rewrite dget_ddel_neq by congruence. destruct (String.eqb x ""); lia.
Qed.

Lemma rm_outs_ok : forall name nm n, dget nm name = Some n -> forall os P prod output, n_out n = P ++ os ->
  tbl prod n_out nm name P ->
  exists prod' output', rm_outs name os (prod, output) = Ok (prod', output') /\ tbl prod' n_out nm name (n_out n) /\
    (forall t, In t output' -> In t output) /\
    (forall t, In t output -> ~ In t os -> In t output') /\
    (NoDup output -> NoDup output' /\ forall t, In t output' -> ~ In t os) /\
    ((forall o, In o os -> ~ In o output) -> output' = output).
Proof.
  intros name nm n En. induction os as [|o r IH]; intros P prod output EP HT; cbn [rm_outs].
  - rewrite app_nil_r in EP. subst P. exists prod, output. split; [reflexivity|]. split; [exact HT|]. split; [auto|]. split; [auto|].
    split; [|auto]. intros H. split; [exact H|]. intros t _ [].
  - assert (Hin : In name (glist prod o)).
    { apply count_pos. rewrite (tb_cnt _ _ _ _ _ HT). unfold cnt_sel. rewrite En, String.eqb_refl, EP, count_app.
      cbn [count]. rewrite String.eqb_refl. lia. }
    assert (exists l, dget prod o = Some l) as (l & El).
    { unfold glist in Hin. destruct (dget prod o) as [l|]; [eauto|destruct Hin]. }
    unfold glist in Hin. rewrite El in Hin.
    unfold rm_out. rewrite El. assert (memb name l = true) as -> by (apply memb_In; exact Hin). cbn [bind].
    set (output1 := if memb o output then remove1 o output else output).
    destruct (IH (P ++ [o]) (put_or_pop prod o (remove1 name l)) output1) as (prod' & output' & R1 & R2 & R3 & R4 & R5 & R6).
    + rewrite EP, <- app_assoc. reflexivity.
    + apply tbl_withdraw; assumption.
    + assert (S1 : forall t, In t output1 -> In t output).
      { unfold output1. intros t I. destruct (memb o output); [eapply In_remove1; exact I|exact I]. }
      assert (S2 : forall t, In t output -> t <> o -> In t output1).
      { unfold output1. intros t I Nt. destruct (memb o output); [apply In_remove1_neq; assumption|exact I]. }
      exists prod', output'. split; [exact R1|]. split; [exact R2|]. split; [auto|]. split; [|split].
      * intros t I Nt. apply R4; [apply S2; [exact I|intro; subst; apply Nt; left; reflexivity]|intro; apply Nt; right; assumption].
      * intros ND. assert (ND1 : NoDup output1) by (unfold output1; destruct (memb o output); [apply NoDup_remove1|]; exact ND).
        destruct (R5 ND1) as [K1 K2]. split; [exact K1|]. intros t I [<-|J]; [|exact (K2 t I J)].
        apply R3 in I. unfold output1 in I. destruct (memb o output) eqn:M.
        -- apply (In_remove1_NoDup o o output ND) in I. tauto.
        -- apply memb_nIn in M. contradiction.
      * intros Hd. assert (E1 : output1 = output).
        { unfold output1. assert (memb o output = false) as ->; [|reflexivity]. apply memb_nIn, Hd. left. reflexivity. }
        rewrite R6, E1; [reflexivity|]. intros x X. rewrite E1. apply Hd. right. exact X.
Qed.

(** uniqueness of the producer list *)
Lemma single_producer : forall nm prod name n i p q, unique_producers nm -> tbl prod n_out nm name (n_out n) ->
  dget nm name = Some n -> dget prod i = Some (p :: q) -> q = [] /\ p <> name /\ exists pn, dget nm p = Some pn /\ In i (n_out pn).
Proof.
  intros nm prod name n i p q HU HT En E.
  assert (G : forall x, In x (p :: q) -> x <> name /\ exists xn, dget nm x = Some xn /\ In i (n_out xn)).
  { intros x I. assert (I' : In x (glist prod i)) by (unfold glist; rewrite E; exact I).
    destruct (tbl_of _ _ _ _ _ _ _ HT I') as (xn & X1 & X2 & X3). split; [|eauto].
    intros ->. specialize (X3 eq_refl). rewrite En in X1. injection X1 as <-. lia. }
  destruct (G p (or_introl eq_refl)) as [Np (pn & P1 & P2)].
  split; [|split; [exact Np|eauto]].
  destruct q as [|x q]; [reflexivity|]. exfalso.
  destruct (G x (or_intror (or_introl eq_refl))) as [_ (xn & X1 & X2)].
  assert (x = p) by (eapply outs_unique_key; [apply HU|apply dget_In; exact X1|apply dget_In; exact P1|exact X2|exact P2]). subst x.
  pose proof (tb_cnt _ _ _ _ _ HT i p) as C. unfold glist in C. rewrite E in C. cbn [count] in C. rewrite String.eqb_refl in C.
  unfold cnt_sel in C. rewrite P1 in C.
  assert (count i (n_out pn) <= 1); [|lia].
  pose proof (NoDup_nouts nm HU p) as ND. unfold nouts in ND. rewrite P1 in ND.
  clear - ND. induction (n_out pn) as [|y r IH]; cbn [count]; [lia|]. inversion ND as [|? ? N1 N2]; subst.
  specialize (IH N2). destruct (String.eqb_spec i y) as [->|N]; [|exact IH]. apply count_zero in N1. lia.
Qed.

(** what a candidate for recursive removal satisfies *)
Definition useless (nm : dict node) (name : string) (n : node) (output : list string) (p : string) : Prop :=
  p <> name /\ exists pn i, dget nm p = Some pn /\ In i (n_in n) /\ In i (n_out pn) /\
    (forall o, In o (n_out pn) -> (forall y yn, y <> name -> dget nm y = Some yn -> ~ In o (n_in yn)) /\ (o <> i -> ~ In o output)).

Lemma rm_ins_ok : forall g name n prod output, consistent g -> dget (nodemap g) name = Some n ->
  tbl prod n_out (nodemap g) name (n_out n) ->
  forall is P cns nn, n_in n = P ++ is -> tbl cns n_in (nodemap g) name P ->
  (forall p, In p nn -> useless (nodemap g) name n output p) ->
  exists cns' nn', rm_ins (nodemap g) prod output name is (cns, nn) = Ok (cns', nn') /\
    tbl cns' n_in (nodemap g) name (n_in n) /\ (forall p, In p nn' -> useless (nodemap g) name n output p).
Proof.
  intros g name n prod output HC En HTp. induction is as [|i r IH]; intros P cns nn EP HT Hnn; cbn [rm_ins].
  - rewrite app_nil_r in EP. subst P. exists cns, nn. auto.
  - assert (Hin : In name (glist cns i)).
    { apply count_pos. rewrite (tb_cnt _ _ _ _ _ HT). unfold cnt_sel. rewrite En, String.eqb_refl, EP, count_app.
      cbn [count]. rewrite String.eqb_refl. lia. }
    assert (exists l, dget cns i = Some l) as (l & El).
    { unfold glist in Hin. destruct (dget cns i) as [l|]; [eauto|destruct Hin]. }
    unfold glist in Hin. rewrite El in Hin.
    assert (Hstep : exists nn1, rm_in (nodemap g) prod output name (cns, nn) i = Ok (put_or_pop cns i (remove1 name l), nn1) /\
       forall p, In p nn1 -> useless (nodemap g) name n output p).
    { unfold rm_in. rewrite El. assert (memb name l = true) as -> by (apply memb_In; exact Hin).
      destruct (Nat.eqb_spec (length l) 1) as [L1|L1]; [|cbn [bind]; eauto].
      destruct (dget prod i) as [[|p q]|] eqn:Ep; [|destruct (single_producer _ _ _ _ _ _ _ (co_uniq g HC) HTp En Ep) as (-> & Np & pn & P1 & P2)|cbn [bind]; eauto].
      { exfalso. exact (tb_ne _ _ _ _ _ HTp i Ep). }
      unfold dangling. rewrite P1. cbn [bind].
      destruct (negb (existsb (fun o => negb (String.eqb o i) && (dhas cns o || memb o output)) (n_out pn))) eqn:D;
        [|eexists; split; [reflexivity|exact Hnn]].
      eexists. split; [reflexivity|]. intros p0 I. apply in_app_iff in I. destruct I as [I|[<-|[]]]; [auto|].
      split; [exact Np|]. exists pn, i. split; [exact P1|]. split; [rewrite EP; apply in_app_iff; right; left; reflexivity|].
      split; [exact P2|].
      assert (Ol : l = [name]).
      { destruct l as [|a [|b l]]; try discriminate. destruct Hin as [->|[]]. reflexivity. }
      rewrite negb_true_iff in D.
      assert (D' : forall o, In o (n_out pn) -> o <> i -> dhas cns o = false /\ ~ In o output).
      { intros o Io No. destruct (dhas cns o || memb o output) eqn:X.
        - exfalso. assert (existsb (fun o => negb (String.eqb o i) && (dhas cns o || memb o output)) (n_out pn) = true); [|congruence].
          apply existsb_exists. exists o. split; [exact Io|]. rewrite X. apply String.eqb_neq in No. rewrite No. reflexivity.
        - apply orb_false_iff in X. destruct X as [X1 X2]. apply memb_nIn in X2. auto. }
      intros o Io. split; [|intros No; apply (D' o Io No)].
      intros y yn Ny Ey Iy. destruct (tbl_in _ _ _ _ _ _ _ _ HT Ey Iy Ny) as [K1 K2].
      destruct (String.eqb_spec o i) as [->|No].
      - unfold glist in K2. rewrite El, Ol in K2. destruct K2 as [K2|[]]. congruence.
      - destruct (D' o Io No) as [D1 _]. congruence. }
    destruct Hstep as (nn1 & S1 & S2). rewrite S1. cbn [bind].
    apply (IH (P ++ [i])).
    + rewrite EP, <- app_assoc. reflexivity.
    + apply tbl_withdraw; assumption.
    + exact S2.
Qed.

Lemma In_ddel : forall A (d : dict A) k x v, NoDup (dkeys d) -> (In (x, v) (ddel d k) <-> In (x, v) d /\ x <> k).
Proof.
  intros A d k x v. induction d as [|[k0 v0] r IH]; intros ND; [simpl; tauto|].
  cbn [dkeys map fst] in ND. inversion ND as [|? ? N1 N2]; subst. cbn [ddel].
  destruct (String.eqb_spec k k0) as [->|N].
  - split.
    + intros I. split; [right; exact I|]. intros ->. apply N1. apply in_map_iff. exists (k0, v). auto.
    + intros [[I|I] J]; [injection I as <- <-; congruence|exact I].
  - cbn [In]. rewrite IH by exact N2. split.
    + intros [I|[I J]]; [injection I as <- <-; split; [left; reflexivity|congruence]|tauto].
    + intros [[I|I] J]; auto.
Qed.

Lemma flat_map_ddel_NoDup : forall (d : dict node) k, NoDup (flat_map (fun kn => n_out (snd kn)) d) ->
  NoDup (flat_map (fun kn => n_out (snd kn)) (ddel d k)).
Proof.
  induction d as [|[k0 n0] r IH]; intros k ND; [exact ND|]. cbn [flat_map snd] in ND. cbn [ddel].
  destruct (NoDup_app_inv _ _ _ ND) as (N1 & N2 & N3).
  destruct (String.eqb k k0); [exact N2|]. cbn [flat_map snd]. apply NoDup_app_intro; [exact N1|apply IH; exact N2|].
  intros t I J. apply (N3 t I). apply in_flat_map in J. destruct J as ([x v] & J1 & J2). apply in_flat_map. exists (x, v).
  split; [|exact J2]. clear - J1. revert J1. induction r as [|[a b] r IH]; [intros []|]. cbn [ddel].
  destruct (String.eqb k a); [right; exact J1|]. intros [J|J]; [left; exact J|right; auto].
Qed.

Lemma consistent_ddel : forall g name n prod cns output, consistent g -> dget (nodemap g) name = Some n ->
  tbl prod n_out (nodemap g) name (n_out n) -> tbl cns n_in (nodemap g) name (n_in n) ->
  consistent (with_rel g (ddel (nodemap g) name) prod cns output).
Proof.
  intros g name n prod cns output HC En H1 H2. constructor; cbn [with_rel nodemap producedby consumedby].
  - apply NoDup_dkeys_ddel, HC.
  - intros k m I. cbn [with_rel nodemap] in I. apply In_ddel in I; [|apply HC]. apply (co_names g HC). tauto.
  - split; [apply NoDup_dkeys_ddel, HC|apply flat_map_ddel_NoDup, (co_uniq g HC)].
  - eapply tbl_done; eauto. apply HC.
  - eapply tbl_done; eauto. apply HC.
Qed.

Theorem remove_node1_ok : forall g name n, consistent g -> dget (nodemap g) name = Some n ->
  exists g' nn, remove_node1 g name = Ok (g', nn) /\ consistent g' /\ nodemap g' = ddel (nodemap g) name /\
    tensormap g' = tensormap g /\ initials g' = initials g /\ dynamics g' = dynamics g /\ g_input g' = g_input g /\
    (forall t, In t (g_output g') -> In t (g_output g)) /\
    (forall t, In t (g_output g) -> ~ In t (n_out n) -> In t (g_output g')) /\
    (NoDup (g_output g) -> NoDup (g_output g') /\ forall t, In t (g_output g') -> ~ In t (n_out n)) /\
    ((forall o, In o (n_out n) -> ~ In o (g_output g)) -> g_output g' = g_output g) /\
    (forall p, In p nn -> useless (nodemap g) name n (g_output g') p).
Proof.
  intros g name n HC En. unfold remove_node1. rewrite En.
  destruct (rm_outs_ok name (nodemap g) n En (n_out n) [] (producedby g) (g_output g) eq_refl
             (tbl_any _ _ _ _ _ (co_prod g HC))) as (prod & output & R1 & R2 & R3 & R4 & R5 & R6).
  rewrite R1. cbn [bind].
  destruct (rm_ins_ok g name n prod output HC En R2 (n_in n) [] (consumedby g) [] eq_refl
             (tbl_any _ _ _ _ _ (co_cons g HC))) as (cns & nn & S1 & S2 & S3); [intros p []|].
  rewrite S1. cbn [bind]. eexists. exists nn. split; [reflexivity|].
  split; [eapply consistent_ddel; eauto|]. cbn [with_rel nodemap tensormap initials dynamics g_input g_output].
  repeat (split; [first [reflexivity|assumption]|]). exact S3.
Qed.

Lemma remove_node1_absent : forall g name, dget (nodemap g) name = None -> remove_node1 g name = Ok (g, []).
Proof. intros g name E. unfold remove_node1. rewrite E. reflexivity. Qed.

(** freshly loaded graphs are consistent *)
Lemma dget_nodes_count : forall (nm : dict node) sel t x, NoDup (map fst nm) -> (forall k n, In (k, n) nm -> n_name n = k) ->
  count x (occurrences sel (map snd nm) t) = cnt_sel nm sel x t.
Proof.
  intros nm sel t x. unfold cnt_sel. induction nm as [|[k n] r IH]; intros ND HN; [reflexivity|].
  cbn [map fst] in ND. inversion ND as [|? ? N1 N2]; subst.
  unfold occurrences. cbn [map snd flat_map]. rewrite count_app, count_map_const, length_filter_eqb. fold (occurrences sel (map snd r) t).
  rewrite IH; [|exact N2|intros; apply HN; right; assumption].
  rewrite (HN k n (or_introl eq_refl)). cbn [dget].
  destruct (String.eqb_spec x k) as [->|N]; [|reflexivity].
  assert (dget r k = None) as -> by (apply dget_None; exact N1). lia.
Qed.

Lemma loaded_consistent : forall g, NoDup (map fst (nodemap g)) -> names_match g -> unique_producers (nodemap g) ->
  consistent (update_consumer_producer g).
Proof.
  intros g ND HN HU. pose proof (ucp_spec g) as H. cbv zeta in H. destruct H as (H1 & H2 & H3 & H4 & H5 & _).
  set (g' := update_consumer_producer g) in *.
  assert (T : forall d sel, (forall t, dget d t = none_if_empty (occurrences sel (nodes_of g) t)) -> NoDup (dkeys d) ->
    tbl d sel (nodemap g') "" []).
  { intros d sel Hd Hn. constructor; [exact Hn| |].
    - intros t. rewrite Hd. unfold none_if_empty. destruct (occurrences sel (nodes_of g) t); discriminate.
    - intros t x. rewrite H5, <- (dget_nodes_count (nodemap g) sel t x ND HN). unfold glist. rewrite Hd. unfold nodes_of, none_if_empty.
      cbn [count]. destruct (occurrences sel (map snd (nodemap g)) t); destruct (String.eqb x ""); cbn [count]; lia. }
  constructor; auto; try (rewrite H5; assumption).
  intros k n I. rewrite H5 in I. apply HN. exact I.
Qed.
