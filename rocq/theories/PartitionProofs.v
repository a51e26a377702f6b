From Verif Require Import PyBase PyBaseFacts GraphModel CompressSpec RelSpec RelProofs TopSortSpec TopSortProofs OrderProofs
  EditModel EditSpec RemoveProofs IoProofs PartitionModel PartitionSpec.
From Coq Require Import Permutation.
Local Open Scope list_scope.

Lemma consumers_iff : forall g t x, consistent g ->
  (In x (match dget (consumedby g) t with Some l => l | None => [] end) <-> exists n, In (x, n) (nodemap g) /\ In t (n_in n)).
Proof.
  intros g t x HC. fold (glist (consumedby g) t). split.
  - intros I. destruct (tbl_of _ _ _ _ _ _ _ (co_cons g HC) I) as (n & N1 & N2 & _). exists n. split; [apply dget_In; exact N1|exact N2].
  - intros (n & I & J). apply count_pos. rewrite (tb_cnt _ _ _ _ _ (co_cons g HC)). unfold cnt_sel.
    rewrite (In_dget _ _ _ _ (co_nd g HC) I). apply count_pos in J. cbn [count]. destruct (String.eqb x ""); lia.
Qed.

Section Down.
Variable g : graph.
Hypothesis HC : consistent g.
Variable skip : list string.

(** what one batch of visits does *)
Definition visited (cs : list string) (st st' : list string * list string) : Prop :=
  exists added, fst st' = fst st ++ added /\ NoDup added /\
    (forall x, In x added -> In x cs /\ ~ In x skip /\ ~ In x (fst st) /\ In x (dkeys (nodemap g))) /\
    (forall x, In x cs -> In x skip \/ In x (fst st') ) /\
    (forall t, In t (snd st') <-> In t (snd st) \/ exists k n, In k added /\ In (k, n) (nodemap g) /\ In t (n_out n)) /\
    (added = [] -> snd st' = snd st).

Lemma visited_nil : forall st, visited [] st st.
Proof.
  intros st. exists []. split; [rewrite app_nil_r; reflexivity|]. split; [constructor|]. split; [intros x []|]. split; [intros x []|].
  split; [|reflexivity]. intros t. split; [auto|]. intros [X|(k & n & [] & _)]; exact X.
Qed.

Lemma visit_consumers_ok : forall cs st, (forall c, In c cs -> In c (dkeys (nodemap g))) ->
  exists st', visit_consumers g skip cs st = Ok st' /\ visited cs st st'.
Proof.
  induction cs as [|c r IH]; intros [acc newl] HK.
  - exists (acc, newl). split; [reflexivity|]. apply visited_nil.
  - cbn [visit_consumers]. unfold visit_consumer. destruct (memb c skip || memb c acc) eqn:M.
    + cbn [bind]. destruct (IH (acc, newl)) as (st' & E & added & A1 & A2 & A3 & A4 & A5 & A6); [intros; apply HK; right; assumption|].
      exists st'. split; [exact E|]. exists added. cbn [fst snd] in *. split; [exact A1|]. split; [exact A2|]. split; [|split; [|auto]].
      * intros x X. destruct (A3 x X) as (B1 & B2). split; [right; exact B1|exact B2].
      * intros x [<-|X]; [|auto]. apply orb_prop in M. destruct M as [M|M]; apply memb_In in M; [left; exact M|right]. rewrite A1. apply in_app_iff. left. exact M.
    + apply orb_false_iff in M. destruct M as [M1 M2]. apply memb_nIn in M1, M2.
      assert (Kc : In c (dkeys (nodemap g))) by (apply HK; left; reflexivity).
      destruct (dget (nodemap g) c) as [n|] eqn:E; [|apply dget_None in E; contradiction]. cbn [bind].
      destruct (IH (acc ++ [c], newl ++ n_out n)) as (st' & E' & added & A1 & A2 & A3 & A4 & A5 & A6); [intros; apply HK; right; assumption|].
      exists st'. split; [exact E'|]. exists (c :: added). cbn [fst snd] in *. split; [rewrite A1, <- app_assoc; reflexivity|].
      split; [constructor; [|exact A2]; intro X; destruct (A3 c X) as (_ & _ & X2 & _); apply X2, in_app_iff; right; left; reflexivity|].
      split; [|split; [|split]].
      * intros x [<-|X]; [repeat split; auto; left; reflexivity|]. destruct (A3 x X) as (B1 & B2 & B3 & B4). rewrite in_app_iff in B3. repeat split; auto. right; exact B1.
      * intros x [<-|X]; [right; rewrite A1; apply in_app_iff; left; apply in_app_iff; right; left; reflexivity|auto].
      * intros t. rewrite A5, in_app_iff. split.
        -- intros [[X|X]|(k & m & K1 & K2)]; [left; exact X|right; exists c, n; split; [left; reflexivity|]; split; [apply dget_In; exact E|exact X]|right; exists k, m; split; [right; exact K1|exact K2]].
        -- intros [X|(k & m & [<-|K1] & K2 & K3)]; [left; left; exact X| |right; exists k, m; auto].
           left. right. apply In_dget in K2; [|apply HC]. rewrite E in K2. injection K2 as <-. exact K3.
      * discriminate.
Qed.

Lemma visit_tensors_ok : forall ts st,
  exists st', visit_tensors g skip ts st = Ok st' /\
    visited (flat_map (fun t => match dget (consumedby g) t with Some l => l | None => [] end) ts) st st'.
Proof.
  induction ts as [|t r IH]; intros st.
  - exists st. split; [reflexivity|]. apply visited_nil.
  - cbn [visit_tensors flat_map].
    destruct (visit_consumers_ok (match dget (consumedby g) t with Some l => l | None => [] end) st) as (s1 & E1 & a1 & A1 & A2 & A3 & A4 & A5 & A6).
    { intros c Ic. apply consumers_iff in Ic; [|exact HC]. destruct Ic as (n & I & _). apply in_map_iff. exists (c, n). auto. }
    rewrite E1. cbn [bind]. destruct (IH s1) as (s2 & E2 & a2 & B1 & B2 & B3 & B4 & B5 & B6).
    exists s2. split; [exact E2|]. exists (a1 ++ a2). split; [rewrite B1, A1, app_assoc; reflexivity|]. split; [|split; [|split; [|split]]].
    + apply NoDup_app_intro; auto. intros x X Y. destruct (B3 x Y) as (_ & _ & Z & _). apply Z. rewrite A1. apply in_app_iff. right. exact X.
    + intros x X. apply in_app_iff in X. destruct X as [X|X].
      * destruct (A3 x X) as (C1 & C2). split; [apply in_app_iff; left; exact C1|exact C2].
      * destruct (B3 x X) as (C1 & C2 & C3 & C4). rewrite A1, in_app_iff in C3. split; [apply in_app_iff; right; exact C1|]. tauto.
    + intros x X. apply in_app_iff in X. destruct X as [X|X].
      * destruct (A4 x X) as [Y|Y]; [left; exact Y|right; rewrite B1; apply in_app_iff; left; exact Y].
      * apply B4. exact X.
    + intros u. rewrite B5, A5. split.
      * intros [[X|(k & n & K1 & K2)]|(k & n & K1 & K2)]; [left; exact X|right; exists k, n; split; [apply in_app_iff; left; exact K1|exact K2]|right; exists k, n; split; [apply in_app_iff; right; exact K1|exact K2]].
      * intros [X|(k & n & K1 & K2)]; [left; left; exact X|]. apply in_app_iff in K1. destruct K1 as [K1|K1]; [left; right; eauto|right; eauto].
    + intros Z. apply app_eq_nil in Z. destruct Z as [-> ->]. rewrite B6, A6; reflexivity.
Qed.

(** [acc] is closed except for the tensors still in [search] *)
Definition inv (seeds search acc : list string) : Prop :=
  NoDup acc /\ (forall x, In x acc -> downstream g seeds x /\ ~ In x skip /\ In x (dkeys (nodemap g))) /\
  (forall t, In t search -> In t seeds \/ exists k n, In k acc /\ In (k, n) (nodemap g) /\ In t (n_out n)) /\
  (forall t k n, (In t seeds \/ exists j m, In j acc /\ In (j, m) (nodemap g) /\ In t (n_out m)) ->
     In (k, n) (nodemap g) -> In t (n_in n) -> In k skip \/ In k acc \/ In t search).

Lemma search_down_ok : forall seeds fuel search acc, inv seeds search acc -> length (nodemap g) + 1 < fuel + length acc ->
  exists acc', search_down fuel g skip search acc = Some (Ok acc') /\ inv seeds [] acc'.
Proof.
  intros seeds. induction fuel as [|f IH]; intros search acc HI HF.
  - exfalso. destruct HI as (N & A & _). assert (length acc <= length (dkeys (nodemap g))).
    { apply NoDup_incl_length; [exact N|]. intros x X. apply A. exact X. }
    unfold dkeys in *. rewrite map_length in *. lia.
  - cbn [search_down]. destruct search as [|t0 ts0]; [exists acc; auto|].
    set (search := t0 :: ts0) in *.
    destruct (visit_tensors_ok search (acc, [])) as ([acc1 newl] & E & added & A1 & A2 & A3 & A4 & A5 & A6).
    rewrite E. cbn [fst snd] in *. destruct HI as (I1 & I2 & I3 & I4).
    assert (DS : forall x, In x added -> downstream g seeds x).
    { intros x X. destruct (A3 x X) as (B & _). apply in_flat_map in B. destruct B as (t & T1 & T2).
      apply consumers_iff in T2; [|exact HC]. destruct T2 as (n & N1 & N2).
      destruct (I3 t T1) as [S|(k & m & K1 & K2 & K3)].
      - eapply down_seed; eauto.
      - eapply down_step; eauto. apply I2. exact K1. }
    assert (HI' : inv seeds newl acc1).
    { split; [rewrite A1; apply NoDup_app_intro; auto; intros x X Y; destruct (A3 x Y) as (_ & _ & Z & _); contradiction|].
      split; [|split].
      - intros x X. rewrite A1 in X. apply in_app_iff in X. destruct X as [X|X]; [auto|]. destruct (A3 x X) as (_ & B2 & _ & B4). auto.
      - intros t T. apply A5 in T. destruct T as [[]|(k & n & K1 & K2)]. right. exists k, n. split; [rewrite A1; apply in_app_iff; right; exact K1|exact K2].
      - intros t k n Ht Ik Ir.
        assert (D : (In t seeds \/ (exists j m, In j acc /\ In (j, m) (nodemap g) /\ In t (n_out m))) \/ In t newl).
        { destruct Ht as [S|(j & m & J1 & J2 & J3)]; [left; left; exact S|]. rewrite A1 in J1. apply in_app_iff in J1.
          destruct J1 as [J1|J1]; [left; right; eauto|right]. apply A5. right. eauto. }
        destruct D as [D|D]; [|right; right; exact D].
        destruct (I4 t k n D Ik Ir) as [X|[X|X]]; [left; exact X|right; left; rewrite A1; apply in_app_iff; left; exact X|].
        destruct (A4 k) as [Y|Y]; [|left; exact Y|right; left; exact Y].
        apply in_flat_map. exists t. split; [exact X|]. apply consumers_iff; [exact HC|]. eauto. }
    destruct added as [|a added].
    + rewrite (A6 eq_refl). cbn [search_down]. destruct f as [|f]; cbn [search_down]; exists acc1; (split; [reflexivity|rewrite (A6 eq_refl) in HI'; exact HI']).
    + apply IH; [exact HI'|]. rewrite A1, app_length. cbn [length]. lia.
Qed.

Lemma inv_start : forall seeds, inv seeds seeds [].
Proof.
  intros seeds. split; [constructor|]. split; [intros x []|]. split; [auto|].
  intros t k n [S|(j & m & [] & _)] _ _. right. right. exact S.
Qed.

(** nodes outside [skip] whose downstream closure stays outside [skip] unless in it *)
Lemma inv_done : forall seeds acc, inv seeds [] acc ->
  (forall j k, In j skip -> feeds (nodemap g) j k -> In k skip) ->
  forall k, downstream g seeds k -> In k skip \/ In k acc.
Proof.
  intros seeds acc (I1 & I2 & I3 & I4) HS k D. induction D as [k n t K1 K2 K3|j m k n t D IH J1 J2 K1 K2].
  - destruct (I4 t k n (or_introl K3) K1 K2) as [X|[X|[]]]; auto.
  - destruct IH as [X|X].
    + left. apply (HS j k X). exists m, n, t. auto.
    + destruct (I4 t k n) as [Y|[Y|[]]]; auto. right. exists j, m. auto.
Qed.
End Down.

Theorem subnodes_spec : forall g inputs outputs, consistent g ->
  exists l0 l1 l2, subnodes_byio g inputs outputs = Some (Ok (l0, l1, l2)) /\
    NoDup (l0 ++ l1 ++ l2) /\ (forall k, In k (l0 ++ l1 ++ l2) <-> In k (dkeys (nodemap g))) /\
    (forall k, In k l2 <-> downstream g outputs k) /\
    (forall k, In k l1 <-> downstream g inputs k /\ ~ downstream g outputs k) /\
    (forall k, In k l0 <-> In k (dkeys (nodemap g)) /\ ~ downstream g inputs k /\ ~ downstream g outputs k).
Proof.
  intros g inputs outputs HC. unfold subnodes_byio.
  destruct (search_down_ok g HC [] outputs (S (S (length (nodemap g)))) outputs [] (inv_start g [] outputs)) as (l2 & E2 & V2); [cbn [length]; lia|].
  destruct (search_down_ok g HC l2 inputs (S (S (length (nodemap g)))) inputs [] (inv_start g l2 inputs)) as (l1 & E1 & V1); [cbn [length]; lia|].
  rewrite E2, E1.
  assert (M2 : forall k, In k l2 <-> downstream g outputs k).
  { intros k. split; [intros I; apply V2; exact I|]. intros D. destruct (inv_done g [] outputs l2 V2 (fun j k (X : In j []) _ => match X with end) k D) as [[]|X]. exact X. }
  assert (M1 : forall k, In k l1 <-> downstream g inputs k /\ ~ downstream g outputs k).
  { intros k. split.
    - intros I. destruct V1 as (_ & A & _). destruct (A k I) as (B1 & B2 & _). rewrite M2 in B2. auto.
    - intros [D N]. destruct (inv_done g l2 inputs l1 V1) with (k := k) as [X|X]; auto.
      + intros j m J (jn & mn & t & A1 & A2 & A3 & A4). apply M2. apply M2 in J. eapply down_step; eauto.
      + exfalso. apply N, M2, X. }
  exists (filter (fun k => negb (memb k l1) && negb (memb k l2)) (dkeys (nodemap g))), l1, l2. split; [reflexivity|].
  assert (M0 : forall k, In k (filter (fun k => negb (memb k l1) && negb (memb k l2)) (dkeys (nodemap g))) <-> In k (dkeys (nodemap g)) /\ ~ In k l1 /\ ~ In k l2).
  { intros k. rewrite filter_In, andb_true_iff, !negb_true_iff, !memb_nIn. tauto. }
  assert (K1 : forall k, In k l1 -> In k (dkeys (nodemap g))) by (intros k I; apply V1; exact I).
  assert (K2 : forall k, In k l2 -> In k (dkeys (nodemap g))) by (intros k I; apply V2; exact I).
  split; [|split; [|split; [exact M2|split; [exact M1|]]]].
  - apply NoDup_app_intro; [apply NoDup_filter, HC|apply NoDup_app_intro; [apply V1|apply V2|]|].
    + intros k I. destruct V1 as (_ & A & _). destruct (A k I) as (_ & B2 & _). exact B2.
    + intros k I. apply M0 in I. rewrite in_app_iff. tauto.
  - intros k. rewrite !in_app_iff, M0. split; [intros [X|[X|X]]; [apply X|auto|auto]|].
    intros X. destruct (in_dec string_dec k l1); [tauto|]. destruct (in_dec string_dec k l2); tauto.
  - intros k. rewrite M0, M1, M2. split; [intros (A & B & C); split; [exact A|split; [|exact C]]; intro; apply B; auto|].
    intros (A & B & C). split; [exact A|]. split; [|exact C]. intros [X _]. contradiction.
Qed.
