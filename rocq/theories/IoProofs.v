From Verif Require Import PyBase PyBaseFacts GraphModel CompressSpec RelSpec RelProofs TopSortSpec TopSortProofs EditModel EditSpec RemoveProofs.
Local Open Scope list_scope.

Section Io.
Variable g : graph.
Hypothesis HC : consistent g.
Variable names : list string.
Variable rmi : bool.

Lemma all_in_spec : forall l, all_in l names = true <-> forall x, In x l -> In x names.
Proof.
  intros l. unfold all_in. rewrite forallb_forall. split; intros H x I; [apply memb_In|apply memb_In]; auto.
Qed.

Definition in_inner (t : string) : bool := match dget (producedby g) t with Some l => all_in l names | None => false end.
Definition out_inner (t : string) : bool := match dget (consumedby g) t with Some l => all_in l names | None => false end.

Lemma in_inner_spec : forall t, in_inner t = true <-> exists k n, In k names /\ In (k, n) (nodemap g) /\ In t (n_out n).
Proof.
  intros t. unfold in_inner. destruct (dget (producedby g) t) as [l|] eqn:E.
  - rewrite all_in_spec. split.
    + intros H. destruct l as [|p q]; [exfalso; exact (tb_ne _ _ _ _ _ (co_prod g HC) t E)|].
      assert (Ip : In p (glist (producedby g) t)) by (unfold glist; rewrite E; left; reflexivity).
      destruct (tbl_of _ _ _ _ _ _ _ (co_prod g HC) Ip) as (n & N1 & N2 & _).
      exists p, n. split; [apply H; left; reflexivity|]. split; [apply dget_In; exact N1|exact N2].
    + intros (k & n & K1 & K2 & K3) x Ix.
      assert (Ig : In x (glist (producedby g) t)) by (unfold glist; rewrite E; exact Ix).
      destruct (tbl_of _ _ _ _ _ _ _ (co_prod g HC) Ig) as (xn & N1 & N2 & _).
      assert (x = k) by (eapply outs_unique_key; [apply (co_uniq g HC)|apply dget_In; exact N1|exact K2|exact N2|exact K3]).
      subst. exact K1.
  - split; [discriminate|]. intros (k & n & K1 & K2 & K3). exfalso.
    assert (count k (glist (producedby g) t) = 0) as Z by (unfold glist; rewrite E; reflexivity).
    rewrite (tb_cnt _ _ _ _ _ (co_prod g HC)) in Z. unfold cnt_sel in Z.
    rewrite (In_dget _ _ _ _ (co_nd g HC) K2) in Z. apply count_pos in K3. cbn [count] in Z. destruct (String.eqb k ""); lia.
Qed.

Lemma read_iff : forall t, In t (reads_of (nodes_of g)) <-> exists k n, In (k, n) (nodemap g) /\ In t (n_in n).
Proof.
  intros t. unfold reads_of, nodes_of. rewrite in_flat_map. split.
  - intros (n & I & J). apply in_map_iff in I. destruct I as ([k m] & X & I). cbn in X. subst. eauto.
  - intros (k & n & I & J). exists n. split; [apply in_map_iff; exists (k, n); auto|exact J].
Qed.

Lemma out_inner_spec : forall t, out_inner t = false <->
  (exists k n, ~ In k names /\ In (k, n) (nodemap g) /\ In t (n_in n)) \/ ~ In t (reads_of (nodes_of g)).
Proof.
  intros t. unfold out_inner. destruct (dget (consumedby g) t) as [l|] eqn:E.
  - assert (Hl : forall x, In x l <-> exists n, dget (nodemap g) x = Some n /\ In t (n_in n)).
    { intros x. assert (EG : glist (consumedby g) t = l) by (unfold glist; rewrite E; reflexivity). split.
      - intros Ix. rewrite <- EG in Ix. destruct (tbl_of _ _ _ _ _ _ _ (co_cons g HC) Ix) as (n & N1 & N2 & _). eauto.
      - intros (n & N1 & N2). rewrite <- EG. apply count_pos. rewrite (tb_cnt _ _ _ _ _ (co_cons g HC)). unfold cnt_sel. rewrite N1.
        apply count_pos in N2. cbn [count]. destruct (String.eqb x ""); lia. }
    split.
    + intros H. left.
      destruct (forallb (fun x => memb x names) l) eqn:F; [unfold all_in in H; congruence|].
      assert (exists x, In x l /\ memb x names = false) as (x & X1 & X2).
      { clear - F. induction l as [|y r IH]; [discriminate|]. cbn [forallb] in F. apply andb_false_iff in F.
        destruct F as [F|F]; [exists y; split; [left; reflexivity|exact F]|]. destruct (IH F) as (x & A & B). exists x. split; [right; exact A|exact B]. }
      apply Hl in X1. destruct X1 as (n & N1 & N2). exists x, n. split; [apply memb_nIn; exact X2|]. split; [apply dget_In; exact N1|exact N2].
    + intros [(k & n & K1 & K2 & K3)|H].
      * destruct (all_in l names) eqn:F; [|reflexivity]. exfalso. apply K1. apply (proj1 (all_in_spec l) F).
        apply Hl. exists n. split; [apply In_dget; [apply HC|exact K2]|exact K3].
      * exfalso. destruct l as [|x l]; [exact (tb_ne _ _ _ _ _ (co_cons g HC) t E)|].
        destruct (proj1 (Hl x) (or_introl eq_refl)) as (n & N1 & N2). apply H. apply read_iff. exists x, n. split; [apply dget_In; exact N1|exact N2].
  - split; [|reflexivity]. intros _. right. intro I. apply read_iff in I. destruct I as (k & n & K2 & K3).
    assert (count k (glist (consumedby g) t) = 0) as Z by (unfold glist; rewrite E; reflexivity).
    rewrite (tb_cnt _ _ _ _ _ (co_cons g HC)) in Z. unfold cnt_sel in Z.
    rewrite (In_dget _ _ _ _ (co_nd g HC) K2) in Z. apply count_pos in K3. cbn [count] in Z. destruct (String.eqb k ""); lia.
Qed.

(** accumulating folds *)
Lemma fold_acc : forall (step : list string -> string -> list string) (keep : string -> bool),
  (forall acc t, step acc t = if keep t then (if memb t acc then acc else acc ++ [t]) else acc) ->
  forall l acc, (forall t, In t (fold_left step l acc) <-> In t acc \/ (In t l /\ keep t = true)) /\
    (NoDup acc -> NoDup (fold_left step l acc)).
Proof.
  intros step keep HS. induction l as [|x r IH]; intros acc; cbn [fold_left].
  - split; [intros t; simpl; tauto|auto].
  - destruct (IH (step acc x)) as [I1 I2]. rewrite HS in *. split.
    + intros t. rewrite I1. destruct (keep x) eqn:K.
      * destruct (memb x acc) eqn:M.
        -- apply memb_In in M. simpl. split; [tauto|]. intros [A|[[<-|A] B]]; tauto.
        -- rewrite in_app_iff. simpl. split; [intuition; subst; auto|]. intros [A|[[<-|A] B]]; tauto.
      * simpl. split; [tauto|]. intros [A|[[<-|A] B]]; [tauto|congruence|tauto].
    + intros ND. apply I2. destruct (keep x); [|exact ND]. destruct (memb x acc) eqn:M; [exact ND|].
      apply memb_nIn in M. apply NoDup_app_intro; [exact ND|repeat constructor; intros []|]. intros y Y [<-|[]]. contradiction.
Qed.

Definition keep_in (t : string) : bool := negb (String.eqb t "") && negb (rmi && memb t (initials g)) && negb (in_inner t).
Definition keep_out (t : string) : bool := negb (rmi && memb t (initials g)) && negb (out_inner t).

Lemma io_go_spec : forall todo ins outs, (forall k, In k todo -> In k (dkeys (nodemap g))) ->
  exists ins' outs', io_go g names rmi todo (ins, outs) = Ok (ins', outs') /\
   (forall t, In t ins' <-> In t ins \/ (keep_in t = true /\ exists k n, In k todo /\ In (k, n) (nodemap g) /\ In t (n_in n))) /\
   (forall t, In t outs' <-> In t outs \/ (keep_out t = true /\ exists k n, In k todo /\ In (k, n) (nodemap g) /\ In t (n_out n))) /\
   (NoDup ins -> NoDup ins') /\ (NoDup outs -> NoDup outs').
Proof.
  assert (S1 : forall acc t, io_in g names rmi acc t = if keep_in t then (if memb t acc then acc else acc ++ [t]) else acc).
  { intros acc t. unfold io_in, keep_in. fold (in_inner t). destruct (String.eqb t ""), (rmi && memb t (initials g)), (in_inner t); reflexivity. }
  assert (S2 : forall acc t, io_out g names rmi acc t = if keep_out t then (if memb t acc then acc else acc ++ [t]) else acc).
  { intros acc t. unfold io_out, keep_out. fold (out_inner t). destruct (rmi && memb t (initials g)), (out_inner t); reflexivity. }
  induction todo as [|k r IH]; intros ins outs HK; cbn [io_go].
  - exists ins, outs. split; [reflexivity|]. split; [intros t; split; [tauto|intros [A|(_ & k & n & [] & _)]; exact A]|].
    split; [intros t; split; [tauto|intros [A|(_ & k & n & [] & _)]; exact A]|]. auto.
  - assert (Ik : In k (dkeys (nodemap g))) by (apply HK; left; reflexivity).
    destruct (dget (nodemap g) k) as [n|] eqn:E; [|apply dget_None in E; contradiction].
    cbn [fst snd].
    destruct (fold_acc _ _ S1 (n_in n) ins) as [A1 A2]. destruct (fold_acc _ _ S2 (n_out n) outs) as [B1 B2].
    destruct (IH (fold_left (io_in g names rmi) (n_in n) ins) (fold_left (io_out g names rmi) (n_out n) outs))
      as (ins' & outs' & R1 & R2 & R3 & R4 & R5); [intros x X; apply HK; right; exact X|].
    exists ins', outs'. split; [exact R1|]. split; [|split; [|split; auto]].
    + intros t. rewrite R2, A1. split.
      * intros [[A|[A B]]|(A & k' & n' & B & C)]; [left; exact A| |].
        -- right. split; [exact B|]. exists k, n. split; [left; reflexivity|]. split; [apply dget_In; exact E|exact A].
        -- right. split; [exact A|]. exists k', n'. split; [right; exact B|exact C].
      * intros [A|(A & k' & n' & [<-|B] & C & D)]; [left; left; exact A| |].
        -- left. right. apply In_dget in C; [|apply HC]. rewrite E in C. injection C as <-. auto.
        -- right. split; [exact A|]. exists k', n'. auto.
    + intros t. rewrite R3, B1. split.
      * intros [[A|[A B]]|(A & k' & n' & B & C)]; [left; exact A| |].
        -- right. split; [exact B|]. exists k, n. split; [left; reflexivity|]. split; [apply dget_In; exact E|exact A].
        -- right. split; [exact A|]. exists k', n'. split; [right; exact B|exact C].
      * intros [A|(A & k' & n' & [<-|B] & C & D)]; [left; left; exact A| |].
        -- left. right. apply In_dget in C; [|apply HC]. rewrite E in C. injection C as <-. auto.
        -- right. split; [exact A|]. exists k', n'. auto.
Qed.

Theorem get_iotensors_spec : (forall k, In k names -> In k (dkeys (nodemap g))) ->
  exists ins outs, get_iotensors g names rmi = Ok (ins, outs) /\ NoDup ins /\ NoDup outs /\
   (forall t, In t ins <-> t <> ""%string /\ ~ (rmi = true /\ In t (initials g)) /\ reads_outside g names t) /\
   (forall t, In t outs <-> ~ (rmi = true /\ In t (initials g)) /\ produces_outside g names t).
Proof.
  intros HK. destruct (io_go_spec names [] [] HK) as (ins & outs & R1 & R2 & R3 & R4 & R5).
  exists ins, outs. split; [exact R1|]. split; [apply R4; constructor|]. split; [apply R5; constructor|].
  assert (RI : forall t, negb (rmi && memb t (initials g)) = true <-> ~ (rmi = true /\ In t (initials g))).
  { intros t. rewrite <- (memb_In t (initials g)). destruct rmi, (memb t (initials g)); simpl; intuition congruence. }
  split.
  - intros t. rewrite R2. simpl. unfold keep_in. rewrite !andb_true_iff, RI, negb_true_iff, negb_true_iff, String.eqb_neq. split.
    + intros [[]|(((A & B) & D) & k & n & K1 & K2 & K3)]. split; [exact A|]. split; [exact B|].
      exists k, n. repeat split; auto. intros k' n' K1' K2' K3'.
      assert (in_inner t = true) by (apply in_inner_spec; eauto). congruence.
    + intros (A & B & k & n & K1 & K2 & K3 & K4). right. repeat split; auto; [|eauto].
      destruct (in_inner t) eqn:F; [|reflexivity]. exfalso. apply in_inner_spec in F. destruct F as (k' & n' & F1 & F2 & F3).
      exact (K4 k' n' F1 F2 F3).
  - intros t. rewrite R3. simpl. unfold keep_out. rewrite andb_true_iff, RI, negb_true_iff, out_inner_spec. unfold produces_outside. split.
    + intros [[]|((A & B) & k & n & K1 & K2 & K3)]. split; [exact A|]. exists k, n. auto.
    + intros (A & k & n & K1 & K2 & K3 & K4). right. split; [auto|]. exists k, n. auto.
Qed.
End Io.
