(** Removing reshaping nodes one after the other, with the stale entries [skip_node] leaves behind. *)
From Verif Require Import PyBase PyBaseFacts GraphModel CompressSpec RelSpec RelProofs TopSortSpec OrderProofs
  EditModel EditSpec RemoveProofs IoProofs SkipProofs ConstProofs ShapeOpsModel ShapeOpsSpec.
Local Open Scope nat_scope.
Local Open Scope list_scope.

Lemma glist_push_eq d k v x : count x (glist (dpush d k v) k) = count x (glist d k) + count x [v].
Proof. unfold dpush, glist. destruct (dget d k) as [l|] eqn:E; rewrite dget_dset_eq; [apply count_app|reflexivity]. Qed.
Lemma count_ren out ind l : ind <> out -> count ind (map (ren out ind) l) = count ind l + count out l.
Proof.
  intros N. induction l as [|x r IH]; [reflexivity|]. cbn [map count]. rewrite IH. unfold ren.
  destruct (String.eqb_spec x out) as [->|M].
  - rewrite !String.eqb_refl. destruct (String.eqb_spec ind out); [contradiction|]. lia.
  - destruct (String.eqb_spec out x); [congruence|]. destruct (String.eqb_spec ind x); lia.
Qed.
Lemma count_ren_other out ind t l : t <> ind -> t <> out -> count t (map (ren out ind) l) = count t l.
Proof.
  intros N M. induction l as [|x r IH]; [reflexivity|]. cbn [map count]. rewrite IH. unfold ren. destruct (String.eqb_spec x out) as [->|Q]; [|reflexivity].
  destruct (String.eqb_spec t ind); [contradiction|]. destruct (String.eqb_spec t out); [contradiction|]. reflexivity.
Qed.
Lemma replace_first_count out ind l l' : ind <> out -> replace_first out ind l = Some l' -> count out l = S (count out l').
Proof.
  intros N E. destruct (in_dec string_dec out l) as [I|I].
  - destruct (replace_first_spec out ind l) as [H _]. destruct (H I) as (a & b & -> & Na & F). rewrite F in E. injection E as <-. rewrite !count_app. cbn [count].
    rewrite String.eqb_refl. destruct (String.eqb_spec out ind); [congruence|]. lia.
  - destruct (replace_first_spec out ind l) as [_ H]. rewrite (H I) in E. discriminate.
Qed.
Definition in_count (nm : dict node) (t x : string) : nat := cnt_sel nm n_in x t.
Lemma cnt_dset nm x c n t : cnt_sel (dset nm c n) n_in x t = if String.eqb x c then count t (n_in n) else cnt_sel nm n_in x t.
Proof. unfold cnt_sel. destruct (String.eqb_spec x c) as [->|N]; [rewrite dget_dset_eq; reflexivity|]. rewrite dget_dset_neq by congruence. reflexivity. Qed.

Lemma rewire_counts out ind : ind <> out -> forall cl nm cns nm' cns', (forall x, count x cl <= cnt_sel nm n_in x out) ->
  rewire_all out ind cl (nm, cns) = Ok (nm', cns') -> forall x, count x (glist cns' ind) = count x (glist cns ind) + count x cl.
Proof.
  intros N. induction cl as [|c r IH]; intros nm cns nm' cns' LE E x; cbn [rewire_all] in E.
  - injection E as <- <-. cbn [count]. lia.
  - unfold rewire in E. assert (LC := LE c). cbn [count] in LC. rewrite String.eqb_refl in LC. unfold cnt_sel in LC. destruct (dget nm c) as [cn|] eqn:EC; [|discriminate].
    assert (IO : In out (n_in cn)) by (apply count_pos; lia). destruct (replace_first_spec out ind (n_in cn)) as [H _]. destruct (H IO) as (a & b & _ & _ & RF). clear H.
    rewrite RF in E. cbn [bind] in E. apply IH with (x := x) in E.
    + rewrite E, glist_push_eq. cbn [count]. destruct (String.eqb x c); lia.
    + intros y. rewrite cnt_dset. specialize (LE y). cbn [count] in LE. revert LE. destruct (String.eqb_spec y c) as [->|Ny]; intros LE; [|lia].
      cbn [set_in n_in]. assert (RC := replace_first_count _ _ _ _ N RF). unfold cnt_sel in LE. rewrite EC in LE. lia.
Qed.

(** what the loop keeps: readers of dynamic tensors are listed exactly *)
Record loose (g : graph) : Prop := {
  lo_nd : NoDup (dkeys (nodemap g));
  lo_cons : forall t, In t (dynamics g) -> In t (reads_of (nodes_of g)) -> exists cl, dget (consumedby g) t = Some cl /\ forall x, count x cl = cnt_sel (nodemap g) n_in x t
}.
Lemma reads_iff g t : In t (reads_of (nodes_of g)) <-> exists k n, In (k, n) (nodemap g) /\ In t (n_in n).
Proof.
  unfold reads_of, nodes_of. rewrite in_flat_map. split.
  - intros (n & I & J). apply in_map_iff in I as ([k m] & <- & I). eauto.
  - intros (k & n & I & J). exists n. split; [apply in_map_iff; exists (k, n); auto|exact J].
Qed.
Lemma consistent_loose g : consistent g -> loose g.
Proof.
  intros HC. constructor; [apply HC|]. intros t _ R. apply reads_iff in R as (k & m & K1 & K2).
  assert (CL : forall x, count x (glist (consumedby g) t) = cnt_sel (nodemap g) n_in x t).
  { intros x. rewrite (tb_cnt _ _ _ _ _ (co_cons g HC)). cbn [count]. destruct (String.eqb x ""); lia. }
  specialize (CL k) as Ck. unfold cnt_sel in Ck at 1. rewrite (In_dget _ _ _ _ (co_nd g HC) K1) in Ck. apply count_pos in K2.
  unfold glist in *. destruct (dget (consumedby g) t) as [cl|]; [eauto|]. cbn [count] in Ck. lia.
Qed.

Lemma skip_step g name n ind out : loose g -> dget (nodemap g) name = Some n ->
  filter (fun i => memb i (dynamics g)) (n_in n) = [ind] -> n_out n = [out] -> ind <> out -> In out (dynamics g) -> In out (reads_of (nodes_of g)) ->
  exists g', skip_node g name = Ok g' /\
    nodemap g' = map (fun kn => (fst kn, read_instead out ind (snd kn))) (ddel (nodemap g) name) /\
    g_input g' = g_input g /\ g_output g' = g_output g /\ tensormap g' = tensormap g /\ initials g' = initials g /\ dynamics g' = dynamics g /\ loose g'.
Proof.
  intros HL E EF EO Nio OD HR. assert (ND := lo_nd g HL). destruct (In_filter_sing _ _ _ EF) as [Ii Id]. apply memb_In in Id.
  assert (In_name : In (name, n) (nodemap g)) by (apply dget_In; exact E).
  destruct (lo_cons g HL ind Id) as (l & El & Cl); [apply reads_iff; eauto|].
  destruct (lo_cons g HL out OD HR) as (cl & Ecl & CL).
  assert (NO : ~ In out (n_in n)).
  { intros X. assert (Y : In out (filter (fun i => memb i (dynamics g)) (n_in n))) by (apply filter_In; split; [exact X|apply memb_In; exact OD]). rewrite EF in Y. destruct Y as [Y|[]]. congruence. }
  assert (Il : In name l). { apply count_pos. rewrite Cl. unfold cnt_sel. rewrite E. apply count_pos. exact Ii. }
  unfold skip_node. rewrite E, EF, EO, El. assert (memb name l = true) as -> by (apply memb_In; exact Il). cbn [negb].
  rewrite dget_dset_neq by congruence. rewrite Ecl.
  destruct (rewire_all_spec out ind cl (nodemap g) (dset (consumedby g) ind (remove1 name l)) ND) as (cns' & F & G).
  { intros x X. apply count_pos in X. rewrite CL in X. unfold cnt_sel in X. destruct (dget (nodemap g) x) eqn:Ex; [|lia]. eapply dget_Some_keys; exact Ex. }
  assert (GI := rewire_counts out ind Nio cl _ _ _ _ (fun x => Nat.eq_le_incl _ _ (CL x)) F).
  rewrite F. cbn [bind]. eexists. split; [reflexivity|]. cbn [with_rel nodemap g_input g_output tensormap initials dynamics].
  assert (NM : ddel (rewired out ind cl (nodemap g)) name = map (fun kn => (fst kn, read_instead out ind (snd kn))) (ddel (nodemap g) name)).
  { unfold rewired. rewrite (ddel_map (fun k m => set_in m (replk (count k cl) out ind (n_in m)))).
    apply map_ext_in. intros [x m'] I. cbn [fst snd]. f_equal. unfold read_instead. f_equal. apply replk_all; [exact Nio|].
    rewrite CL. unfold cnt_sel. apply In_ddel in I; [|exact ND]. rewrite (In_dget _ _ _ _ ND (proj1 I)). reflexivity. }
  split; [exact NM|]. do 5 (split; [reflexivity|]).
  assert (KD : NoDup (dkeys (map (fun kn => (fst kn, read_instead out ind (snd kn))) (ddel (nodemap g) name)))).
  { rewrite (dkeys_map _ _ (fun _ => read_instead out ind)). apply NoDup_dkeys_ddel. exact ND. }
  constructor; cbn [with_rel nodemap dynamics consumedby nodes_of].
  - rewrite NM. exact KD.
  - intros t Td Tr. unfold nodes_of in Tr. cbn [with_rel nodemap] in Tr. rewrite NM in Tr.
    assert (CNT : forall x, cnt_sel (ddel (rewired out ind cl (nodemap g)) name) n_in x t =
      if String.eqb x name then 0 else match dget (nodemap g) x with Some m => count t (map (ren out ind) (n_in m)) | None => 0 end).
    { intros x. rewrite NM. unfold cnt_sel. rewrite (dget_map _ _ (fun _ => read_instead out ind)). destruct (String.eqb_spec x name) as [->|Nx].
      - rewrite dget_ddel_eq by exact ND. reflexivity.
      - rewrite dget_ddel_neq by congruence. destruct (dget (nodemap g) x); reflexivity. }
    assert (Tno : t <> out).
    { intros ->. unfold reads_of in Tr. apply in_flat_map in Tr as (m & I & J). apply in_map_iff in I as ([k m'] & <- & I). apply in_map_iff in I as ([k2 m2] & Q & I). injection Q as <- <-.
      cbn [snd read_instead set_in n_in] in J. apply in_map_iff in J as (u & Q & _). unfold ren in Q. destruct (String.eqb_spec u out); congruence. }
    destruct (string_dec t ind) as [->|Tni].
    + exists (glist cns' ind). split.
      { assert (P : exists x, 0 < count x cl).
        { apply reads_iff in HR as (k & m & K1 & K2). exists k. rewrite CL. unfold cnt_sel. rewrite (In_dget _ _ _ _ ND K1). apply count_pos. exact K2. }
        destruct P as [x P]. specialize (GI x). unfold glist in GI |- * at 1. destruct (dget cns' ind); [reflexivity|]. cbn [count] in GI. lia. }
      intros x. rewrite CNT, GI. assert (glist (dset (consumedby g) ind (remove1 name l)) ind = remove1 name l) as -> by (unfold glist; rewrite dget_dset_eq; reflexivity).
      destruct (String.eqb_spec x name) as [->|Nx].
      * rewrite count_remove1_eq, Cl, CL. unfold cnt_sel. rewrite E. apply count_zero in NO. rewrite NO.
        assert (C1 : count ind (n_in n) = 1).
        { assert (Q : count ind (filter (fun i => memb i (dynamics g)) (n_in n)) = count ind (n_in n)).
          { clear - Id. induction (n_in n) as [|z r IH]; [reflexivity|]. cbn [filter count]. destruct (memb z (dynamics g)) eqn:M; cbn [count]; rewrite IH; [reflexivity|].
            destruct (String.eqb_spec ind z) as [<-|_]; [|reflexivity]. apply memb_nIn in M. contradiction. }
          rewrite <- Q, EF. cbn [count]. rewrite String.eqb_refl. reflexivity. }
        rewrite C1. reflexivity.
      * rewrite count_remove1_neq by exact Nx. rewrite Cl, CL. unfold cnt_sel. destruct (dget (nodemap g) x) as [m|]; [|reflexivity]. rewrite count_ren by exact Nio. reflexivity.
    + destruct (lo_cons g HL t Td) as (ct & Et & Ct).
      { apply reads_iff. unfold reads_of in Tr. apply in_flat_map in Tr as (m & I & J). apply in_map_iff in I as ([k m'] & <- & I). apply in_map_iff in I as ([k2 m2] & Q & I). injection Q as <- <-.
        apply In_ddel in I; [|exact ND]. exists k2, m2. split; [apply I|]. cbn [snd read_instead set_in n_in] in J. apply in_map_iff in J as (u & Q & J). unfold ren in Q. destruct (String.eqb_spec u out); congruence. }
      exists ct. split; [rewrite G by exact Tni; rewrite dget_dset_neq by congruence; exact Et|]. intros x. rewrite CNT, Ct. unfold cnt_sel.
      destruct (String.eqb_spec x name) as [->|Nx].
      * rewrite E. apply count_zero. intros X. assert (Y : In t (filter (fun i => memb i (dynamics g)) (n_in n))) by (apply filter_In; split; [exact X|apply memb_In; exact Td]). rewrite EF in Y. destruct Y as [Y|[]]. congruence.
      * destruct (dget (nodemap g) x) as [m|]; [|reflexivity]. symmetry. apply count_ren_other; assumption.
Qed.
