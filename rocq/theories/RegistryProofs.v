From Verif Require Import PyBase PyBaseFacts ShapeModel RegistryModel.
Open Scope string_scope. Open Scope list_scope.
Section REG.
Context {A : Type}.
(** ** Specification: the history as a list of registrations *)
(** the registrations a history makes, oldest first *)
Definition regs_of (h : list (reg_op A)) : list (string * A) :=
  flat_map (fun o => match o with RSet n x => [(n, x)] | RCall (Some (n, x)) => [(n, x)] | RCall None => [] | RDeco n x => [(n, x)] end) h.
(** [x] is the latest object registered under [name] *)
Definition latest (h : list (reg_op A)) (name : string) (x : A) : Prop :=
  exists a b, regs_of h = a ++ (name, x) :: b /\ ~ In name (map fst b).
Definition registered (h : list (reg_op A)) (name : string) : Prop := In name (map fst (regs_of h)).
(** ** Proofs *)
Fixpoint sets (r : dict A) (l : list (string * A)) : dict A := match l with [] => r | (n, x) :: t => sets (dset r n x) t end.
Lemma run_sets h : forall r, reg_run r h = sets r (regs_of h).
Proof.
  induction h as [|o h IH]; intros r; [reflexivity|]. cbn [reg_run]. rewrite IH. unfold regs_of. cbn [flat_map].
  destruct o as [n x|[[n x]|]|n x]; reflexivity.
Qed.
Lemma sets_app l m : forall r, sets r (l ++ m) = sets (sets r l) m.
Proof. induction l as [|[n x] l IH]; intros r; cbn; auto. Qed.
Lemma sets_other l : forall r name, ~ In name (map fst l) -> dget (sets r l) name = dget r name.
Proof.
  induction l as [|[n x] l IH]; intros r name H; [reflexivity|]. cbn [sets map fst In] in *. rewrite IH by tauto.
  apply dget_dset_neq. intros E; apply H; auto.
Qed.
Lemma sets_latest l : forall r name, In name (map fst l) -> exists x a b, l = a ++ (name, x) :: b /\ ~ In name (map fst b) /\ dget (sets r l) name = Some x.
Proof.
  induction l as [|[n x] l IH] using rev_ind; intros r name H; [contradiction|]. rewrite map_app, in_app_iff in H. cbn in H.
  rewrite sets_app. cbn [sets]. destruct (string_dec n name) as [->|D].
  - exists x, l, []. split; [reflexivity|]. split; [auto|]. apply dget_dset_eq.
  - destruct H as [H|[H|[]]]; [|congruence]. destruct (IH r name H) as (y & a & b & -> & Nb & E).
    exists y, a, (b ++ [(n, x)]). split; [rewrite <- app_assoc; reflexivity|]. split; [rewrite map_app, in_app_iff; cbn; tauto|].
    rewrite dget_dset_neq by auto. exact E.
Qed.
Lemma dkeys_dset_has (r : dict A) n x : In n (dkeys r) -> dkeys (dset r n x) = dkeys r.
Proof.
  induction r as [|[k v] r IH]; [contradiction|]. cbn. intros [->|H].
  - rewrite String.eqb_refl. reflexivity.
  - destruct (String.eqb n k); cbn; [reflexivity|]. f_equal. auto.
Qed.
Lemma dkeys_dset_new (r : dict A) n x : ~ In n (dkeys r) -> dkeys (dset r n x) = dkeys r ++ [n].
Proof.
  induction r as [|[k v] r IH]; [reflexivity|]. cbn. intros H. destruct (String.eqb_spec n k) as [->|D]; [exfalso; auto|]. cbn. f_equal. apply IH; tauto.
Qed.
Lemma sets_nodup l : forall r : dict A, NoDup (dkeys r) -> NoDup (dkeys (sets r l)).
Proof. induction l as [|[n x] l IH]; intros r H; [exact H|]. cbn. apply IH. apply NoDup_dkeys_dset; auto. Qed.
Lemma sets_keys l : forall (r : dict A) name, In name (dkeys (sets r l)) <-> In name (dkeys r) \/ In name (map fst l).
Proof.
  induction l as [|[n x] l IH]; intros r name; [cbn; tauto|]. cbn [sets map fst In]. rewrite IH.
  destruct (in_dec string_dec n (dkeys r)) as [I|I].
  - rewrite dkeys_dset_has by auto. split; [tauto|]. intros [H|[->|H]]; auto.
  - rewrite dkeys_dset_new by auto. rewrite in_app_iff. cbn. tauto.
Qed.
(** keys in order of first registration: an earlier first registration gives an earlier key *)
Lemma sets_order l : forall r : dict A, exists ks, dkeys (sets r l) = dkeys r ++ ks.
Proof.
  induction l as [|[n x] l IH]; intros r; [exists []; rewrite app_nil_r; reflexivity|]. cbn [sets].
  destruct (IH (dset r n x)) as [ks E]. destruct (in_dec string_dec n (dkeys r)) as [I|I].
  - rewrite dkeys_dset_has in E by auto. eauto.
  - rewrite dkeys_dset_new in E by auto. exists (n :: ks). rewrite E, <- app_assoc. reflexivity.
Qed.
Lemma sets_prefix a b : exists ks, dkeys (sets [] (a ++ b)) = dkeys (sets [] a) ++ ks.
Proof. rewrite sets_app. apply sets_order. Qed.
End REG.
