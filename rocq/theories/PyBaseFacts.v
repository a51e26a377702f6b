(** Lemmas about [PyBase]. *)
From Verif Require Import PyBase.

Lemma eqb_refl' : forall s, String.eqb s s = true.
Proof. exact String.eqb_refl. Qed.

Ltac seq x y :=
  let E := fresh "E" in
  destruct (String.eqb_spec x y) as [E|E]; [try subst|].

Lemma memb_In : forall x l, memb x l = true <-> In x l.
Proof.
  induction l as [|y r IH]; simpl; [split; [discriminate|tauto]|].
  seq x y; [tauto|]. rewrite IH. split; [tauto|]. intros [H|H]; [congruence|assumption].
Qed.

Lemma memb_nIn : forall x l, memb x l = false <-> ~ In x l.
Proof.
  intros x l. rewrite <- memb_In. destruct (memb x l); split; congruence.
Qed.

Lemma dget_dset_eq : forall A (d : dict A) k v, dget (dset d k v) k = Some v.
Proof.
  induction d as [|[k' v'] r IH]; simpl; intros k v; [now rewrite String.eqb_refl|].
  destruct (String.eqb k k') eqn:E; simpl; rewrite E; auto.
Qed.

Lemma dget_dset_neq : forall A (d : dict A) k k' v, k <> k' -> dget (dset d k v) k' = dget d k'.
Proof.
  induction d as [|[k0 v0] r IH]; simpl; intros k k' v N.
  - seq k' k; congruence.
  - seq k k0; simpl.
    + seq k' k0; [congruence|reflexivity].
    + seq k' k0; auto.
Qed.

Lemma dget_dset : forall A (d : dict A) k k' v,
  dget (dset d k v) k' = if String.eqb k' k then Some v else dget d k'.
Proof.
  intros. seq k' k; [apply dget_dset_eq|apply dget_dset_neq; congruence].
Qed.

Lemma dget_In : forall A (d : dict A) k v, dget d k = Some v -> In (k, v) d.
Proof.
  induction d as [|[k0 v0] r IH]; simpl; intros k v H; [discriminate|].
  seq k k0; [left; congruence|right; auto].
Qed.

Lemma dget_None : forall A (d : dict A) k, dget d k = None <-> ~ In k (dkeys d).
Proof.
  induction d as [|[k0 v0] r IH]; simpl; intros k; [tauto|].
  seq k k0; [split; [discriminate|tauto]|]. rewrite IH. intuition congruence.
Qed.

Lemma dget_Some_keys : forall A (d : dict A) k v, dget d k = Some v -> In k (dkeys d).
Proof.
  intros A d k v H. apply dget_In in H. unfold dkeys. apply in_map_iff. exists (k, v); auto.
Qed.

Lemma In_dget : forall A (d : dict A) k v, NoDup (dkeys d) -> In (k, v) d -> dget d k = Some v.
Proof.
  induction d as [|[k0 v0] r IH]; simpl; intros k v ND H; [tauto|].
  inversion ND as [|? ? N1 N2]; subst.
  destruct H as [H|H].
  - injection H as -> ->. now rewrite String.eqb_refl.
  - seq k k0; [|auto].
    exfalso. apply N1. unfold dkeys. apply in_map_iff. exists (k0, v); auto.
Qed.

Lemma dkeys_dset_in : forall A (d : dict A) k v, In k (dkeys d) -> dkeys (dset d k v) = dkeys d.
Proof.
  induction d as [|[k0 v0] r IH]; simpl; intros k v H; [tauto|].
  seq k k0; simpl; [reflexivity|]. f_equal. apply IH. destruct H; congruence.
Qed.

Lemma dkeys_dset_new : forall A (d : dict A) k v, ~ In k (dkeys d) -> dkeys (dset d k v) = (dkeys d ++ [k])%list.
Proof.
  induction d as [|[k0 v0] r IH]; simpl; intros k v H; [reflexivity|].
  seq k k0; simpl; [tauto|]. f_equal. apply IH. tauto.
Qed.

Lemma dset_new : forall A (d : dict A) k v, ~ In k (dkeys d) -> dset d k v = (d ++ [(k, v)])%list.
Proof.
  induction d as [|[k0 v0] r IH]; simpl; intros k v H; [reflexivity|].
  seq k k0; simpl; [tauto|]. f_equal. apply IH. tauto.
Qed.

Lemma In_dkeys_dset : forall A (d : dict A) k v x, In x (dkeys (dset d k v)) <-> x = k \/ In x (dkeys d).
Proof.
  intros A d k v x. destruct (in_dec string_dec k (dkeys d)) as [H|H].
  - rewrite dkeys_dset_in by assumption. intuition congruence.
  - rewrite dkeys_dset_new by assumption. rewrite in_app_iff. simpl. intuition congruence.
Qed.

Lemma NoDup_snoc : forall A (l : list A) x, NoDup l -> ~ In x l -> NoDup (l ++ [x]).
Proof.
  intros A l x H N.
  induction l as [|y r IH]; simpl.
  - constructor; [tauto|constructor].
  - inversion H; subst. constructor.
    + rewrite in_app_iff; simpl. intros [?|[?|[]]]; subst; tauto || (apply N; left; reflexivity).
    + apply IH; auto. intro; apply N; right; assumption.
Qed.

Lemma NoDup_dkeys_dset : forall A (d : dict A) k v, NoDup (dkeys d) -> NoDup (dkeys (dset d k v)).
Proof.
  intros A d k v H. destruct (in_dec string_dec k (dkeys d)) as [I|I].
  - now rewrite dkeys_dset_in.
  - rewrite dkeys_dset_new by assumption. now apply NoDup_snoc.
Qed.

Lemma dkeys_ddel_In : forall A (d : dict A) k x, In x (dkeys (ddel d k)) -> In x (dkeys d).
Proof.
  induction d as [|[k0 v0] r IH]; simpl; intros k x H; [tauto|].
  destruct (String.eqb k k0); simpl in H; [tauto|]. destruct H; [tauto|right; eauto].
Qed.

Lemma NoDup_dkeys_ddel : forall A (d : dict A) k, NoDup (dkeys d) -> NoDup (dkeys (ddel d k)).
Proof.
  induction d as [|[k0 v0] r IH]; simpl; intros k H; [constructor|].
  inversion H; subst. destruct (String.eqb k k0); simpl; [assumption|].
  constructor; [|auto]. intro X. apply dkeys_ddel_In in X. contradiction.
Qed.

Lemma dget_ddel_eq : forall A (d : dict A) k, NoDup (dkeys d) -> dget (ddel d k) k = None.
Proof.
  induction d as [|[k0 v0] r IH]; simpl; intros k H; [reflexivity|].
  inversion H; subst. seq k k0; simpl.
  - apply dget_None. assumption.
  - seq k k0; [congruence|auto].
Qed.

Lemma dget_ddel_neq : forall A (d : dict A) k k', k <> k' -> dget (ddel d k) k' = dget d k'.
Proof.
  induction d as [|[k0 v0] r IH]; simpl; intros k k' N; [reflexivity|].
  seq k k0; simpl.
  - seq k' k0; [congruence|reflexivity].
  - seq k' k0; auto.
Qed.

Lemma In_remove1 : forall x y l, In x (remove1 y l) -> In x l.
Proof.
  induction l as [|z r IH]; simpl; intros H; [tauto|].
  destruct (String.eqb y z); simpl in H; [tauto|]. destruct H; [tauto|auto].
Qed.

Lemma In_remove1_neq : forall x y l, x <> y -> (In x (remove1 y l) <-> In x l).
Proof.
  induction l as [|z r IH]; simpl; intros H; [tauto|].
  seq y z; simpl; [intuition congruence|]. rewrite IH by assumption. tauto.
Qed.

Lemma In_remove1_NoDup : forall x y l, NoDup l -> (In x (remove1 y l) <-> In x l /\ x <> y).
Proof.
  induction l as [|z r IH]; simpl; intros H; [tauto|].
  inversion H; subst. seq y z; simpl.
  - split; [intros I; split; [tauto|intro; subst; contradiction]|intuition congruence].
  - rewrite IH by assumption. intuition congruence.
Qed.

Lemma NoDup_remove1 : forall y l, NoDup l -> NoDup (remove1 y l).
Proof.
  induction l as [|z r IH]; simpl; intros H; [constructor|].
  inversion H; subst. destruct (String.eqb y z); [assumption|].
  constructor; [intro X; apply In_remove1 in X; contradiction|auto].
Qed.

Lemma count_app : forall x l1 l2, count x (l1 ++ l2) = count x l1 + count x l2.
Proof. induction l1 as [|y r IH]; simpl; intros; [reflexivity|]. rewrite IH. destruct (String.eqb x y); lia. Qed.

Lemma count_pos : forall x l, 0 < count x l <-> In x l.
Proof.
  induction l as [|y r IH]; simpl; [split; [lia|tauto]|].
  seq x y; [split; [tauto|lia]|]. rewrite IH. intuition congruence.
Qed.

Lemma count_zero : forall x l, count x l = 0 <-> ~ In x l.
Proof. intros. rewrite <- count_pos. lia. Qed.

Lemma count_remove1_eq : forall x l, count x (remove1 x l) = pred (count x l).
Proof.
  induction l as [|y r IH]; simpl; [reflexivity|].
  seq x y; [reflexivity|]. simpl. seq x y; [congruence|]. exact IH.
Qed.

Lemma count_remove1_neq : forall x y l, x <> y -> count x (remove1 y l) = count x l.
Proof.
  induction l as [|z r IH]; simpl; intros N; [reflexivity|].
  seq y z; simpl.
  - seq x z; [congruence|reflexivity].
  - rewrite IH by assumption. reflexivity.
Qed.

Lemma NoDup_app_inv : forall A (a b : list A), NoDup (a ++ b) ->
  NoDup a /\ NoDup b /\ (forall x, In x a -> ~ In x b).
Proof.
  induction a as [|x r IH]; simpl; intros b H.
  - repeat split; auto. constructor.
  - inversion H as [|? ? N1 N2]; subst. destruct (IH _ N2) as (K1 & K2 & K3).
    rewrite in_app_iff in N1. repeat split; auto.
    + constructor; tauto.
    + intros y [->|I] J; [tauto|]. exact (K3 _ I J).
Qed.

Lemma NoDup_app_intro : forall A (a b : list A), NoDup a -> NoDup b -> (forall x, In x a -> ~ In x b) -> NoDup (a ++ b).
Proof.
  induction a as [|x r IH]; simpl; intros b H1 H2 H3; [assumption|].
  inversion H1; subst. constructor.
  - rewrite in_app_iff. intros [I|I]; [contradiction|]. apply (H3 x); auto.
  - apply IH; auto.
Qed.
