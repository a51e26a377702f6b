(** Node naming at load time. *)
From Coq Require Import DecimalString.
From Verif Require Import PyBase PyBaseFacts GraphModel RegressModel RegressProofs LlmNames EditModel PostOpModel PostOpAttrs LoadModel LoadSpec CompressSpec.
Local Open Scope string_scope.
Local Open Scope nat_scope.
Local Open Scope list_scope.

Lemma last_us : forall b x b' x', has_us x = false -> has_us x' = false -> (b ++ String "_" x = b' ++ String "_" x')%string -> b = b' /\ x = x'.
Proof.
  induction b as [|a b IH]; intros x [|a' b'] x' H H' E; cbn in E.
  - injection E as ->. auto.
  - injection E as <- E. exfalso. rewrite E in H. rewrite us_app in H. cbn in H. rewrite orb_true_r in H. discriminate.
  - injection E as -> E. exfalso. rewrite <- E in H'. rewrite us_app in H'. cbn in H'. rewrite orb_true_r in H'. discriminate.
  - injection E as -> E. destruct (IH _ _ _ H H' E) as [-> ->]. auto.
Qed.
Lemma auto_inj op i op' j : auto_name op i = auto_name op' j -> op = op' /\ i = j.
Proof.
  unfold auto_name. intros E. cbn in E. destruct (last_us _ _ _ _ (dec_nous i) (dec_nous j) E) as [A B]. split; [exact A|apply dec_inj; exact B].
Qed.
Lemma auto_nonempty op i : auto_name op i <> "".
Proof. unfold auto_name. destruct op; discriminate. Qed.

Lemma named_wiring rename ns : forall i, map wiring (named_from rename i ns) = map wiring ns.
Proof. induction ns as [|n r IH]; intros i; [reflexivity|]. cbn [named_from map]. rewrite IH. reflexivity. Qed.
Lemma named_nth rename ns : forall i j, nth_error (named_from rename i ns) j =
  match nth_error ns j with Some n => Some (mkNode (given_name rename (i + j) n) (n_op n) (n_in n) (n_out n)) | None => None end.
Proof.
  induction ns as [|n r IH]; intros i [|j]; cbn [named_from nth_error]; auto; [rewrite Nat.add_0_r; reflexivity|].
  rewrite IH. replace (S i + j) with (i + S j) by lia. reflexivity.
Qed.
Lemma named_all_named rename ns : forall i, Forall (fun n => n_name n <> "") (named_from rename i ns).
Proof.
  induction ns as [|n r IH]; intros i; constructor; [|apply IH]. cbn [n_name]. unfold given_name.
  destruct (String.eqb_spec (n_name n) "") as [E|E]; [rewrite orb_true_r; apply auto_nonempty|].
  rewrite orb_false_r. destruct rename; [apply auto_nonempty|exact E].
Qed.
Lemma named_kept ns : forall i, Forall (fun n => n_name n <> "") ns -> named_from false i ns = ns.
Proof.
  induction ns as [|n r IH]; intros i H; [reflexivity|]. inversion H; subst. cbn [named_from]. rewrite IH by assumption.
  unfold given_name. destruct (String.eqb_spec (n_name n) "") as [E|E]; [contradiction|]. cbn. destruct n; reflexivity.
Qed.

Lemma renamed_NoDup ns : NoDup (map n_name (named_from true 0 ns)).
Proof.
  apply NoDup_nth_error. intros i j Hi E. rewrite !nth_error_map, !named_nth in E. rewrite map_length in Hi.
  assert (Hi' : i < length ns).
  { assert (L := f_equal (@length _) (named_wiring true ns 0)). rewrite !map_length in L. lia. }
  destruct (nth_error ns i) as [n|] eqn:Ei; [|apply nth_error_None in Ei; lia]. cbn [option_map n_name] in E.
  destruct (nth_error ns j) as [m|]; [|discriminate]. cbn [option_map n_name given_name orb] in E. injection E as E. apply auto_inj in E. lia.
Qed.

(** the node table *)
Definition keyed (ns : list node) : dict node := map (fun n => (n_name n, n)) ns.
Lemma keyed_keys ns : dkeys (keyed ns) = map n_name ns.
Proof. unfold dkeys, keyed. rewrite map_map. reflexivity. Qed.
Lemma keyed_nodes ns : map snd (keyed ns) = ns.
Proof. unfold keyed. rewrite map_map. apply map_id. Qed.
Lemma load_fst ns : forall nm pc, fst (fold_left load_node ns (nm, pc)) = fold_left (fun d n => dset d (n_name n) n) ns nm.
Proof. induction ns as [|n r IH]; intros; [reflexivity|]. cbn [fold_left load_node fst snd]. apply IH. Qed.
Lemma load_snd ns : forall nm pc, snd (fold_left load_node ns (nm, pc)) = fold_left upd_node ns pc.
Proof. induction ns as [|n r IH]; intros; [reflexivity|]. cbn [fold_left load_node fst snd]. apply IH. Qed.
Lemma dset_all_app ns : forall d, NoDup (dkeys d ++ map n_name ns) -> fold_left (fun d n => dset d (n_name n) n) ns d = d ++ keyed ns.
Proof.
  induction ns as [|n r IH]; intros d H; cbn [fold_left keyed map]; [rewrite app_nil_r; reflexivity|].
  assert (N : ~ In (n_name n) (dkeys d)).
  { intros I. cbn [map] in H. apply NoDup_remove_2 in H. apply H. apply in_app_iff. left. exact I. }
  rewrite dset_new by exact N. rewrite IH; [unfold keyed; rewrite <- app_assoc; reflexivity|].
  unfold dkeys in *. rewrite map_app. cbn [map fst]. rewrite <- app_assoc. exact H.
Qed.
Lemma dset_all_keys ns : forall d, incl (dkeys (fold_left (fun d n => dset d (n_name n) n) ns d)) (dkeys d ++ map n_name ns) /\
  incl (dkeys d ++ map n_name ns) (dkeys (fold_left (fun d n => dset d (n_name n) n) ns d)) /\
  (NoDup (dkeys d) -> NoDup (dkeys (fold_left (fun d n => dset d (n_name n) n) ns d))).
Proof.
  induction ns as [|n r IH]; intros d; cbn [fold_left map].
  - rewrite app_nil_r. repeat split; auto using incl_refl.
  - destruct (IH (dset d (n_name n) n)) as (A & B & C). split; [|split].
    + intros x I. apply A in I. apply in_app_iff in I. apply in_app_iff. cbn [In]. destruct I as [I|I]; [|tauto]. apply In_dkeys_dset in I. destruct I as [->|I]; auto.
    + intros x I. apply B. apply in_app_iff. apply in_app_iff in I. cbn [In] in I. rewrite In_dkeys_dset. intuition.
    + intros H. apply C. apply NoDup_dkeys_dset. exact H.
Qed.
Lemma loaded_nodes rename ns : NoDup (map n_name (named_from rename 0 ns)) ->
  load_nodes rename ns = (keyed (named_from rename 0 ns), fold_left upd_node (named_from rename 0 ns) ([], [])).
Proof.
  intros H. unfold load_nodes. rewrite (surjective_pairing (fold_left _ _ _)), load_fst, load_snd, dset_all_app by exact H. reflexivity.
Qed.
(** all nodes survive exactly when no name is used twice *)
Lemma loaded_count rename ns : length (fst (load_nodes rename ns)) = length ns <-> NoDup (map n_name (named_from rename 0 ns)).
Proof.
  assert (L : length (map n_name (named_from rename 0 ns)) = length ns).
  { assert (L := f_equal (@length _) (named_wiring rename ns 0)). rewrite !map_length in L. rewrite map_length. exact L. }
  split.
  - intros H. unfold load_nodes in H. rewrite load_fst in H. destruct (dset_all_keys (named_from rename 0 ns) []) as (A & B & C).
    specialize (C (NoDup_nil _)). cbn [dkeys map app] in A, B. apply NoDup_incl_NoDup with (l := dkeys (fold_left (fun d n => dset d (n_name n) n) (named_from rename 0 ns) [])).
    + exact C.
    + rewrite L. unfold dkeys. rewrite map_length. lia.
    + exact A.
  - intros H. rewrite loaded_nodes by exact H. cbn [fst]. unfold keyed. rewrite map_length, <- L, map_length. reflexivity.
Qed.
