From Verif Require Import PyBase PyBaseFacts ShapeModel FusionModel FusionProofs ExportModel ConvBNProofs.
Open Scope string_scope. Open Scope list_scope.

Lemma app_pref_inj a b c : (a ++ b = a ++ c)%string -> b = c.
Proof. induction a as [|x a IH]; cbn; [auto|]. intros H. injection H as H. auto. Qed.
Lemma replace_no c d s : c <> d -> has_char c (replace_char c d s) = false.
Proof.
  intros D. induction s as [|a s IH]; cbn; [reflexivity|]. rewrite IH, orb_false_r. destruct (Ascii.eqb_spec a c) as [->|N].
  - apply Ascii.eqb_neq; auto.
  - apply Ascii.eqb_neq; auto.
Qed.
Lemma has_char_app c a b : has_char c (a ++ b) = (has_char c a || has_char c b)%bool.
Proof. induction a as [|x a IH]; cbn; [reflexivity|]. rewrite IH. apply orb_assoc. Qed.
Lemma replace_id c d s : has_char c s = false -> replace_char c d s = s.
Proof.
  induction s as [|a s IH]; cbn; [reflexivity|]. intros H. apply orb_false_elim in H as [H1 H2]. rewrite H1, IH by auto. reflexivity.
Qed.
Lemma file_name_nob k : has_char bslash k = false -> file_name k = (replace_char slash under k ++ ".npy")%string.
Proof.
  intros H. unfold file_name. rewrite H. destruct (has_char slash k) eqn:E; [reflexivity|]. rewrite replace_id by auto. reflexivity.
Qed.
Lemma file_name_noslash k : has_char bslash k = false -> has_char slash (file_name k) = false.
Proof.
  intros H. rewrite file_name_nob by auto. rewrite has_char_app, replace_no by discriminate. reflexivity.
Qed.
Lemma file_name_noslash2 k : has_char slash k = false -> has_char slash (file_name k) = false.
Proof.
  intros H. unfold file_name. rewrite H. destruct (has_char bslash k).
  - rewrite has_char_app. rewrite orb_false_r || idtac. replace (has_char slash (replace_char bslash under k)) with false; [reflexivity|].
    symmetry. revert H. induction k as [|a k IH]; cbn; [auto|]. intros H. apply orb_false_elim in H as [H1 H2]. rewrite IH by auto.
    rewrite orb_false_r. destruct (Ascii.eqb a bslash); [reflexivity|exact H1].
  - rewrite has_char_app, H. reflexivity.
Qed.
Lemma join_relative folder f : has_char slash f = false ->
  path_join folder f = (match folder with EmptyString => f | _ => if ends_slash folder then folder ++ f else folder ++ "/" ++ f end)%string.
Proof.
  intros H. unfold path_join. destruct f as [|a f]; [reflexivity|]. cbn in H. apply orb_false_elim in H as [H _].
  destruct a as [[] [] [] [] [] [] [] []]; try reflexivity. discriminate.
Qed.
Lemma join_inj folder f g : has_char slash f = false -> has_char slash g = false -> path_join folder f = path_join folder g -> f = g.
Proof.
  intros Hf Hg. rewrite !join_relative by auto. destruct folder as [|a r]; [auto|].
  destruct (ends_slash (String a r)); intros H; apply app_pref_inj in H; [exact H|]. cbn in H. injection H as H. exact H.
Qed.

Section EXPORT.
Context {A : Type} (accept : string -> bool) (conv : A -> A).
Lemma save_all_spec vals folder : forall keys fs fs', save_all accept conv vals folder keys fs = SOk fs' ->
  (forall k, In k keys -> accept (path_join folder (file_name k)) = true /\ exists v, dget vals k = Some v) /\
  (forall p, (forall k, In k keys -> path_join folder (file_name k) <> p) -> dget fs' p = dget fs p) /\
  (forall a k b v, keys = a ++ k :: b -> (forall j, In j b -> path_join folder (file_name j) <> path_join folder (file_name k)) ->
     dget vals k = Some v -> dget fs' (path_join folder (file_name k)) = Some (conv v)).
Proof.
  induction keys as [|k keys IH]; intros fs fs' H; cbn [save_all] in H.
  - injection H as <-. split; [intros k []|]. split; [auto|]. intros [|? a] k b v E; discriminate.
  - apply sbind_ok in H as (v & Hv & H). apply dlook_ok in Hv. destruct (accept _) eqn:Ac; [|discriminate].
    destruct (IH _ _ H) as (I1 & I2 & I3). split; [|split].
    + intros j [<-|Hj]; [split; [exact Ac|exists v; exact Hv]|apply I1; exact Hj].
    + intros p Hp. rewrite I2 by (intros j Hj; apply Hp; right; exact Hj). apply dget_dset_neq. apply Hp. left; reflexivity.
    + intros [|x a] j b w E D Hw; injection E as <- E.
      * subst b. rewrite Hv in Hw. injection Hw as <-. rewrite I2 by exact D. apply dget_dset_eq.
      * apply (I3 a j b w E D Hw).
Qed.
Lemma save_all_ok vals folder : forall keys fs, (forall k, In k keys -> accept (path_join folder (file_name k)) = true /\ exists v, dget vals k = Some v) ->
  exists fs', save_all accept conv vals folder keys fs = SOk fs'.
Proof.
  induction keys as [|k keys IH]; intros fs H; cbn [save_all]; [eauto|]. destruct (H k (or_introl eq_refl)) as [Ac [v Hv]].
  unfold dlook. rewrite Hv. cbn [sbind]. rewrite Ac. apply IH. intros j Hj. apply H. right; exact Hj.
Qed.
End EXPORT.
