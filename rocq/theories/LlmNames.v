(** Facts about dotted names. *)
From Coq Require Import DecimalString Decimal.
From Verif Require Import PyBase PyBaseFacts ShapeModel RegressModel RegressProofs.
Open Scope string_scope.

Fixpoint has_dot (s : string) : bool := match s with EmptyString => false | String a r => Ascii.eqb a "."%char || has_dot r end.
Lemma has_dot_app a b : has_dot (a ++ b) = has_dot a || has_dot b.
Proof. induction a as [|x a IH]; cbn; [reflexivity|]. rewrite IH, orb_assoc. reflexivity. Qed.
Lemma app_assoc_s (a b c : string) : (a ++ b) ++ c = a ++ (b ++ c).
Proof. induction a as [|x a IH]; cbn; [reflexivity|]. rewrite IH. reflexivity. Qed.
Lemma app_inj_l (a b c : string) : a ++ b = a ++ c -> b = c.
Proof. induction a as [|x a IH]; cbn; intros H; [exact H|]. injection H as H. auto. Qed.
Lemma last_dot b x b' x' : has_dot x = false -> has_dot x' = false -> b ++ String "." x = b' ++ String "." x' -> b = b' /\ x = x'.
Proof.
  intros D D'. revert b'. induction b as [|a b IH]; intros [|a' b'] E; cbn in E.
  - injection E as ->. auto.
  - injection E as <- E. exfalso. rewrite E, has_dot_app in D. cbn in D. rewrite orb_true_r in D. discriminate.
  - injection E as -> E. exfalso. rewrite <- E, has_dot_app in D'. cbn in D'. rewrite orb_true_r in D'. discriminate.
  - injection E as -> E. destruct (IH _ E) as [-> ->]. auto.
Qed.
Lemma first_dot x b x' b' : has_dot x = false -> has_dot x' = false -> x ++ String "." b = x' ++ String "." b' -> x = x' /\ b = b'.
Proof.
  revert x'. induction x as [|a x IH]; intros [|a' x'] D D' E; cbn in E, D, D'.
  - injection E as ->. auto.
  - injection E as <- E. discriminate.
  - injection E as -> E. discriminate.
  - injection E as -> E. apply orb_false_elim in D as [_ D]. apply orb_false_elim in D' as [_ D']. destruct (IH _ D D' E) as [-> ->]. auto.
Qed.
Lemma dec_nodot n : has_dot (dec n) = false.
Proof.
  unfold dec. assert (H : forall d, has_dot (NilEmpty.string_of_uint d) = false) by (induction d; cbn in *; auto).
  destruct (Nat.to_uint n) as [|d|d|d|d|d|d|d|d|d|d]; cbn; auto.
Qed.
Lemma prefix_app a b : String.prefix a (a ++ b) = true.
Proof. induction a as [|x a IH]; cbn; [destruct b; reflexivity|]. destruct (Ascii.ascii_dec x x); [exact IH|contradiction]. Qed.

(** what the builder appends to a base name *)
Definition exts : list string := [".output"; ".weight"; ".bias"; ".start"; ".end"; ".axis"; ".step"; ".cos"; ".sin"].
Lemma ext_dot e : In e exts -> exists x, e = String "." x /\ has_dot x = false.
Proof. intros I. cbn in I. repeat (destruct I as [<-|I]; [eexists; split; reflexivity|]). contradiction. Qed.
Lemma ext_inj b e b' e' : In e exts -> In e' exts -> b ++ e = b' ++ e' -> b = b' /\ e = e'.
Proof. intros I I' E. destruct (ext_dot e I) as (x & -> & D), (ext_dot e' I') as (x' & -> & D'). destruct (last_dot b x b' x' D D' E) as [-> ->]. auto. Qed.
Lemma ext_has_dot b e : In e exts -> has_dot (b ++ e) = true.
Proof. intros I. destruct (ext_dot e I) as (x & -> & _). rewrite has_dot_app. cbn. apply orb_true_r. Qed.
Lemma layer_inj root i b j b' : root ++ dec i ++ "." ++ b = root ++ dec j ++ "." ++ b' -> i = j /\ b = b'.
Proof. intros E. apply app_inj_l in E. cbn in E. destruct (first_dot _ _ _ _ (dec_nodot i) (dec_nodot j) E) as [A B]. split; [apply dec_inj; exact A|exact B]. Qed.
