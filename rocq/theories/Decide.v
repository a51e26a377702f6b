(** Boolean checkers used only to show that concrete examples meet theorem hypotheses. *)
From Verif Require Import PyBase PyBaseFacts GraphModel CompressSpec.

Fixpoint nodupb (l : list string) : bool :=
  match l with [] => true | x :: r => negb (memb x r) && nodupb r end.
Lemma nodupb_ok : forall l, nodupb l = true -> NoDup l.
Proof.
  induction l as [|x r IH]; simpl; intros H; [constructor|].
  apply andb_prop in H. destruct H as [H1 H2]. rewrite negb_true_iff in H1.
  constructor; [apply memb_nIn; assumption|auto].
Qed.

Definition ssa_b (g : graph) : bool := nodupb (named (g_input g ++ outs_of (nodes_of g))).
Lemma ssa_b_ok : forall g, ssa_b g = true -> single_assignment g.
Proof. intros g H. apply nodupb_ok. exact H. Qed.

Definition anon_b (g : graph) : bool :=
  match dget (tensormap g) "" with Some tn => (data_bytes tn <=? 0)%Z | None => true end.
Lemma anon_b_ok : forall g, anon_b g = true -> no_anonymous_data g.
Proof. intros g H tn E. unfold anon_b in H. rewrite E in H. lia. Qed.

Fixpoint topo_go (all seen : list string) (ns : list node) : bool :=
  match ns with
  | [] => true
  | n :: r => forallb (fun t => String.eqb t "" || memb t seen || negb (memb t all)) (n_in n)
              && topo_go all (seen ++ n_out n) r
  end.
Definition topo_b (g : graph) : bool :=
  topo_go (g_input g ++ outs_of (nodes_of g)) (g_input g) (nodes_of g).

Lemma topo_go_ok : forall all ns seen i n t, topo_go all seen ns = true ->
  nth_error ns i = Some n -> In t (n_in n) -> t <> ""%string ->
  In t seen \/ (exists j m, j < i /\ nth_error ns j = Some m /\ In t (n_out m)) \/ ~ In t all.
Proof.
  intros all. induction ns as [|x r IH]; intros seen i n t H E I N; [destruct i; discriminate|].
  cbn [topo_go] in H. apply andb_prop in H. destruct H as [H1 H2].
  destruct i as [|i]; cbn [nth_error] in E.
  - injection E as ->. rewrite forallb_forall in H1. specialize (H1 t I).
    apply orb_prop in H1. destruct H1 as [H1|H1].
    + apply orb_prop in H1. destruct H1 as [H1|H1].
      * apply String.eqb_eq in H1. congruence.
      * left. apply memb_In. assumption.
    + right. right. apply memb_nIn. rewrite negb_true_iff in H1. assumption.
  - destruct (IH _ _ _ _ H2 E I N) as [K|[(j & m & K1 & K2)|K]].
    + apply in_app_iff in K. destruct K as [K|K]; [left; assumption|].
      right. left. exists 0, x. simpl. split; [lia|auto].
    + right. left. exists (S j), m. split; [lia|assumption].
    + right. right. assumption.
Qed.

Lemma topo_b_ok : forall g, topo_b g = true -> topologically_ordered g.
Proof. intros g H i n t E I N. exact (topo_go_ok _ _ _ _ _ _ H E I N). Qed.
