(** Concrete graphs used by the non-vacuity examples. *)
From Verif Require Import PyBase PyBaseFacts GraphModel CompressModel CompressSpec CompressTop ExecModel Decide RelProofs TopSortModel TopSortSpec OrderSpec.
Local Open Scope string_scope.
Local Open Scope Z_scope.

Definition dyn (sh : list Z) : tensor := mkTensor DYNAMIC sh 4.
Definition relate (g : graph) : graph := update_consumer_producer g.

(** x,w -> a ; a -> b ; a,b -> c ; c -> y  (w is a weight) *)
Definition demo : graph := relate (mkGraph
  [("n1", mkNode "n1" "MatMul" ["x"; "w"] ["a"]); ("n2", mkNode "n2" "Relu" ["a"] ["b"]);
   ("n3", mkNode "n3" "Add" ["a"; "b"] ["c"]); ("n4", mkNode "n4" "Relu" ["c"] ["y"])]
  [("x", dyn [1; 100]); ("w", mkTensor STATIC [100; 50] 4); ("a", dyn [1; 50]); ("b", dyn [1; 50]); ("c", dyn [1; 50]); ("y", dyn [1; 50])]
  [] [] ["w"] ["x"; "a"; "b"; "c"; "y"] ["x"] ["y"]).

Lemma demo_wf : wf_plan_input demo.
Proof.
  split; [apply ssa_b_ok; vm_compute; reflexivity|]. split; [apply ucp_consumers_exact|].
  apply anon_b_ok. vm_compute. reflexivity.
Qed.
Lemma demo_topo : topologically_ordered demo.
Proof. apply topo_b_ok. vm_compute. reflexivity. Qed.

Definition demo_size (t : string) : nat :=
  match dget (tensormap demo) t with Some tn => Z.to_nat (data_bytes tn) | None => 0%nat end.
(** every operator returns bytes depending on all operand bytes *)
Definition demo_sem (size : string -> nat) (n : node) (ins : list bytes) : list bytes :=
  map (fun t => repeat (fold_left Z.add (concat ins) 1 mod 251) (size t)) (n_out n).

(** the same graph with its nodes listed in a non-executable order *)
Definition demo_shuffled : graph := relate (mkGraph
  [("n4", mkNode "n4" "Relu" ["c"] ["y"]); ("n3", mkNode "n3" "Add" ["a"; "b"] ["c"]);
   ("n1", mkNode "n1" "MatMul" ["x"; "w"] ["a"]); ("n2", mkNode "n2" "Relu" ["a"] ["b"])]
  (tensormap demo) [] [] ["w"] ["x"; "a"; "b"; "c"; "y"] ["x"] ["y"]).

(** x -> y ; y -> z ; z -> w, with y declared as an output as well as w *)
Definition demo_out : graph := relate (mkGraph
  [("m1", mkNode "m1" "Relu" ["x"] ["y"]); ("m2", mkNode "m2" "Relu" ["y"] ["z"]); ("m3", mkNode "m3" "Relu" ["z"] ["w"])]
  [("x", dyn [4]); ("y", dyn [4]); ("z", dyn [4]); ("w", dyn [4])]
  [] [] [] ["y"; "z"; "w"] ["x"] ["y"; "w"]).
Lemma demo_out_wf : wf_plan_input demo_out.
Proof.
  split; [apply ssa_b_ok; vm_compute; reflexivity|]. split; [apply ucp_consumers_exact|].
  apply anon_b_ok. vm_compute. reflexivity.
Qed.

(** boolean check of [unique_producers] and a rank check of [acyclic] *)
Definition uniq_b (nm : dict node) : bool := nodupb (map fst nm) && nodupb (flat_map (fun kn => n_out (snd kn)) nm).
Lemma uniq_b_ok : forall nm, uniq_b nm = true -> unique_producers nm.
Proof. intros nm H. apply andb_prop in H. destruct H. split; apply nodupb_ok; assumption. Qed.

Definition feeds_b (na nb : node) : bool := existsb (fun t => memb t (n_in nb)) (n_out na).
Definition rank_b (rk : string -> nat) (nm : dict node) : bool :=
  forallb (fun a => forallb (fun b => negb (feeds_b (snd a) (snd b)) || Nat.ltb (rk (fst a)) (rk (fst b))) nm) nm.
Lemma rank_b_ok : forall rk nm, rank_b rk nm = true -> acyclic nm.
Proof.
  intros rk nm H. exists rk. intros a b (na & nb & t & Ia & Ib & Ta & Tb).
  unfold rank_b in H. rewrite forallb_forall in H. specialize (H _ Ia). rewrite forallb_forall in H. specialize (H _ Ib).
  cbn [fst snd] in H. apply orb_prop in H. destruct H as [H|H].
  - exfalso. rewrite negb_true_iff in H. unfold feeds_b in H.
    assert (existsb (fun t => memb t (n_in nb)) (n_out na) = true); [|congruence].
    apply existsb_exists. exists t. split; [exact Ta|]. apply memb_In. exact Tb.
  - apply Nat.ltb_lt. exact H.
Qed.
Definition demo_rank (k : string) : nat :=
  if String.eqb k "n1" then 0 else if String.eqb k "n2" then 1 else if String.eqb k "n3" then 2 else 3.

Fixpoint respects_b (ns : list node) : bool :=
  match ns with
  | [] => true
  | n :: r => forallb (fun t => String.eqb t "" || negb (memb t (outs_of (n :: r)))) (n_in n) && respects_b r
  end.
Lemma respects_b_ok : forall ns, respects_b ns = true -> respects_deps ns.
Proof.
  induction ns as [|x r IH]; intros H a n b t E I N; [destruct a; discriminate|].
  cbn [respects_b] in H. apply andb_prop in H. destruct H as [H1 H2].
  destruct a as [|y a]; cbn [app] in E.
  - injection E as -> ->. rewrite forallb_forall in H1. specialize (H1 t I). apply orb_prop in H1.
    destruct H1 as [H1|H1]; [apply String.eqb_eq in H1; congruence|]. apply memb_nIn. rewrite negb_true_iff in H1. exact H1.
  - injection E as -> E. exact (IH H2 a n b t E I N).
Qed.
