(** C100: shapes of Einsum results. *)
From Verif Require Import PyBase GraphModel ShapeModel ShapeSpec EinsumModel EinsumSpec EinsumProofs.
From Coq Require Import String Ascii List Lia Sorting.Sorted.
Import ListNotations.
Open Scope list_scope. Open Scope Z_scope.
Notation text := list_ascii_of_string.

Lemma low : forall c, (Nat.leb 97 (nat_of_ascii c) && Nat.leb (nat_of_ascii c) 122)%bool = true -> letter c.
Proof. intros c H. apply andb_prop in H as [A B]. right. split; apply Nat.leb_le; auto. Qed.

Theorem C100_einsum_partial : forall s ins out shs els E d,
  explicit_equation s ins out -> good_terms ins out -> (forall t, In t (out :: ins) -> dots_first t) ->
  einsum_operands d ins shs els E -> Forall positive shs ->
  einsum_shape s shs = SOk (result_dims d E out).
Proof. exact einsum_explicit. Qed.

(** hypotheses met: batched matrix product with broadcast batch dimensions *)
Definition demo_ins := [dotted [] ["i"; "j"]; dotted [] ["j"; "k"]]%char.
Definition demo_out := dotted [] ["i"; "k"]%char.
Definition demo_d (c : ascii) : Z := if Ascii.eqb c "i" then 2 else if Ascii.eqb c "j" then 3 else if Ascii.eqb c "k" then 4 else 1.
Example C100_einsum_case :
  explicit_equation (text "...ij, ...jk -> ...ik") demo_ins demo_out /\ good_terms demo_ins demo_out /\
  einsum_operands demo_d demo_ins [[7; 2; 3]; [5; 1; 3; 4]] [[7]; [5; 1]] [5; 7] /\
  einsum_shape (text "...ij, ...jk -> ...ik") [[7; 2; 3]; [5; 1; 3; 4]] = SOk [5; 7; 2; 4].
Proof.
  split; [reflexivity|]. split.
  { split; [easy|]. split; [|split].
    - intros t [<-|[<-|[<-|[]]]]; cbn [labels_of app]; repeat (apply Forall_cons; [apply low; reflexivity|]); apply Forall_nil.
    - intros c [<-|[<-|[]]]; [exists (dotted [] ["i"; "j"]%char)|exists (dotted [] ["j"; "k"]%char)]; cbn; auto.
    - split; [|intros _; exact Logic.I]. intros _. exists (dotted [] ["i"; "j"]%char). split; [left; auto|exact Logic.I]. }
  split; [|reflexivity].
  split; [reflexivity|]. split; [reflexivity|]. split; [|split].
  - intros k t sh ell K1 K2 K3. destruct k as [|[|k]]; cbn in *; [| |destruct k; discriminate]; inversion K1; inversion K2; inversion K3; subst; exists [].
    + exists [2; 3]. repeat constructor.
    + exists [3; 4]. repeat constructor.
  - intros c N (t & [<-|[<-|[]]] & [<-|[<-|[]]]).
    + exists 0%nat, (dotted [] ["i"; "j"]%char), [7; 2; 3], [7], 0%nat. repeat split.
    + exists 0%nat, (dotted [] ["i"; "j"]%char), [7; 2; 3], [7], 1%nat. repeat split.
    + exists 0%nat, (dotted [] ["i"; "j"]%char), [7; 2; 3], [7], 1%nat. repeat split.
    + exists 1%nat, (dotted [] ["j"; "k"]%char), [5; 1; 3; 4], [5; 1], 1%nat. repeat split.
  - split; [|split; [|split]].
    + intros x [<-|[<-|[]]]; cbn; lia.
    + easy.
    + intros _. exists [5; 1]. cbn. auto.
    + intros [|[|i]] Hi; cbn in Hi; try lia; (split; [intros x [<-|[<-|[]]]; cbn; auto|cbn; auto]).
Qed.

(** without "->": the labels that occur once, in alphabetical order, after the broadcast dimensions *)
Theorem C100_einsum_implicit_partial : forall s ins L shs els E d,
  implicit_equation s ins -> ins <> [] -> (forall t, In t ins -> Forall letter (labels_of t) /\ dots_first t) -> implicit_labels ins L ->
  einsum_operands d ins shs els E -> Forall positive shs ->
  einsum_shape s shs = SOk (E ++ map d L).
Proof. exact einsum_implicit. Qed.
Example C100_einsum_implicit_case : implicit_equation (text "bj, ja") [plain ["b"; "j"]; plain ["j"; "a"]]%char /\
  implicit_labels [plain ["b"; "j"]; plain ["j"; "a"]]%char ["a"; "b"]%char /\ einsum_shape (text "bj, ja") [[2; 3]; [3; 4]] = SOk [4; 2].
Proof.
  split; [reflexivity|]. split; [|reflexivity]. split.
  - repeat constructor; apply Nat.ltb_lt; reflexivity.
  - intros c. unfold occurs_once. cbn [flat_map labels_of app count_occ In].
    destruct (ascii_dec "b" c) as [<-|Nb]; [cbn; intuition|].
    destruct (ascii_dec "j" c) as [<-|Nj]; [cbn; split; [intros [?|[?|[]]]; discriminate|discriminate]|].
    destruct (ascii_dec "a" c) as [<-|Na]; [cbn; intuition|]. split; [intros [?|[?|[]]]; easy|discriminate].
Qed.

(** operands without a term, or with fewer dimensions than labels, are rejected *)
Theorem C100_einsum_rejects : forall s ins out shs, explicit_equation s ins out -> good_terms ins out ->
  ((length ins < length shs)%nat \/ exists k l sh, nth_error ins k = Some (plain l) /\ nth_error shs k = Some sh /\ (length sh < length l)%nat) ->
  forall r, einsum_shape s shs <> SOk r.
Proof.
  intros s ins out shs Eq G H r R. destruct (einsum_ok_entries _ _ _ _ _ (parse_explicit _ _ _ Eq G) R) as (a & A).
  destruct H as [H|(k & l & sh & K1 & K2 & L)].
  - eapply all_entries_extra; [|exact A]. rewrite map_length. auto.
  - eapply (all_entries_short ins shs k l sh); eauto. destruct G as (_ & F & _). intros; apply F; right; auto.
Qed.
Example C100_einsum_rejects_case : einsum_shape (text "ij->ji") [[2]] = SRaise IndexErr /\ einsum_shape (text "i->i") [[2]; [2]] = SRaise IndexErr /\ einsum_shape (text "i->i->i") [[2]] = SRaise ValueErr.
Proof. repeat split. Qed.

(** Labels before the ellipsis: they are taken for broadcast dimensions and reappear with size 1. *)
Theorem C100_einsum_prefix_refuted : exists s ins out shs els E d, explicit_equation s ins out /\ good_terms ins out /\
  einsum_operands d ins shs els E /\ Forall positive shs /\
  einsum_shape s shs = SOk [2; 3; 1] /\ result_dims d E out = [2; 3].
Proof.
  exists (text "a...->a..."), [dotted ["a"] []]%char, (dotted ["a"] [])%char, [[2; 3]], [[3]], [3], (fun _ => 2).
  split; [reflexivity|]. split.
  { split; [easy|]. split; [|split].
    - intros t [<-|[<-|[]]]; cbn [labels_of app]; repeat (apply Forall_cons; [apply low; reflexivity|]); apply Forall_nil.
    - intros c [<-|[]]. exists (dotted ["a"] [])%char. cbn; auto.
    - split; [|intros _; exact Logic.I]. intros _. exists (dotted ["a"] [])%char. split; [left; auto|exact Logic.I]. }
  split; [|split; [repeat constructor|split; reflexivity]].
  split; [reflexivity|]. split; [reflexivity|]. split; [|split].
  - intros [|[|k]] t sh ell K1 K2 K3; cbn in *; try discriminate. inversion K1; inversion K2; inversion K3; subst. exists [2], []. repeat constructor.
  - intros c N (t & [<-|[]] & [<-|[]]). exists 0%nat, (dotted ["a"] [])%char, [2; 3], [3], 0%nat. repeat split.
  - split; [|split; [|split]].
    + intros x [<-|[]]; cbn; lia.
    + easy.
    + intros _. exists [3]. cbn. auto.
    + intros [|i] Hi; cbn in Hi; try lia. split; [intros x [<-|[]]; cbn; auto|cbn; auto].
Qed.
(** An ellipsis that does not come first in the result is moved to the front. *)
Theorem C100_einsum_result_order_refuted : exists s ins out shs els E d, explicit_equation s ins out /\ good_terms ins out /\
  (forall t, In t ins -> dots_first t) /\ einsum_operands d ins shs els E /\ Forall positive shs /\
  einsum_shape s shs = SOk [2; 3] /\ result_dims d E out = [3; 2].
Proof.
  exists (text "...a->a..."), [dotted [] ["a"]]%char, (dotted ["a"] [])%char, [[2; 3]], [[2]], [2], (fun _ => 3).
  split; [reflexivity|]. split.
  { split; [easy|]. split; [|split].
    - intros t [<-|[<-|[]]]; cbn [labels_of app]; repeat (apply Forall_cons; [apply low; reflexivity|]); apply Forall_nil.
    - intros c [<-|[]]. exists (dotted [] ["a"])%char. cbn; auto.
    - split; [|intros _; exact Logic.I]. intros _. exists (dotted [] ["a"])%char. split; [left; auto|exact Logic.I]. }
  split; [intros t [<-|[]]; reflexivity|].
  split; [|split; [repeat constructor|split; reflexivity]].
  split; [reflexivity|]. split; [reflexivity|]. split; [|split].
  - intros [|[|k]] t sh ell K1 K2 K3; cbn in *; try discriminate. inversion K1; inversion K2; inversion K3; subst. exists [], [3]. repeat constructor.
  - intros c N (t & [<-|[]] & [<-|[]]). exists 0%nat, (dotted [] ["a"])%char, [2; 3], [2], 0%nat. repeat split.
  - split; [|split; [|split]].
    + intros x [<-|[]]; cbn; lia.
    + easy.
    + intros _. exists [2]. cbn. auto.
    + intros [|i] Hi; cbn in Hi; try lia. split; [intros x [<-|[]]; cbn; auto|cbn; auto].
Qed.
(** Operands whose sizes contradict each other, and operands with more dimensions than labels, are accepted. *)
Theorem C100_einsum_mismatch_refuted :
  (einsum_shape (text "ij,jk->ik") [[2; 3]; [5; 4]] = SOk [2; 4] /\
   forall d els E, ~ einsum_operands d [plain ["i"; "j"]; plain ["j"; "k"]]%char [[2; 3]; [5; 4]] els E) /\
  (einsum_shape (text "ij->ij") [[2; 3; 4]] = SOk [2; 3] /\ forall d els E, ~ einsum_operands d [plain ["i"; "j"]]%char [[2; 3; 4]] els E).
Proof.
  split; (split; [reflexivity|]); intros d els E (_ & L & F & _).
  - destruct els as [|e0 [|e1 [|]]]; try discriminate.
    destruct (F 0%nat _ _ _ eq_refl eq_refl eq_refl) as [H0 _]. destruct (F 1%nat _ _ _ eq_refl eq_refl eq_refl) as [H1 _].
    inversion H0 as [|? ? ? ? _ T0]; subst. inversion T0 as [|? ? ? ? J0 _]; subst. inversion H1 as [|? ? ? ? J1 _]; subst. lia.
  - destruct els as [|e0 [|]]; try discriminate. destruct (F 0%nat _ _ _ eq_refl eq_refl eq_refl) as [H0 _].
    inversion H0 as [|? ? ? ? _ T0]; subst. inversion T0 as [|? ? ? ? _ T1]; subst. inversion T1.
Qed.
(** An operand with fewer dimensions than its term has labels is accepted: the labels wrap round to the front of the shape. *)
Theorem C100_einsum_short_operand_refuted :
  einsum_shape (text "...ijk->...ijk") [[5; 7]] = SOk [5; 7; 5; 7] /\
  forall d els E, ~ einsum_operands d [dotted [] ["i"; "j"; "k"]]%char [[5; 7]] els E.
Proof.
  split; [reflexivity|]. intros d els E (_ & L & F & _). destruct els as [|e [|]]; try discriminate.
  destruct (F 0%nat _ _ _ eq_refl eq_refl eq_refl) as (da & db & H0 & _ & H1).
  assert (G := H1); do 3 (inversion G as [|? ? ? ? _ G1]; subst; clear G; rename G1 into G); inversion G; subst. apply (f_equal (@length Z)) in H0. rewrite !app_length in H0. cbn [length] in *. lia.
Qed.
(** A label of size 0 broadcast against 1 gets size 1. *)
Theorem C100_einsum_empty_refuted : exists shs d, einsum_operands d [plain ["i"]; plain ["i"]]%char shs [[]; []] [] /\
  einsum_shape (text "i,i->i") shs = SOk [1] /\ result_dims d [] (plain ["i"]%char) = [0].
Proof.
  exists [[0]; [1]], (fun _ => 0). split; [|split; reflexivity].
  split; [reflexivity|]. split; [reflexivity|]. split; [|split].
  - intros [|[|[|k]]] t sh ell K1 K2 K3; cbn in *; try discriminate; inversion K1; inversion K2; inversion K3; subst; split; auto; apply Forall2_cons; auto.
  - intros c N (t & [<-|[<-|[]]] & [<-|[]]); exists 0%nat, (plain ["i"]%char), [0], [], 0%nat; repeat split.
  - split; [|split; [|split]].
    + intros x [<-|[<-|[]]]; cbn; lia.
    + easy.
    + intros _. exists []. cbn. auto.
    + intros i Hi; cbn in Hi; lia.
Qed.
