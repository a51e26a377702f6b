(** What a block-sparsity report should mean (independent of the search): cut an [R] x [C] (x [K]) tensor into
    blocks of [a] x [b] elements, and count the blocks all of whose elements are zero. *)
From Verif Require Import PyBase FloatPy SparseModel.
Open Scope nat_scope.
Definition zero_block (z : nat -> nat -> nat -> bool) (a b I J k : nat) : bool :=
  forallb (fun x => forallb (fun y => z (I * a + x) (J * b + y) k) (seq 0 b)) (seq 0 a).
Definition grid (R C K a b : nat) : list (nat * nat * nat) := list_prod (list_prod (seq 0 (R / a)) (seq 0 (C / b))) (seq 0 K).
Definition true_ratio (R C K : nat) z (a b : nat) : ratio :=
  (length (filter (fun p => zero_block z a b (fst (fst p)) (snd (fst p)) (snd p)) (grid R C K a b)), (R / a) * (C / b) * K).
(** fractions as rationals *)
Definition frac_le (x y : ratio) : Prop := fst x * snd y <= fst y * snd x.
