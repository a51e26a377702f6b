(** onnx_tool/tensor.py:160-181, 251-360, 461-474: the block sparsity search.
    A static tensor of rank 2 or 4 is given by its dimensions [R] x [C] (x [K] spatial positions, 1 for
    rank 2) and the flags [z i j k] "the element counts as zero" ([narray_zero_flag]; 0, or 128 for uint8).
    A ratio is kept as (number of zero blocks, number of blocks); comparisons use the binary64 quotients.
    Dimensions are positive (the search runs on tensors of more than 4096 elements). *)
From Coq Require Import Reals.
From Verif Require Import PyBase FloatPy.
Open Scope nat_scope.

Definition ratio := (nat * nat)%type.
Definition fratio (r : ratio) : R := fdiv_int (Z.of_nat (fst r)) (Z.of_nat (snd r)).
(** [x > ratio - deltar_thres] *)
Definition accepts (base : ratio) (x : ratio) : bool := if Rlt_dec (fsub (fratio base) (fdiv_int 1 10)) (fratio x) then true else false.

Section SEARCH.
Context (R C K : nat) (z : nat -> nat -> nat -> bool) (acc : ratio -> bool).
(** [numpy.sum(flag, axes)] over one block of [a] rows and [b] columns *)
Definition arrsum (a b I J k : nat) : nat :=
  length (filter (fun xy => z (I * a + fst xy) (J * b + snd xy) k) (list_prod (seq 0 a) (seq 0 b))).
(** [(arrsum == a*b).sum() / arrsum.size] after the reshape to blocks *)
Definition block_ratio (a b : nat) : ratio :=
  let blocks := list_prod (list_prod (seq 0 (R / a)) (seq 0 (C / b))) (seq 0 K) in
  (length (filter (fun p => Nat.eqb (arrsum a b (fst (fst p)) (snd (fst p)) (snd p)) (a * b)) blocks), length blocks).

(** the loop's variables *)
Record sstate := { s_size : nat; s_prev0 : bool; s_prev1 : bool; s_r0 : ratio; s_r1 : ratio; s_last : ratio }.
Definition sstart (base : ratio) : sstate := {| s_size := 1; s_prev0 := true; s_prev1 := true; s_r0 := base; s_r1 := base; s_last := base |}.
(** tensor.py:258-292 / 312-346: [initsize] is [2 * s_size]; [None]: break *)
Definition sstep (s : sstate) : option sstate :=
  let n := 2 * s_size s in
  let r1 := block_ratio 1 n in
  let valid1 := s_prev1 s && (C mod n =? 0) && acc r1 in
  let r0 := block_ratio n 1 in
  let valid0 := s_prev0 s && (R mod n =? 0) && acc r0 in
  if negb valid1 && negb valid0 then None
  else Some {| s_size := n; s_prev0 := valid0; s_prev1 := valid1;
               s_r0 := if valid0 then r0 else s_r0 s; s_r1 := if valid1 then r1 else s_r1 s;
               s_last := if valid0 then r0 else if valid1 then r1 else s_last s |}.
(** [while True]; [None]: not finished within the fuel *)
Fixpoint sloop (fuel : nat) (s : sstate) : option sstate :=
  match fuel with
  | 0 => None
  | S f => match sstep s with None => Some s | Some s' => sloop f s' end
  end.
(** tensor.py:294-304 *)
Definition finish2 (s : sstate) : (nat * nat) * ratio :=
  let v := s_size s in
  if s_prev1 s && s_prev0 s && acc (block_ratio v v) then ((v, v), block_ratio v v)
  else ((if s_prev0 s then v else 1, if s_prev1 s then v else 1), s_last s).
(** tensor.py:347-358; [validratio0 > validratio1] *)
Definition finish4 (s : sstate) : (nat * nat) * ratio :=
  let v := s_size s in
  if (1 <? v) && s_prev1 s && s_prev0 s && acc (block_ratio v v) then ((v, v), block_ratio v v)
  else if Rlt_dec (fratio (s_r1 s)) (fratio (s_r0 s)) then ((v, 1), s_r0 s) else ((1, v), s_r1 s).
End SEARCH.

(** tensor.py:251-360 [search_sparse_blocksize] on rank 2 and rank 4, with the ratio of zero elements *)
Definition search2 (R C : nat) (z : nat -> nat -> bool) (fuel : nat) : option ((nat * nat) * ratio) :=
  let zf := fun i j (_ : nat) => z i j in
  let base := block_ratio R C 1 zf 1 1 in
  option_map (finish2 R C 1 zf (accepts base)) (sloop R C 1 zf (accepts base) fuel (sstart base)).
Definition search4 (R C K : nat) (z : nat -> nat -> nat -> bool) (fuel : nat) : option ((nat * nat) * ratio) :=
  let base := block_ratio R C K z 1 1 in
  option_map (finish4 R C K z (accepts base)) (sloop R C K z (accepts base) fuel (sstart base)).
(** tensor.py:461-474 [sparsity_search]: whether the search is made at all *)
Definition searched (R C K : nat) (z : nat -> nat -> nat -> bool) : Prop :=
  4096 < R * C * K /\ (fdiv_int 4 10 < fratio (block_ratio R C K z 1 1))%R.
