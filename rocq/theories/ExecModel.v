(** Two executions of a graph: with one private buffer per tensor, and with all
    planned tensors living in one shared byte pool at the offsets chosen by
    [compress_memory].  This is the contract under which inference/infer.py:90-135,
    161-180 and 668-686 use the plan: tensors with a block are views into the pool,
    everything else (weights, scalars) lives outside.  Simplified: an operator is an
    arbitrary function from operand bytes to result bytes; it reads all operands,
    then writes its results one after the other. *)
From Verif Require Import PyBase GraphModel CompressSpec.
Local Open Scope Z_scope.

Notation bytes := (list Z).
Definition env := string -> bytes.
Definition upd (e : env) (t : string) (v : bytes) : env := fun u => if String.eqb u t then v else e u.

(** private buffers *)
Definition look_private (e : env) (t : string) : bytes := if String.eqb t "" then [] else e t.
Definition write_private (e : env) (tv : string * bytes) : env := upd e (fst tv) (snd tv).

(** one shared pool *)
Definition store := Z -> Z.
Definition read_range (st : store) (o : Z) (n : nat) : bytes := map (fun k => st (o + Z.of_nat k)) (seq 0 n).
Definition write_range (st : store) (o : Z) (v : bytes) : store :=
  fun a => if (o <=? a) && (a <? o + Z.of_nat (length v)) then nth (Z.to_nat (a - o)) v 0 else st a.

Section Exec.
Variable sem : node -> list bytes -> list bytes.      (* operator semantics *)
Variable mem : dict (Z * Z).                          (* the plan *)
Variable size : string -> nat.                        (* byte size of each tensor *)

Definition step_private (e : env) (n : node) : env :=
  fold_left write_private (combine (n_out n) (sem n (map (look_private e) (n_in n)))) e.

Record pstate := mkP { p_store : store; p_env : env }.

Definition look_pool (p : pstate) (t : string) : bytes :=
  if String.eqb t "" then []
  else match dget mem t with
       | Some (o, _) => read_range (p_store p) o (size t)
       | None => p_env p t
       end.

Definition write_pool (p : pstate) (tv : string * bytes) : pstate :=
  match dget mem (fst tv) with
  | Some (o, _) => mkP (write_range (p_store p) o (snd tv)) (p_env p)
  | None => mkP (p_store p) (upd (p_env p) (fst tv) (snd tv))
  end.

Definition step_pool (p : pstate) (n : node) : pstate :=
  fold_left write_pool (combine (n_out n) (sem n (map (look_pool p) (n_in n)))) p.

(** load the graph inputs, then run nodes in order *)
Definition load_pool (p : pstate) (e : env) (ins : list string) : pstate :=
  fold_left write_pool (map (fun t => (t, e t)) ins) p.

Definition run_private (e : env) (ns : list node) : env := fold_left step_private ns e.
Definition run_pool (p : pstate) (ns : list node) : pstate := fold_left step_pool ns p.
End Exec.
