(** Model of [Graph.compress_memory], onnx_tool/graph.py:1183-1381. *)
From Verif Require Import PyBase GraphModel.
Local Open Scope Z_scope.

(** graph.py:1204-1213: [for name in node_.input: ...] of the liveness pass.
    [consumed] is [tensor_consumed] with each list replaced by its length (only
    the length is read); [cons] is [self.consumedby]. *)
Fixpoint consume (cons : dict (list string)) (ins : list string)
         (consumed : dict Z) (in_mem : list string) : dict Z * list string :=
  match ins with
  | [] => (consumed, in_mem)
  | name :: r =>
      match dget cons name with
      | None => consume cons r consumed in_mem
      | Some consumers =>
          let c := match dget consumed name with Some k => k + 1 | None => 1 end in
          let consumed' := dset consumed name c in
          let in_mem' :=
            if Z.eqb c (Z.of_nat (length consumers))
            then (if memb name in_mem then remove1 name in_mem else in_mem)
            else in_mem in
          consume cons r consumed' in_mem'
      end
  end.

(** graph.py:1198-1213: pass 1, one snapshot of [tensor_in_mem] per node. *)
Fixpoint liveness (cons : dict (list string)) (ns : list node)
         (consumed : dict Z) (in_mem : list string) : list (list string) :=
  match ns with
  | [] => []
  | n :: r =>
      let in_mem1 := (in_mem ++ n_out n)%list in
      let '(consumed', in_mem2) := consume cons (n_in n) consumed in_mem1 in
      in_mem1 :: liveness cons r consumed' in_mem2
  end.

(** graph.py:1226: [(size_ + size_padding - 1) // size_padding * size_padding]. *)
Definition pad_up (pad size : Z) : Z := (size + pad - 1) / pad * pad.

(** graph.py:1223-1231: [tensor_sizes]. *)
Definition tensor_sizes (g : graph) (pad : Z) : dict Z :=
  fold_left
    (fun d t =>
       if negb (dhas (producedby g) t) && negb (memb t (g_input g)) then d
       else match dget (tensormap g) t with
            | None => d
            | Some tn =>
                let s := pad_up pad (get_memsize tn) in
                if 0 <? s then dset d t s else d
            end)
    (dynamics g) [].

(** One entry of the parallel lists [mem_tags]/[mem_block] (graph.py:1234-1235), which the
    code always updates in lockstep.  [b_tag = ""] marks a free block. *)
Record block := mkB { b_tag : string; b_off : Z; b_size : Z }.
Definition is_free (b : block) : bool := String.eqb (b_tag b) "".
Definition b_end (b : block) : Z := b_off b + b_size b.
Definition tags (bs : list block) : list string := map b_tag bs.

(** graph.py:1242-1277, phase 1.  [for i, tag in enumerate(mem_tags)] while entries
    are popped: [prev] holds the entries before index i in reverse, [rest] those
    from i on; after a merge into i-1 the loop index steps over one entry, exactly
    as CPython's list iterator does. *)
Fixpoint release (live : list string) (prev rest : list block) : list block :=
  match rest with
  | [] => rev prev
  | b :: rest1 =>
      if is_free b then release live (b :: prev) rest1
      else if memb (b_tag b) live then release live (b :: prev) rest1
      else
        match prev, rest1 with
        | p :: prev1, nx :: rest2 =>
            if is_free p then
              if is_free nx then
                let m := mkB "" (b_off p) (b_end nx - b_off p) in
                match rest2 with
                | [] => rev (m :: prev1)
                | x :: rest3 => release live (x :: m :: prev1) rest3
                end
              else
                let m := mkB "" (b_off p) (b_end b - b_off p) in
                release live (nx :: m :: prev1) rest2
            else if is_free nx then
              release live (mkB "" (b_off b) (b_end nx - b_off b) :: prev) rest2
            else release live (mkB "" (b_off b) (b_size b) :: prev) rest1
        | p :: prev1, [] =>
            if is_free p then rev (mkB "" (b_off p) (b_end b - b_off p) :: prev1)
            else rev (mkB "" (b_off b) (b_size b) :: prev)
        | [], nx :: rest2 =>
            if is_free nx then release live [mkB "" (b_off b) (b_end nx - b_off b)] rest2
            else release live [mkB "" (b_off b) (b_size b)] rest1
        | [], [] => [mkB "" (b_off b) (b_size b)]
        end
  end.

(** graph.py:1292-1300: best-fit scan; strict [<], so the first of equals wins.
    Result: [(best_idx, best_remain[0])]. *)
Fixpoint best_fit (sz : Z) (bs : list block) (i : nat) (best : option (nat * Z)) : option (nat * Z) :=
  match bs with
  | [] => best
  | b :: r =>
      let best' :=
        if is_free b && (sz <=? b_size b) then
          let rem := b_size b - sz in
          match best with
          | None => Some (i, rem)
          | Some (_, rem0) => if rem <? rem0 then Some (i, rem) else best
          end
        else best in
      best_fit sz r (S i) best'
  end.

(** graph.py:1302-1314: place at [best_idx], splitting when the remainder reaches the threshold. *)
Fixpoint place_at (t : string) (sz thr rem : Z) (i : nat) (bs : list block) : list block :=
  match bs, i with
  | [], _ => []
  | b :: r, O =>
      if thr <=? rem
      then mkB t (b_off b) sz :: mkB "" (b_off b + sz) rem :: r
      else mkB t (b_off b) (b_size b) :: r
  | b :: r, S j => b :: place_at t sz thr rem j r
  end.

(** graph.py:1315-1326: nothing fits: grow a free last block, or append. *)
Fixpoint append_block (t : string) (sz : Z) (bs : list block) : list block :=
  match bs with
  | [] => [mkB t 0 sz]
  | [b] => if is_free b then [mkB t (b_off b) sz] else [b; mkB t (b_end b) sz]
  | b :: r => b :: append_block t sz r
  end.

(** graph.py:1328-1330: [idx = mem_tags.index(tname)] and the copy into [compress_mem]. *)
Definition find_tag (t : string) (bs : list block) : option block :=
  find (fun b => String.eqb t (b_tag b)) bs.

(** graph.py:1284-1330: one iteration of the allocation loop. *)
Definition alloc1 (sizes : dict Z) (thr : Z) (st : list block * dict (Z * Z)) (t : string)
  : list block * dict (Z * Z) :=
  let (bs, mem) := st in
  if memb t (tags bs) then st
  else match dget sizes t with
       | None => st   (* unreachable: new_tensors only holds keys of tensor_sizes *)
       | Some sz =>
           let bs' := match best_fit sz bs 0 None with
                      | Some (i, rem) => place_at t sz thr rem i bs
                      | None => append_block t sz bs
                      end in
           match find_tag t bs' with
           | Some b => (bs', dset mem t (b_off b, b_size b))
           | None => (bs', mem)
           end
       end.

(** graph.py:1282: [new_tensors.sort(key=lambda t: -tensor_sizes[t])], Python's stable sort,
    as a stable insertion sort. *)
Definition size_of (sizes : dict Z) (t : string) : Z :=
  match dget sizes t with Some s => s | None => 0 end.
Fixpoint insert_desc (sizes : dict Z) (t : string) (l : list string) : list string :=
  match l with
  | [] => [t]
  | u :: r => if size_of sizes u <=? size_of sizes t then t :: l else u :: insert_desc sizes t r
  end.
Definition sort_desc (sizes : dict Z) (l : list string) : list string :=
  fold_right (insert_desc sizes) [] l.

(** graph.py:1240-1330: processing of one snapshot. *)
Definition step_node (sizes : dict Z) (thr : Z) (st : list block * dict (Z * Z)) (live : list string)
  : list block * dict (Z * Z) :=
  let (bs, mem) := st in
  let bs1 := release live [] bs in
  let news := filter (fun t => negb (memb t (tags bs1)) && dhas sizes t) live in
  fold_left (alloc1 sizes thr) (sort_desc sizes news) (bs1, mem).

(** graph.py:1333: [max(b[0] + b[1] for b in mem_block) if mem_block else 0]. *)
Definition compress_size (bs : list block) : Z :=
  match bs with
  | [] => 0
  | b :: r => fold_left (fun m x => Z.max m (b_end x)) r (b_end b)
  end.

(** graph.py:1183-1335: the plan. *)
Definition plan (g : graph) (pad : Z) : dict (Z * Z) * Z :=
  let snaps := liveness (consumedby g) (nodes_of g) [] (g_input g) in
  let sizes := tensor_sizes g pad in
  let thr := Z.max pad 4096 in
  let (bs, mem) := fold_left (step_node sizes thr) snaps ([], []) in
  (mem, compress_size bs).

(** graph.py:1373-1377: raw size; [self.tensormap[tname]] may raise KeyError (None). *)
Definition raw_memsize (g : graph) : option Z :=
  fold_left
    (fun acc t =>
       match acc with
       | None => None
       | Some a =>
           if memb t (g_input g) || memb t (g_output g) then Some a
           else match dget (tensormap g) t with
                | Some tn => Some (a + get_memsize tn)
                | None => None
                end
       end)
    (dynamics g) (Some 0).

Inductive cresult :=
| CPlan (mem : dict (Z * Z)) (total : Z)
| CKeyError                 (* graph.py:1377 *)
| CZeroDivision.            (* graph.py:1381: the f-string is evaluated even when not logged *)

(** graph.py:1183-1381 as a whole.  The validation block (1336-1371) only emits warnings
    and is modelled separately ([overlap_warning] below). *)
Definition compress_memory (g : graph) (pad : Z) : cresult :=
  let (mem, total) := plan g pad in
  match raw_memsize g with
  | None => CKeyError
  | Some raw => if raw =? 0 then CZeroDivision else CPlan mem total
  end.

(** graph.py:1346-1366: the pairwise overlap test of the validation block for one snapshot. *)
Definition ranges_clash (p q : Z * Z) : bool :=
  negb (snd p =? 0) && negb (snd q =? 0) &&
  (((fst q <=? fst p) && (fst p <? fst q + snd q))
   || ((fst p <=? fst q) && (fst q <? fst p + snd p))).
Definition overlap_warning (mem : dict (Z * Z)) (live : list string) : bool :=
  existsb (fun t =>
    match dget mem t with
    | None => false
    | Some p =>
        existsb (fun u =>
          negb (String.eqb u t) &&
          match dget mem u with None => false | Some q => ranges_clash p q end) live
    end) live.

(** graph.py:1338-1345 and 1367-1368: the "Wrong compress total memory size" test. *)
Definition size_warning (mem : dict (Z * Z)) (total : Z) (live : list string) : bool :=
  existsb (fun t => match dget mem t with
                    | None => false
                    | Some p => total <? fst p + snd p
                    end) live.

(** All warnings of graph.py:1336-1371 over the run. *)
Definition validation_warns (g : graph) (pad : Z) : bool :=
  let snaps := liveness (consumedby g) (nodes_of g) [] (g_input g) in
  let (mem, total) := plan g pad in
  existsb (fun live => overlap_warning mem live || size_warning mem total live) snaps.
