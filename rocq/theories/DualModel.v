(** Model of [compress_memory_with_kv_cache], benchmark/llm_test.py:9-173: the planner used for graphs with a KV cache
    (inference/infer.py:82-86).  The liveness pass (llm_test.py:24-43), phase 1 (66-92) and the best-fit placement (98-128) are, line
    for line, those of [Graph.compress_memory] (graph.py:1198-1330) and share their model. *)
From Verif Require Import PyBase GraphModel CompressModel.
Local Open Scope Z_scope.

(** llm_test.py:45-58: padded sizes, the tensor named [kv_cache] apart from all others *)
Definition split_sizes (g : graph) (pad : Z) : dict Z * dict Z :=
  fold_left
    (fun '(d, kv) t =>
       if negb (dhas (producedby g) t) && negb (memb t (g_input g)) then (d, kv)
       else match dget (tensormap g) t with
            | None => (d, kv)
            | Some tn =>
                let s := pad_up pad (get_memsize tn) in
                if 0 <? s then (if String.eqb t "kv_cache" then (d, dset kv t s) else (dset d t s, kv)) else (d, kv)
            end)
    (dynamics g) ([], []).

(** llm_test.py:98-131: one allocation; unlike graph.py:1285-1286, no test whether the tensor has been placed meanwhile *)
Definition pool_alloc1 (sizes : dict Z) (thr : Z) (st : list block * dict (Z * Z)) (t : string) : list block * dict (Z * Z) :=
  let (bs, mem) := st in
  match dget sizes t with
  | None => st   (* unreachable: new_tensors only holds keys of tensor_sizes *)
  | Some sz =>
      let bs' := match best_fit sz bs 0 None with
                 | Some (i, rem) => place_at t sz thr rem i bs
                 | None => append_block t sz bs
                 end in
      match find_tag t bs' with
      | Some b => (bs', dset mem t (b_off b, b_size b))
      | None => (bs', mem)
      end
  end.
(** llm_test.py:65-131: one snapshot *)
Definition pool_step (sizes : dict Z) (thr : Z) (st : list block * dict (Z * Z)) (live : list string) : list block * dict (Z * Z) :=
  let (bs, mem) := st in
  let bs1 := release live [] bs in
  let news := filter (fun t => negb (memb t (tags bs1)) && dhas sizes t) live in
  fold_left (pool_alloc1 sizes thr) (sort_desc sizes news) (bs1, mem).
(** llm_test.py:61-134 [_allocate_pool] *)
Definition allocate_pool (snaps : list (list string)) (pad : Z) (sizes : dict Z) : dict (Z * Z) * Z :=
  let (bs, mem) := fold_left (pool_step sizes (Z.max pad 4096)) snaps ([], []) in (mem, compress_size bs).
(** llm_test.py:24-137: both pools *)
Definition dual_plan (g : graph) (pad : Z) : (dict (Z * Z) * Z) * (dict (Z * Z) * Z) :=
  let snaps := liveness (consumedby g) (nodes_of g) [] (g_input g) in
  let (sizes, kv_sizes) := split_sizes g pad in
  (allocate_pool snaps pad sizes, allocate_pool snaps pad kv_sizes).
(** llm_test.py:159-164: raw size; tensors missing from [tensormap] are skipped *)
Definition dual_raw (g : graph) : Z :=
  fold_left (fun a t => if memb t (g_input g) || memb t (g_output g) then a
                        else match dget (tensormap g) t with Some tn => a + get_memsize tn | None => a end) (dynamics g) 0.
Inductive dresult := DPlan (mem : dict (Z * Z)) (total : Z) (kv_mem : dict (Z * Z)) (kv_total : Z) | DZeroDivision.
(** llm_test.py:9-173; the report (166-170) divides by the raw size *)
Definition compress_memory_with_kv_cache (g : graph) (pad : Z) : dresult :=
  let '((m, s), (km, ks)) := dual_plan g pad in
  if dual_raw g =? 0 then DZeroDivision else DPlan m s km ks.
(** llm_test.py:139-157: the overlap test on the activation pool; the form of the interval test differs from graph.py's *)
Definition dual_clash (p q : Z * Z) : bool :=
  negb (snd p =? 0) && negb (snd q =? 0) && (fst p <? fst q + snd q) && (fst q <? fst p + snd p).
Definition dual_warns (g : graph) (pad : Z) : bool :=
  let mem := fst (fst (dual_plan g pad)) in
  existsb (fun live => existsb (fun t => match dget mem t with None => false | Some p =>
      existsb (fun u => negb (String.eqb u t) && match dget mem u with None => false | Some q => dual_clash p q end) live end) live)
    (liveness (consumedby g) (nodes_of g) [] (g_input g)).
