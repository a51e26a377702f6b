(** inference/memory_pool.py:18-199 [MemoryPool].  torch is modelled by its documented behaviour:
    slicing clamps like Python, [view(dtype)] needs aligned offset and length, [reshape] infers one -1,
    [copy_] broadcasts a single element.  The cache [_tensors] is never read and is left out. *)
From Verif Require Import PyBase GraphModel ShapeModel FusionModel.
Open Scope Z_scope.

(** plan: name -> (offset, size) in bytes; pool size; element size of the dtype; byte at each address *)
Record pool := { pl_plan : dict (Z * Z); pl_size : Z; pl_esz : Z; pl_mem : Z -> Z }.
(** memory_pool.py:56-68 [_validate] *)
Fixpoint validate (size : Z) (plan : dict (Z * Z)) : sres unit :=
  match plan with
  | [] => SOk tt
  | (_, (o, s)) :: r =>
      if o <? 0 then SRaise ValueErr else
      if s <=? 0 then SRaise ValueErr else
      if size <? o + s then SRaise ValueErr else validate size r
  end.
(** memory_pool.py:32-54 [__init__]; [mem] is the arbitrary content of [torch.empty] *)
Definition mk_pool (plan : dict (Z * Z)) (size esz : Z) (mem : Z -> Z) : sres pool :=
  if size <=? 0 then SRaise ValueErr else
  let* _ := validate size plan in
  SOk {| pl_plan := plan; pl_size := size; pl_esz := esz; pl_mem := mem |}.

(** a tensor sharing the pool: first byte, number of bytes, shape *)
Record view := { v_off : Z; v_len : Z; v_shape : list Z }.
(** one bound of a slice on a dimension of length [n] *)
Definition slice_bound (n i : Z) : Z := let j := if i <? 0 then i + n else i in Z.max 0 (Z.min j n).
(** [pool[a:b]]: first byte and length *)
Definition slice (n a b : Z) : Z * Z := let a' := slice_bound n a in let b' := slice_bound n b in (a', Z.max 0 (b' - a')).
(** torch [view(dtype)] of a byte tensor *)
Definition view_dtype (esz off len : Z) : sres Z :=
  if (len mod esz =? 0) && (off mod esz =? 0) then SOk (len / esz) else SRaise RuntimeErr.
Definition prodZ (l : list Z) : Z := fold_left Z.mul l 1.
(** torch [reshape] of [numel] elements *)
Definition reshape (numel : Z) (shape : list Z) : sres (list Z) :=
  if existsb (fun d => d <? -1) shape then SRaise RuntimeErr else
  let known := prodZ (filter (fun d => negb (d =? -1)) shape) in
  match length (filter (fun d => d =? -1) shape) with
  | 0%nat => if known =? numel then SOk shape else SRaise RuntimeErr
  | 1%nat => if known =? 0 then SRaise RuntimeErr else
             if numel mod known =? 0 then SOk (map (fun d => if d =? -1 then numel / known else d) shape) else SRaise RuntimeErr
  | _ => SRaise RuntimeErr
  end.
(** memory_pool.py:84-130 [get] *)
Definition pool_get (p : pool) (key : string) (shape : option (list Z)) : sres view :=
  let* os := dlook (pl_plan p) key in
  let '(offset, size) := os in
  let num := size / pl_esz p in
  let* used := match shape with
               | Some sh => let expected := prodZ sh in
                            if num <? expected then SRaise ValueErr else SOk (expected * pl_esz p)
               | None => SOk size
               end in
  let '(off, len) := slice (pl_size p) offset (offset + used) in
  let* n := view_dtype (pl_esz p) off len in
  let* sh := match shape with Some sh => reshape n sh | None => SOk [n] end in
  SOk {| v_off := off; v_len := len; v_shape := sh |}.
(** memory_pool.py:132-153 [get_batch] *)
Definition pool_get_batch (p : pool) (key : string) (batch : Z) (elt : option (list Z)) : sres view :=
  pool_get p key (Some (batch :: match elt with Some e => e | None => [] end)).
(** the bytes a view shows *)
Definition read_view (p : pool) (v : view) : list Z := map (fun i => pl_mem p (v_off v + Z.of_nat i)) (seq 0 (Z.to_nat (v_len v))).
(** store bytes from address [off] on *)
Definition write_bytes (mem : Z -> Z) (off : Z) (bs : list Z) : Z -> Z :=
  fun a => if (off <=? a) && (a <? off + zlen bs) then nth (Z.to_nat (a - off)) bs 0 else mem a.
(** memory_pool.py:188-199 [fill_tensor]; [vals]: the flattened value after conversion to the pool's
    dtype, one list of [esz] bytes per element *)
Definition fill_tensor (p : pool) (key : string) (vals : list (list Z)) : sres pool :=
  let* v := pool_get p key None in
  let n := Z.to_nat (v_len v / pl_esz p) in
  let src := firstn n vals in
  let put l := SOk {| pl_plan := pl_plan p; pl_size := pl_size p; pl_esz := pl_esz p; pl_mem := write_bytes (pl_mem p) (v_off v) (concat l) |} in
  if Nat.eqb (length src) n then put src
  else match src with [x] => put (repeat x n) | _ => SRaise RuntimeErr end.
(** memory_pool.py:183-186 [zero_] *)
Definition zero_pool (p : pool) : pool :=
  {| pl_plan := pl_plan p; pl_size := pl_size p; pl_esz := pl_esz p; pl_mem := fun a => if (0 <=? a) && (a <? pl_size p) then 0 else pl_mem p a |}.
(** inference/infer.py:95-126 [GraphInfer.__init__]: the flat view of a planned tensor has room for
    every element at the engine's element size.  The kv-cache pool (llm_test.py) is not modelled. *)
Definition infer_view (tm : dict tensor) (p : pool) (t : string) : sres (option view) :=
  match dget (pl_plan p) t with
  | None => SOk None
  | Some (o, _) =>
      match dget tm t with
      | None => SOk None
      | Some tn =>
          let size := prodZ (t_shape tn) * pl_esz p in
          if 0 <? size then
            let '(off, len) := slice (pl_size p) o (o + size) in
            let* n := view_dtype (pl_esz p) off len in
            SOk (Some {| v_off := off; v_len := len; v_shape := [n] |})
          else SOk None
      end
  end.
