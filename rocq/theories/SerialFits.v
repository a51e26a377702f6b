(** Vocabulary of the serialization theorems: which objects are within the ranges of the file formats
    ([*_fits]) and what a faithful reader must return for them ([*_as]). *)
From Coq Require Import Reals.
From Flocq Require Import Core IEEE754.Binary IEEE754.Bits.
From Verif Require Import PyBase GraphModel ShapeModel SerialModel SerialSpec.
Open Scope Z_scope.

Definition int32 (z : Z) : Prop := - 2 ^ 31 <= z < 2 ^ 31.
Definition int64 (z : Z) : Prop := - 2 ^ 63 <= z < 2 ^ 63.
Definition nul_free (s : string) : Prop := ~ In NUL (list_ascii_of_string s).
(** [g] is the binary32 datum nearest to [f] (ties to even) *)
Definition nearest_f32 (f : binary64) (g : binary32) : Prop :=
  match f with
  | B754_nan _ _ _ _ _ => is_nan 24 128 g = true
  | B754_infinity _ _ s => g = B754_infinity 24 128 s
  | _ => is_finite 24 128 g = true /\ B2R 24 128 g = round radix2 (FLT_exp (-149) 24) ZnearestE (B2R 53 1024 f)
  end.
(** [f] does not round to a binary32 infinity *)
Definition f32_range (f : binary64) : Prop :=
  is_finite 53 1024 f = true -> (Rabs (round radix2 (FLT_exp (-149) 24) ZnearestE (B2R 53 1024 f)) < bpow radix2 128)%R.
Definition plan_fits (p : planfile) : Prop :=
  int64 (pf_total p) /\ Z.of_nat (length (pf_blocks p)) < 2 ^ 63 /\ Z.of_nat (length (pf_max p)) < 2 ^ 63 /\
  (forall k o s, In (k, (o, s)) (pf_blocks p) -> nul_free k /\ int64 o /\ int64 s) /\
  (forall k v, In (k, v) (pf_max p) -> nul_free k /\ int64 v).
(** a shape descriptor holds ints and variable names *)
Definition desc_as (v : pyval) (w : value) : Prop :=
  match v, w with PyStr s, VStr t => t = s | PyInt z, VInt z' => z' = z | _, _ => False end.
Definition desc_fits (v : pyval) : Prop :=
  match v with PyStr s => nul_free s | PyInt z => int32 z | _ => False end.
Definition expr_as (e : expr) (x : expr_view) : Prop :=
  is_finite 24 128 (xv_alpha x) = true /\ B2R 24 128 (xv_alpha x) = IZR (e_alpha e) /\
  is_finite 24 128 (xv_beta x) = true /\ B2R 24 128 (xv_beta x) = IZR (e_beta e) /\
  xv_factor x = e_factor e /\ xv_trunc x = e_trunc e.
Definition expr_fits (e : expr) : Prop :=
  Z.abs (e_alpha e) <= 2 ^ 24 /\ Z.abs (e_beta e) <= 2 ^ 24 /\ int32 (e_factor e) /\ int32 (e_trunc e).
Definition engine_fits (en : engine) : Prop :=
  Z.of_nat (length (en_vars en)) < 2 ^ 31 /\ Z.of_nat (length (en_desc en)) < 2 ^ 31 /\ Z.of_nat (length (en_expr en)) < 2 ^ 31 /\
  (forall k v, In (k, v) (en_vars en) -> nul_free k) /\
  (forall k d, In (k, d) (en_desc en) -> nul_free k /\ Z.of_nat (length d) < 2 ^ 31 /\ Forall desc_fits d) /\
  (forall k s e, In (k, (s, e)) (en_expr en) -> nul_free k /\ nul_free s /\ expr_fits e).
(** what the reader must return *)
Definition engine_as (en : engine) (v : engine_view) : Prop :=
  ev_vars v = dkeys (en_vars en) /\
  Forall2 (fun p q => fst q = fst p /\ Forall2 desc_as (snd p) (snd q)) (en_desc en) (ev_desc v) /\
  Forall2 (fun p q => fst q = fst p /\ fst (snd q) = fst (snd p) /\ expr_as (snd (snd p)) (snd (snd q))) (en_expr en) (ev_expr v).
Definition value_as (v : pyval) (w : value) : Prop :=
  match v, w with
  | PyStr s, VStr t => t = s
  | PyBytes b, VStr t => list_ascii_of_string t = b
  | PyInt z, VInt z' => z' = z
  | PyFloat f, VFloat g => nearest_f32 f g
  | _, _ => False
  end.
Definition value_fits (v : pyval) : Prop :=
  match v with
  | PyStr s => nul_free s
  | PyBytes b => ~ In NUL b
  | PyInt z => int32 z
  | PyFloat f => f32_range f
  | PyOther _ => False
  end.
(** all elements of a list attribute have the kind of the first: strings/bytes, ints or floats *)
Definition kind (v : pyval) : Z := match v with PyStr _ | PyBytes _ => 2 | PyInt _ => 0 | PyFloat _ => 1 | PyOther _ => 3 end.
Definition attr_elems (a : attrval) : list pyval := match a with AScalar v => [v] | AList l => l end.
Definition attr_fits (a : attrval) : Prop :=
  attr_elems a <> [] /\ Z.of_nat (length (attr_elems a)) < 2 ^ 31 /\ Forall value_fits (attr_elems a) /\
  (forall v w, In v (attr_elems a) -> In w (attr_elems a) -> kind v = kind w).
Definition node_fits (p : string * snode) : Prop :=
  let n := snd p in
  nul_free (fst p) /\ nul_free (sn_op n) /\
  Forall nul_free (sn_in n) /\ Z.of_nat (length (sn_in n)) < 2 ^ 31 /\
  Forall nul_free (sn_out n) /\ Z.of_nat (length (sn_out n)) < 2 ^ 31 /\
  Z.of_nat (length (sn_attr n)) < 2 ^ 31 /\
  (forall k a, In (k, a) (sn_attr n) -> nul_free k /\ attr_fits a).
(** type tag and element size of the supported array types *)
Definition array_type (t : npdtype) : option (Z * nat) :=
  match t with
  | F32 => Some (1, 4%nat) | F16 => Some (3, 2%nat) | I32 => Some (0, 4%nat) | I8 => Some (5, 1%nat)
  | U8 => Some (6, 1%nat) | I64 => Some (9, 8%nat) | _ => None
  end.
Definition array_fits (a : ndarray) : Prop :=
  (exists tag size, array_type (nd_dtype a) = Some (tag, size) /\
     length (nd_data a) = (Z.to_nat (fold_right Z.mul 1%Z (nd_shape a)) * size)%nat) /\
  Z.of_nat (length (nd_shape a)) < 2 ^ 31 /\ Forall int32 (nd_shape a).
Definition graph_fits (g : sgraph) : Prop :=
  Z.of_nat (length (sg_nodes g)) < 2 ^ 31 /\ Z.of_nat (length (sg_initials g)) < 2 ^ 31 /\
  Forall node_fits (sg_nodes g) /\
  (forall k, In k (sg_initials g) -> nul_free k /\ exists a, dget (sg_values g) k = Some (Some a) /\ array_fits a).
(** what the reader must return *)
Definition node_as (p : string * snode) (v : node_view) : Prop :=
  nv_name v = fst p /\ nv_op v = sn_op (snd p) /\ nv_in v = sn_in (snd p) /\ nv_out v = sn_out (snd p) /\
  Forall2 (fun a q => fst q = fst a /\ Forall2 value_as (attr_elems (snd a)) (snd q)) (sn_attr (snd p)) (nv_attr v).
Definition array_as (a : ndarray) (v : array_view) : Prop :=
  (exists size, array_type (nd_dtype a) = Some (av_type v, size)) /\ av_shape v = nd_shape a /\ av_data v = nd_data a.
Definition graph_as (g : sgraph) (v : graph_view) : Prop :=
  Forall2 node_as (sg_nodes g) (gv_nodes v) /\
  Forall2 (fun k q => fst q = k /\ exists a, dget (sg_values g) k = Some (Some a) /\ array_as a (snd q)) (sg_initials g) (gv_initials v).
