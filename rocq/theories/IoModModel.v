(** onnx_tool/__init__.py:121-165 [model_io_modify]: rewriting the declared shapes of graph inputs and outputs.
    Text is ASCII here (the request strings and tensor names); [str.isnumeric] is true of more characters
    (superscripts, other scripts' digits) and those are not modelled. *)
From Coq Require Import String Ascii DecimalString ZArith.
From Verif Require Import PyBase GraphModel RegressModel EditModel PartitionModel LoadModel.
Local Open Scope string_scope.
Local Open Scope list_scope.
Local Open Scope Z_scope.

(** onnx.TensorShapeProto.Dimension: a oneof of dim_value and dim_param, possibly unset. *)
Inductive pdim := DVal (v : Z) | DSym (s : string) | DUnset.
(** onnx.ValueInfoProto of a tensor: element type and shape.  A missing shape and a shape without dimensions are the
    same here, as they are for the code (reading .shape.dim of either gives no dimensions).  Denotations and doc
    strings are left out. *)
Record vinfo := mkVI { vi_elem : Z; vi_dims : list pdim }.

(** str.split('x') *)
Fixpoint split_x (s : string) : list string :=
  match s with
  | EmptyString => [""%string]
  | String c r => if Ascii.eqb c "x" then ""%string :: split_x r
                  else match split_x r with [] => [String c ""] | w :: ws => String c w :: ws end
  end.
Definition is_digit (c : ascii) : bool := (48 <=? Z.of_N (N_of_ascii c)) && (Z.of_N (N_of_ascii c) <=? 57).
Fixpoint all_digits (s : string) : bool := match s with EmptyString => true | String c r => is_digit c && all_digits r end.
(** str.isnumeric() on ASCII text *)
Definition isnumeric (s : string) : bool := match s with EmptyString => false | _ => all_digits s end.
(** int(s) of a digit string *)
Definition int_of (s : string) : Z := match NilEmpty.uint_of_string s with Some d => Z.of_N (N.of_uint d) | None => 0 end.

(** __init__.py:139-147 and 155-163, one dimension; the dim_value field is int64, protobuf raises ValueError beyond it.
    Assigning a oneof member replaces whatever was set, so the ClearField calls make no difference. *)
Definition set_dim (tok : string) : res pdim :=
  if isnumeric tok then (if int_of tok <=? 2 ^ 63 - 1 then Ok (DVal (int_of tok)) else ValueError) else Ok (DSym tok).
Fixpoint set_dims (toks : list string) : res (list pdim) :=
  match toks with
  | [] => Ok []
  | t :: r => bind (set_dim t) (fun d => bind (set_dims r) (fun ds => Ok (d :: ds)))
  end.
(** __init__.py:133-147 / 149-163: one declared input or output; [req] is custom_io *)
Definition edit_one (req : dict string) (x : string * vinfo) : res (string * vinfo) :=
  match dget req (fst x) with
  | None => Ok x
  | Some s => let shapes := split_x s in
              if Nat.eqb (length shapes) (length (vi_dims (snd x)))
              then bind (set_dims shapes) (fun ds => Ok (fst x, mkVI (vi_elem (snd x)) ds))
              else AssertionError
  end.
Fixpoint edit_all (req : dict string) (l : list (string * vinfo)) : res (list (string * vinfo)) :=
  match l with
  | [] => Ok []
  | x :: r => bind (edit_one req x) (fun y => bind (edit_all req r) (fun ys => Ok (y :: ys)))
  end.
(** tensor.py:16-27 [shape_of_tensor]: what a Tensor remembers of a description; an unset dimension becomes -1.
    tensor.py:475-487 writes it back ([make_value_proto]).  The element type is kept as a code: the round trip through
    numpy's types is C43/C61. *)
Definition seen_dim (d : pdim) : pdim := match d with DUnset => DVal (-1) | _ => d end.
Definition seen (v : vinfo) : vinfo := mkVI (vi_elem v) (map seen_dim (vi_dims v)).
Definition seen_all (l : list (string * vinfo)) : list (string * vinfo) := map (fun x => (fst x, seen (snd x))) l.

Section MODIFY.
Context {D : Type}.
Variable info_of : D -> vinfo.
Variable v0 : vinfo.
Variable eval : node -> list (option D) -> nat -> option D.
Definition as_seen (p : @proto D vinfo) : @proto D vinfo :=
  mkProto (p_nodes p) (p_init p) (seen_all (p_in p)) (seen_all (p_out p)) (seen_all (p_vi p)).
(** the file after the two loops; custom_io=None is the empty request *)
Definition edit_proto (req : dict string) (p : @proto D vinfo) : res (@proto D vinfo) :=
  bind (edit_all req (p_in p)) (fun i => bind (edit_all req (p_out p)) (fun o =>
    Ok (mkProto (p_nodes p) (p_init p) i o (p_vi p)))).
(** __init__.py:121-165: load (only the proto is used afterwards, but loading may fail), edit, build a graph from the
    edited proto with the default configuration, save it.  The result is the GraphProto written to the file; [None]
    inside when nothing is written because there are no nodes (graph.py:842-844). *)
Definition io_modify (fuel : nat) (req : dict string) (p : @proto D vinfo) : option (res (option (@proto D vinfo))) :=
  match load_graph info_of v0 eval fuel default_cfg (as_seen p) with
  | None => None
  | Some KeyError => Some KeyError | Some ValueError => Some ValueError | Some AssertionError => Some AssertionError
  | Some (Ok _) =>
    match edit_proto req p with
    | KeyError => Some KeyError | ValueError => Some ValueError | AssertionError => Some AssertionError
    | Ok p' =>
      match load_graph info_of v0 eval fuel default_cfg (as_seen p') with
      | None => None
      | Some KeyError => Some KeyError | Some ValueError => Some ValueError | Some AssertionError => Some AssertionError
      | Some (Ok (g, tm)) => Some (Ok (match nodemap g with [] => None | _ => Some (save_graph v0 g tm) end))
      end
    end
  end.
End MODIFY.
