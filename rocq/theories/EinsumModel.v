(** Einsum: parsing of the equation and inference of the result shape (onnx_tool/node.py:1140-1247).
    A Python [str] is the list of its characters ([chars]); equations are assumed to be ASCII (a [bytes] attribute decodes to the same
    characters). dtypes are not represented. *)
From Verif Require Import PyBase GraphModel ShapeModel.
From Coq Require Import String Ascii Bool List.
Open Scope list_scope. Open Scope Z_scope.
Notation chars := (list ascii).

(** node.py:1150 [eq.replace(' ', '')] *)
Definition drop_spaces (s : chars) : chars := filter (fun c => negb (Ascii.eqb c " ")) s.

(** [s.split('->')]: the pieces between non-overlapping occurrences, found from the left; one piece iff '->' is not in [s] *)
Fixpoint split_arrow (s : chars) : list chars :=
  match s with
  | [] => [[]]
  | c :: r =>
      match r with
      | c' :: r' =>
          if Ascii.eqb c "-" && Ascii.eqb c' ">" then [] :: split_arrow r'
          else match split_arrow r with h :: t => (c :: h) :: t | [] => [[c]] end
      | [] => [[c]]
      end
  end.
(** [s.split(',')] *)
Fixpoint split_comma (s : chars) : list chars :=
  match s with
  | [] => [[]]
  | c :: r => if Ascii.eqb c "," then [] :: split_comma r else match split_comma r with h :: t => (c :: h) :: t | [] => [[c]] end
  end.

(** [s.count(ch)] of one character *)
Definition char_count (c : ascii) (s : chars) : nat := length (filter (Ascii.eqb c) s).
(** node.py:1171-1176: the loop over [all_labels] that fills [unique_labels] *)
Definition uniq_step (all : chars) (u : chars) (c : ascii) : chars :=
  if negb (Ascii.eqb c ".") && Nat.eqb (char_count c all) 1 && negb (existsb (Ascii.eqb c) u) then u ++ [c] else u.
(** [sorted(labels)]: by character code (insertion into the sorted result; the characters are distinct, so stability plays no role) *)
Fixpoint char_insert (c : ascii) (l : chars) : chars :=
  match l with
  | [] => [c]
  | x :: r => if Nat.leb (nat_of_ascii c) (nat_of_ascii x) then c :: x :: r else x :: char_insert c r
  end.
Definition char_sort (l : chars) : chars := fold_right char_insert [] l.

(** node.py:1145-1177 [_parse_equation]: [(input_labels, output_label_str)]. Unpacking more than two pieces is a ValueError. *)
Definition parse_equation (eq : chars) : sres (list chars * chars) :=
  match split_arrow (drop_spaces eq) with
  | [lhs] => let terms := split_comma lhs in let all := List.concat terms in
             SOk (terms, char_sort (fold_left (uniq_step all) all []))
  | [lhs; rhs] => SOk (split_comma lhs, rhs)
  | _ => SRaise ValueErr
  end.

(** node.py:1179-1187 [_has_ellipsis] and [_get_non_ellipsis_labels]: what follows the first '...' *)
Fixpoint after_dots (s : chars) : option chars :=
  match s with
  | [] => None
  | a :: r => match r with
              | b :: c :: t => if Ascii.eqb a "." && Ascii.eqb b "." && Ascii.eqb c "." then Some t else after_dots r
              | _ => None
              end
  end.
(** [l[:n]] for any integer [n] *)
Definition py_take {A} (n : Z) (l : list A) : list A := firstn (Z.to_nat (if n <? 0 then zlen l + n else n)) l.

(** node.py:1214-1220: [label_to_dims] as the list of its (label, dimension) entries in the order of insertion *)
Fixpoint label_entries (labels : chars) (sh : shape) (at_ : Z) : sres (list (ascii * Z)) :=
  match labels with
  | [] => SOk []
  | c :: r =>
      if Ascii.eqb c "." then label_entries r sh (at_ + 1)
      else let* d := py_index sh at_ in let* rest := label_entries r sh (at_ + 1) in SOk ((c, d) :: rest)
  end.
(** node.py:1200-1220: one turn of the loop over the operands: the ellipsis dimensions, if the term has an ellipsis, and the label
    entries *)
Definition operand_entries (term : chars) (sh : shape) : sres (option shape * list (ascii * Z)) :=
  match after_dots term with
  | Some labels =>
      let n := zlen sh - zlen labels in
      let* es := label_entries labels sh n in SOk (Some (py_take n sh), es)
  | None => let* es := label_entries term sh 0 in SOk (None, es)
  end.
(** [self.input_labels[idx]] raises IndexError when there are more operands than terms *)
Fixpoint all_entries (terms : list chars) (shs : list shape) : sres (list shape * list (ascii * Z)) :=
  match shs with
  | [] => SOk ([], [])
  | sh :: shs' =>
      match terms with
      | [] => SRaise IndexErr
      | t :: terms' =>
          let* o := operand_entries t sh in
          let* rest := all_entries terms' shs' in
          SOk ((match fst o with Some e => [e] | None => [] end) ++ fst rest, snd o ++ snd rest)
      end
  end.
Definition dims_of_label (es : list (ascii * Z)) (c : ascii) : list Z := map snd (filter (fun e => Ascii.eqb c (fst e)) es).
(** node.py:1222-1235: the aligned ellipsis dimensions, largest of each column *)
Definition ellipsis_dims (els : list shape) : shape := let n := max_rank els in map zmax_list (columns n (map (pad_left n) els)).
(** node.py:1240-1247: the dimension of one output label *)
Definition label_dim (es : list (ascii * Z)) (c : ascii) : Z := match dims_of_label es c with [] => 1 | ds => zmax_list ds end.
(** node.py:1193-1247 [shape_infer] after the constructor's [_parse_equation] *)
Definition einsum_shape (eq : chars) (shs : list shape) : sres shape :=
  let* p := parse_equation eq in
  let* a := all_entries (fst p) shs in
  SOk (ellipsis_dims (fst a) ++ map (label_dim (snd a)) (filter (fun c => negb (Ascii.eqb c ".")) (snd p))).
