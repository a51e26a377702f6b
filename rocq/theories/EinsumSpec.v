(** What Einsum computes, for the shapes: the equation is a list of operand terms and a result term, each a list of letters with or
    without an ellipsis in it. Written from the ONNX / NumPy definition of einsum, not from the library. *)
From Coq Require Import String Ascii List ZArith Sorting.Sorted.
From Verif Require Import ShapeSpec.
Import ListNotations.
Open Scope list_scope. Open Scope Z_scope.

Definition letter (c : ascii) : Prop :=
  (65 <= nat_of_ascii c <= 90)%nat \/ (97 <= nat_of_ascii c <= 122)%nat.

Inductive term := plain (labels : list ascii) | dotted (pre post : list ascii).
Definition labels_of (t : term) : list ascii := match t with plain l => l | dotted a b => a ++ b end.
Definition dots : list ascii := ["."; "."; "."]%char.
Definition spelled (t : term) : list ascii := match t with plain l => l | dotted a b => a ++ dots ++ b end.
Definition is_dotted (t : term) : Prop := match t with plain _ => False | dotted _ _ => True end.

Fixpoint joined (sep : list ascii) (ts : list (list ascii)) : list ascii :=
  match ts with [] => [] | [t] => t | t :: r => t ++ sep ++ joined sep r end.
(** [s], apart from spaces, is the text of the equation: explicit form, and form without a result term *)
Definition explicit_equation (s : list ascii) (ins : list term) (out : term) : Prop :=
  filter (fun c => negb (Ascii.eqb c " ")) s = joined [","%char] (map spelled ins) ++ ["-"; ">"]%char ++ spelled out.
Definition implicit_equation (s : list ascii) (ins : list term) : Prop :=
  filter (fun c => negb (Ascii.eqb c " ")) s = joined [","%char] (map spelled ins).

(** a tensor of shape [sh] is an operand for [t]: its labelled dimensions have the size [d] of the label or 1 (broadcast), and [ell]
    are the dimensions that the ellipsis stands for *)
Definition sized (d : ascii -> Z) (labels : list ascii) (ds : list Z) : Prop := Forall2 (fun c n => n = d c \/ n = 1) labels ds.
Definition fits (d : ascii -> Z) (t : term) (sh : dims) (ell : dims) : Prop :=
  match t with
  | plain l => sized d l sh /\ ell = []
  | dotted a b => exists da db, sh = da ++ ell ++ db /\ sized d a da /\ sized d b db
  end.
(** a label with size other than 1 has that size in some operand *)
Definition label_occurs (ins : list term) (shs : list dims) (els : list dims) (c : ascii) (n : Z) : Prop :=
  exists k t sh ell i, nth_error ins k = Some t /\ nth_error shs k = Some sh /\ nth_error els k = Some ell /\
    nth_error (labels_of t) i = Some c /\
    nth_error (match t with plain _ => sh | dotted a _ => firstn (length a) sh ++ skipn (length a + length ell) sh end) i = Some n.
(** the operands [shs] match the terms [ins], with label sizes [d]; [els] are the ellipsis dimensions of the operands, which broadcast
    to [E] *)
Definition einsum_operands (d : ascii -> Z) (ins : list term) (shs els : list dims) (E : dims) : Prop :=
  length shs = length ins /\ length els = length ins /\
  (forall k t sh ell, nth_error ins k = Some t -> nth_error shs k = Some sh -> nth_error els k = Some ell -> fits d t sh ell) /\
  (forall c, d c <> 1 -> (exists t, In t ins /\ In c (labels_of t)) -> label_occurs ins shs els c (d c)) /\
  broadcast_of els E.
(** the shape of the result *)
Definition result_dims (d : ascii -> Z) (E : dims) (out : term) : dims :=
  match out with plain l => map d l | dotted a b => map d a ++ E ++ map d b end.
(** the terms use letters only, the result's labels are labels of operands, and the result has an ellipsis iff some operand has *)
Definition good_terms (ins : list term) (out : term) : Prop :=
  ins <> [] /\ (forall t, In t (out :: ins) -> Forall letter (labels_of t)) /\
  (forall c, In c (labels_of out) -> exists t, In t ins /\ In c (labels_of t)) /\
  (is_dotted out <-> exists t, In t ins /\ is_dotted t).
(** the labels of the result when the equation has none: those that occur once, in the order of the character codes *)
Definition occurs_once (ins : list term) (c : ascii) : Prop := count_occ ascii_dec (flat_map labels_of ins) c = 1%nat.
Definition implicit_labels (ins : list term) (L : list ascii) : Prop :=
  StronglySorted (fun a b => (nat_of_ascii a < nat_of_ascii b)%nat) L /\ forall c, In c L <-> occurs_once ins c.
(** no label stands before an ellipsis *)
Definition dots_first (t : term) : Prop := match t with plain _ => True | dotted a _ => a = [] end.
