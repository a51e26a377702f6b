(** Specification for the binary formats: a reader that a consumer of the files could run.
    It uses no definition of the writers. *)
From Coq Require Import ZArith List String Ascii Bool.
From Flocq Require Import IEEE754.Binary IEEE754.Bits.
Import ListNotations.
Open Scope Z_scope.

Definition file := list ascii.
(** a reader consumes a prefix of the file *)
Definition reader (A : Type) := file -> option (A * file).
Definition ret {A} (a : A) : reader A := fun f => Some (a, f).
Definition bind {A B} (r : reader A) (k : A -> reader B) : reader B :=
  fun f => match r f with Some (a, f') => k a f' | None => None end.
Definition fail {A} : reader A := fun _ => None.
Notation "x <- r ;; k" := (bind r (fun x => k)) (at level 61, r at next level, right associativity).

(** [k] bytes, little-endian, unsigned then two's complement *)
Fixpoint read_unsigned (k : nat) : reader Z :=
  match k with
  | O => ret 0
  | S k' => fun f => match f with
                     | [] => None
                     | c :: r => match read_unsigned k' r with Some (z, f') => Some (Z.of_N (N_of_ascii c) + 256 * z, f') | None => None end
                     end
  end.
Definition read_int (k : nat) : reader Z :=
  u <- read_unsigned k ;;
  ret (if 2 ^ (8 * Z.of_nat k - 1) <=? u then u - 2 ^ (8 * Z.of_nat k) else u).
(** NUL-terminated string *)
Fixpoint read_str (f : file) : option (string * file) :=
  match f with
  | [] => None
  | c :: r => if Ascii.eqb c "000"%char then Some (EmptyString, r)
              else match read_str r with Some (s, f') => Some (String c s, f') | None => None end
  end.
Definition read_float : reader binary32 := u <- read_unsigned 4 ;; ret (b32_of_bits u).
Fixpoint read_times {A} (n : nat) (r : reader A) : reader (list A) :=
  match n with
  | O => ret []
  | S n' => x <- r ;; l <- read_times n' r ;; ret (x :: l)
  end.
(** a counted list *)
Definition read_list {A} (k : nat) (r : reader A) : reader (list A) :=
  n <- read_int k ;; read_times (Z.to_nat n) r.
Fixpoint read_raw (n : nat) : reader file :=
  match n with
  | O => ret []
  | S n' => fun f => match f with [] => None | c :: r => match read_raw n' r with Some (l, f') => Some (c :: l, f') | None => None end end
  end.

(** values: 0 int, 1 float, 2 string *)
Inductive value := VInt (z : Z) | VFloat (f : binary32) | VStr (s : string).
Definition read_value (tag : Z) : reader value :=
  if tag =? 0 then z <- read_int 4 ;; ret (VInt z)
  else if tag =? 1 then f <- read_float ;; ret (VFloat f)
  else if tag =? 2 then s <- read_str ;; ret (VStr s)
  else fail.

(** ** memory plan file *)
Record plan_view := { pv_total : Z; pv_blocks : list (string * (Z * Z)); pv_max : list (string * Z) }.
Definition read_plan : reader plan_view :=
  t <- read_int 8 ;;
  b <- read_list 8 (n <- read_str ;; o <- read_int 8 ;; s <- read_int 8 ;; ret (n, (o, s))) ;;
  m <- read_list 8 (n <- read_str ;; v <- read_int 8 ;; ret (n, v)) ;;
  ret {| pv_total := t; pv_blocks := b; pv_max := m |}.

(** ** shape engine file *)
Record expr_view := { xv_alpha : binary32; xv_beta : binary32; xv_factor : Z; xv_trunc : Z }.
Record engine_view := { ev_vars : list string; ev_desc : list (string * list value);
                        ev_expr : list (string * (string * expr_view)) }.
Definition read_expr : reader expr_view :=
  a <- read_float ;; b <- read_float ;; f <- read_int 4 ;; t <- read_int 4 ;;
  ret {| xv_alpha := a; xv_beta := b; xv_factor := f; xv_trunc := t |}.
Definition read_engine : reader engine_view :=
  v <- read_list 4 read_str ;;
  d <- read_list 4 (n <- read_str ;; l <- read_list 4 (t <- read_int 4 ;; read_value t) ;; ret (n, l)) ;;
  e <- read_list 4 (n <- read_str ;; s <- read_str ;; x <- read_expr ;; ret (n, (s, x))) ;;
  ret {| ev_vars := v; ev_desc := d; ev_expr := e |}.

(** ** graph file *)
Record node_view := { nv_name : string; nv_op : string; nv_in : list string; nv_out : list string;
                      nv_attr : list (string * list value) }.
(** element size of an array type tag *)
Definition item_size (tag : Z) : option nat :=
  if tag =? 0 then Some 4%nat else if tag =? 1 then Some 4%nat else if tag =? 3 then Some 2%nat
  else if tag =? 5 then Some 1%nat else if tag =? 6 then Some 1%nat else if tag =? 9 then Some 8%nat else None.
Record array_view := { av_type : Z; av_shape : list Z; av_data : file }.
Definition read_array : reader array_view :=
  t <- read_int 4 ;;
  s <- read_list 4 (read_int 4) ;;
  match item_size t with
  | None => fail
  | Some k => d <- read_raw (Z.to_nat (fold_right Z.mul 1 s) * k) ;; ret {| av_type := t; av_shape := s; av_data := d |}
  end.
Record graph_view := { gv_nodes : list node_view; gv_initials : list (string * array_view) }.
Definition read_node : reader node_view :=
  n <- read_str ;; op <- read_str ;; i <- read_list 4 read_str ;; o <- read_list 4 read_str ;;
  a <- read_list 4 (k <- read_str ;; len <- read_int 4 ;; t <- read_int 4 ;; v <- read_times (Z.to_nat len) (read_value t) ;; ret (k, v)) ;;
  ret {| nv_name := n; nv_op := op; nv_in := i; nv_out := o; nv_attr := a |}.
Definition read_graph : reader graph_view :=
  n <- read_list 4 read_node ;;
  i <- read_list 4 (k <- read_str ;; a <- read_array ;; ret (k, a)) ;;
  ret {| gv_nodes := n; gv_initials := i |}.
(** reading a whole file *)
Definition parse {A} (r : reader A) (f : file) : option A :=
  match r f with Some (a, []) => Some a | _ => None end.
