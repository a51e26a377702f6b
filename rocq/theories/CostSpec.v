(** What an operator's MAC count is compared with: the plain loop nest that computes the operator's result element by
    element (the definition of the operator in the ONNX specification), run while counting its arithmetic.
    One multiply-accumulate, one addition, one multiplication and one comparison cost 1 each; a division, an exponential
    and a hyperbolic tangent cost what onnx_tool/node.py:19-33 says they cost. Nothing here refers to the model of the
    tool except those weights. *)
From Verif Require Import PyBase.
From Coq Require Import Ascii.
Open Scope Z_scope.

(** a value, and the cost of computing it *)
Definition counted (A : Type) : Type := (A * Z)%type.
Definition free {A} (a : A) : counted A := (a, 0).
Definition costs {A} (c : Z) (a : A) : counted A := (a, c).
Definition andthen {A B} (m : counted A) (f : A -> counted B) : counted B :=
  let (a, c) := m in let (b, d) := f a in (b, c + d).
Notation "x <-- m ;; k" := (andthen m (fun x => k)) (at level 61, m at next level, right associativity).
Fixpoint for_each {A B} (l : list A) (f : A -> counted B) : counted (list B) :=
  match l with [] => free [] | a :: r => b <-- f a ;; bs <-- for_each r f ;; free (b :: bs) end.
Fixpoint accumulate {A B} (s : B) (l : list A) (f : B -> A -> counted B) : counted B :=
  match l with [] => free s | a :: r => s' <-- f s a ;; accumulate s' r f end.
Definition total {A} (m : counted A) : Z := snd m.
Definition result {A} (m : counted A) : A := fst m.

(** 0 .. n-1, and all the index tuples of a shape *)
Definition upto (n : Z) : list Z := map Z.of_nat (seq 0 (Z.to_nat n)).
Fixpoint indices (shape : list Z) : list (list Z) :=
  match shape with [] => [[]] | d :: r => flat_map (fun i => map (cons i) (indices r)) (upto d) end.
Fixpoint in_range (shape idx : list Z) : bool :=
  match shape, idx with
  | [], [] => true
  | d :: s, i :: r => (0 <=? i) && (i <? d) && in_range s r
  | _, _ => false
  end.

Section Reference.
Context {T : Type} (zero : T) (add mul : T -> T -> T).
(** a tensor is its shape and its elements *)
Definition tens : Type := (list Z * (list Z -> T))%type.
(** reading outside the tensor reads the padding *)
Definition read (t : tens) (idx : list Z) : T := if in_range (fst t) idx then snd t idx else zero.

Definition mac (acc a b : T) : counted T := costs 1 (add acc (mul a b)).
Definition plus (a b : T) : counted T := costs 1 (add a b).
Definition times (a b : T) : counted T := costs 1 (mul a b).

(** *** Convolution: any number of spatial dimensions, groups, strides, dilations, padding *)
Record conv_attrs := { groups : Z; strides : list Z; dilations : list Z; pads_begin : list Z }.
Fixpoint taps (st dl pd o k : list Z) : list Z :=
  match st, dl, pd, o, k with
  | s :: st', d :: dl', p :: pd', i :: o', j :: k' => (i * s + j * d - p) :: taps st' dl' pd' o' k'
  | _, _, _, _, _ => []
  end.
Definition ref_conv (a : conv_attrs) (x w : tens) (bias : option (Z -> T)) (out_shape : list Z) : counted (list T) :=
  for_each (indices out_shape) (fun o =>
    match o with
    | n :: oc :: sp =>
        let cout := hd 1 (fst w) in let cin := hd 1 (tl (fst w)) in   (* w : [cout; cin / groups; k...] *)
        acc <-- accumulate zero (indices (tl (fst w))) (fun acc k =>
                  mac acc (read x (n :: oc / (cout / groups a) * cin + hd 0 k :: taps (strides a) (dilations a) (pads_begin a) sp (tl k)))
                          (read w (oc :: k))) ;;
        match bias with Some b => plus acc (b oc) | None => free acc end
    | _ => free zero
    end).

(** *** Transposed convolution, by scattering: each input element is multiplied with the kernel of its channel and added
    into the output *)
Fixpoint spots (st dl pd i k : list Z) : list Z :=
  match st, dl, pd, i, k with
  | s :: st', d :: dl', p :: pd', a :: i', j :: k' => (a * s + j * d - p) :: spots st' dl' pd' i' k'
  | _, _, _, _, _ => []
  end.
Definition ref_convtranspose (a : conv_attrs) (x w : tens) (out_shape : list Z) : counted (list Z -> T) :=
  accumulate (fun _ => zero) (indices (fst x)) (fun y i =>
    match i with
    | n :: ic :: sp =>
        let cin := hd 1 (fst w) in let cout := hd 1 (tl (fst w)) in   (* w : [cin; cout / groups; k...] *)
        accumulate y (indices (tl (fst w))) (fun y k =>
          let o := n :: ic / (cin / groups a) * cout + hd 0 k :: spots (strides a) (dilations a) (pads_begin a) sp (tl k) in
          v <-- mac (y o) (read x i) (read w (ic :: k)) ;;
          free (fun idx => if list_eq_dec Z.eq_dec idx o then v else y idx))
    | _ => free y
    end).

(** *** Matrix products. [Gemm]: Y = A' B' + C with the optional transpositions (alpha = beta = 1) *)
Definition swap_if (t : bool) (i j : Z) : list Z := if t then [j; i] else [i; j].
Definition ref_gemm (transA transB : bool) (m k n : Z) (a b : tens) (c : option (Z -> Z -> T)) : counted (list T) :=
  for_each (indices [m; n]) (fun o =>
    match o with
    | [i; j] =>
        acc <-- accumulate zero (upto k) (fun acc l => mac acc (read a (swap_if transA i l)) (read b (swap_if transB l j))) ;;
        match c with Some f => plus acc (f i j) | None => free acc end
    | _ => free zero
    end).
(** [MatMul]: leading dimensions are broadcast: a missing one is dropped, one of size 1 is read at 0 *)
Definition bcast (shape idx : list Z) : list Z :=
  map (fun p => if fst p =? 1 then 0 else snd p) (combine shape (skipn (length idx - length shape) idx)).
Definition ref_matmul (ba bb bo : list Z) (m k n : Z) (a b : tens) : counted (list T) :=
  for_each (indices (bo ++ [m; n])) (fun o =>
    let bi := firstn (length bo) o in
    let i := nth (length bo) o 0 in let j := nth (S (length bo)) o 0 in
    accumulate zero (upto k) (fun acc l => mac acc (read a (bcast ba bi ++ [i; l])) (read b (bcast bb bi ++ [l; j])))).

(** *** Pooling: the window of every output element is folded with [f] (maximum or addition) *)
Definition ref_pool (f : T -> T -> T) (a : conv_attrs) (kernel : list Z) (x : tens) (out_shape : list Z) : counted (list T) :=
  for_each (indices out_shape) (fun o =>
    match o with
    | n :: c :: sp => accumulate zero (indices kernel) (fun acc k =>
                        costs 1 (f acc (read x (n :: c :: taps (strides a) (dilations a) (pads_begin a) sp k))))
    | _ => free zero
    end).
Definition ref_global_average (divc : Z) (div : T -> Z -> T) (x : tens) : counted (list T) :=
  for_each (indices (firstn 2 (fst x))) (fun nc =>
    s <-- accumulate zero (indices (skipn 2 (fst x))) (fun acc sp => plus acc (read x (nc ++ sp))) ;;
    costs divc (div s (fold_right Z.mul 1 (skipn 2 (fst x))))).

(** *** Element-wise operators: the elements of the inputs combined from left to right, each step costing [c] *)
Definition ref_elementwise (c : Z) (f : T -> T -> T) (ins : list (list Z -> T)) (out_shape : list Z) : counted (list T) :=
  for_each (indices out_shape) (fun o =>
    match ins with
    | [] => free zero
    | x :: r => accumulate (x o) r (fun acc y => costs c (f acc (y o)))
    end).

(** *** Einsum with two operands: for every assignment of the output labels, a sum over the assignments of the others *)
Definition assign := ascii -> Z.
Definition bind_label (e : assign) (c : ascii) (i : Z) : assign := fun c' => if Ascii.eqb c' c then i else e c'.
Fixpoint assignments (size : ascii -> Z) (ls : list ascii) (e : assign) : list assign :=
  match ls with [] => [e] | c :: r => flat_map (fun i => assignments size r (bind_label e c i)) (upto (size c)) end.
Definition ref_einsum (size : ascii -> Z) (l0 l1 out summed : list ascii) (a b : list Z -> T) : counted (list T) :=
  for_each (assignments size out (fun _ => 0)) (fun e =>
    accumulate zero (assignments size summed e) (fun acc e' => mac acc (a (map e' l0)) (b (map e' l1)))).

(** *** Recurrent networks. One direction: [w g j i], [r g j i] weights of gate [g], hidden unit [j]; [bw], [br] the two
    bias vectors; the hidden state is a function of batch and unit. *)
Context (sig tanh one_minus : T -> T) (expc tanhc : Z).
Definition gate (inp hid : Z) (w r : Z -> Z -> T) (bw br : Z -> T) (x h : Z -> T) (j : Z) : counted T :=
  p <-- accumulate zero (upto inp) (fun acc i => mac acc (w j i) (x i)) ;;
  q <-- accumulate zero (upto hid) (fun acc i => mac acc (r j i) (h i)) ;;
  s <-- plus p q ;; s <-- plus s (bw j) ;; plus s (br j).
Definition store2 (f : Z -> Z -> T) (b j : Z) (v : T) : Z -> Z -> T := fun b' j' => if (b' =? b) && (j' =? j) then v else f b' j'.

(** gates in ONNX order: 0 input, 1 output, 2 forget, 3 cell *)
Definition lstm_cell (inp hid : Z) (w r : Z -> Z -> Z -> T) (bw br : Z -> Z -> T) (x h : Z -> T) (c : T) (j : Z) : counted (T * T) :=
  i <-- gate inp hid (w 0) (r 0) (bw 0) (br 0) x h j ;; i <-- costs expc (sig i) ;;
  o <-- gate inp hid (w 1) (r 1) (bw 1) (br 1) x h j ;; o <-- costs expc (sig o) ;;
  f <-- gate inp hid (w 2) (r 2) (bw 2) (br 2) x h j ;; f <-- costs expc (sig f) ;;
  g <-- gate inp hid (w 3) (r 3) (bw 3) (br 3) x h j ;; g <-- costs tanhc (tanh g) ;;
  fc <-- times f c ;; ig <-- times i g ;; c' <-- plus fc ig ;;
  t <-- costs tanhc (tanh c') ;; h' <-- times o t ;; free (h', c').
Definition lstm_direction (seq batch inp hid : Z) (w r : Z -> Z -> Z -> T) (bw br : Z -> Z -> T) (x : Z -> Z -> Z -> T)
  (s0 : (Z -> Z -> T) * (Z -> Z -> T)) : counted ((Z -> Z -> T) * (Z -> Z -> T)) :=
  accumulate s0 (upto seq) (fun s t =>
    accumulate s (indices [batch; hid]) (fun s' bj =>
      match bj with
      | [b; j] => hc <-- lstm_cell inp hid w r bw br (x t b) (fst s b) (snd s b j) j ;;
                  free (store2 (fst s') b j (fst hc), store2 (snd s') b j (snd hc))
      | _ => free s'
      end)).
(** one pass per direction (the second one over the reversed sequence) *)
Definition ref_lstm (dirs seq batch inp hid : Z) (w r : Z -> Z -> Z -> Z -> T) (bw br : Z -> Z -> Z -> T) (x : Z -> Z -> Z -> T)
  (s0 : Z -> (Z -> Z -> T) * (Z -> Z -> T)) : counted (list ((Z -> Z -> T) * (Z -> Z -> T))) :=
  for_each (upto dirs) (fun d =>
    lstm_direction seq batch inp hid (w d) (r d) (bw d) (br d) (fun t => x (if d =? 0 then t else seq - 1 - t)) (s0 d)).

(** gates in ONNX order: 0 update, 1 reset, 2 hidden *)
Definition gru_cell (inp hid : Z) (w r : Z -> Z -> Z -> T) (bw br : Z -> Z -> T) (x h : Z -> T) (rh : Z -> T) (z : T) (j : Z) : counted T :=
  g <-- gate inp hid (w 2) (r 2) (bw 2) (br 2) x rh j ;; g <-- costs tanhc (tanh g) ;;
  u <-- costs 1 (one_minus z) ;; ug <-- times u g ;; zh <-- times z (h j) ;; plus ug zh.
Definition gru_row (inp hid : Z) (w r : Z -> Z -> Z -> T) (bw br : Z -> Z -> T) (x h : Z -> T) : counted (Z -> T) :=
  zs <-- for_each (upto hid) (fun j => z <-- gate inp hid (w 0) (r 0) (bw 0) (br 0) x h j ;; costs expc (sig z)) ;;
  rh <-- for_each (upto hid) (fun j => q <-- gate inp hid (w 1) (r 1) (bw 1) (br 1) x h j ;; q <-- costs expc (sig q) ;; times q (h j)) ;;
  hs <-- for_each (upto hid) (fun j => gru_cell inp hid w r bw br x h (fun i => nth (Z.to_nat i) rh zero) (nth (Z.to_nat j) zs zero) j) ;;
  free (fun j => nth (Z.to_nat j) hs zero).
Definition gru_direction (seq batch inp hid : Z) (w r : Z -> Z -> Z -> T) (bw br : Z -> Z -> T) (x : Z -> Z -> Z -> T)
  (h0 : Z -> Z -> T) : counted (Z -> Z -> T) :=
  accumulate h0 (upto seq) (fun h t =>
    rows <-- for_each (upto batch) (fun b => gru_row inp hid w r bw br (x t b) (h b)) ;;
    free (fun b => nth (Z.to_nat b) rows (fun _ => zero))).
Definition ref_gru (dirs seq batch inp hid : Z) (w r : Z -> Z -> Z -> Z -> T) (bw br : Z -> Z -> Z -> T) (x : Z -> Z -> Z -> T)
  (h0 : Z -> Z -> Z -> T) : counted (list (Z -> Z -> T)) :=
  for_each (upto dirs) (fun d =>
    gru_direction seq batch inp hid (w d) (r d) (bw d) (br d) (fun t => x (if d =? 0 then t else seq - 1 - t)) (h0 d)).
End Reference.
