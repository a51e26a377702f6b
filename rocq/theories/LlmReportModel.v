(** onnx_tool/llm.py:1195-1234 [Builder.print_profile] and the text helpers of onnx_tool/utils.py, over LlmPerf's [llm_profile].
    [tabulate] (the layout of the text report) is not modelled: the table is its list of rows. *)
From Coq Require Import DecimalString Reals.
From Flocq Require Import Core.
From Verif Require Import PyBase FloatPy ProfileModel LlmPerf.
Local Open Scope string_scope.
Local Open Scope list_scope.
Open Scope Z_scope.

(** Python [str] of an int *)
Definition udec (n : Z) : string := NilZero.string_of_uint (N.to_uint (Z.to_N n)).
Definition zdec (n : Z) : string := if n <? 0 then String "-" (udec (- n)) else udec n.
(** Python's format [','] on digits: a comma before every group of three *)
Fixpoint grouped (s : string) : string :=
  match s with
  | EmptyString => EmptyString
  | String c r => String c (match r with EmptyString => EmptyString | _ => if Nat.eqb (Nat.modulo (String.length r) 3) 0 then String "," (grouped r) else grouped r end)
  end.
(** utils.py:41-45 [num2str] on an int *)
Definition num2str (csv : bool) (n : Z) : string :=
  if csv then zdec n else if n <? 0 then String "-" (grouped (udec (- n))) else grouped (udec n).
(** utils.py:33-39 [tuple2str] *)
Fixpoint tuple2str (sep : string) (l : list Z) : string :=
  match l with [] => EmptyString | [v] => zdec v | v :: r => (zdec v ++ sep ++ tuple2str sep r)%string end.
(** Python ['{:.5f}'.format(x)]: the number (a binary64, exactly) rounded to five decimals, ties to even. Simplification: only for x >= 0. *)
Definition digit (d : Z) : ascii := ascii_of_nat (48 + Z.to_nat d).
Definition five (k : Z) : string :=
  String (digit (k / 10000)) (String (digit (k / 1000 mod 10)) (String (digit (k / 100 mod 10)) (String (digit (k / 10 mod 10)) (String (digit (k mod 10)) EmptyString)))).
Definition fixed5 (x : R) : string := let n := ZnearestE (x * 100000) in (udec (n / 100000) ++ "." ++ five (n mod 100000))%string.

(** a node of the graph with what [graph.profile()] left on it: [inshape], [outshape] *)
Record lrow := { w_name : string; w_node : pnode; w_in : list Z; w_out : list Z }.

Section PRINT.
(** Python's text of a float ('{}' in csv, '{:,}' otherwise): the shortest decimal that rounds to it. Left abstract. *)
Variable float_text : bool -> R -> string.
Variable b : bits.
(** llm.py:1126, 1175-1192: [self.llm_profile]; without a device the latency stays 0 *)
Definition totals (dev : option device) (ns : list lrow) : Z * R * R :=
  let fl := fold_left (fun a n => a + p_flops (w_node n)) ns 0 in
  let me := fold_left (fun a n => fadd a (mem b (w_node n))) ns 0%R in
  (fl, me, match dev with Some d => lr_latency (llm_profile b d (map w_node ns)) | None => 0%R end).
(** llm.py:1208, 1216, 1224: [self.llm_profile[2] > 0] *)
Definition timed (dev : option device) (ns : list lrow) : option device :=
  match dev with Some d => if Rlt_dec 0 (snd (totals dev ns)) then Some d else None | None => None end.
(** llm.py:1223-1231 *)
Definition llm_header (t : option device) : list string :=
  ["Name"; "Type"; "FLOPs"; "Memory(bytes)"] ++ (match t with Some _ => ["Projected Latency(ms)"; "Bottleneck"] | None => [] end) ++ ["InShape"; "OutShape"].
(** llm.py:1203-1213; llm.py:1186 the bottleneck *)
Definition llm_row (csv : bool) (t : option device) (n : lrow) : list string :=
  [w_name n; p_op (w_node n); num2str csv (p_flops (w_node n)); num2str csv (py_int (mem b (w_node n)))] ++
  (match t with
   | Some d => let e := estimate b d (w_node n) in [fixed5 (l_node e); if Rlt_dec (l_memory e) (l_compute e) then "Compute" else "Memory"]
   | None => [] end) ++ [tuple2str "x" (w_in n); tuple2str "x" (w_out n)].
(** llm.py:1215-1222 *)
Definition llm_total (csv : bool) (dev : option device) (ns : list lrow) : list string :=
  let '(fl, me, la) := totals dev ns in
  ["Total"; "_"; num2str csv fl; float_text csv me] ++ (match timed dev ns with Some _ => [float_text csv la; "_"] | None => [] end) ++ ["_"; "_"].
(** llm.py:1195-1234: the header and the rows given to [print_table] *)
Definition llm_table (csv : bool) (dev : option device) (ns : list lrow) : list string * list (list string) :=
  (llm_header (timed dev ns), map (llm_row csv (timed dev ns)) ns ++ [llm_total csv dev ns]).
(** utils.py:55-72: the csv file *)
Definition llm_csv (dev : option device) (ns : list lrow) : string := let '(h, rows) := llm_table true dev ns in csv_text (h :: rows).
End PRINT.
