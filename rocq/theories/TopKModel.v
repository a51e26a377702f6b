(** Model of [Graph.__set_fixed_topk], onnx_tool/graph.py:385-414: every TopK reads one constant instead of its own K. *)
From Verif Require Import PyBase GraphModel EditModel ShapeModel ConvBNModel.
Local Open Scope string_scope.
Local Open Scope list_scope.

(** graph.py:387 *)
Definition fixed_name : string := "constant_fixed_topk_k".
(** graph.py:403-405: the inputs of one visited node; returns the longer [node_list].
    Simplified: [self.producedby[ipn][0]] of an empty list (IndexError) is not modelled; the tables hold no empty list. *)
Fixpoint visit_k (g : graph) (ins : list string) (q : list string) : sres (list string) :=
  match ins with
  | [] => SOk q
  | t :: r =>
      match dget (consumedby g) t with
      | None => SRaise KeyErr
      | Some cs =>
          if Nat.eqb (length cs) 1
          then match dget (producedby g) t with
               | None => SRaise KeyErr
               | Some ps => visit_k g r (q ++ [hd "" ps])
               end
          else visit_k g r q
      end
  end.
(** graph.py:399-407: the while loop; [nm] is the nodemap as changed so far ([None] = out of fuel, excluded by the theorems) *)
Fixpoint k_chain (fuel : nat) (g : graph) (nm : dict node) (q rm : list string) : option (sres (list string)) :=
  match q with
  | [] => Some (SOk rm)
  | k :: r =>
      match fuel with
      | O => None
      | S f =>
          match dget nm k with
          | None => Some (SRaise KeyErr)
          | Some n => match visit_k g (n_in n) r with
                      | SOk q' => k_chain f g nm q' (rm ++ [k])
                      | SRaise e => Some (SRaise e)
                      end
          end
      end
  end.
(** graph.py:396-398: the first element of [node_list] *)
Definition k_start (g : graph) (t : string) : sres (list string) :=
  match dget (consumedby g) t with
  | None => SRaise KeyErr
  | Some cs => if Nat.eqb (length cs) 1
               then match dget (producedby g) t with None => SRaise KeyErr | Some ps => SOk [hd "" ps] end
               else SOk []
  end.
(** graph.py:391-409: the loop over the nodes; state = (nodemap, remove_list, topk_node) *)
Fixpoint k_scan (fuel : nat) (g : graph) (keys : list string) (nm : dict node) (rm : list string) (count : nat)
  : option (sres (dict node * list string * nat)) :=
  match keys with
  | [] => Some (SOk (nm, rm, count))
  | k :: r =>
      match dget nm k with
      | None => Some (SRaise KeyErr)
      | Some n =>
          if String.eqb (n_op n) "TopK"
          then match nth_error (n_in n) 1 with
               | None => Some (SRaise IndexErr)
               | Some t =>
                   match k_start g t with
                   | SRaise e => Some (SRaise e)
                   | SOk q =>
                       match k_chain fuel g nm q rm with
                       | Some (SOk rm') => k_scan fuel g r (dset nm k (set_in n (ShapeModel.set_nth (n_in n) 1 fixed_name))) rm' (S count)
                       | Some (SRaise e) => Some (SRaise e)
                       | None => None
                       end
                   end
               end
          else k_scan fuel g r nm rm count
      end
  end.
(** graph.py:385-414; [numpy.array([fixed_k])] is an int64 tensor of shape [1] *)
Definition set_fixed_topk (fuel : nat) (g : graph) : option (sres graph) :=
  match k_scan fuel g (dkeys (nodemap g)) (nodemap g) [] 0 with
  | Some (SOk (nm, rm, count)) =>
      let some_k := Nat.ltb 0 count in
      let g1 := mkGraph nm (if some_k then dset (tensormap g) fixed_name (mkTensor STATIC [1%Z] 8%Z) else tensormap g)
                        (producedby g) (consumedby g) (if some_k then initials g ++ [fixed_name] else initials g)
                        (dynamics g) (g_input g) (g_output g) in
      Some (of_res (remove_nodes g1 rm))
  | Some (SRaise e) => Some (SRaise e)
  | None => None
  end.
