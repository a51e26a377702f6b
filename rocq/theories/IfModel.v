(** Model of [Graph.__remove_if__], onnx_tool/graph.py:333-383: every If node is replaced by its selected branch. *)
From Verif Require Import PyBase GraphModel EditModel ShapeModel ConvBNModel.
Local Open Scope string_scope.
Local Open Scope list_scope.

(** the selected branch (graph.py:337: else_branch iff if_fixed_branch is 'else', otherwise then_branch): its nodes and output names.
    Left out: initializers and value_info of the branch, which the code does not look at. *)
Record branch := mkBranch { b_nodes : list node; b_outs : list string }.
Section IF.
(** the selected branch of the If node registered under a name ([node.attr[selected_branch]]) *)
Variable body : string -> branch.

(** graph.py:342-345 *)
Definition sub_input (b : branch) : list string := flat_map n_in (b_nodes b).
(** graph.py:351-355: the operands of one visited node; returns node_list and consumedby *)
Fixpoint if_inputs (prod : dict (list string)) (sub : list string) (sname : string) (ins : list string) (q : list string) (cns : dict (list string))
  : sres (list string * dict (list string)) :=
  match ins with
  | [] => SOk (q, cns)
  | i :: r =>
      match dget cns i with
      | None => SRaise KeyErr
      | Some l =>
          let next q' := if memb sname l then if_inputs prod sub sname r q' (dset cns i (remove1 sname l)) else SRaise ValueErr in
          if Nat.eqb (length l) 1 && negb (memb i sub)
          then match dget prod i with
               | Some (p :: _) => next (q ++ [p])
               | Some [] => SRaise IndexErr
               | None => next q
               end
          else next q
      end
  end.
(** graph.py:346-357: the while loop over node_list ([None] = out of fuel) *)
Fixpoint if_chain (fuel : nat) (nm : dict node) (prod : dict (list string)) (sub : list string) (q : list string) (cns : dict (list string)) (rm : list string)
  : option (sres (dict (list string) * list string)) :=
  match q with
  | [] => Some (SOk (cns, rm))
  | s :: r =>
      match fuel with
      | O => None
      | S f =>
          match dget nm s with
          | None => Some (SRaise KeyErr)
          | Some n => match if_inputs prod sub s (n_in n) r cns with
                      | SOk (q', cns') => if_chain f nm prod sub q' cns' (rm ++ [s])
                      | SRaise e => Some (SRaise e)
                      end
          end
      end
  end.
(** graph.py:358-362 with __add_node_from_proto__ (416-434).  prevnodes/nextnodes are left out, as in LoadModel. *)
Definition add_branch (b : branch) (nm : dict node) (prod cns : dict (list string)) : dict node * (dict (list string) * dict (list string)) :=
  fold_left (fun st n => (dset (fst st) (n_name n) n, upd_node (snd st) n)) (b_nodes b) (nm, (prod, cns)).
(** [Tensor(name)] when the name is new, graph.py:370-375 *)
Definition new_tensor (tm : dict tensor) (t : string) : dict tensor :=
  if dhas tm t then tm else dset tm t (mkTensor (if String.eqb t "" then STATIC else DYNAMIC) [] 4%Z).
Definition renamed (pre new : string) (outs : list string) : list string := map (fun o => if String.eqb o pre then new else o) outs.
(** graph.py:367-382: one new node *)
Definition revise1 (pre new : string) (newname : string) (st : dict node * dict tensor * dict (list string)) : sres (dict node * dict tensor * dict (list string)) :=
  let '(nm, tm, prod) := st in
  match dget nm newname with
  | None => SRaise KeyErr
  | Some n =>
      let tm' := fold_left new_tensor (n_in n ++ n_out n) tm in
      let nm' := dset nm newname (mkNode (n_name n) (n_op n) (n_in n) (renamed pre new (n_out n))) in
      if memb pre (n_out n)
      then match dget prod new with
           | None => SRaise KeyErr
           | Some l => SOk (nm', tm', dset prod new (l ++ map (fun _ => newname) (filter (String.eqb pre) (n_out n))))
           end
      else SOk (nm', tm', prod)
  end.
Fixpoint revise (pre new : string) (names : list string) (st : dict node * dict tensor * dict (list string)) : sres (dict node * dict tensor * dict (list string)) :=
  match names with
  | [] => SOk st
  | k :: r => sbind (revise1 pre new k st) (revise pre new r)
  end.
(** state of a pass: nodemap, tensormap, producedby, consumedby, remove_list *)
Record ist := mkIst { i_nm : dict node; i_tm : dict tensor; i_prod : dict (list string); i_cons : dict (list string); i_rm : list string }.
(** graph.py:341-382: one If.
    Simplified: an unnamed branch node is registered under an automatic name and then looked up under '' (KeyError, line 368); here the
    KeyError comes at once, and the registration under a made-up name is skipped. *)
Definition do_if (fuel : nat) (n : node) (s : ist) : option (sres ist) :=
  let b := body (n_name n) in
  match if_chain fuel (i_nm s) (i_prod s) (sub_input b) [n_name n] (i_cons s) (i_rm s) with
  | None => None
  | Some (SRaise e) => Some (SRaise e)
  | Some (SOk (cns, rm)) =>
      if memb "" (map n_name (b_nodes b)) then Some (SRaise KeyErr)
      else
        let '(nm, (prod, cns')) := add_branch b (i_nm s) (i_prod s) cns in
        match b_outs b, n_out n with
        | pre :: _, new :: _ =>
            match revise pre new (map n_name (b_nodes b)) (nm, i_tm s, prod) with
            | SOk (nm', tm', prod') => Some (SOk (mkIst nm' tm' prod' cns' rm))
            | SRaise e => Some (SRaise e)
            end
        | _, _ => Some (SRaise IndexErr)
        end
  end.
(** graph.py:338-382: one pass over the nodes present at its start *)
Fixpoint if_pass (fuel : nat) (keys : list string) (s : ist) : option (sres ist) :=
  match keys with
  | [] => Some (SOk s)
  | k :: r =>
      match dget (i_nm s) k with
      | None => Some (SRaise KeyErr)
      | Some n =>
          if String.eqb (n_op n) "If"
          then match do_if fuel n s with
               | Some (SOk s') => if_pass fuel r s'
               | Some (SRaise e) => Some (SRaise e)
               | None => None
               end
          else if_pass fuel r s
      end
  end.
(** graph.py:333-385: passes until one finds no If; [n] bounds the passes, [fuel] the steps of one condition chain *)
Fixpoint remove_if (n : nat) (fuel : nat) (g : graph) : option (sres graph) :=
  match n with
  | O => None
  | S m =>
      match if_pass fuel (dkeys (nodemap g)) (mkIst (nodemap g) (tensormap g) (producedby g) (consumedby g) []) with
      | None => None
      | Some (SRaise e) => Some (SRaise e)
      | Some (SOk s) =>
          let g1 := mkGraph (i_nm s) (i_tm s) (i_prod s) (i_cons s) (initials g) (dynamics g) (g_input g) (g_output g) in
          match i_rm s with
          | [] => Some (SOk g1)
          | _ => match remove_nodes g1 (i_rm s) with
                 | Ok g2 => remove_if m fuel g2
                 | KeyError => Some (SRaise KeyErr)
                 | ValueError => Some (SRaise ValueErr)
                 | AssertionError => Some (SRaise AssertErr)
                 end
          end
      end
  end.
End IF.
