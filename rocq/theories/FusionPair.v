(** Two-node patterns: the first output of one node is the first input of the other. *)
From Verif Require Import PyBase PyBaseFacts GraphModel ShapeModel RelSpec RelProofs FusionModel FusionSpec FusionProofs FusionTop FusionMeets.
From Coq Require Import Lia.
Open Scope string_scope. Open Scope Z_scope.

(** [{name: na, op, attrs, inport: [], outport: [[0, nb, 0]]}, {name: nb, op, attrs, inport: [[0, na, 0]], outport: []}] *)
Definition pair_desc (na : string) (oa : opcond) (xa : list attrexpr) (nb : string) (ob : opcond) (xb : list attrexpr) : list desc :=
  [ {| d_name := na; d_op := oa; d_attrs := xa; d_in := []; d_out := [ {| e_idx := 0; e_desc := nb; e_other := 0 |} ] |};
    {| d_name := nb; d_op := ob; d_attrs := xb; d_in := [ {| e_idx := 0; e_desc := na; e_other := 0 |} ]; d_out := [] |} ].

Section PAIR.
Context (G : fgraph) (na nb : string) (oa ob : opcond) (xa xb : list attrexpr) (inpl : bool).
Let da : desc := {| d_name := na; d_op := oa; d_attrs := xa; d_in := []; d_out := [ {| e_idx := 0; e_desc := nb; e_other := 0 |} ] |}.
Let db : desc := {| d_name := nb; d_op := ob; d_attrs := xb; d_in := [ {| e_idx := 0; e_desc := na; e_other := 0 |} ]; d_out := [] |}.
Let PP := mk_pattern (pair_desc na oa xa nb ob xb) inpl.
Context (HN : na <> nb) (HX : exact (fg G)) (A B : node -> bool).
Context (HA : forall n, In n (nodes_of (fg G)) -> is_node G da n = SOk (A n)) (HB : forall n, In n (nodes_of (fg G)) -> is_node G db n = SOk (B n)).
Context (HL : forall n t ro ri, In n (nodes_of (fg G)) -> n_out n = t :: ro -> n_in n = t :: ri -> False).
Local Notation g := (fg G).

Lemma pp_desc : p_desc PP = [(na, da); (nb, db)].
Proof. unfold PP, mk_pattern, pair_desc. cbn [fold_left d_name p_desc dset]. destruct (String.eqb_spec nb na); [congruence|]. reflexivity. Qed.
Lemma pp_a : dlook (p_desc PP) na = SOk da.
Proof. rewrite pp_desc. unfold dlook. cbn [dget]. rewrite String.eqb_refl. reflexivity. Qed.
Lemma pp_b : dlook (p_desc PP) nb = SOk db.
Proof. rewrite pp_desc. unfold dlook. cbn [dget]. destruct (String.eqb_spec nb na); [congruence|]. rewrite String.eqb_refl. reflexivity. Qed.

Definition takes (t : string) (k : string) : bool :=
  match dget (nodemap g) k with
  | Some b => B b && match n_in b with i :: _ => String.eqb t i | [] => false end
  | None => false
  end.
Definition pair_match (n : node) : list (list string) :=
  if A n then
    match n_out n with
    | t :: _ => let occ := occurrences n_in (nodes_of g) t in
                if inpl && Nat.ltb 1 (length occ) then []
                else match find (takes t) occ with Some k => [[n_name n; k]] | None => [] end
    | [] => []
    end
  else [].

Lemma b_call f c b t ro ri : In c (nodes_of g) -> In b (nodes_of g) -> A c = true ->
  n_out c = t :: ro -> n_in b = t :: ri ->
  search_node (S f) G PP (nb, n_name b) [n_name c] = SOk (true, [(nb, n_name b)], [n_name c; n_name b]).
Proof.
  intros Hc Hb Hcb Ho Hi. cbn [search_node]. unfold search_body. cbn [fst snd]. rewrite pp_b. cbn [sbind].
  rewrite (look_In G HX _ _ (nodes_In G HX _ Hb)). cbn [sbind].
  change (d_in db) with [{| e_idx := 0; e_desc := na; e_other := 0 |}].
  cbn [up_edges e_idx e_desc e_other]. rewrite pp_a. cbn [sbind].
  rewrite Hi. change (0 =? -1) with false. cbv iota.
  replace (0 <? zlen (t :: ri)) with true by (symmetry; apply Z.ltb_lt; unfold zlen; cbn [length]; lia).
  change (py_index (t :: ri) 0) with (SOk t). cbn [sbind].
  unfold dlook at 1. rewrite (prod_unique G HX _ _ _ Hc Ho). cbn [sbind up_producers].
  rewrite (look_In G HX _ _ (nodes_In G HX _ Hc)). cbn [sbind].
  unfold port_ok. change (0 =? -1) with false. cbv iota. rewrite Ho. cbn [index_of]. rewrite String.eqb_refl. cbn [sbind].
  change (0 =? 0) with true. cbv iota.
  rewrite (HA c Hc), Hcb. cbn [sbind List.app memb]. rewrite String.eqb_refl. cbn [negb].
  change (d_out db) with (@nil edge). cbn [down_edges sbind List.app]. reflexivity.
Qed.

Lemma a_down f c t ro : In c (nodes_of g) -> A c = true -> n_out c = t :: ro -> forall ks,
  (forall k, In k ks -> exists b, In b (nodes_of g) /\ n_name b = k /\ In t (n_in b)) ->
  down_consumers G (search_node (S f) G PP) true nb db 0 t ks (false, [], [n_name c]) =
  match find (takes t) ks with
  | Some k => SOk (true, [(nb, k)], [n_name c; k])
  | None => SOk (false, [], [n_name c])
  end.
Proof.
  intros Hc Hcb Ho. induction ks as [|k ks IH]; intros HH; cbn [down_consumers find]; [reflexivity|].
  destruct (HH k (or_introl eq_refl)) as (b & Hb & <- & Hin).
  unfold takes at 1. rewrite (In_dget _ _ _ _ (ex_nodup _ HX) (nodes_In G HX _ Hb)).
  rewrite (look_In G HX _ _ (nodes_In G HX _ Hb)). cbn [sbind].
  unfold port_ok. change (0 =? -1) with false. cbv iota.
  destruct (n_in b) as [|i ri] eqn:Ei; [contradiction|]. cbn [index_of].
  destruct (String.eqb_spec t i) as [<-|D].
  - cbn [sbind]. change (0 =? 0) with true. cbv iota. rewrite (HB b Hb). cbn [sbind].
    destruct (B b) eqn:EB; cbn [andb].
    + assert (NE : n_name b <> n_name c).
      { intros E. assert (b = c).
        { assert (X := In_dget _ _ _ _ (ex_nodup _ HX) (nodes_In G HX _ Hb)). assert (Y := In_dget _ _ _ _ (ex_nodup _ HX) (nodes_In G HX _ Hc)). rewrite E in X. congruence. }
        subst b. exact (HL c t ro ri Hc Ho Ei). }
      cbn [memb]. destruct (String.eqb_spec (n_name b) (n_name c)); [contradiction|]. cbn [negb].
      rewrite (b_call f c b t ro ri) by auto. cbn [sbind List.app]. reflexivity.
    + apply IH. intros k Hk. apply HH. right; exact Hk.
  - destruct Hin as [->|Hin]; [congruence|]. destruct (index_of_in _ _ Hin) as [j Hj]. rewrite Hj. cbn [sbind].
    apply index_of_spec in Hj as [Hj _]. destruct (Z.eqb_spec (j + 1) 0); [lia|]. rewrite andb_false_r.
    apply IH. intros k Hk. apply HH. right; exact Hk.
Qed.

Lemma a_call f c : In c (nodes_of g) -> A c = true ->
  (let* q := search_node (S (S f)) G PP (na, n_name c) [] in
   let '(v, p, _) := q in
   if v then let keys := dkeys (p_desc PP) in let* ns := place keys p (repeat "a" (length keys)) in SOk [ns] else SOk [])
  = SOk (pair_match c).
Proof.
  intros Hc Hcb. remember (S f) as f1. cbn [search_node]. unfold search_body. cbn [fst snd].
  rewrite pp_a. cbn [sbind]. rewrite (look_In G HX _ _ (nodes_In G HX _ Hc)). cbn [sbind].
  change (d_in da) with (@nil edge). cbn [up_edges sbind negb List.app].
  change (d_out da) with [{| e_idx := 0; e_desc := nb; e_other := 0 |}]. cbn [down_edges e_idx e_desc e_other].
  rewrite pp_b. cbn [sbind]. change (0 =? -1) with false. cbv iota.
  unfold pair_match. rewrite Hcb. destruct (n_out c) as [|t ro] eqn:Ho.
  - reflexivity.
  - replace (0 <? zlen (t :: ro)) with true by (symmetry; apply Z.ltb_lt; unfold zlen; cbn [length]; lia).
    change (py_index (t :: ro) 0) with (SOk t). cbn [sbind]. rewrite (ex_cons _ HX). cbv zeta.
    destruct (occurrences n_in (nodes_of g) t) as [|k0 ks] eqn:Eo; [cbn [none_if_empty length Nat.ltb Nat.leb]; rewrite andb_false_r; reflexivity|].
    cbn [none_if_empty]. unfold too_many. change (p_append PP) with inpl. rewrite <- Eo.
    destruct (inpl && Nat.ltb 1 (length (occurrences n_in (nodes_of g) t))); [reflexivity|].
    subst f1. rewrite (a_down f c t ro Hc Hcb Ho).
    + destruct (find (takes t) (occurrences n_in (nodes_of g) t)); [|reflexivity].
      rewrite pp_desc. cbn [sbind dkeys map fst List.app place repeat length index_of]. rewrite String.eqb_refl. cbn [sbind].
      cbn [place index_of]. destruct (String.eqb_spec nb na); [congruence|]. rewrite String.eqb_refl. reflexivity.
    + intros k Hk. apply In_occurrences in Hk as (b & P & Q & R). eauto.
Qed.

Lemma pair_from_exact f : forall names, (forall k, In k names -> exists n, In (k, n) (nodemap g)) ->
  search_from (S (S f)) G PP da names =
  SOk (flat_map (fun k => match dget (nodemap g) k with Some n => pair_match n | None => [] end) names).
Proof.
  induction names as [|k r IH]; intros HH; [reflexivity|]. destruct (HH k (or_introl eq_refl)) as (n & Hn).
  remember (S (S f)) as ff. cbn [search_from flat_map]. rewrite (look_In G HX _ _ Hn), (In_dget _ _ _ _ (ex_nodup _ HX) Hn). cbn [sbind].
  assert (En := ex_names _ HX _ _ Hn).
  assert (Hc : In n (nodes_of g)) by (unfold nodes_of; apply in_map_iff; exists (k, n); auto).
  rewrite (HA n Hc). cbn [sbind].
  rewrite IH by (intros k' H'; apply HH; right; exact H').
  destruct (A n) eqn:C.
  - change (p_first PP) with na. subst ff. rewrite <- En.
    assert (Q := a_call f n Hc C). cbv zeta in Q |- *. rewrite Q. reflexivity.
  - cbn [sbind List.app]. unfold pair_match. rewrite C. reflexivity.
Qed.

Theorem search_pair : search_pattern G PP = SOk (flat_map pair_match (nodes_of g)).
Proof.
  unfold search_pattern. change (p_first PP) with na. rewrite pp_a. cbn [sbind].
  destruct (nodemap g) as [|kn0 rest] eqn:E.
  - unfold nodes_of. rewrite E. reflexivity.
  - rewrite <- E. replace (length (nodemap g)) with (S (length rest)) by (rewrite E; reflexivity).
    rewrite pair_from_exact.
    + f_equal. unfold nodes_of, dkeys.
      assert (Q : forall l, (forall k n, In (k, n) l -> dget (nodemap g) k = Some n) ->
        flat_map (fun k => match dget (nodemap g) k with Some n => pair_match n | None => [] end) (map fst l) = flat_map pair_match (map snd l)).
      { induction l as [|[k n] l IH]; intros Hl; [reflexivity|]. cbn [map flat_map fst snd]. rewrite (Hl k n) by (left; reflexivity).
        f_equal. apply IH. intros; apply Hl; right; auto. }
      apply Q. intros k n Hin. apply In_dget; [apply (ex_nodup _ HX)|exact Hin].
    + intros k Hk. unfold dkeys in Hk. apply in_map_iff in Hk as ([k' n] & Ek & Hk). cbn in Ek. subst. eauto.
Qed.
End PAIR.
