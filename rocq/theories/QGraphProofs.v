(** One call of [graph_quantize], and the loop over the weights. *)
From Coq Require Import Permutation.
From Flocq Require Import Core IEEE754.Binary IEEE754.Bits.
From Verif Require Import PyBase PyBaseFacts GraphModel FloatPy ShapeModel QuantModel QGraphModel.
Open Scope nat_scope.

(** ** specification *)
(** the names that take the place of weight [t] *)
Definition news (t : string) (ty : qtype) : list string :=
  match ty with
  | Sym => [(t ++ "_ot_q")%string; (t ++ "_ot_s")%string]
  | Asym => [(t ++ "_ot_q")%string; (t ++ "_ot_s")%string; (t ++ "_ot_z")%string]
  end.
(** [t] is a two-dimensional float weight, read once, by node [n] *)
Record weight_of (g : qgraph) (t n : string) (nd : qnode) (rows : list (list f32)) : Prop := {
  wo_init : In t (q_initials g);
  wo_name : suffixed t = false;
  wo_data : dget (q_tensors g) t = Some (TFloat rows);
  wo_read : dget (q_consumed g) t = Some (RList [n]);
  wo_node : dget (q_nodes g) n = Some nd;
  wo_in   : In t (qn_in nd) }.
(** the matrix that is quantized: one row per output channel *)
Definition oriented (nd : qnode) (rows : list (list f32)) : list (list f32) :=
  if (is_gemm (qn_op nd) && Z.eqb (qn_transB nd) 0)%bool then transpose rows else rows.

(** ** names *)
Lemma app_length_s : forall a b, String.length (a ++ b) = String.length a + String.length b.
Proof. induction a; simpl; auto. Qed.
Lemma app_inj_r : forall a b c, (a ++ c)%string = (b ++ c)%string -> a = b.
Proof.
  induction a as [|x a IH]; intros [|y b] c E; auto.
  - exfalso. apply (f_equal String.length) in E. simpl in E. rewrite app_length_s in E. simpl in E. lia.
  - exfalso. apply (f_equal String.length) in E. simpl in E. rewrite app_length_s in E. simpl in E. lia.
  - simpl in E. injection E as -> E. f_equal. eauto.
Qed.
Lemma ends_app : forall a suf, ends_with suf (a ++ suf) = true.
Proof.
  intros a suf. induction a as [|x a IH]; simpl.
  - destruct suf; simpl; rewrite ?Ascii.eqb_refl, ?eqb_refl'; auto.
  - match goal with |- (if ?b then _ else _) = true => destruct b; auto end.
Qed.
Lemma suf_len : forall a b c d, String.length c = String.length d -> (a ++ c)%string = (b ++ d)%string -> a = b /\ c = d.
Proof.
  induction a as [|x a IH]; intros [|y b] c d L E.
  - auto.
  - exfalso. apply (f_equal String.length) in E. simpl in E. rewrite app_length_s in E. lia.
  - exfalso. apply (f_equal String.length) in E. simpl in E. rewrite app_length_s in E. lia.
  - simpl in E. injection E as -> E. destruct (IH b c d L E). subst. auto.
Qed.
Definition is_suf (x : string) : Prop := x = "_ot_q"%string \/ x = "_ot_s"%string \/ x = "_ot_z"%string.
Lemma suf_inj : forall a b c d, is_suf c -> is_suf d -> (a ++ c)%string = (b ++ d)%string -> a = b /\ c = d.
Proof. intros a b c d [->|[->| ->]] [->|[->| ->]]; apply suf_len; reflexivity. Qed.
Lemma app_suffixed : forall a c, is_suf c -> suffixed (a ++ c) = true.
Proof. intros a c [->|[->| ->]]; unfold suffixed, suf_q, suf_s, suf_z; rewrite ends_app, ?Bool.orb_true_r; reflexivity. Qed.
Lemma news_suf : forall t ty x, In x (news t ty) -> exists c, is_suf c /\ x = (t ++ c)%string.
Proof. intros t ty x I. destruct ty; simpl in I; unfold is_suf; intuition subst; eauto 6. Qed.
Lemma unsuffixed_neq : forall t u c, suffixed t = false -> is_suf c -> t <> (u ++ c)%string.
Proof. intros t u c S C ->. rewrite app_suffixed in S by auto. discriminate. Qed.

Lemma replace_by_split : forall t ys l, In t l -> exists pre post, l = pre ++ t :: post /\ ~ In t pre /\ replace_by t ys l = Some (pre ++ ys ++ post).
Proof.
  intros t ys. induction l as [|y l IH]; intros I; [destruct I|]. simpl. destruct (String.eqb_spec t y) as [->|N].
  - exists [], l. auto.
  - destruct I as [->|I]; [congruence|]. destruct (IH I) as (pre & post & -> & NP & ->). exists (y :: pre), post.
    split; [reflexivity|]. split; [|reflexivity]. simpl. intuition congruence.
Qed.
Lemma remove1_split : forall t a b, ~ In t a -> remove1 t (a ++ t :: b) = a ++ b.
Proof.
  intros t. induction a as [|x a IH]; intros b N; simpl.
  - rewrite eqb_refl'. reflexivity.
  - destruct (String.eqb_spec t x) as [->|M]; [destruct N; simpl; auto|]. rewrite IH; auto. intros I. apply N. simpl; auto.
Qed.
Lemma first_split : forall (t : string) l, In t l -> exists a b, l = a ++ t :: b /\ ~ In t a.
Proof.
  intros t. induction l as [|x l IH]; intros I; [destruct I|]. destruct (String.eqb_spec t x) as [->|N].
  - exists [], l. auto.
  - destruct I as [->|I]; [congruence|]. destruct (IH I) as (a & b & -> & NA). exists (x :: a), b. split; [reflexivity|]. simpl. intuition congruence.
Qed.

(** ** one call *)
Record quantized (g g' : qgraph) (t n : string) (nd : qnode) (block : Z) (ty : qtype) (bits : Z) (Q : list (list Z)) (ps : params) : Prop := {
  (* the reader takes codes, scales and zero points where it took the weight *)
  qd_node : exists pre post, qn_in nd = pre ++ t :: post /\ ~ In t pre /\
    dget (q_nodes g') n = Some (mkQN (qn_op nd) (pre ++ news t ty ++ post) (qn_transB nd) (Some (block, ty, bits)));
  qd_nodes : forall m, m <> n -> dget (q_nodes g') m = dget (q_nodes g) m;
  (* the tensors *)
  qd_codes : dget (q_tensors g') (t ++ "_ot_q") = Some (stored_codes ty bits Q);
  qd_scale : dget (q_tensors g') (t ++ "_ot_s") = Some (stored_scale bits ps);
  qd_zero : ty = Asym -> dget (q_tensors g') (t ++ "_ot_z") = Some (stored_zero bits ps);
  qd_gone : NoDup (dkeys (q_tensors g)) -> dget (q_tensors g') t = None;
  qd_tensors : forall x, x <> t -> ~ In x (news t ty) -> dget (q_tensors g') x = dget (q_tensors g) x;
  (* the list of weights *)
  qd_initials : exists a b, q_initials g = a ++ t :: b /\ ~ In t a /\ q_initials g' = a ++ b ++ news t ty;
  (* the readers *)
  qd_readers : forall x, x <> t -> ~ In x (news t Asym) -> dget (q_consumed g') x = dget (q_consumed g) x;
  qd_newreaders : forall x, In x (news t Asym) -> dget (q_consumed g') x = Some (RName n) }.

Theorem quantize_step : forall g t n nd rows block ty bits Q ps,
  weight_of g t n nd rows -> dget (q_consumed g) (t ++ "_ot_q") = None ->
  quantize (oriented nd rows) block ty bits = SOk (Q, ps) ->
  exists g', graph_quantize g t block ty bits = SOk g' /\ quantized g g' t n nd block ty bits Q ps.
Proof.
  intros g t n nd rows block ty bits Q ps [WI WS WD WR WN WIN] FR EQ.
  unfold graph_quantize. rewrite (proj2 (memb_In _ _) WI). cbn [negb]. rewrite WS, WD, WR. cbn [reader_list]. rewrite WN.
  fold (oriented nd rows). cbv zeta. rewrite EQ. cbn [sbind].
  cbn [rewire_readers]. unfold rewire_reader. rewrite dget_dset_eq. cbv zeta. cbn [qn_in qn_op qn_transB qn_attrs].
  destruct (replace_by_split t (([(t ++ suf_q)%string; (t ++ suf_s)%string] ++ match ty with Asym => [(t ++ suf_z)%string] | Sym => [] end)) (qn_in nd) WIN) as (pre & post & EL & NP & ->).
  change (dget (q_consumed g) (t ++ suf_q) = None) in FR. unfold dhas. rewrite FR. cbn [sbind rewire_readers].
  eexists. split; [reflexivity|].
  destruct (first_split t (q_initials g) WI) as (a & b & EI & NA).
  assert (NT : forall c, is_suf c -> t <> (t ++ c)%string) by (intros; apply unsuffixed_neq; auto).
  assert (S1 : is_suf "_ot_q"%string) by (unfold is_suf; auto). assert (S2 : is_suf "_ot_s"%string) by (unfold is_suf; auto). assert (S3 : is_suf "_ot_z"%string) by (unfold is_suf; auto).
  assert (D : forall c d, is_suf c -> is_suf d -> c <> d -> (t ++ c)%string <> (t ++ d)%string) by (intros c d C C' N E; apply suf_inj in E; tauto).
  constructor; cbn [q_nodes q_tensors q_consumed q_initials]; unfold suf_q, suf_s, suf_z in *.
  - exists pre, post. split; [exact EL|]. split; [exact NP|]. rewrite dget_dset_eq. destruct ty; reflexivity.
  - intros m M. rewrite !dget_dset_neq by auto. reflexivity.
  - rewrite dget_ddel_neq by auto. destruct ty; [|rewrite dget_dset_neq by (apply D; auto; discriminate)]; (rewrite dget_dset_neq by (apply D; auto; discriminate)); apply dget_dset_eq.
  - rewrite dget_ddel_neq by auto. destruct ty; [|rewrite dget_dset_neq by (apply D; auto; discriminate)]; apply dget_dset_eq.
  - intros ->. rewrite dget_ddel_neq by auto. apply dget_dset_eq.
  - intros ND. apply dget_ddel_eq. destruct ty; repeat apply NoDup_dkeys_dset; exact ND.
  - intros x X NX. rewrite dget_ddel_neq by auto. destruct ty; simpl in NX; rewrite !dget_dset_neq by tauto; reflexivity.
  - exists a, b. split; [exact EI|]. split; [exact NA|]. rewrite EI, <- app_assoc. simpl. rewrite remove1_split by exact NA. destruct ty; reflexivity.
  - intros x X NX. simpl in NX. rewrite dget_ddel_neq by auto. rewrite !dget_dset_neq by tauto. reflexivity.
  - intros x X. assert (TX : t <> x) by (destruct (news_suf _ _ _ X) as (c & C & ->); auto).
    rewrite dget_ddel_neq by auto. simpl in X.
    destruct X as [<-|[<-|[<-|[]]]]; rewrite ?dget_dset_eq; auto; rewrite dget_dset_neq by (apply D; auto; discriminate); rewrite ?dget_dset_eq; auto;
    rewrite dget_dset_neq by (apply D; auto; discriminate); apply dget_dset_eq.
Qed.

(** calls that do nothing *)
Theorem quantize_skip : forall g t block ty bits,
  ~ In t (q_initials g) \/ suffixed t = true \/ dget (q_tensors g) t = Some TOther ->
  graph_quantize g t block ty bits = SOk g \/ dget (q_tensors g) t = None.
Proof.
  intros g t block ty bits H. unfold graph_quantize. destruct (memb t (q_initials g)) eqn:M; cbn [negb]; [|auto].
  destruct (suffixed t); [auto|]. destruct H as [H|[H|H]]; [apply memb_In in M; contradiction|discriminate|]. rewrite H. auto.
Qed.

(** two or more reads: the second one is an AttributeError *)
Theorem quantize_shared : forall g t n1 n2 rest rows block ty bits,
  In t (q_initials g) -> suffixed t = false -> dget (q_tensors g) t = Some (TFloat rows) ->
  dget (q_consumed g) t = Some (RList (n1 :: n2 :: rest)) -> dget (q_consumed g) (t ++ "_ot_q") = None ->
  forall g', graph_quantize g t block ty bits <> SOk g'.
Proof.
  intros g t n1 n2 rest rows block ty bits WI WS WD WR FR g' E.
  unfold graph_quantize in E. rewrite (proj2 (memb_In _ _) WI) in E. cbn [negb] in E. rewrite WS, WD, WR in E. cbn [reader_list] in E.
  destruct (dget (q_nodes g) n1) as [nd|]; [|discriminate]. cbv zeta in E.
  destruct (quantize _ block ty bits) as [[Q ps]|]; [|discriminate]. cbn [sbind] in E.
  cbn [rewire_readers] in E. unfold rewire_reader at 1 in E. rewrite dget_dset_eq in E. cbv zeta in E.
  destruct (replace_by t _ _) as [l|]; [|discriminate]. change (dget (q_consumed g) (t ++ suf_q) = None) in FR. unfold dhas in E. rewrite FR in E. cbn [sbind] in E.
  unfold rewire_reader at 1 in E. cbv zeta in E. destruct (dget _ n2) as [nd2|]; [|discriminate].
  destruct (replace_by t _ _) as [l2|]; [|discriminate].
  assert (NE : (t ++ suf_z)%string <> (t ++ suf_q)%string /\ (t ++ suf_s)%string <> (t ++ suf_q)%string).
  { split; intros X; apply suf_len in X; try reflexivity; destruct X; discriminate. }
  assert (G : forall c n, dget (dset (dset (dset c (t ++ suf_q) (RName n)) (t ++ suf_s) (RName n)) (t ++ suf_z) (RName n)) (t ++ suf_q) = Some (RName n)).
  { intros c n. rewrite dget_dset_neq by apply NE. rewrite dget_dset_neq by apply NE. apply dget_dset_eq. }
  unfold dhas, append_reader in E. rewrite G in E. discriminate.
Qed.

(** ** the loop *)
(** every weight is either skipped by [graph_quantize] or a two-dimensional float weight, read once, that can be quantized *)
Definition ready (g : qgraph) (block : Z) (ty : qtype) (bits : Z) (t : string) : Prop :=
  dget (q_consumed g) (t ++ "_ot_q") = None /\
  exists n nd rows Q ps, dget (q_tensors g) t = Some (TFloat rows) /\ dget (q_consumed g) t = Some (RList [n]) /\
    dget (q_nodes g) n = Some nd /\ In t (qn_in nd) /\ quantize (oriented nd rows) block ty bits = SOk (Q, ps).
Definition is_float (g : qgraph) (t : string) : bool := match dget (q_tensors g) t with Some (TFloat _) => true | _ => false end.
(** the weights that such a loop reaches: the one after a quantized weight is passed over *)
Fixpoint reached (flt : string -> bool) (l : list string) : list string :=
  match l with
  | [] => []
  | t :: r => if flt t then t :: match r with [] => [] | _ :: r' => reached flt r' end else reached flt r
  end.
Definition passed_over (flt : string -> bool) (l : list string) (t : string) : Prop := In t l /\ ~ In t (reached flt l).

Lemma reached_In : forall flt l t, In t (reached flt l) -> In t l /\ flt t = true.
Proof.
  intros flt. assert (H : forall n l, length l <= n -> forall t, In t (reached flt l) -> In t l /\ flt t = true).
  { induction n as [|n IH]; intros l L t I.
    - destruct l; [destruct I|simpl in L; lia].
    - destruct l as [|x l]; [destruct I|]. simpl in I. destruct (flt x) eqn:F.
      + destruct I as [<-|I]; [simpl; auto|]. destruct l as [|y l]; [destruct I|]. apply IH in I; [|simpl in L; lia]. simpl. tauto.
      + apply IH in I; [|simpl in L; lia]. simpl. tauto. }
  intros l t. apply (H (length l)). auto.
Qed.
Lemma reached_ext : forall f f' l, (forall t, In t l -> f t = f' t) -> reached f l = reached f' l.
Proof.
  intros f f'. assert (H : forall n l, length l <= n -> (forall t, In t l -> f t = f' t) -> reached f l = reached f' l).
  { induction n as [|n IH]; intros l L E.
    - destruct l; [reflexivity|simpl in L; lia].
    - destruct l as [|x l]; [reflexivity|]. simpl. rewrite <- (E x) by (simpl; auto). destruct (f x).
      + f_equal. destruct l as [|y l]; [reflexivity|]. apply IH; [simpl in L; lia|]. intros t I. apply E. simpl; auto.
      + apply IH; [simpl in L; lia|]. intros t I. apply E. simpl; auto. }
  intros l. apply (H (length l)). auto.
Qed.

Section Loop.
Variables (block : Z) (ty : qtype) (bits : Z).
(** the loop ends, in [g'] *)
Definition ends (i : nat) (g g' : qgraph) : Prop := exists k, forall fuel, k <= fuel -> quantize_loop fuel i g block ty bits = Some (SOk g').
Lemma ends_step : forall i g key g1 g', nth_error (q_initials g) i = Some key -> graph_quantize g key block ty bits = SOk g1 ->
  ends (S i) g1 g' -> ends i g g'.
Proof.
  intros i g key g1 g' N Q (k & K). exists (S k). intros [|fuel] F; [lia|]. simpl. rewrite N, Q. apply K. lia.
Qed.
Lemma ends_stop : forall i g, nth_error (q_initials g) i = None -> ends i g g.
Proof. intros i g N. exists 0. intros fuel _. destruct fuel; simpl; rewrite N; reflexivity. Qed.

Lemma tail_loop : forall m g i, length (q_initials g) - i <= m -> (forall j x, i <= j -> nth_error (q_initials g) j = Some x -> suffixed x = true) -> ends i g g.
Proof.
  induction m as [|m IH]; intros g i L S.
  - apply ends_stop. apply nth_error_None. lia.
  - destruct (nth_error (q_initials g) i) as [key|] eqn:N; [|apply ends_stop; exact N].
    eapply ends_step; [exact N| |].
    + unfold graph_quantize. rewrite (S i key (le_n _) N). destruct (negb _); reflexivity.
    + apply IH; [lia|]. intros j x J. apply S. lia.
Qed.

Record loopst (g : qgraph) (i : nat) (rest : list string) : Prop := {
  ls_init : exists pre nw, q_initials g = pre ++ rest ++ nw /\ length pre = i /\ (forall x, In x nw -> suffixed x = true) /\ (forall x, In x pre -> ~ In x rest);
  ls_nodup : NoDup rest;
  ls_rest : forall t, In t rest -> suffixed t = false /\ (dget (q_tensors g) t = Some TOther \/ ready g block ty bits t);
  ls_nd : NoDup (dkeys (q_tensors g)) }.
Record loopres (g g' : qgraph) (rest : list string) : Prop := {
  lr_done : forall t, In t (reached (is_float g) rest) -> dget (q_tensors g') t = None /\ exists q, dget (q_tensors g') (t ++ "_ot_q") = Some (TCodes q);
  lr_rest : forall x, (forall t, In t (reached (is_float g) rest) -> x <> t /\ ~ In x (news t ty)) -> dget (q_tensors g') x = dget (q_tensors g) x }.

Lemma nodup_tensors : forall g t g1, graph_quantize g t block ty bits = SOk g1 -> NoDup (dkeys (q_tensors g)) -> NoDup (dkeys (q_tensors g1)).
Proof.
  intros g t g1 E ND. unfold graph_quantize in E. destruct (negb _); [injection E as <-; auto|]. destruct (suffixed t); [injection E as <-; auto|].
  destruct (dget (q_tensors g) t) as [[rows| | | | |]|]; try discriminate; try (injection E as <-; assumption).
  destruct (dget (q_consumed g) t) as [rs|]; [|discriminate]. destruct (reader_list rs) as [|n l]; [discriminate|].
  destruct (dget (q_nodes g) n) as [nd|]; [|discriminate]. cbv zeta in E.
  destruct (quantize _ block ty bits) as [[Q ps]|]; [|discriminate]. cbn [sbind] in E.
  destruct (rewire_readers _ _ _ _) as [[nodes' cns]|]; [|discriminate]. cbn [sbind] in E. injection E as <-. cbn [q_tensors].
  apply NoDup_dkeys_ddel. destruct ty; repeat apply NoDup_dkeys_dset; exact ND.
Qed.
Lemma codes_shape : forall b Q, exists q, stored_codes ty b Q = TCodes q.
Proof. intros b Q. unfold stored_codes. destruct (Z.eqb b 8); [eauto|]. destruct (Z.eqb b 4); eauto. Qed.

(** a call for [t] leaves the other weights ready *)
Lemma ready_frame : forall g g1 t n nd Q ps u, quantized g g1 t n nd block ty bits Q ps -> dget (q_nodes g) n = Some nd -> suffixed t = false -> suffixed u = false -> u <> t ->
  ready g block ty bits u -> ready g1 block ty bits u.
Proof.
  intros g g1 t n nd Q ps u QD NN ST SU NE (FR & n' & nd' & rows & Q' & ps' & D & R & N & I & E).
  assert (U : ~ In u (news t ty)) by (intros X; destruct (news_suf _ _ _ X) as (c & C & ->); rewrite app_suffixed in SU by auto; discriminate).
  assert (U' : ~ In u (news t Asym)) by (intros X; destruct (news_suf _ _ _ X) as (c & C & ->); rewrite app_suffixed in SU by auto; discriminate).
  split.
  - rewrite (qd_readers _ _ _ _ _ _ _ _ _ _ QD); auto.
    + intros X. apply (unsuffixed_neq t u "_ot_q"%string ST); [unfold is_suf; auto|auto].
    + intros X. destruct (news_suf _ _ _ X) as (c & C & X'). apply suf_inj in X'; [|unfold is_suf; auto|auto]. destruct X'. congruence.
  - destruct (string_dec n' n) as [->|NN'].
    + destruct (qd_node _ _ _ _ _ _ _ _ _ _ QD) as (pre & post & EL & NP & EN). assert (nd' = nd) by congruence. subst nd'.
      exists n, (mkQN (qn_op nd) (pre ++ news t ty ++ post) (qn_transB nd) (Some (block, ty, bits))), rows, Q', ps'.
      split; [rewrite (qd_tensors _ _ _ _ _ _ _ _ _ _ QD); auto|]. split; [rewrite (qd_readers _ _ _ _ _ _ _ _ _ _ QD); auto|].
      split; [exact EN|]. split; [|exact E]. cbn [qn_in]. rewrite EL in I. apply in_app_or in I. apply in_or_app.
      destruct I as [I|[I|I]]; [auto|congruence|]. right. apply in_or_app. auto.
    + exists n', nd', rows, Q', ps'. split; [rewrite (qd_tensors _ _ _ _ _ _ _ _ _ _ QD); auto|]. split; [rewrite (qd_readers _ _ _ _ _ _ _ _ _ _ QD); auto|].
      rewrite (qd_nodes _ _ _ _ _ _ _ _ _ _ QD) by auto. auto.
Qed.

Theorem loop_result : forall m g i rest, length rest <= m -> loopst g i rest -> exists g', ends i g g' /\ loopres g g' rest.
Proof.
  induction m as [|m IH]; intros g i rest L [(pre & nw & EI & LP & SN & NI) NDR LR ND].
  - destruct rest; [|simpl in L; lia]. exists g. split.
    + apply (tail_loop (length (q_initials g) - i)); [lia|]. intros j x J N. apply SN. rewrite EI in N. simpl in N. rewrite nth_error_app2 in N by lia. eapply nth_error_In; eauto.
    + constructor; [intros t []|reflexivity].
  - destruct rest as [|t rest].
    { exists g. split.
      + apply (tail_loop (length (q_initials g) - i)); [lia|]. intros j x J N. apply SN. rewrite EI in N. simpl in N. rewrite nth_error_app2 in N by lia. eapply nth_error_In; eauto.
      + constructor; [intros t []|reflexivity]. }
    assert (NTH : nth_error (q_initials g) i = Some t) by (rewrite EI, nth_error_app2 by lia; rewrite LP, Nat.sub_diag; reflexivity).
    assert (IT : In t (q_initials g)) by (eapply nth_error_In; eauto).
    destruct (LR t (or_introl eq_refl)) as [ST [OT|RT]].
    + (* skipped *)
      destruct (IH g (S i) rest) as (g' & EN & [D R]); [simpl in L; lia| |].
      { constructor; auto.
        - exists (pre ++ [t]), nw. rewrite <- app_assoc. split; [exact EI|]. split; [rewrite app_length; simpl; lia|]. split; [exact SN|].
          intros x X. apply in_app_or in X. destruct X as [X|[<-|[]]]; [intros Y; apply (NI x X); simpl; auto|inversion NDR; auto].
        - inversion NDR; auto.
        - intros u U. apply LR. simpl; auto. }
      exists g'. split.
      * eapply ends_step; [exact NTH| |exact EN]. unfold graph_quantize. destruct (negb _); [reflexivity|]. rewrite ST, OT. reflexivity.
      * assert (E : reached (is_float g) (t :: rest) = reached (is_float g) rest) by (simpl; unfold is_float at 1; rewrite OT; reflexivity).
        constructor; rewrite E; auto.
    + (* quantized, and the next one passed over *)
      destruct RT as (FR & n & nd & rows & Q & ps & DT & RD & NN & IN & EQ).
      destruct (quantize_step g t n nd rows block ty bits Q ps) as (g1 & E1 & QD); [constructor; auto|exact FR|exact EQ|].
      pose proof (qd_initials _ _ _ _ _ _ _ _ _ _ QD) as (a & b & EA & NA & EI1).
      assert (NPRE : ~ In t pre) by (intros X; apply (NI t X); simpl; auto).
      assert (AB : a = pre /\ b = rest ++ nw).
      { rewrite EI in EA. clear - EA NA NPRE. revert a NA EA. induction pre as [|x pre IHp]; intros [|y a] NA EA; simpl in EA.
        - injection EA as <-. auto.
        - injection EA as -> _. destruct NA; simpl; auto.
        - injection EA as <- _. destruct NPRE; simpl; auto.
        - injection EA as -> EA. destruct (IHp (fun X => NPRE (or_intror X)) a (fun X => NA (or_intror X)) EA). subst. auto. }
      destruct AB as [-> ->].
      assert (SW : forall x, In x (nw ++ news t ty) -> suffixed x = true).
      { intros x X. apply in_app_or in X. destruct X as [X|X]; [auto|]. destruct (news_suf _ _ _ X) as (c & C & ->). apply app_suffixed; auto. }
      assert (TR : ~ In t rest) by (inversion NDR; auto).
      assert (KEEP : forall u, In u rest -> dget (q_tensors g1) u = dget (q_tensors g) u).
      { intros u U. apply (qd_tensors _ _ _ _ _ _ _ _ _ _ QD); [intros ->; contradiction|].
        intros X. destruct (news_suf _ _ _ X) as (c & C & ->). destruct (LR (t ++ c)%string) as [Y _]; [simpl; auto|]. rewrite app_suffixed in Y by auto. discriminate. }
      assert (FLT : is_float g t = true) by (unfold is_float; rewrite DT; reflexivity).
      assert (GO : exists g', ends (S i) g1 g' /\ loopres g1 g' (tl rest)).
      { destruct rest as [|u rest]; cbn [tl].
        - exists g1. split; [|constructor; [intros v []|reflexivity]].
          apply (tail_loop (length (q_initials g1) - S i)); [lia|]. intros j x J N. rewrite EI1 in N. rewrite nth_error_app2 in N by lia.
          apply SW. simpl in N. eapply nth_error_In; eauto.
        - apply IH; [simpl in L; lia|]. constructor.
          + exists (pre ++ [u]), (nw ++ news t ty). split; [rewrite EI1, <- !app_assoc; reflexivity|]. split; [rewrite app_length; simpl; lia|]. split; [exact SW|].
            intros x X. apply in_app_or in X. destruct X as [X|[<-|[]]]; [intros Y; apply (NI x X); simpl; auto|].
            inversion NDR as [|? ? _ ND2]. subst. inversion ND2; auto.
          + inversion NDR as [|? ? _ ND2]. subst. inversion ND2; auto.
          + intros v V. destruct (LR v) as [SV RV]; [simpl; auto|]. split; [exact SV|].
            destruct RV as [RV|RV]; [left; rewrite KEEP; simpl; auto|]. right.
            assert (VT : v <> t) by (intros ->; apply TR; simpl; auto).
            eapply (ready_frame g g1 t n nd Q ps v); eauto.
          + eapply nodup_tensors; eauto. }
      destruct GO as (g' & EN & [D R]). exists g'. split; [eapply ends_step; [exact NTH|exact E1|exact EN]|].
      assert (RE : reached (is_float g) (t :: rest) = t :: reached (is_float g1) (tl rest)).
      { simpl. rewrite FLT. f_equal. destruct rest as [|u rest]; [reflexivity|]. cbn [tl]. apply reached_ext. intros v V. unfold is_float. rewrite KEEP; simpl; auto. }
      assert (LATER : forall v, In v (reached (is_float g1) (tl rest)) -> In v rest).
      { intros v V. apply reached_In in V. destruct rest; [destruct V as [[]]|]. simpl. tauto. }
      constructor; rewrite RE.
      * intros v [<-|V]; [|apply D; exact V].
        assert (OUT : forall x, (x = t \/ exists c, is_suf c /\ x = (t ++ c)%string) -> dget (q_tensors g') x = dget (q_tensors g1) x).
        { intros x X. apply R. intros w W. pose proof (LATER w W) as WR. destruct (LR w) as [SW' _]; [simpl; auto|].
          destruct X as [->|(c & C & ->)]; split.
          - intros ->. contradiction.
          - intros Y. destruct (news_suf _ _ _ Y) as (d & Dd & ->). rewrite app_suffixed in ST by auto. discriminate.
          - intros Y. rewrite <- Y, app_suffixed in SW' by auto. discriminate.
          - intros Y. destruct (news_suf _ _ _ Y) as (d & Dd & Y'). apply suf_inj in Y'; auto. destruct Y'. subst w. contradiction. }
        split; [rewrite OUT by auto; apply (qd_gone _ _ _ _ _ _ _ _ _ _ QD ND)|].
        rewrite OUT by (right; exists "_ot_q"%string; unfold is_suf; auto).
        destruct (codes_shape bits Q) as (q & CQ). exists q. rewrite <- CQ. apply (qd_codes _ _ _ _ _ _ _ _ _ _ QD).
      * intros x X. rewrite R by (intros v V; apply X; simpl; auto). destruct (X t) as [X1 X2]; [simpl; auto|].
        apply (qd_tensors _ _ _ _ _ _ _ _ _ _ QD); auto.
Qed.
End Loop.
