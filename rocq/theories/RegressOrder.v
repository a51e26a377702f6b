(** Every engine shape_regress returns lists its expressions in an order in which one pass computes them all. *)
From Verif Require Import PyBase PyBaseFacts GraphModel FloatPy ShapeModel SerialModel RegressModel WindowProofs RegressProofs.
Open Scope Z_scope.

Definition named_order (ex : dict (string * expr)) (N : nat) : Prop :=
  NoDup (dkeys ex) /\ (forall k, In k (dkeys ex) -> exists n, k = dec n /\ (n < N)%nat) /\
  forall pre k s e post, ex = (pre ++ (k, (s, e)) :: post)%list -> numeric_value s = None \/ In s (dkeys pre).
Lemma named_order_first : forall ex N, named_order ex N -> sources_first ex.
Proof.
  intros ex N (ND & NM & OR) pre k s e post E. destruct (OR _ _ _ _ _ E) as [Q|Q].
  - assert (A : forall v, In v (dkeys ex) -> s <> v). { intros v V ->. destruct (NM v V) as (n & -> & _). rewrite dec_value in Q. discriminate. }
    subst ex. unfold dkeys in *. rewrite map_app in A. cbn [map fst] in A. split.
    + apply A. apply in_or_app. simpl. auto.
    + intros I. apply (A s); auto. apply in_or_app. simpl. auto.
  - subst ex. unfold dkeys in *. rewrite map_app in ND. cbn [map fst] in ND. apply NoDup_app_inv in ND. destruct ND as (_ & _ & D).
    specialize (D s Q). simpl in D. split; [intros ->|]; tauto.
Qed.
Lemma named_order_add : forall ex N M s e, named_order ex N -> (N <= M)%nat -> (numeric_value s = None \/ In s (dkeys ex)) ->
  named_order (dset ex (dec M) (s, e)) (S M).
Proof.
  intros ex N M s e (ND & NM & OR) L Hs.
  assert (K : ~ In (dec M) (dkeys ex)). { intros I. destruct (NM _ I) as (n & E & Q). apply dec_inj in E. lia. }
  rewrite dset_new by auto. split; [|split].
  - unfold dkeys. rewrite map_app. apply NoDup_snoc; auto.
  - intros k I. unfold dkeys in I. rewrite map_app in I. apply in_app_or in I. destruct I as [I|[<-|[]]].
    + destruct (NM k I) as (n & E & Q). exists n. split; auto. lia.
    + exists M. auto.
  - intros pre k s' e' post E. destruct post as [|q post] using rev_ind.
    + apply app_inj_tail in E. destruct E as [<- E]. injection E as _ <- _. exact Hs.
    + clear IHpost. rewrite app_comm_cons, app_assoc in E. apply app_inj_tail in E. destruct E as [E _]. exact (OR _ _ _ _ _ E).
Qed.
Lemma named_order_le : forall ex N M, named_order ex N -> (N <= M)%nat -> named_order ex M.
Proof. intros ex N M (A & B & C) L. split; auto. split; auto. intros k I. destruct (B k I) as (n & E & Q). exists n. split; auto. lia. Qed.

Lemma utd_expr : forall en t i v en', update_tensor_desc en t i v = SOk en' -> se_expr en' = se_expr en.
Proof.
  intros en t i v en' H. unfold update_tensor_desc in H. destruct (dget (se_desc en) t) as [d|]; [|discriminate].
  destruct (nth_error d i) as [[z|w]|]; try discriminate. injection H as <-. reflexivity.
Qed.

Section Order.
Variables (g : rgraph) (input_desc : dict (list delem)).
Definition st_ok (vcount : nat) (st : rstate) : Prop :=
  let '(en, dst, trm) := st in named_order (se_expr en) (vcount + length dst) /\ incl (dkeys trm) (dkeys (se_expr en)) /\ (0 < length dst)%nat.

Lemma regress_dim_order : forall key src vcount t i nr st st', numeric_value key = None -> st_ok vcount st ->
  regress_dim g key src vcount t i nr st = SOk st' -> st_ok vcount st'.
Proof.
  intros key src vcount t i nr [[en dst] trm] st' NK (NO & IC & L0) H. unfold regress_dim in H.
  destruct (find_range nr dst 0) as [[|j]|].
  - destruct (update_tensor_desc en t i key) as [en'|] eqn:U; [|discriminate]. injection H as <-. apply utd_expr in U. unfold st_ok. rewrite U. auto.
  - destruct (update_tensor_desc en t i (dec (vcount + S j))) as [en'|] eqn:U; [|discriminate]. injection H as <-. apply utd_expr in U. unfold st_ok. rewrite U. auto.
  - destruct (rg_producer g t) as [ins|]; [|discriminate].
    destruct (match source_keys en vcount ins with
            | [] => let* e := build_expr src nr in SOk (e, key)
            | k :: _ => match dget trm k with None => SRaise KeyErr | Some r => let* e := build_expr r nr in SOk (e, k) end end) as [[e s]|] eqn:X; [|discriminate].
    cbn [sbind fst snd] in H.
    assert (S1 : numeric_value s = None \/ In s (dkeys (se_expr en))).
    { destruct (source_keys en vcount ins) as [|k ks].
      - destruct (build_expr src nr); [|discriminate]. injection X as _ <-. auto.
      - destruct (dget trm k) as [r|] eqn:T; [|discriminate]. destruct (build_expr r nr); [|discriminate]. injection X as _ <-.
        right. apply IC. apply dget_Some_keys in T. exact T. }
    destruct (update_tensor_desc (add_expr en (dec (vcount + length dst)) s e) t i (dec (vcount + length dst))) as [en'|] eqn:U; [|discriminate].
    injection H as <-. apply utd_expr in U. cbn [add_expr se_expr] in U. unfold st_ok. rewrite U.
    assert (K : ~ In (dec (vcount + length dst)) (dkeys (se_expr en))).
    { intros I. destruct NO as (_ & NM & _). destruct (NM _ I) as (n & E & Q). apply dec_inj in E. lia. }
    split; [|split].
    + rewrite app_length. cbn [length]. replace (vcount + (length dst + 1))%nat with (S (vcount + length dst)) by lia.
      apply named_order_add with (vcount + length dst)%nat; auto.
    + intros k I. rewrite dset_new by auto. unfold dkeys. rewrite map_app. apply in_or_app.
      destruct (string_dec k (dec (vcount + length dst))) as [->|Nk]; [simpl; auto|]. left. apply IC.
      destruct (dget trm k) as [r|] eqn:T; [apply dget_Some_keys in T; exact T|]. exfalso.
      assert (Q : dget (dset trm (dec (vcount + length dst)) nr) k = None) by (rewrite dget_dset_neq by auto; exact T). apply dget_None in Q. contradiction.
    + rewrite app_length. simpl. lia.
Qed.
Lemma regress_dims_order : forall key src vcount t s0 s1 s2 is st st', numeric_value key = None -> st_ok vcount st ->
  regress_dims g key src vcount t s0 s1 s2 is st = SOk st' -> st_ok vcount st'.
Proof.
  intros key src vcount t s0 s1 s2 is. induction is as [|i is IH]; intros st st' NK I H; cbn [regress_dims] in H; [injection H as <-; exact I|].
  destruct (py_index s0 (Z.of_nat i)) as [a|]; [|discriminate]. cbn [sbind] in H. destruct (py_index s1 (Z.of_nat i)) as [b|]; [|discriminate]. cbn [sbind] in H.
  destruct (py_index s2 (Z.of_nat i)) as [c|]; [|destruct (negb (a =? b)); discriminate]. cbn [sbind] in H.
  destruct (negb (a =? b)) eqn:E1; cbn [sbind] in H; [|destruct (negb (a =? c)) eqn:E2; cbn [sbind] in H].
  1,2: destruct (regress_dim g key src vcount t i [a; b; c] st) as [st1|] eqn:R; [|discriminate]; cbn [sbind] in H;
    eapply IH; [exact NK| |exact H]; eapply regress_dim_order; eauto.
  eapply IH; eauto.
Qed.
Lemma regress_tensors_order : forall key src vcount m0 m1 m2 ts st st', numeric_value key = None -> st_ok vcount st ->
  regress_tensors g input_desc key src vcount m0 m1 m2 ts st = SOk st' -> st_ok vcount st'.
Proof.
  intros key src vcount m0 m1 m2 ts. induction ts as [|[t s0] ts IH]; intros st st' NK I H; cbn [regress_tensors] in H; [injection H as <-; exact I|].
  destruct (dhas input_desc t); [eapply IH; eauto|]. destruct (dget m1 t) as [s1|]; [|discriminate]. destruct (dget m2 t) as [s2|]; [|discriminate].
  destruct (regress_dims g key src vcount t s0 s1 s2 (seq 0 (length s0)) st) as [st1|] eqn:R; [|discriminate]. cbn [sbind] in H.
  eapply IH; [exact NK| |exact H]. eapply regress_dims_order; eauto.
Qed.
Lemma regress_vars_order : forall m0 ranges vcount en en', (forall k, In k (dkeys ranges) -> numeric_value k = None) -> named_order (se_expr en) vcount ->
  regress_vars g input_desc m0 ranges vcount en = SOk en' -> exists N, named_order (se_expr en') N.
Proof.
  intros m0 ranges. induction ranges as [|[key [mn mx]] r IH]; intros vcount en en' NK I H; cbn [regress_vars] in H; [injection H as <-; eauto|].
  destruct (rg_infer g _) as [m1|]; [|discriminate]. cbn [sbind] in H. destruct (rg_infer g _) as [m2|]; [|discriminate]. cbn [sbind] in H.
  match type of H with context [regress_tensors ?a ?b ?c ?d ?e ?f ?h ?i ?j ?k] => destruct (regress_tensors a b c d e f h i j k) as [[[en1 dst1] trm1]|] eqn:R end; [|discriminate].
  cbn [sbind] in H.
  assert (X : st_ok vcount (en1, dst1, trm1)).
  { eapply regress_tensors_order; [|exact I0|exact R] || (eapply regress_tensors_order; [| |exact R]).
    - apply NK. simpl. auto.
    - cbn [st_ok se_expr update_variable length]. split; [eapply named_order_le; [exact I|lia]|]. split; [intros x []|lia]. }
  destruct X as (X & _ & _). eapply IH; [|exact X|exact H]. intros k K. apply NK. simpl. auto.
Qed.
Lemma init_desc_expr : forall mins maxs ts en en', init_desc input_desc mins maxs ts en = SOk en' -> se_expr en' = se_expr en.
Proof.
  intros mins maxs ts. induction ts as [|[t s] ts IH]; intros en en' H; cbn [init_desc] in H; [injection H as <-; reflexivity|].
  destruct (dhas input_desc t); [eauto|]. destruct (dget maxs t); [|discriminate]. apply IH in H. exact H.
Qed.
Lemma fold_expr : forall (h : string * (Z * Z) -> Z) l en, se_expr (fold_left (fun en p => update_variable en (fst p) (h p)) l en) = se_expr en.
Proof. intros h. induction l as [|p l IH]; intros en; cbn [fold_left]; [reflexivity|]. rewrite IH. reflexivity. Qed.
Theorem shape_regress_order : forall ranges en, (forall k, In k (dkeys ranges) -> numeric_value k = None) ->
  shape_regress g input_desc ranges = SOk en -> NoDup (dkeys (se_expr en)) /\ sources_first (se_expr en).
Proof.
  intros ranges en NK H. unfold shape_regress in H. destruct (rg_infer g _) as [maxs|]; [|discriminate]. cbn [sbind] in H.
  destruct (rg_infer g _) as [mins|]; [|discriminate]. cbn [sbind] in H.
  match type of H with context [init_desc ?a ?b ?c ?d ?e] => destruct (init_desc a b c d e) as [en1|] eqn:R end; [|discriminate]. cbn [sbind] in H.
  apply init_desc_expr in R. rewrite (fold_expr (fun p => fst (snd p))), (fold_expr (fun p => snd (snd p))) in R. cbn [new_engine se_expr] in R.
  destruct (regress_vars_order _ _ _ _ _ NK ltac:(rewrite R; split; [constructor|split; [intros k []|intros [|? ?] ? ? ? ? E; discriminate]]) H) as (N & X).
  split; [apply X|]. eapply named_order_first. exact X.
Qed.
End Order.
