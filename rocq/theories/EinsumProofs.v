(** Proofs about Einsum's shape inference. *)
From Verif Require Import PyBase GraphModel ShapeModel ShapeSpec BcastProofs WindowProofs EinsumModel EinsumSpec.
From Coq Require Import String Ascii List Bool Lia Sorting.Sorted.
Import ListNotations.
Open Scope list_scope. Open Scope Z_scope.

(** ** splitting *)
Lemma split_comma_none : forall s, ~ In ","%char s -> split_comma s = [s].
Proof.
  induction s as [|c r IH]; intros N; [reflexivity|]. cbn [split_comma].
  destruct (Ascii.eqb_spec c ","); [subst; exfalso; apply N; left; auto|].
  rewrite IH; auto. intros X; apply N; right; auto.
Qed.
Lemma split_comma_app : forall s r, ~ In ","%char s -> split_comma (s ++ ","%char :: r) = s :: split_comma r.
Proof.
  induction s as [|c s IH]; intros r N; [reflexivity|]. cbn [split_comma app].
  destruct (Ascii.eqb_spec c ","); [subst; exfalso; apply N; left; auto|].
  rewrite IH; auto. intros X; apply N; right; auto.
Qed.
Lemma split_comma_joined : forall ts, ts <> [] -> (forall t, In t ts -> ~ In ","%char t) -> split_comma (joined [","%char] ts) = ts.
Proof.
  induction ts as [|t ts IH]; intros Ne N; [easy|].
  destruct ts as [|t2 ts]; [apply split_comma_none, N; left; auto|].
  change (joined [","%char] (t :: t2 :: ts)) with (t ++ [","%char] ++ joined [","%char] (t2 :: ts)).
  cbn [app]. rewrite split_comma_app by (apply N; left; auto). rewrite IH; auto; [easy|]. intros u U; apply N; right; auto.
Qed.
Lemma split_arrow_none : forall s, ~ In "-"%char s -> split_arrow s = [s].
Proof.
  induction s as [|c r IH]; intros N; [reflexivity|]. cbn [split_arrow].
  assert (C : Ascii.eqb c "-" = false) by (apply Ascii.eqb_neq; intros ->; apply N; left; auto).
  rewrite C. rewrite IH by (intros X; apply N; right; auto). cbn [andb]. destruct r; reflexivity.
Qed.
Lemma split_arrow_app : forall s r, ~ In "-"%char s -> split_arrow (s ++ "-"%char :: ">"%char :: r) = s :: split_arrow r.
Proof.
  induction s as [|c s IH]; intros r N; [reflexivity|].
  assert (C : Ascii.eqb c "-" = false) by (apply Ascii.eqb_neq; intros ->; apply N; left; auto).
  change ((c :: s) ++ "-"%char :: ">"%char :: r) with (c :: (s ++ "-"%char :: ">"%char :: r)).
  cbn [split_arrow]. rewrite C. cbn [andb]. rewrite IH by (intros X; apply N; right; auto).
  destruct (s ++ "-"%char :: ">"%char :: r) eqn:E; [destruct s; discriminate|reflexivity].
Qed.

Definition word (c : ascii) : Prop := letter c \/ c = "."%char.
Lemma word_not : forall c, word c -> c <> ","%char /\ c <> "-"%char.
Proof. intros c [[H|H]| ->]; split; try (intros ->; cbn in H; lia); discriminate. Qed.
Lemma letter_not_dot : forall c, letter c -> Ascii.eqb c "." = false.
Proof. intros c H. apply Ascii.eqb_neq. intros ->. destruct H as [H|H]; cbn in H; lia. Qed.
Lemma spelled_word : forall t, Forall letter (labels_of t) -> Forall word (spelled t).
Proof.
  intros [l|a b] H; cbn [labels_of spelled] in *.
  - eapply Forall_impl; [|exact H]. intros; left; auto.
  - apply Forall_app in H. destruct H as [Ha Hb]. apply Forall_app; split; [eapply Forall_impl; [|exact Ha]; intros; left; auto|].
    apply Forall_app; split; [repeat constructor; right; auto|eapply Forall_impl; [|exact Hb]; intros; left; auto].
Qed.
Lemma spelled_nocomma : forall t, Forall letter (labels_of t) -> ~ In ","%char (spelled t).
Proof. intros t H I. apply spelled_word in H. rewrite Forall_forall in H. apply H in I. apply word_not in I. easy. Qed.
Lemma spelled_nodash : forall t, Forall letter (labels_of t) -> ~ In "-"%char (spelled t).
Proof. intros t H I. apply spelled_word in H. rewrite Forall_forall in H. apply H in I. apply word_not in I. easy. Qed.
Lemma joined_in : forall sep ts c, In c (joined sep ts) -> In c sep \/ exists t, In t ts /\ In c t.
Proof.
  induction ts as [|t ts IH]; intros c I; [easy|].
  destruct ts as [|t2 ts]; [right; exists t; split; [left|]; auto|].
  change (joined sep (t :: t2 :: ts)) with (t ++ sep ++ joined sep (t2 :: ts)) in I.
  apply in_app_or in I as [I|I]; [right; exists t; split; [left|]; auto|].
  apply in_app_or in I as [I|I]; [left; auto|]. apply IH in I as [I|(u & U & V)]; [left; auto|].
  right. exists u. split; [right|]; auto.
Qed.
Lemma joined_nodash : forall ins, (forall t, In t ins -> Forall letter (labels_of t)) -> ~ In "-"%char (joined [","%char] (map spelled ins)).
Proof.
  intros ins H I. apply joined_in in I as [[I|[]]|(t & T & I)]; [discriminate|].
  apply in_map_iff in T as (u & <- & U). eapply spelled_nodash; eauto.
Qed.

Lemma parse_explicit : forall s ins out, explicit_equation s ins out -> good_terms ins out -> parse_equation s = SOk (map spelled ins, spelled out).
Proof.
  intros s ins out Eq (Ne & L & _). unfold parse_equation, drop_spaces. red in Eq. rewrite Eq. cbn [app].
  assert (LI : forall t, In t ins -> Forall letter (labels_of t)) by (intros; apply L; right; auto).
  rewrite split_arrow_app by (apply joined_nodash; auto).
  rewrite split_arrow_none by (apply spelled_nodash, L; left; auto).
  rewrite split_comma_joined; [reflexivity|destruct ins; easy|].
  intros t I. apply in_map_iff in I as (u & <- & U). apply spelled_nocomma; auto.
Qed.

(** ** implicit results *)
Lemma char_insert_in : forall c l x, In x (char_insert c l) <-> x = c \/ In x l.
Proof.
  induction l as [|y l IH]; intros x; cbn [char_insert].
  - cbn; firstorder.
  - destruct (Nat.leb _ _); cbn [In]; [firstorder|]. rewrite IH. firstorder.
Qed.
Lemma char_sort_in : forall l x, In x (char_sort l) <-> In x l.
Proof. induction l as [|c l IH]; intros x; [reflexivity|]. cbn [char_sort fold_right]. rewrite char_insert_in. fold (char_sort l). rewrite IH. cbn; firstorder. Qed.
Notation clt := (fun a b => (nat_of_ascii a < nat_of_ascii b)%nat).
Lemma code_inj : forall a b, nat_of_ascii a = nat_of_ascii b -> a = b.
Proof. intros a b H. rewrite <- (ascii_nat_embedding a), <- (ascii_nat_embedding b), H. reflexivity. Qed.
Lemma char_insert_sorted : forall c l, ~ In c l -> StronglySorted clt l -> StronglySorted clt (char_insert c l).
Proof.
  induction l as [|y l IH]; intros N S0; cbn [char_insert]; [repeat constructor|].
  apply StronglySorted_inv in S0 as [Sl F].
  destruct (Nat.leb_spec (nat_of_ascii c) (nat_of_ascii y)) as [Le|Gt].
  - assert (nat_of_ascii c < nat_of_ascii y)%nat.
    { assert (nat_of_ascii c <> nat_of_ascii y); [|lia]. intros E. apply N. left. symmetry. apply code_inj; auto. }
    repeat constructor; auto. eapply Forall_impl; [|exact F]. cbn; intros; lia.
  - constructor; [apply IH; auto; intros X; apply N; right; auto|].
    apply Forall_forall. intros x I. apply char_insert_in in I as [-> |I]; [lia|]. rewrite Forall_forall in F; auto.
Qed.
Lemma char_sort_sorted : forall l, NoDup l -> StronglySorted clt (char_sort l).
Proof.
  induction l as [|c l IH]; intros N; [constructor|]. inversion N; subst. cbn [char_sort fold_right]. fold (char_sort l).
  apply char_insert_sorted; auto. rewrite char_sort_in; auto.
Qed.
Lemma sorted_same : forall l l', StronglySorted clt l -> StronglySorted clt l' -> (forall x, In x l <-> In x l') -> l = l'.
Proof.
  induction l as [|a l IH]; intros [|b l'] S1 S2 H; [reflexivity|exfalso; apply (H b); left; auto|exfalso; apply (H a); left; auto|].
  apply StronglySorted_inv in S1 as [S1 F1]. apply StronglySorted_inv in S2 as [S2 F2]. rewrite Forall_forall in F1, F2.
  assert (a = b).
  { destruct (proj1 (H a)) as [->|I]; [left; auto|reflexivity|]. destruct (proj2 (H b)) as [<-|J]; [left; auto|reflexivity|].
    apply F2 in I. apply F1 in J. lia. }
  subst b. f_equal. apply IH; auto. intros x. split; intros I.
  - destruct (proj1 (H x)) as [<-|J]; [right; auto| |auto]. apply F1 in I. lia.
  - destruct (proj2 (H x)) as [<-|J]; [right; auto| |auto]. apply F2 in I. lia.
Qed.
Lemma uniq_fold : forall all l u, NoDup u -> NoDup (fold_left (uniq_step all) l u) /\
  forall c, In c (fold_left (uniq_step all) l u) <-> In c u \/ (In c l /\ c <> "."%char /\ char_count c all = 1%nat).
Proof.
  induction l as [|x l IH]; intros u N; cbn [fold_left].
  - split; auto. cbn; firstorder.
  - unfold uniq_step at 2 4.
    destruct (Ascii.eqb_spec x "."); [cbn [negb andb]; destruct (IH u N) as [A B]; split; auto; intros c; rewrite B; cbn [In]; split;
      [firstorder|]; intros [?|([<-|?] & ? & ?)]; auto; easy|].
    destruct (Nat.eqb_spec (char_count x all) 1); cbn [negb andb];
      [|destruct (IH u N) as [A B]; split; auto; intros c; rewrite B; cbn [In]; split; [firstorder|]; intros [?|([<-|?] & ? & ?)]; auto; easy].
    destruct (existsb (Ascii.eqb x) u) eqn:E; cbn [negb].
    + apply existsb_exists in E as (y & Y & E). apply Ascii.eqb_eq in E. subst y.
      destruct (IH u N) as [A B]. split; auto. intros c. rewrite B. cbn [In]. split; [firstorder|]. intros [?|([<-|?] & ? & ?)]; auto.
    + assert (Nx : ~ In x u). { intros I. assert (existsb (Ascii.eqb x) u = true); [|congruence]. apply existsb_exists. exists x. split; auto. apply Ascii.eqb_refl. }
      destruct (IH (u ++ [x])) as [A B].
      { apply NoDup_app_snoc || (apply NoDup_Add with (a := x) (l := u); [|split; auto]). 
        replace u with (u ++ []) at 1 by apply app_nil_r. apply Add_app. }
      split; auto. intros c. rewrite B, in_app_iff. cbn [In]. split.
      * intros [[?|[<-|[]]]|(? & ? & ?)]; auto. 
      * intros [?|([<-|?] & ? & ?)]; auto.
Qed.
Lemma char_count_app : forall c a b, char_count c (a ++ b) = (char_count c a + char_count c b)%nat.
Proof. intros. unfold char_count. rewrite filter_app, app_length. reflexivity. Qed.
Lemma char_count_occ : forall c l, char_count c l = count_occ ascii_dec l c.
Proof.
  induction l as [|x l IH]; [reflexivity|]. unfold char_count in *. cbn [filter count_occ].
  destruct (Ascii.eqb_spec c x); destruct (ascii_dec x c); subst; cbn [length]; congruence.
Qed.
Lemma spelled_count : forall c t, c <> "."%char -> char_count c (spelled t) = char_count c (labels_of t).
Proof.
  intros c [l|a b] N; cbn [spelled labels_of]; [reflexivity|]. rewrite !char_count_app.
  assert (char_count c dots = 0%nat); [|lia]. unfold char_count, dots. cbn [filter].
  destruct (Ascii.eqb_spec c "."); [easy|reflexivity].
Qed.
Lemma concat_count : forall c ins, c <> "."%char -> char_count c (List.concat (map spelled ins)) = count_occ ascii_dec (flat_map labels_of ins) c.
Proof.
  intros c ins N. induction ins as [|t ins IH]; [reflexivity|]. cbn [map List.concat flat_map].
  rewrite char_count_app, IH, spelled_count, <- !char_count_occ, char_count_app; auto.
Qed.
Lemma parse_implicit : forall s ins L, implicit_equation s ins -> ins <> [] -> (forall t, In t ins -> Forall letter (labels_of t)) ->
  implicit_labels ins L -> parse_equation s = SOk (map spelled ins, L).
Proof.
  intros s ins L Eq Ne LI [SL HL]. unfold parse_equation, drop_spaces. red in Eq. rewrite Eq.
  rewrite split_arrow_none by (apply joined_nodash; auto). cbv zeta.
  rewrite split_comma_joined; [|destruct ins; easy|intros t I; apply in_map_iff in I as (u & <- & U); apply spelled_nocomma; auto].
  f_equal. f_equal. set (all := List.concat (map spelled ins)).
  destruct (uniq_fold all all [] ltac:(constructor)) as [N B].
  apply sorted_same; auto; [apply char_sort_sorted; auto|].
  intros x. rewrite char_sort_in, B, HL. unfold occurs_once. cbn [In]. split.
  - intros [[]|(I & D & C)]. rewrite <- concat_count; auto.
  - intros C. right. assert (I : In x (flat_map labels_of ins)) by (apply (count_occ_In ascii_dec); lia).
    apply in_flat_map in I as (t & T & I). pose proof (LI _ T) as LT. rewrite Forall_forall in LT.
    assert (x <> "."%char) by (apply Ascii.eqb_neq, letter_not_dot; auto).
    split; [|split; auto].
    + apply (count_occ_In ascii_dec). rewrite <- char_count_occ. unfold all. rewrite concat_count; auto. lia.
    + unfold all. rewrite concat_count; auto.
Qed.

(** ** operands *)
Lemma after_dots_none : forall l, Forall letter l -> after_dots l = None.
Proof.
  induction l as [|a r IH]; intros H; [reflexivity|]. inversion H; subst. cbn [after_dots].
  destruct r as [|b [|c t]]; auto. rewrite letter_not_dot by auto. cbn [andb]. apply IH; auto.
Qed.
Lemma py_index_at : forall (l : list Z) k, (k < length l)%nat -> py_index l (Z.of_nat k) = SOk (nth k l 0).
Proof. exact WindowProofs.py_index_nat. Qed.
Lemma label_entries_ok : forall labels sh k, Forall letter labels -> (k + length labels <= length sh)%nat ->
  label_entries labels sh (Z.of_nat k) = SOk (combine labels (skipn k sh)).
Proof.
  induction labels as [|c r IH]; intros sh k F L; [reflexivity|]. inversion F; subst. cbn [label_entries length] in *.
  rewrite letter_not_dot by auto. rewrite py_index_at by lia. cbn [sbind].
  replace (Z.of_nat k + 1) with (Z.of_nat (k + 1)) by lia. rewrite IH by (auto; lia). cbn [sbind].
  assert (E : skipn k sh = nth k sh 0 :: skipn (k + 1) sh).
  { clear - L. revert sh L. induction k as [|k IHk]; intros [|x sh] L; cbn in *; try lia; auto. apply IHk. lia. }
  rewrite E. reflexivity.
Qed.
Definition lab_dims (t : term) (sh ell : dims) : list Z := match t with plain _ => sh | dotted a _ => firstn (length a) sh ++ skipn (length a + length ell) sh end.
Lemma F2len : forall A B (P : A -> B -> Prop) l l', Forall2 P l l' -> length l = length l'.
Proof. induction 1; cbn; auto. Qed.
Lemma operand_ok : forall d t sh ell, Forall letter (labels_of t) -> dots_first t -> fits d t sh ell ->
  exists e, operand_entries (spelled t) sh = SOk (e, combine (labels_of t) (lab_dims t sh ell)) /\
            length (labels_of t) = length (lab_dims t sh ell) /\
            (forall x, e = Some x -> x = ell) /\ (e = None -> ell = []) /\ (is_dotted t <-> e <> None) /\
            Forall2 (fun c n => n = d c \/ n = 1) (labels_of t) (lab_dims t sh ell).
Proof.
  intros d [l|a b] sh ell F D H; cbn [spelled labels_of dots_first fits lab_dims is_dotted] in *.
  - destruct H as [H ->]. exists None. unfold operand_entries. rewrite after_dots_none by auto.
    pose proof (F2len _ _ _ _ _ H) as L. change 0 with (Z.of_nat 0). rewrite label_entries_ok by (auto; lia). cbn [sbind skipn].
    repeat split; auto; easy.
  - subst a. destruct H as (da & db & -> & Ha & Hb). inversion Ha; subst da. cbn [app length firstn plus] in *.
    pose proof (F2len _ _ _ _ _ Hb) as L.
    exists (Some ell). unfold operand_entries. unfold dots. cbn [app after_dots Ascii.eqb Bool.eqb andb].
    assert (E : skipn (length ell) (ell ++ db) = db) by (rewrite skipn_app, skipn_all, Nat.sub_diag; reflexivity).
    assert (N : zlen (ell ++ db) - zlen b = Z.of_nat (length ell)) by (unfold zlen; rewrite app_length; lia).
    rewrite N. rewrite label_entries_ok by (auto; rewrite app_length; lia). cbn [sbind]. rewrite E.
    unfold py_take. destruct (Z.ltb_spec (Z.of_nat (length ell)) 0); [lia|].
    rewrite Nat2Z.id, firstn_app, firstn_all, Nat.sub_diag. cbn [firstn]. rewrite app_nil_r.
    repeat split; auto; try easy. intros x X; congruence.
Qed.
Lemma combine_in : forall A B (l : list A) (l' : list B) x y, In (x, y) (combine l l') -> exists i, nth_error l i = Some x /\ nth_error l' i = Some y.
Proof.
  induction l as [|a l IH]; intros [|b l'] x y I; cbn in I; try easy. destruct I as [E|I].
  - inversion E; subst. exists 0%nat. auto.
  - apply IH in I as (i & A1 & A2). exists (Datatypes.S i). auto.
Qed.
Lemma combine_nth_in : forall A B (l : list A) (l' : list B) i x y, nth_error l i = Some x -> nth_error l' i = Some y -> In (x, y) (combine l l').
Proof.
  induction l as [|a l IH]; intros [|b l'] [|i] x y H1 H2; cbn in *; try easy; try (inversion H1; inversion H2; subst; auto; fail).
  right. eauto.
Qed.
Lemma F2nth : forall A B (P : A -> B -> Prop) l l' i x y, Forall2 P l l' -> nth_error l i = Some x -> nth_error l' i = Some y -> P x y.
Proof. intros A B P l l' i x y H. revert i. induction H; intros [|i] H1 H2; cbn in *; try easy; [congruence|eauto]. Qed.

Lemma all_entries_ok : forall d ins shs els, length shs = length ins -> length els = length ins ->
  (forall t, In t ins -> Forall letter (labels_of t) /\ dots_first t) ->
  (forall k t sh ell, nth_error ins k = Some t -> nth_error shs k = Some sh -> nth_error els k = Some ell -> fits d t sh ell) ->
  exists ds es, all_entries (map spelled ins) shs = SOk (ds, es) /\
    (forall e, In e ds -> In e els) /\ (forall e, In e els -> In e ds \/ e = []) /\
    (forall c n, In (c, n) es -> n = d c \/ n = 1) /\
    (forall c n, label_occurs ins shs els c n -> In (c, n) es) /\
    (forall t c, In t ins -> In c (labels_of t) -> exists n, In (c, n) es).
Proof.
  intros d. induction ins as [|t ins IH]; intros [|sh shs] [|ell els] L1 L2 G H; try discriminate.
  - exists [], []. cbn [all_entries map]. repeat split; auto; try easy.
    intros c n (k & t & _ & _ & _ & X & _). destruct k; discriminate.
  - destruct (IH shs els ltac:(cbn in *; lia) ltac:(cbn in *; lia)) as (ds & es & E & A1 & A2 & A3 & A4 & A5).
    { intros; apply G; right; auto. } { intros k; intros; apply (H (Datatypes.S k)); auto. }
    destruct (G t) as [F D]; [left; auto|].
    destruct (operand_ok d t sh ell F D (H 0%nat _ _ _ eq_refl eq_refl eq_refl)) as (e & O & Len & O1 & O2 & O3 & O4).
    exists ((match e with Some e => [e] | None => [] end) ++ ds), (combine (labels_of t) (lab_dims t sh ell) ++ es).
    cbn [map all_entries]. rewrite O. cbn [sbind]. rewrite E. cbn [sbind fst snd]. split; [reflexivity|].
    repeat split.
    + intros x I. apply in_app_or in I as [I|I]; [|right; auto]. destruct e as [x0|]; [|easy]. destruct I as [<-|[]]. left. symmetry. auto.
    + intros x [<-|I].
      * destruct e as [x0|]; [left; left; auto|right; auto].
      * destruct (A2 x I); [left; apply in_or_app|]; auto.
    + intros c n I. apply in_app_or in I as [I|I]; [|auto]. apply combine_in in I as (i & I1 & I2). exact (F2nth _ _ _ _ _ _ _ _ O4 I1 I2).
    + intros c n (k & t' & sh' & ell' & i & K1 & K2 & K3 & K4 & K5). apply in_or_app. destruct k as [|k]; cbn in K1, K2, K3.
      * inversion K1; inversion K2; inversion K3; subst. left. eapply combine_nth_in; eauto.
      * right. apply A4. exists k, t', sh', ell', i. auto.
    + intros t' c [<-|I] J; [|destruct (A5 _ _ I J) as [n N]; exists n; apply in_or_app; auto].
      apply In_nth_error in J as (i & J).
      destruct (nth_error (lab_dims t sh ell) i) as [n|] eqn:N.
      * exists n. apply in_or_app. left. eapply combine_nth_in; eauto.
      * apply nth_error_None in N. assert (i < length (labels_of t))%nat by (apply nth_error_Some; congruence). lia.
Qed.

(** ** the ellipsis *)
Lemma broadcast_drop_empty : forall els ds E, (forall e, In e ds -> In e els) -> (forall e, In e els -> In e ds \/ e = []) ->
  els <> [] -> broadcast_of els E -> broadcast_of ds E.
Proof.
  intros els ds E H1 H2 Ne (A & B & C & D). split; [|split; [|split]].
  - intros s I. auto.
  - intros ->. destruct (C Ne) as (s & I & L). destruct (H2 _ I) as [[]|I']. subst. destruct E; auto; discriminate.
  - intros Nd. destruct (C Ne) as (s & I & L). destruct (H2 _ I) as [I'|I']; [eauto|]. subst.
    destruct ds as [|x ds]; [easy|]. exists x. split; [left; auto|]. assert (length x <= length E)%nat by (apply A, H1; left; auto). cbn in L. lia.
  - intros i Hi. destruct (D i Hi) as [X Y]. split.
    + intros x I. apply in_map_iff in I as (s & <- & I). apply X. apply in_map_iff. exists s. auto.
    + intros N. apply Y in N as N'. apply in_map_iff in N' as (s & Es & I). apply in_map_iff. exists s. split; auto.
      destruct (H2 _ I) as [|E']; auto. subst s. unfold dim_from_right in Es at 1. cbn in Es. destruct i; congruence.
Qed.
Lemma nth_pos : forall s i, positive s -> 0 < nth i s 1.
Proof.
  intros s i H. destruct (Nat.ltb_spec i (length s)); [|rewrite nth_overflow; lia].
  red in H. rewrite Forall_forall in H. apply H, nth_In; auto.
Qed.
Lemma ellipsis_ok : forall els E, Forall positive els -> broadcast_of els E -> ellipsis_dims els = E.
Proof.
  intros els E P H. apply broadcast_shape_ok in H.
  2:{ eapply Forall_impl; [|exact P]. intros s S0. eapply Forall_impl; [|exact S0]. cbn; intros; lia. }
  unfold broadcast_shape in H. unfold ellipsis_dims. cbv zeta in *.
  set (n := max_rank els) in *. set (rows := map (pad_left n) els) in *.
  assert (Z0 : forall col, In col (columns n rows) -> zmem 0 col = false).
  { intros col I. unfold columns in I. apply in_map_iff in I as (i & <- & I). apply in_seq in I. apply zmem_nIn. intros J.
    apply in_map_iff in J as (r & R & J). unfold rows in J. apply in_map_iff in J as (s & <- & J).
    pose proof (max_rank_bound els s J). fold n in H0. assert (L : length (pad_left n s) = n) by (apply pad_left_length; auto).
    rewrite (nth_from_right _ n) in R by (auto; lia). rewrite pad_left_dim in R.
    rewrite Forall_forall in P. specialize (P _ J). unfold dim_from_right in R.
    assert (0 < nth (n - 1 - i) (rev s) 1); [|lia]. apply nth_pos. red. apply Forall_rev; auto. }
  revert E H. generalize (columns n rows) Z0. clear. intros cols. induction cols as [|c cols IH]; intros Z0 E H.
  - cbn in H. inversion H. reflexivity.
  - cbn [smap] in H. unfold bcast_dim in H at 1. cbv zeta in H. rewrite Z0 in H by (left; auto).
    destruct (forallb _ c); cbn [sbind] in H; [|discriminate].
    destruct (smap bcast_dim cols) as [r|] eqn:R; cbn [sbind] in H; [|discriminate]. inversion H; subst. cbn [map].
    f_equal. apply IH; auto. intros; apply Z0; right; auto.
Qed.

Lemma label_dim_ok : forall es c m, (exists n, In (c, n) es) -> (forall n, In (c, n) es -> n = m \/ n = 1) -> (m <> 1 -> In (c, m) es) -> 0 < m ->
  label_dim es c = m.
Proof.
  intros es c m Ex H1 H2 P. unfold label_dim.
  assert (D : forall n, In n (dims_of_label es c) <-> In (c, n) es).
  { intros n. unfold dims_of_label. rewrite in_map_iff. split.
    - intros ([a b] & B & I). apply filter_In in I as [I E]. cbn in *. apply Ascii.eqb_eq in E. subst. auto.
    - intros I. exists (c, n). split; auto. apply filter_In. split; auto. apply Ascii.eqb_refl. }
  destruct Ex as (n0 & N0). apply D in N0.
  destruct (dims_of_label es c) as [|x ds] eqn:X; [easy|]. set (l := x :: ds) in *.
  assert (I : In (zmax_list l) l) by (apply zmax_In; easy).
  destruct (H1 _ (proj1 (D _) I)) as [|E1]; auto.
  destruct (Z.eq_dec m 1); [lia|]. assert (J : In m l) by (apply D; auto). apply zmax_ge in J. lia.
Qed.

(** the label sizes are positive when the operands' dimensions are *)
Lemma occurs_positive : forall ins shs els c n, Forall positive shs -> label_occurs ins shs els c n -> 0 < n.
Proof.
  intros ins shs els c n P (k & t & sh & ell & i & K1 & K2 & K3 & K4 & K5).
  apply nth_error_In in K2. rewrite Forall_forall in P. specialize (P _ K2). red in P. rewrite Forall_forall in P. apply P.
  apply nth_error_In in K5. destruct t as [l|a b]; auto. apply in_app_or in K5 as [I|I].
  - rewrite <- (firstn_skipn (length a) sh). apply in_or_app; auto.
  - rewrite <- (firstn_skipn (length a + length ell) sh). apply in_or_app; auto.
Qed.
Lemma fits_ell_positive : forall d t sh ell, fits d t sh ell -> positive sh -> positive ell.
Proof.
  intros d [l|a b] sh ell H P; cbn in H.
  - destruct H as [_ ->]. constructor.
  - destruct H as (da & db & -> & _). apply Forall_app in P as [_ P]. apply Forall_app in P as [P _]. auto.
Qed.

Lemma einsum_core : forall s ins out shs els E d L,
  parse_equation s = SOk (map spelled ins, out) -> filter (fun c => negb (Ascii.eqb c ".")) out = L ->
  ins <> [] -> (forall t, In t ins -> Forall letter (labels_of t) /\ dots_first t) ->
  (forall c, In c L -> exists t, In t ins /\ In c (labels_of t)) ->
  einsum_operands d ins shs els E -> Forall positive shs ->
  einsum_shape s shs = SOk (E ++ map d L).
Proof.
  intros s ins out shs els E d L P <- Ne G IL (L1 & L2 & F & Occ & B) Pos.
  destruct (all_entries_ok d ins shs els L1 L2 G F) as (ds & es & A & A1 & A2 & A3 & A4 & A5).
  unfold einsum_shape. rewrite P. cbn [sbind fst snd]. rewrite A. cbn [sbind fst snd]. f_equal.
  assert (Pe : Forall positive els).
  { apply Forall_forall. intros e I. apply In_nth_error in I as (k & K).
    assert (Kl : (k < length els)%nat) by (apply nth_error_Some; congruence).
    destruct (nth_error ins k) as [t|] eqn:T; [|apply nth_error_None in T; lia].
    destruct (nth_error shs k) as [sh|] eqn:Sh; [|apply nth_error_None in Sh; lia].
    eapply fits_ell_positive; [eauto|]. rewrite Forall_forall in Pos. apply Pos. eapply nth_error_In; eauto. }
  f_equal.
  - apply ellipsis_ok.
    + apply Forall_forall. intros e I. rewrite Forall_forall in Pe. auto.
    + eapply broadcast_drop_empty; eauto. destruct els; [destruct ins; [easy|discriminate]|easy].
  - apply map_ext_in. intros c I. destruct (IL c I) as (t & T & C). destruct (A5 t c T C) as (n & N).
    apply label_dim_ok.
    + eauto.
    + auto.
    + intros N1. apply A4, Occ; eauto.
    + destruct (Z.eq_dec (d c) 1); [lia|]. apply (occurs_positive ins shs els c); [auto|]. apply Occ; eauto.
Qed.
Lemma filter_letters : forall l, Forall letter l -> filter (fun c => negb (Ascii.eqb c ".")) l = l.
Proof. induction 1 as [|x l H F IH]; [reflexivity|]. cbn [filter]. rewrite letter_not_dot by auto. cbn [negb]. congruence. Qed.
Theorem einsum_explicit : forall s ins out shs els E d, explicit_equation s ins out -> good_terms ins out ->
  (forall t, In t (out :: ins) -> dots_first t) -> einsum_operands d ins shs els E -> Forall positive shs ->
  einsum_shape s shs = SOk (result_dims d E out).
Proof.
  intros s ins out shs els E d Eq G D Op P. pose proof (parse_explicit _ _ _ Eq G) as Pa. pose proof G as (Ne & L & IL & Do).
  assert (Hc : einsum_shape s shs = SOk (E ++ map d (labels_of out))).
  { eapply einsum_core; eauto; [|intros; split; [apply L|apply D]; right; auto].
    assert (F := L out (or_introl eq_refl)). specialize (D out (or_introl eq_refl)). destruct out as [l|a b]; cbn in *.
    - apply filter_letters; auto.
    - subst a. cbn in *. apply filter_letters; auto. }
  rewrite Hc. f_equal. specialize (D out (or_introl eq_refl)). destruct out as [l|a b]; cbn in *.
  - assert (Nd : forall t, In t ins -> ~ is_dotted t) by (intros t I X; apply Do; eauto).
    destruct Op as (L1 & L2 & F & _ & B).
    assert (Z0 : forall e, In e els -> e = []).
    { intros e I. apply In_nth_error in I as (k & K). assert (Kl : (k < length els)%nat) by (apply nth_error_Some; congruence).
      destruct (nth_error ins k) as [t|] eqn:T; [|apply nth_error_None in T; lia].
      destruct (nth_error shs k) as [sh|] eqn:Sh; [|apply nth_error_None in Sh; lia].
      specialize (F k t sh e T Sh K). destruct t as [l'|]; [apply F|]. exfalso. eapply (Nd (dotted pre post)); [eapply nth_error_In; eauto|exact Logic.I]. }
    destruct B as (_ & _ & C & _). destruct els as [|e els]; [destruct ins; [easy|discriminate]|].
    destruct C as (x & I & Lx); [easy|]. apply Z0 in I. subst x. destruct E; [reflexivity|discriminate].
  - subst a. reflexivity.
Qed.
Theorem einsum_implicit : forall s ins L shs els E d, implicit_equation s ins -> ins <> [] ->
  (forall t, In t ins -> Forall letter (labels_of t) /\ dots_first t) -> implicit_labels ins L ->
  einsum_operands d ins shs els E -> Forall positive shs -> einsum_shape s shs = SOk (E ++ map d L).
Proof.
  intros s ins L shs els E d Eq Ne G HL Op P.
  assert (Occ : forall c, In c L -> exists t, In t ins /\ In c (labels_of t)).
  { intros c I. apply HL in I. red in I. apply in_flat_map. apply (count_occ_In ascii_dec). lia. }
  eapply einsum_core; eauto; [eapply parse_implicit; eauto; intros t I; apply G; auto|].
  apply filter_letters. apply Forall_forall. intros c I. destruct (Occ c I) as (t & T & C). destruct (G t T) as [F _]. rewrite Forall_forall in F; auto.
Qed.

(** ** operands that do not match *)
Lemma all_entries_extra : forall terms shs r, (length terms < length shs)%nat -> all_entries terms shs <> SOk r.
Proof.
  induction terms as [|t terms IH]; intros [|sh shs] r L; cbn [length all_entries] in *; try lia; [discriminate|].
  destruct (operand_entries t sh); cbn [sbind]; [|discriminate].
  destruct (all_entries terms shs) as [x|] eqn:E; cbn [sbind]; [|discriminate]. exfalso. eapply (IH shs); eauto. lia.
Qed.
Lemma label_entries_short : forall labels sh k r, Forall letter labels -> (length sh < k + length labels)%nat -> labels <> [] ->
  label_entries labels sh (Z.of_nat k) <> SOk r.
Proof.
  induction labels as [|c labels IH]; intros sh k r F L Ne; [easy|]. inversion F; subst. cbn [label_entries length] in *.
  rewrite letter_not_dot by auto.
  destruct (py_index sh (Z.of_nat k)) as [x|] eqn:Px; cbn [sbind]; [|discriminate].
  assert (k < length sh)%nat.
  { unfold py_index in Px. destruct (Nat.ltb_spec k (length sh)); auto. exfalso. revert Px. cbv zeta.
    destruct (Z.ltb_spec (Z.of_nat k) 0); [lia|]. destruct (Z.ltb_spec (Z.of_nat k) 0); [lia|].
    rewrite Nat2Z.id. destruct (nth_error sh k) eqn:N; [|discriminate]. assert (k < length sh)%nat by (apply nth_error_Some; congruence). lia. }
  replace (Z.of_nat k + 1) with (Z.of_nat (k + 1)) by lia.
  destruct (label_entries labels sh (Z.of_nat (k + 1))) as [y|] eqn:Y; cbn [sbind]; [|discriminate].
  exfalso. eapply (IH sh (k + 1)%nat); eauto; [lia|]. intros ->. cbn in L. lia.
Qed.
Lemma all_entries_short : forall ins shs k l sh r, (forall t, In t ins -> Forall letter (labels_of t)) ->
  nth_error ins k = Some (plain l) -> nth_error shs k = Some sh -> (length sh < length l)%nat -> all_entries (map spelled ins) shs <> SOk r.
Proof.
  induction ins as [|t ins IH]; intros [|s0 shs] k l sh r G K1 K2 L; try (destruct k; discriminate).
  cbn [map all_entries]. destruct k as [|k]; cbn in K1, K2.
  - inversion K1; inversion K2; subst. cbn [spelled]. unfold operand_entries.
    pose proof (G (plain l) (or_introl eq_refl)) as F. cbn in F. rewrite after_dots_none by auto.
    destruct (label_entries l sh 0) eqn:Y; cbn [sbind]; [|discriminate].
    exfalso. refine (label_entries_short l sh 0 _ F _ _ Y); [lia|]. intros ->. cbn in L. lia.
  - destruct (operand_entries (spelled t) s0); cbn [sbind]; [|discriminate].
    destruct (all_entries (map spelled ins) shs) as [x|] eqn:E; cbn [sbind]; [|discriminate].
    exfalso. eapply (IH shs k l sh); eauto. intros; apply G; right; auto.
Qed.
Lemma einsum_ok_entries : forall s terms out shs r, parse_equation s = SOk (terms, out) -> einsum_shape s shs = SOk r -> exists a, all_entries terms shs = SOk a.
Proof.
  intros s terms out shs r P H. unfold einsum_shape in H. rewrite P in H. cbn [sbind fst snd] in H.
  destruct (all_entries terms shs) as [a|]; [eauto|discriminate].
Qed.
