(** The attributes recorded by repeated post-op fusion can be read back. *)
From Coq Require Import DecimalString Decimal.
From Verif Require Import PyBase PyBaseFacts GraphModel RegressModel RegressProofs LlmNames EditModel FuseProofs PostOpModel.
Local Open Scope list_scope.
Open Scope string_scope.
Local Open Scope nat_scope.
Local Open Scope list_scope.

Fixpoint has_us (s : string) : bool := match s with EmptyString => false | String a r => Ascii.eqb a "_"%char || has_us r end.
Lemma dec_nous n : has_us (dec n) = false.
Proof.
  unfold dec. assert (H : forall d, has_us (NilEmpty.string_of_uint d) = false) by (induction d; cbn in *; auto).
  destruct (Nat.to_uint n) as [|d|d|d|d|d|d|d|d|d|d]; cbn; auto.
Qed.
Lemma us_app a b : has_us (a ++ b)%string = has_us a || has_us b.
Proof. induction a as [|x a IH]; cbn; [reflexivity|]. rewrite IH, orb_assoc. reflexivity. Qed.
Lemma first_us x b x' b' : has_us x = false -> has_us x' = false -> (x ++ String "_" b = x' ++ String "_" b')%string -> x = x' /\ b = b'.
Proof.
  revert x'. induction x as [|a x IH]; intros [|a' x'] D D' E; cbn in E, D, D'.
  - injection E as ->. auto.
  - injection E as <- E. discriminate.
  - injection E as -> E. discriminate.
  - injection E as -> E. apply orb_false_elim in D as [_ D]. apply orb_false_elim in D' as [_ D']. destruct (IH _ D D' E) as [-> ->]. auto.
Qed.
Lemma key_inj i j : post_key i = post_key j -> i = j.
Proof. unfold post_key. intros E. apply app_inj_l in E. apply dec_inj. exact E. Qed.
Definition sub_key (i : nat) (a : string) : string := (post_key i ++ "_" ++ a)%string.
Lemma sub_inj i a j b : sub_key i a = sub_key j b -> i = j /\ a = b.
Proof.
  unfold sub_key, post_key. rewrite !app_assoc_s. intros E. apply app_inj_l in E. cbn in E.
  destruct (first_us _ _ _ _ (dec_nous i) (dec_nous j) E) as [P Q]. split; [apply dec_inj; exact P|exact Q].
Qed.
Lemma key_sub i j a : post_key i <> sub_key j a.
Proof.
  unfold sub_key, post_key. rewrite app_assoc_s. intros E. apply app_inj_l in E. assert (Q := f_equal has_us E).
  rewrite dec_nous, us_app in Q. cbn in Q. rewrite orb_true_r in Q. discriminate.
Qed.
Definition is_digit (a : Ascii.ascii) : bool := existsb (Ascii.eqb a) ["0"; "1"; "2"; "3"; "4"; "5"; "6"; "7"; "8"; "9"]%char.
Lemma dec_head n : exists a r, dec n = String a r /\ a <> "c"%char.
Proof.
  unfold dec, NilZero.string_of_uint. assert (N := to_uint_nonnil n). destruct (Nat.to_uint n); try congruence; cbn [NilEmpty.string_of_uint];
    eexists; eexists; (split; [reflexivity|discriminate]).
Qed.
Lemma count_key i : pcount <> post_key i.
Proof.
  unfold pcount, post_key. destruct (dec_head i) as (a & r & -> & N). intros E. cbn in E. injection E as E1 E2. congruence.
Qed.
Lemma count_sub i a : pcount <> sub_key i a.
Proof.
  unfold pcount, sub_key, post_key. rewrite app_assoc_s. destruct (dec_head i) as (c & r & -> & N). intros E. cbn in E. injection E as E1 E2. congruence.
Qed.
Definition plain (k : string) : Prop := String.prefix "postop_" k = false.
Lemma plain_key k i : plain k -> k <> post_key i.
Proof. intros P ->. unfold plain, post_key in P. rewrite prefix_app in P. discriminate. Qed.
Lemma plain_sub k i a : plain k -> k <> sub_key i a.
Proof. intros P ->. unfold plain, sub_key, post_key in P. rewrite app_assoc_s, prefix_app in P. discriminate. Qed.
Lemma plain_count k : plain k -> k <> pcount.
Proof. intros P ->. discriminate. Qed.

Section ATTRS.
Context {A : Type}.
Implicit Types (m e : pattrs A) (posts : list (string * pattrs A)).
(** a key written for record [i] *)
Definition rec_key (i : nat) (k : string) : Prop := k = post_key i \/ exists a, k = sub_key i a.
Lemma rec_key_inj i j k : rec_key i k -> rec_key j k -> i = j.
Proof.
  intros [->|[a ->]] [E|[b E]].
  - apply key_inj; exact E.
  - exfalso. exact (key_sub _ _ _ E).
  - exfalso. exact (key_sub _ _ _ (eq_sym E)).
  - apply sub_inj in E. tauto.
Qed.
Lemma record_keys i p k : In k (map fst (post_record (A:=A) i p)) -> rec_key i k.
Proof.
  unfold post_record. cbn [map fst]. intros [<-|I]; [left; reflexivity|]. rewrite map_map in I. apply in_map_iff in I as ([a v] & <- & _). right. exists a. reflexivity.
Qed.
Lemma records_keys posts : forall i k, In k (map fst (post_records i posts)) -> exists j, i <= j < i + length posts /\ rec_key j k.
Proof.
  induction posts as [|p r IH]; intros i k I; [destruct I|]. cbn [post_records] in I. rewrite map_app, in_app_iff in I. cbn [length]. destruct I as [I|I].
  - exists i. split; [lia|]. apply record_keys with p. exact I.
  - destruct (IH (S i) k I) as (j & J & R). exists j. split; [lia|exact R].
Qed.
Lemma record_nodup i p : NoDup (map fst (snd p)) -> NoDup (map fst (post_record (A:=A) i p)).
Proof.
  destruct p as [op ats]. cbn [snd]. intros ND. unfold post_record. cbn [map fst snd]. rewrite map_map. constructor.
  - intros I. apply in_map_iff in I as ([a v] & E & _). exact (key_sub i i a (eq_sym E)).
  - induction ats as [|[a v] l IH]; [constructor|]. cbn [map fst] in *. inversion ND as [|? ? N1 N2]; subst. constructor; [|apply IH; exact N2].
    intros I. apply in_map_iff in I as ([b w] & E & I). apply (sub_inj i b i a) in E as [_ E]. cbn in E. subst b. apply N1. apply in_map_iff. exists (a, w). auto.
Qed.
Lemma records_nodup posts : (forall p, In p posts -> NoDup (map fst (snd p))) -> forall i, NoDup (map fst (post_records i posts)).
Proof.
  induction posts as [|p r IH]; intros H i; [constructor|]. cbn [post_records]. rewrite map_app. apply NoDup_app_intro.
  - apply record_nodup, H. left; reflexivity.
  - apply IH. intros q Q. apply H. right; exact Q.
  - intros k I J. apply record_keys in I. apply records_keys in J as (j & J1 & J2). assert (i = j) by (eapply rec_key_inj; eauto). lia.
Qed.
Lemma records_in posts : forall i j p, nth_error posts j = Some p -> forall kv, In kv (post_record (i + j) p) -> In kv (post_records i posts).
Proof.
  induction posts as [|q r IH]; intros i [|j] p E kv I; try discriminate; cbn [post_records nth_error] in *; rewrite in_app_iff.
  - injection E as <-. left. rewrite Nat.add_0_r in I. exact I.
  - right. apply (IH (S i) j p E). replace (S i + j) with (i + S j) by lia. exact I.
Qed.

(** the state between two fusions: plain attributes and records 0..c-1 in [M], then the count *)
Definition good (M : pattrs A) (c : nat) : Prop :=
  NoDup (map fst M) /\ forall k, In k (map fst M) -> plain k \/ exists j, j < c /\ rec_key j k.
Lemma good_nocount M c : good M c -> ~ In pcount (map fst M).
Proof.
  intros [_ H] I. destruct (H _ I) as [P|(j & _ & [E|[a E]])]; [exact (plain_count _ P eq_refl)|exact (count_key j E)|exact (count_sub j a E)].
Qed.
Lemma count_skip (M : pattrs A) : ~ In pcount (map fst M) -> forall c, fold_left (fun c kv => if String.eqb (fst kv) pcount then match snd kv with PInt n => n | _ => 0 end else c) M c = c.
Proof.
  induction M as [|[k v] M IH]; intros N c; [reflexivity|]. cbn [fold_left fst snd]. cbn [map fst] in N. destruct (String.eqb_spec k pcount) as [->|D]; [exfalso; apply N; left; reflexivity|].
  apply IH. intros I. apply N. right; exact I.
Qed.
Lemma filter_id (M : pattrs A) : ~ In pcount (map fst M) -> filter (fun kv => negb (String.eqb (fst kv) pcount)) M = M.
Proof.
  intros N. apply filter_all. intros [k v] I. cbn [fst]. apply negb_true_iff, String.eqb_neq. intros ->. apply N. apply in_map_iff. exists (pcount, v). auto.
Qed.
Lemma step_from M c e posts : good M c -> NoDup (map fst M ++ map fst e) -> (forall k, In k (map fst e) -> plain k) ->
  (forall p, In p posts -> NoDup (map fst (snd p))) -> good (M ++ e ++ post_records c posts) (c + length posts).
Proof.
  intros [G1 G2] ND PE HP. split.
  - rewrite !map_app, app_assoc. apply NoDup_app_intro; [exact ND|apply records_nodup; exact HP|].
    intros k I J. apply records_keys in J as (j & J1 & J2). apply in_app_iff in I as [I|I].
    + destruct (G2 k I) as [P|(j' & L & R)]; [destruct J2 as [->|[a ->]]; [exact (plain_key _ _ P eq_refl)|exact (plain_sub _ _ _ P eq_refl)]|].
      assert (j = j') by (eapply rec_key_inj; eauto). lia.
    + specialize (PE k I). destruct J2 as [->|[a ->]]; [exact (plain_key _ _ PE eq_refl)|exact (plain_sub _ _ _ PE eq_refl)].
  - intros k I. rewrite !map_app, !in_app_iff in I. destruct I as [I|[I|I]].
    + destruct (G2 k I) as [P|(j & L & R)]; [left; exact P|right; exists j; split; [lia|exact R]].
    + left. apply PE. exact I.
    + right. apply records_keys in I as (j & J & R). exists j. split; [lia|exact R].
Qed.
Lemma attrs_first M e posts : good M 0 -> postop_attrs M e posts = (M ++ e ++ post_records 0 posts) ++ [(pcount, PInt (length posts))].
Proof.
  intros G. unfold postop_attrs. rewrite filter_id by (eapply good_nocount; exact G).
  assert (Z0 : post_count M = 0) by (unfold post_count; apply count_skip; eapply good_nocount; exact G). rewrite Z0, <- !app_assoc. reflexivity.
Qed.
Lemma attrs_next M c e posts : good M c -> postop_attrs (M ++ [(pcount, PInt c)]) e posts = (M ++ e ++ post_records c posts) ++ [(pcount, PInt (c + length posts))].
Proof.
  intros G. assert (N := good_nocount M c G). unfold postop_attrs, post_count. rewrite fold_left_app, (count_skip M N). cbn [fold_left fst snd].
  rewrite String.eqb_refl, filter_app, (filter_id M N). cbn [filter fst]. rewrite String.eqb_refl. cbn [negb]. rewrite app_nil_r, <- !app_assoc. reflexivity.
Qed.
Lemma records_app a : forall b i, post_records (A:=A) i (a ++ b) = post_records i a ++ post_records (i + length a) b.
Proof.
  induction a as [|p a IH]; intros b i; cbn [app post_records length]; [rewrite Nat.add_0_r; reflexivity|]. rewrite IH, app_assoc. do 2 f_equal. lia.
Qed.

(** after any positive number of fusions *)
Lemma history_ok : forall hist M c, good M c ->
  NoDup (map fst M ++ map fst (concat (map fst hist))) -> (forall k, In k (map fst (concat (map fst hist))) -> plain k) ->
  (forall p, In p (concat (map snd hist)) -> NoDup (map fst (snd p))) ->
  exists M', postop_history (M ++ [(pcount, PInt c)]) hist = M' ++ [(pcount, PInt (c + length (concat (map snd hist))))] /\
    good M' (c + length (concat (map snd hist))) /\ (forall kv, In kv M -> In kv M') /\
    (forall kv, In kv (concat (map fst hist)) -> In kv M') /\ (forall kv, In kv (post_records c (concat (map snd hist))) -> In kv M').
Proof.
  induction hist as [|[e posts] hist IH]; intros M c G ND PE HP; cbn [map concat fst snd] in *.
  - exists M. cbn [postop_history fold_left]. rewrite Nat.add_0_r. split; [reflexivity|]. split; [exact G|]. split; [auto|]. split; [intros kv []|intros kv []].
  - unfold postop_history. cbn [fold_left fst snd]. rewrite (attrs_next M c e posts G).
    rewrite map_app, app_assoc in ND.
    assert (G' : good (M ++ e ++ post_records c posts) (c + length posts)).
    { apply step_from; auto.
      - apply NoDup_app_inv in ND. tauto.
      - intros k I. apply PE. rewrite map_app, in_app_iff. auto.
      - intros p I. apply HP. rewrite in_app_iff. auto. }
    destruct (IH (M ++ e ++ post_records c posts) (c + length posts) G') as (M' & H1 & H2 & H3 & H4 & H5).
    + rewrite !map_app. apply NoDup_app_intro.
      * rewrite <- !map_app. apply G'.
      * apply NoDup_app_inv in ND. tauto.
      * intros k I J. rewrite app_assoc in I. apply in_app_iff in I as [I|I].
        { apply NoDup_app_inv in ND as (_ & _ & N3). exact (N3 k I J). }
        { apply records_keys in I as (j & _ & R). assert (P : plain k) by (apply PE; rewrite map_app, in_app_iff; auto).
          destruct R as [->|[a ->]]; [exact (plain_key _ _ P eq_refl)|exact (plain_sub _ _ _ P eq_refl)]. }
    + intros k I. apply PE. rewrite map_app, in_app_iff. auto.
    + intros p I. apply HP. rewrite in_app_iff. auto.
    + exists M'. rewrite app_length, Nat.add_assoc. split; [exact H1|]. split; [exact H2|]. split; [intros kv I; apply H3; rewrite in_app_iff; auto|].
      split; [intros kv I; apply in_app_iff in I as [I|I]; [apply H3; rewrite !in_app_iff; auto|apply H4; exact I]|].
      intros kv I. rewrite records_app, in_app_iff in I. destruct I as [I|I]; [apply H3; rewrite !in_app_iff; auto|apply H5; exact I].
Qed.
Theorem history_record : forall (base : pattrs A) hist, hist <> [] ->
  NoDup (map fst base ++ map fst (concat (map fst hist))) -> (forall k, In k (map fst base ++ map fst (concat (map fst hist))) -> plain k) ->
  (forall p, In p (concat (map snd hist)) -> NoDup (map fst (snd p))) ->
  let L := postop_history base hist in let posts := concat (map snd hist) in
  NoDup (map fst L) /\ In (pcount, PInt (length posts)) L /\
  (forall kv, In kv base \/ In kv (concat (map fst hist)) -> In kv L) /\
  (forall i op ats, nth_error posts i = Some (op, ats) -> In (post_key i, PStr op) L /\ forall a v, In (a, v) ats -> In (sub_key i a, v) L).
Proof.
  intros base [|[e ps] hist] HN ND PL HP; [congruence|]. cbv zeta. cbn [map concat fst snd] in *.
  rewrite map_app, app_assoc in ND.
  assert (G0 : good base 0).
  { split; [apply NoDup_app_inv in ND as (X & _); apply NoDup_app_inv in X; tauto|]. intros k I. left. apply PL. rewrite in_app_iff. auto. }
  assert (G' : good (base ++ e ++ post_records 0 ps) (0 + length ps)).
  { apply step_from; auto.
    - apply NoDup_app_inv in ND. tauto.
    - intros k I. apply PL. rewrite map_app, !in_app_iff. auto.
    - intros p I. apply HP. rewrite in_app_iff. auto. }
  destruct (history_ok hist (base ++ e ++ post_records 0 ps) (length ps) G') as (M' & H1 & H2 & H3 & H4 & H5).
  + rewrite !map_app. apply NoDup_app_intro.
    * rewrite <- !map_app. apply G'.
    * apply NoDup_app_inv in ND. tauto.
    * intros k I J. rewrite app_assoc in I. apply in_app_iff in I as [I|I].
      { apply NoDup_app_inv in ND as (_ & _ & N3). exact (N3 k I J). }
      { apply records_keys in I as (j & _ & R). assert (P : plain k) by (apply PL; rewrite map_app, !in_app_iff; auto).
        destruct R as [->|[a ->]]; [exact (plain_key _ _ P eq_refl)|exact (plain_sub _ _ _ P eq_refl)]. }
  + intros k I. apply PL. rewrite map_app, !in_app_iff. auto.
  + intros p I. apply HP. rewrite in_app_iff. auto.
  + assert (EQ : postop_history base ((e, ps) :: hist) = M' ++ [(pcount, PInt (length ps + length (concat (map snd hist))))]).
    { etransitivity; [|exact H1]. change (postop_history base ((e, ps) :: hist)) with (postop_history (postop_attrs base e ps) hist).
      f_equal. exact (attrs_first base e ps G0). }
    rewrite EQ.
    assert (NC := good_nocount _ _ H2). rewrite app_length. split; [|split; [|split]].
    * rewrite map_app. cbn [map fst]. apply NoDup_app_intro; [apply H2|repeat constructor; intros []|]. intros k I [<-|[]]. exact (NC I).
    * rewrite in_app_iff. right. left. reflexivity.
    * intros kv I. rewrite in_app_iff. left. destruct I as [I|I]; [apply H3; rewrite !in_app_iff; auto|].
      apply in_app_iff in I as [I|I]; [apply H3; rewrite !in_app_iff; auto|apply H4; exact I].
    * assert (REC : forall kv, In kv (post_records 0 (ps ++ concat (map snd hist))) -> In kv M').
      { intros kv I. rewrite records_app, in_app_iff in I. destruct I as [I|I]; [apply H3; rewrite !in_app_iff; auto|apply H5; exact I]. }
      intros i op ats E. assert (R := records_in _ 0 i _ E). cbn [Nat.add] in R. split.
      { rewrite in_app_iff. left. apply REC, R. left. reflexivity. }
      { intros a v I. rewrite in_app_iff. left. apply REC, R. unfold post_record. right. cbn [snd]. apply in_map_iff. exists (a, v). auto. }
Qed.
End ATTRS.
