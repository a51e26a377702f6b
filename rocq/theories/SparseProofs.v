From Coq Require Import Reals Lra FinFun.
From Verif Require Import PyBase PyBaseFacts FloatPy SparseModel SparseSpec.
Open Scope nat_scope.

Lemma filter_all {A} (f : A -> bool) l : length (filter f l) = length l <-> forall x, In x l -> f x = true.
Proof.
  induction l as [|x l IH]; cbn; [split; [intros _ y []|reflexivity]|]. destruct (f x) eqn:E; cbn.
  - split; [intros H y [<-|I]; [exact E|apply IH; [lia|exact I]]|intros H; f_equal; apply IH; auto].
  - split; [|intros H; specialize (H x (or_introl eq_refl)); congruence]. intros H. assert (L : length (filter f l) <= length l) by (clear; induction l as [|y l IH]; cbn; [lia|]; destruct (f y); cbn; lia). lia.
Qed.
Lemma arrsum_full z a b I J k : Nat.eqb (arrsum z a b I J k) (a * b) = zero_block z a b I J k.
Proof.
  unfold arrsum, zero_block. set (l := list_prod (seq 0 a) (seq 0 b)). assert (L : length l = a * b) by (unfold l; rewrite prod_length, !seq_length; reflexivity).
  destruct (forallb _ (seq 0 a)) eqn:E.
  - apply Nat.eqb_eq. rewrite <- L. apply filter_all. intros [x y] H. unfold l in H. apply in_prod_iff in H as [Hx Hy]. rewrite forallb_forall in E. specialize (E _ Hx). rewrite forallb_forall in E. exact (E _ Hy).
  - apply Nat.eqb_neq. rewrite <- L. intros H. assert (G := proj1 (filter_all _ _) H). clear H. assert (F : forallb (fun x => forallb (fun y => z (I * a + x) (J * b + y) k) (seq 0 b)) (seq 0 a) = true); [|congruence].
    apply forallb_forall. intros x Hx. apply forallb_forall. intros y Hy. apply (G (x, y)). unfold l. apply in_prod; assumption.
Qed.
Lemma block_ratio_true R C K z a b : block_ratio R C K z a b = true_ratio R C K z a b.
Proof.
  unfold block_ratio, true_ratio, grid. f_equal.
  - f_equal. apply filter_ext. intros [[I J] k]. apply arrsum_full.
  - rewrite !prod_length, !seq_length. reflexivity.
Qed.
Lemma zero_block_spec z a b I J k : zero_block z a b I J k = true <-> forall x y, x < a -> y < b -> z (I * a + x) (J * b + y) k = true.
Proof.
  unfold zero_block. rewrite forallb_forall. split.
  - intros H x y Hx Hy. specialize (H x). rewrite in_seq in H. specialize (H ltac:(lia)). rewrite forallb_forall in H. apply H. rewrite in_seq. lia.
  - intros H x Hx. apply in_seq in Hx. apply forallb_forall. intros y Hy. apply in_seq in Hy. apply H; lia.
Qed.

(** ** Coarser blocks have a smaller fraction of zero blocks *)
Definition zeros (R C K : nat) z (a b : nat) : nat := fst (true_ratio R C K z a b).
Lemma NoDup_list_prod {A B} (l : list A) (m : list B) : NoDup l -> NoDup m -> NoDup (list_prod l m).
Proof.
  intros Hl Hm. induction Hl as [|x l N Hl IH]; [constructor|]. cbn. apply NoDup_app_intro.
  - apply FinFun.Injective_map_NoDup; [intros u v E; congruence|exact Hm].
  - exact IH.
  - intros [u v] I1 I2. apply in_map_iff in I1 as (w & E & _). inversion E; subst. apply in_prod_iff in I2 as [I2 _]. contradiction.
Qed.
Lemma in_grid R C K a b I J k : In (I, J, k) (grid R C K a b) <-> I < R / a /\ J < C / b /\ k < K.
Proof. unfold grid. rewrite !in_prod_iff, !in_seq. lia. Qed.
Lemma coarser R C K z a b p q r c : 0 < a -> 0 < b -> 0 < p -> 0 < q -> R = a * p * r -> C = b * q * c ->
  zeros R C K z (a * p) (b * q) * (p * q) <= zeros R C K z a b.
Proof.
  intros Ha Hb Hp Hq ER EC.
  assert (D1 : R / a = p * r) by (rewrite ER, <- Nat.mul_assoc, Nat.mul_comm; apply Nat.div_mul; lia).
  assert (D2 : R / (a * p) = r) by (rewrite ER, Nat.mul_comm; apply Nat.div_mul; nia).
  assert (D3 : C / b = q * c) by (rewrite EC, <- Nat.mul_assoc, Nat.mul_comm; apply Nat.div_mul; lia).
  assert (D4 : C / (b * q) = c) by (rewrite EC, Nat.mul_comm; apply Nat.div_mul; nia).
  unfold zeros, true_ratio. cbn [fst].
  set (big := filter _ (grid R C K (a * p) (b * q))). set (small := filter _ (grid R C K a b)).
  set (f := fun x : (nat * nat * nat) * (nat * nat) => (fst (fst (fst x)) * p + fst (snd x), snd (fst (fst x)) * q + snd (snd x), snd (fst x))).
  set (fine := list_prod big (list_prod (seq 0 p) (seq 0 q))).
  assert (L : length (map f fine) = length big * (p * q)) by (unfold fine; rewrite map_length, !prod_length, !seq_length; reflexivity).
  rewrite <- L. apply NoDup_incl_length.
  - assert (Nf : NoDup fine).
    { unfold fine, big. apply NoDup_list_prod; [apply NoDup_filter; unfold grid; repeat apply NoDup_list_prod; apply seq_NoDup|apply NoDup_list_prod; apply seq_NoDup]. }
    assert (Inj : forall x y, In x fine -> In y fine -> f x = f y -> x = y).
    { intros [[[I J] k] [x y]] [[[I' J'] k'] [x' y']] H H' E. unfold fine in H, H'. apply in_prod_iff in H as [_ H]. apply in_prod_iff in H' as [_ H']. rewrite in_prod_iff, !in_seq in H, H'.
      unfold f in E. cbn in E. inversion E as [[E1 E2 E3]]. assert (I = I' /\ x = x') as [-> ->].
      { assert (I = I') by (apply (f_equal (fun t => t / p)) in E1; rewrite !Nat.div_add_l in E1 by lia; rewrite !(Nat.div_small _ p) in E1 by lia; lia). subst. lia. }
      assert (J = J' /\ y = y') as [-> ->].
      { assert (J = J') by (apply (f_equal (fun t => t / q)) in E2; rewrite !Nat.div_add_l in E2 by lia; rewrite !(Nat.div_small _ q) in E2 by lia; lia). subst. lia. }
      reflexivity. }
    clear -Nf Inj. induction Nf as [|x l N Nf IH]; [constructor|]. cbn [map]. constructor.
    + intros I. apply in_map_iff in I as (y & E & I). apply N. rewrite <- (Inj y x); [exact I|right; exact I|left; reflexivity|exact E].
    + apply IH. intros u v Hu Hv. apply Inj; right; assumption.
  - intros w W. apply in_map_iff in W as ([[[I J] k] [x y]] & <- & H). unfold fine in H. apply in_prod_iff in H as [HB H]. rewrite in_prod_iff, !in_seq in H.
    unfold big in HB. apply filter_In in HB as [HG HZ]. apply in_grid in HG. rewrite D2, D4 in HG. cbn [fst snd] in HZ. unfold f. cbn [fst snd]. unfold small. apply filter_In. split.
    + apply in_grid. rewrite D1, D3. nia.
    + cbn [fst snd]. rewrite zero_block_spec in HZ. apply zero_block_spec. intros u v Hu Hv.
      replace ((I * p + x) * a + u) with (I * (a * p) + (x * a + u)) by ring. replace ((J * q + y) * b + v) with (J * (b * q) + (y * b + v)) by ring. apply HZ; nia.
Qed.
Lemma coarser_frac R C K z a b p q r c : 0 < a -> 0 < b -> 0 < p -> 0 < q -> R = a * p * r -> C = b * q * c ->
  frac_le (true_ratio R C K z (a * p) (b * q)) (true_ratio R C K z a b).
Proof.
  intros Ha Hb Hp Hq ER EC. pose proof (coarser R C K z a b p q r c Ha Hb Hp Hq ER EC) as H.
  assert (D1 : R / a = p * r) by (rewrite ER, <- Nat.mul_assoc, Nat.mul_comm; apply Nat.div_mul; lia).
  assert (D2 : R / (a * p) = r) by (rewrite ER, Nat.mul_comm; apply Nat.div_mul; nia).
  assert (D3 : C / b = q * c) by (rewrite EC, <- Nat.mul_assoc, Nat.mul_comm; apply Nat.div_mul; lia).
  assert (D4 : C / (b * q) = c) by (rewrite EC, Nat.mul_comm; apply Nat.div_mul; nia).
  unfold frac_le. unfold zeros in H. set (X := fst (true_ratio R C K z (a * p) (b * q))) in *. set (Y := fst (true_ratio R C K z a b)) in *.
  unfold true_ratio. cbn [snd]. rewrite D1, D2, D3, D4. transitivity (X * (p * q) * (r * c * K)); [nia|]. apply Nat.mul_le_mono_r. exact H.
Qed.
Lemma fratio_le x y : 0 < snd x -> 0 < snd y -> frac_le x y -> (fratio x <= fratio y)%R.
Proof.
  intros Hx Hy H. unfold fratio, fdiv_int. apply rnd_le. unfold frac_le in H.
  assert (PX : (0 < IZR (Z.of_nat (snd x)))%R) by (apply IZR_lt; lia). assert (PY : (0 < IZR (Z.of_nat (snd y)))%R) by (apply IZR_lt; lia).
  apply Rmult_le_reg_r with (IZR (Z.of_nat (snd x)) * IZR (Z.of_nat (snd y)))%R; [apply Rmult_lt_0_compat; assumption|].
  replace (IZR (Z.of_nat (fst x)) / IZR (Z.of_nat (snd x)) * (IZR (Z.of_nat (snd x)) * IZR (Z.of_nat (snd y))))%R with (IZR (Z.of_nat (fst x)) * IZR (Z.of_nat (snd y)))%R by (field; lra).
  replace (IZR (Z.of_nat (fst y)) / IZR (Z.of_nat (snd y)) * (IZR (Z.of_nat (snd x)) * IZR (Z.of_nat (snd y))))%R with (IZR (Z.of_nat (fst y)) * IZR (Z.of_nat (snd x)))%R by (field; lra).
  rewrite <- !mult_IZR. apply IZR_le. rewrite <- !Nat2Z.inj_mul. lia.
Qed.
Lemma accepts_mono base x y : 0 < snd x -> 0 < snd y -> frac_le x y -> accepts base x = true -> accepts base y = true.
Proof.
  intros Hx Hy H. pose proof (fratio_le x y Hx Hy H). unfold accepts. destruct (Rlt_dec _ (fratio x)); [|discriminate]. intros _. destruct (Rlt_dec _ (fratio y)); [reflexivity|lra].
Qed.

Lemma mod_div n m : 0 < m -> n mod m = 0 -> exists q, n = m * q.
Proof. intros H E. exists (n / m). rewrite (Nat.div_mod n m) at 1 by lia. lia. Qed.
Lemma half_div n m : 0 < m -> n mod (2 * m) = 0 -> n mod m = 0.
Proof. intros H E. destruct (mod_div n (2 * m)) as (q & ->); [lia|exact E|]. replace (2 * m * q) with (2 * q * m) by ring. apply Nat.mod_mul. lia. Qed.
Lemma div_le n m : 0 < n -> 0 < m -> n mod m = 0 -> m <= n.
Proof. intros Hn Hm E. destruct (mod_div n m Hm E) as (q & ->). destruct q; nia. Qed.
(** ** The loop *)
Section LOOP.
Context (R C K : nat) (z : nat -> nat -> nat -> bool) (acc : ratio -> bool).
Hypothesis HR : 0 < R. Hypothesis HC : 0 < C. Hypothesis HK : 0 < K.
Hypothesis acc_mono : forall x y, 0 < snd x -> 0 < snd y -> frac_le x y -> acc x = true -> acc y = true.
Notation tr := (true_ratio R C K z).
Lemma tr_pos a b : 0 < a <= R -> 0 < b <= C -> 0 < snd (tr a b).
Proof. intros Ha Hb. unfold true_ratio. cbn. assert (0 < R / a) by (apply Nat.div_str_pos; lia). assert (0 < C / b) by (apply Nat.div_str_pos; lia). nia. Qed.
Record good (s : sstate) : Prop := {
  g_size : 0 < s_size s;
  g_any : s_prev0 s = true \/ s_prev1 s = true;
  g_div0 : s_prev0 s = true -> R mod s_size s = 0 /\ s_r0 s = tr (s_size s) 1;
  g_div1 : s_prev1 s = true -> C mod s_size s = 0 /\ s_r1 s = tr 1 (s_size s);
  g_back0 : R mod s_size s = 0 -> acc (tr (s_size s) 1) = true -> s_prev0 s = true;
  g_back1 : C mod s_size s = 0 -> acc (tr 1 (s_size s)) = true -> s_prev1 s = true;
  g_old0 : exists w p, s_size s = w * p /\ R mod w = 0 /\ s_r0 s = tr w 1;
  g_old1 : exists w p, s_size s = w * p /\ C mod w = 0 /\ s_r1 s = tr 1 w;
  g_last : s_last s = if s_prev0 s then s_r0 s else s_r1 s
}.
Lemma good_start : good (sstart (tr 1 1)).
Proof.
  constructor; cbn [sstart s_size s_prev0 s_prev1 s_r0 s_r1 s_last]; auto.
  - exists 1, 1. auto.
  - exists 1, 1. auto.
Qed.
Lemma good_step s s' : good s -> sstep R C K z acc s = Some s' -> good s' /\ s_size s' = 2 * s_size s /\ s_size s' <= Nat.max R C.
Proof.
  intros G. unfold sstep. rewrite !block_ratio_true. set (n := 2 * s_size s).
  pose proof (g_size s G) as P. assert (Pn : 0 < n) by (unfold n; lia).
  destruct (s_prev1 s && (C mod n =? 0) && acc (tr 1 n)) eqn:V1; destruct (s_prev0 s && (R mod n =? 0) && acc (tr n 1)) eqn:V0; cbn [negb andb]; intros E; try discriminate; injection E as <-; cbn [s_size].
  all: assert (B0 : R mod n = 0 -> acc (tr n 1) = true -> s_prev0 s && (R mod n =? 0) && acc (tr n 1) = true)
    by (intros Dn An; rewrite An, (proj2 (Nat.eqb_eq _ _) Dn), !andb_true_r; apply (g_back0 s G); [apply half_div; assumption|];
        refine (acc_mono (tr n 1) _ _ _ _ An);
        [apply tr_pos; [pose proof (div_le R n HR Pn Dn); lia|lia] | apply tr_pos; [pose proof (div_le R n HR Pn Dn); unfold n in *; lia|lia] |
         destruct (mod_div R n Pn Dn) as (r & Er); replace n with (s_size s * 2) by (unfold n; ring);
         apply (coarser_frac R C K z (s_size s) 1 2 1 r C); try lia; unfold n in Er; lia]).
  all: assert (B1 : C mod n = 0 -> acc (tr 1 n) = true -> s_prev1 s && (C mod n =? 0) && acc (tr 1 n) = true)
    by (intros Dn An; rewrite An, (proj2 (Nat.eqb_eq _ _) Dn), !andb_true_r; apply (g_back1 s G); [apply half_div; assumption|];
        refine (acc_mono (tr 1 n) _ _ _ _ An);
        [apply tr_pos; [lia|pose proof (div_le C n HC Pn Dn); lia] | apply tr_pos; [lia|pose proof (div_le C n HC Pn Dn); unfold n in *; lia] |
         destruct (mod_div C n Pn Dn) as (r & Er); replace n with (s_size s * 2) by (unfold n; ring);
         apply (coarser_frac R C K z 1 (s_size s) 1 2 R r); try lia; unfold n in Er; lia]).
  all: repeat match goal with H : _ && _ && _ = true |- _ => apply andb_prop in H as [H ?]; apply andb_prop in H as [? H] end.
  all: repeat match goal with H : (_ =? _) = true |- _ => apply Nat.eqb_eq in H end.
  all: split; [|split; [reflexivity|]].
  all: try (pose proof (div_le R n HR Pn ltac:(assumption)); lia).
  all: try (pose proof (div_le C n HC Pn ltac:(assumption)); lia).
  all: constructor; cbn [s_size s_prev0 s_prev1 s_r0 s_r1 s_last]; auto; try discriminate.
  all: try (intros Dn An; rewrite B0 in V0 by assumption; discriminate).
  all: try (intros Dn An; rewrite B1 in V1 by assumption; discriminate).
  all: try (exists n, 1; split; [lia|]; split; [assumption|reflexivity]).
  all: try (destruct (g_old0 s G) as (w & p & E1 & E2 & E3); exists w, (p * 2); split; [unfold n; rewrite E1; ring|split; assumption]).
  all: try (destruct (g_old1 s G) as (w & p & E1 & E2 & E3); exists w, (p * 2); split; [unfold n; rewrite E1; ring|split; assumption]).
Qed.
Lemma loop_terminates : forall fuel s, good s -> Nat.max R C < fuel + s_size s -> exists s', sloop R C K z acc fuel s = Some s'.
Proof.
  induction fuel as [|f IH]; intros s G H.
  - exfalso. cbn in H. pose proof (g_size s G). destruct (g_any s G) as [A|A]; [apply (g_div0 s G) in A as [A _]; pose proof (div_le R _ HR H0 A)|apply (g_div1 s G) in A as [A _]; pose proof (div_le C _ HC H0 A)]; lia.
  - cbn [sloop]. destruct (sstep R C K z acc s) as [s'|] eqn:E; [|eauto]. destruct (good_step s s' G E) as (G' & Es & L). apply IH; [exact G'|]. pose proof (g_size s G). lia.
Qed.
Lemma loop_good : forall fuel s s', good s -> sloop R C K z acc fuel s = Some s' -> good s'.
Proof.
  induction fuel as [|f IH]; intros s s' G H; [discriminate|]. cbn [sloop] in H. destruct (sstep R C K z acc s) as [s1|] eqn:E; [|injection H as <-; exact G].
  apply (IH s1); [|exact H]. apply (good_step s s1 G E).
Qed.
End LOOP.

(** ** The two searches *)
Section RESULT.
Context (R C K : nat) (z : nat -> nat -> nat -> bool).
Hypothesis HR : 0 < R. Hypothesis HC : 0 < C. Hypothesis HK : 0 < K.
Notation tr := (true_ratio R C K z).
Notation acc := (accepts (tr 1 1)).
Lemma run_good fuel s : sloop R C K z acc fuel (sstart (tr 1 1)) = Some s -> good R C K z acc s.
Proof. intros H. eapply loop_good; [exact HR|exact HC|exact HK|intros x y Hx Hy L; exact (accepts_mono _ x y Hx Hy L)|apply good_start|exact H]. Qed.
Lemma run_some fuel : Nat.max R C <= fuel -> exists s, sloop R C K z acc fuel (sstart (tr 1 1)) = Some s.
Proof. intros H. apply loop_terminates; auto. - intros x y Hx Hy L; exact (accepts_mono _ x y Hx Hy L). - apply good_start. - cbn; lia. Qed.
Lemma finish2_case s : good R C K z acc s -> let res := finish2 R C K z acc s in
  R mod fst (fst res) = 0 /\ C mod snd (fst res) = 0 /\
  (snd res = tr (fst (fst res)) (snd (fst res)) \/
   (1 < fst (fst res) /\ fst (fst res) = snd (fst res) /\ acc (tr (fst (fst res)) (snd (fst res))) = false /\ snd res = tr (fst (fst res)) 1)).
Proof.
  intros G. unfold finish2. rewrite block_ratio_true. pose proof (g_div0 _ _ _ _ _ s G) as D0. pose proof (g_div1 _ _ _ _ _ s G) as D1. pose proof (g_last _ _ _ _ _ s G) as L. pose proof (g_size _ _ _ _ _ s G) as P.
  pose proof (g_any _ _ _ _ _ s G) as A.
  destruct (s_prev1 s), (s_prev0 s); cbn [andb].
  - destruct D0 as [D0 E0]; [reflexivity|]. destruct D1 as [D1 E1]; [reflexivity|]. destruct (acc (tr (s_size s) (s_size s))) eqn:Sq; cbn [fst snd].
    + auto.
    + repeat split; auto. destruct (Nat.eq_dec (s_size s) 1) as [E|N]; [left; rewrite L, E0, E; reflexivity|right; repeat split; [lia|exact Sq|rewrite L, E0; reflexivity]].
  - destruct D1 as [D1 E1]; [reflexivity|]. cbn [fst snd]. rewrite L. auto.
  - destruct D0 as [D0 E0]; [reflexivity|]. cbn [fst snd]. rewrite L. auto.
  - destruct A; discriminate.
Qed.
Lemma finish4_case s : good R C K z acc s -> let res := finish4 R C K z acc s in
  (R mod fst (fst res) = 0 /\ C mod snd (fst res) = 0 /\ snd res = tr (fst (fst res)) (snd (fst res))) \/
  (fst (fst res) = 1 /\ exists w p, snd (fst res) = w * p /\ C mod w = 0 /\ snd res = tr 1 w /\ (C mod snd (fst res) = 0 -> acc (tr 1 (snd (fst res))) = false)) \/
  (snd (fst res) = 1 /\ exists w p, fst (fst res) = w * p /\ R mod w = 0 /\ snd res = tr w 1 /\ (R mod fst (fst res) = 0 -> acc (tr (fst (fst res)) 1) = false)).
Proof.
  intros G. unfold finish4. rewrite block_ratio_true. pose proof (g_div0 _ _ _ _ _ s G) as D0. pose proof (g_div1 _ _ _ _ _ s G) as D1. pose proof (g_size _ _ _ _ _ s G) as P.
  destruct ((1 <? s_size s) && s_prev1 s && s_prev0 s && acc (tr (s_size s) (s_size s))) eqn:Sq.
  - rewrite !andb_true_iff in Sq. destruct Sq as [[[_ S1] S0] _]. cbn [fst snd]. left. split; [apply D0; exact S0|]. split; [apply D1; exact S1|reflexivity].
  - destruct (Rlt_dec _ _); cbn [fst snd].
    + destruct (s_prev0 s) eqn:P0; [left; destruct D0; auto|]. right; right. split; [reflexivity|]. destruct (g_old0 _ _ _ _ _ s G) as (w & p & E1 & E2 & E3). exists w, p. repeat split; auto.
      intros D. destruct (acc (tr (s_size s) 1)) eqn:A; [|reflexivity]. rewrite (g_back0 _ _ _ _ _ s G D A) in P0. discriminate.
    + destruct (s_prev1 s) eqn:P1; [left; destruct D1; auto|]. right; left. split; [reflexivity|]. destruct (g_old1 _ _ _ _ _ s G) as (w & p & E1 & E2 & E3). exists w, p. repeat split; auto.
      intros D. destruct (acc (tr 1 (s_size s))) eqn:A; [|reflexivity]. rewrite (g_back1 _ _ _ _ _ s G D A) in P1. discriminate.
Qed.
End RESULT.

(** ** Exact comparisons of ratios that are multiples of 1/1024 *)
Lemma dyadic_rnd m : (Z.abs m < 2 ^ 53)%Z -> rnd (IZR m / 1024) = (IZR m / 1024)%R.
Proof.
  intros H. unfold rnd. apply Generic_fmt.round_generic; [apply Generic_fmt.valid_rnd_N|]. apply FLT.generic_format_FLT.
  exists (Defs.Float Zaux.radix2 m (-10)); [|exact H|cbn; lia]. unfold Defs.F2R. cbn [Defs.Fnum Defs.Fexp]. replace (Raux.bpow Zaux.radix2 (-10)) with (/ 1024)%R; [reflexivity|]. cbn. lra.
Qed.
Lemma fratio_dyadic x m : 0 < snd x -> (Z.of_nat (fst x) * 1024 = m * Z.of_nat (snd x))%Z -> (Z.abs m < 2 ^ 53)%Z -> fratio x = (IZR m / 1024)%R.
Proof.
  intros P E B. unfold fratio, fdiv_int. rewrite <- (dyadic_rnd m B). f_equal. assert (PX : (0 < IZR (Z.of_nat (snd x)))%R) by (apply IZR_lt; lia).
  apply (f_equal IZR) in E. rewrite !mult_IZR in E. apply Rmult_eq_reg_r with (IZR (Z.of_nat (snd x)) * 1024)%R; [|nra]. field_simplify; lra.
Qed.
Lemma tenth : (102 / 1024 <= fdiv_int 1 10 <= 103 / 1024)%R.
Proof.
  unfold fdiv_int. split.
  - rewrite <- (dyadic_rnd 102) by lia. apply rnd_le. lra.
  - rewrite <- (dyadic_rnd 103) by lia. apply rnd_le. lra.
Qed.
Lemma accepts_yes base x b m : fratio base = (IZR b / 1024)%R -> fratio x = (IZR m / 1024)%R -> (Z.abs (b - 102) < 2 ^ 53)%Z -> (b - 102 < m)%Z -> accepts base x = true.
Proof.
  intros Eb Ex B L. unfold accepts. rewrite Eb, Ex. destruct (Rlt_dec _ _) as [|N]; [reflexivity|]. exfalso. apply N. apply Rle_lt_trans with (IZR (b - 102) / 1024)%R.
  - unfold fsub. rewrite <- (dyadic_rnd (b - 102) B). apply rnd_le. rewrite minus_IZR. pose proof tenth. lra.
  - apply IZR_lt in L. lra.
Qed.
Lemma accepts_no base x b m : fratio base = (IZR b / 1024)%R -> fratio x = (IZR m / 1024)%R -> (Z.abs (b - 103) < 2 ^ 53)%Z -> (m <= b - 103)%Z -> accepts base x = false.
Proof.
  intros Eb Ex B L. unfold accepts. rewrite Eb, Ex. destruct (Rlt_dec _ _) as [N|]; [|reflexivity]. exfalso. revert N. apply Rle_not_lt. apply Rle_trans with (IZR (b - 103) / 1024)%R.
  - apply IZR_le in L. lra.
  - unfold fsub. rewrite <- (dyadic_rnd (b - 103) B). apply rnd_le. rewrite minus_IZR. pose proof tenth. lra.
Qed.
Lemma sloop_next R C K z acc f s s' r : sstep R C K z acc s = Some s' -> sloop R C K z acc f s' = Some r -> sloop R C K z acc (S f) s = Some r.
Proof. intros H. cbn [sloop]. rewrite H. auto. Qed.
Lemma sloop_stop R C K z acc f s : sstep R C K z acc s = None -> sloop R C K z acc (S f) s = Some s.
Proof. intros H. cbn [sloop]. rewrite H. auto. Qed.
