From Coq Require Import Reals Lra Lia Permutation.
From Flocq Require Import Core.
From Verif Require Import PyBase PyBaseFacts GraphModel ShapeModel FloatPy FusionModel FusionProofs ProfileModel.
Open Scope Z_scope. Open Scope list_scope.

Lemma sum_acc l : forall a, fold_left Z.add l a = a + sum_list l.
Proof. induction l as [|x l IH]; intros a; cbn; [unfold sum_list; cbn; lia|]. rewrite IH. unfold sum_list. cbn. rewrite (IH x). unfold sum_list. lia. Qed.
Lemma sum_cons x l : sum_list (x :: l) = x + sum_list l.
Proof. unfold sum_list at 1. cbn [fold_left]. rewrite sum_acc. lia. Qed.
Lemma sum_app a b : sum_list (a ++ b) = sum_list a + sum_list b.
Proof. induction a as [|x a IH]; [reflexivity|]. cbn [app]. rewrite !sum_cons, IH. lia. Qed.
Lemma sum_nonneg l : Forall (fun x => 0 <= x) l -> 0 <= sum_list l.
Proof. induction 1; [unfold sum_list; cbn; lia|]. rewrite sum_cons. lia. Qed.
Lemma sum_perm a b : Permutation a b -> sum_list a = sum_list b.
Proof. induction 1; rewrite ?sum_cons in *; lia. Qed.
Lemma sum_flat {A} (f : A -> list Z) l : sum_list (flat_map f l) = sum_list (map (fun x => sum_list (f x)) l).
Proof. induction l as [|x l IH]; [reflexivity|]. cbn [flat_map map]. rewrite sum_app, sum_cons, IH. reflexivity. Qed.
Lemma sum_map_add {A} (f g : A -> Z) l : sum_list (map (fun x => f x + g x) l) = sum_list (map f l) + sum_list (map g l).
Proof. induction l as [|x l IH]; [reflexivity|]. cbn [map]. rewrite !sum_cons, IH. lia. Qed.
Lemma sum_map_ext {A} (f g : A -> Z) l : (forall x, In x l -> f x = g x) -> sum_list (map f l) = sum_list (map g l).
Proof. intros H. rewrite (map_ext_in f g l H). reflexivity. Qed.
Lemma sum_map_zero {A} (f : A -> Z) l : (forall x, In x l -> f x = 0) -> sum_list (map f l) = 0.
Proof. induction l as [|x l IH]; intros H; [reflexivity|]. cbn [map]. rewrite sum_cons, (H x (or_introl eq_refl)), IH; [reflexivity|]. intros y Hy; apply H; right; exact Hy. Qed.

Section PROFILE.
Context (nprof : node -> list tensor -> list tensor -> sres (Z * Z * Z)).
Notation profile_node := (profile_node nprof). Notation profile_nodes := (profile_nodes nprof).
Notation profile_with := (profile_with nprof). Notation profiles := (profiles nprof).

Lemma profile_nodes_spec g : forall keys acc m p mem rows m' p' mem', profile_nodes g keys acc m p mem = SOk (rows, m', p', mem') ->
  exists ws, rows = acc ++ ws /\ Forall2 (fun k w => profile_node g k = SOk w) keys ws /\
    p' = p + sum_list (map r_params ws) /\ mem' = mem + sum_list (map r_memory ws) /\ m' = fold_left (fun a w => fadd a (IZR (r_macs w))) ws m.
Proof.
  induction keys as [|k keys IH]; intros acc m p mem rows m' p' mem' H; cbn [ProfileModel.profile_nodes] in H.
  - injection H as <- <- <- <-. exists []. rewrite app_nil_r. unfold sum_list; cbn. repeat split; auto; lia.
  - apply sbind_ok in H as (w & W & H). destruct (IH _ _ _ _ _ _ _ _ H) as (ws & -> & F & -> & -> & ->).
    exists (w :: ws). rewrite <- app_assoc. cbn [app map fold_left]. rewrite !sum_cons. repeat split; auto; lia.
Qed.
Lemma profile_with_spec g keys r : profile_with g keys = SOk r ->
  Forall2 (fun k w => profile_node g k = SOk w) keys (rp_rows r) /\
  rp_params r = sum_list (map r_params (rp_rows r)) /\ rp_memory r = sum_list (map r_memory (rp_rows r)) /\
  rp_macs r = fold_left (fun a w => fadd a (IZR (r_macs w))) (rp_rows r) 0%R /\ dedup_params g = SOk (rp_dedup r).
Proof.
  intros H. unfold ProfileModel.profile_with in H. apply sbind_ok in H as ([[[rows m] p] mem] & P & H). apply sbind_ok in H as (d & D & H). injection H as <-.
  destruct (profile_nodes_spec _ _ _ _ _ _ _ _ _ _ P) as (ws & -> & F & -> & -> & ->). cbn. repeat split; auto; lia.
Qed.
Lemma row_of g k w : profile_node g k = SOk w -> exists n, dget (nodemap g) k = Some n /\ r_name w = k /\ r_op w = n_op n.
Proof.
  intros H. unfold ProfileModel.profile_node in H. apply sbind_ok in H as (n & G & H). apply dlook_ok in G. exists n. split; [exact G|].
  apply sbind_ok in H as (its & _ & H). apply sbind_ok in H as (ots & _ & H). apply sbind_ok in H as ([[a b] c] & _ & H). injection H as <-. auto.
Qed.
End PROFILE.

(** exact float accumulation of integers *)
Lemma float_sum (ws : list row) : forall a, Forall (fun w => 0 <= r_macs w) ws -> 0 <= a -> a + sum_list (map r_macs ws) <= 2 ^ 53 ->
  fold_left (fun x w => fadd x (IZR (r_macs w))) ws (IZR a) = IZR (a + sum_list (map r_macs ws)).
Proof.
  induction ws as [|w ws IH]; intros a F A B; cbn [fold_left map] in *.
  - f_equal. unfold sum_list; cbn. lia.
  - inversion F; subst. rewrite sum_cons in B.
    assert (P : 0 <= sum_list (map r_macs ws)) by (apply sum_nonneg; rewrite Forall_map; auto).
    unfold fadd at 2. rewrite <- plus_IZR, rnd_int by lia. rewrite IH by (auto; lia). f_equal. rewrite sum_cons. lia.
Qed.
Lemma py_round_int z : py_round (IZR z) = z.
Proof. unfold py_round. apply Znearest_imp. rewrite Rminus_diag_eq by reflexivity. rewrite Rabs_R0. lra. Qed.
Lemma py_int_int z : py_int (IZR z) = z.
Proof. unfold py_int. apply Ztrunc_IZR. Qed.

(** ** adding 1e-18 *)
Lemma ulp_ge n : 1 <= n -> (bpow radix2 (-52) <= ulp radix2 b64exp (IZR n))%R.
Proof.
  intros H. rewrite ulp_neq_0 by (apply IZR_neq; lia). apply bpow_le. unfold cexp, b64exp, FLT_exp.
  assert (M : (1 <= mag radix2 (IZR n))%Z).
  { apply mag_ge_bpow. change (bpow radix2 (1 - 1)) with 1%R. rewrite Rabs_pos_eq by (apply IZR_le; lia). apply IZR_le; lia. }
  lia.
Qed.
Lemma tiny18_bound : (0 <= tiny18 <= / IZR (2 ^ 58))%R.
Proof.
  unfold tiny18. split.
  - rewrite <- (rnd_int 0) by (cbn; lia). apply rnd_le. left. apply Rinv_0_lt_compat. apply IZR_lt. reflexivity.
  - assert (E : rnd (/ IZR (2 ^ 58)) = (/ IZR (2 ^ 58))%R).
    { change (/ IZR (2 ^ 58))%R with (bpow radix2 (-58)). unfold rnd. apply round_generic; [apply valid_rnd_N|].
      apply generic_format_bpow. unfold b64exp, FLT_exp. lia. }
    rewrite <- E. apply rnd_le. apply Rinv_le_contravar; apply IZR_lt || apply IZR_le; [reflexivity|vm_compute; discriminate].
Qed.
Lemma printed_exact n : 1 <= n <= 2 ^ 53 -> printed n = IZR n.
Proof.
  intros H. unfold printed, fadd. assert (T := tiny18_bound). apply Rle_antisym.
  - unfold rnd. apply round_N_le_midp; [apply b64_valid|apply int_format; lia|].
    rewrite succ_eq_pos by (apply IZR_le; lia). assert (U := ulp_ge n ltac:(lia)).
    assert (Q : (/ IZR (2 ^ 58) < bpow radix2 (-52) / 2)%R).
    { change (/ IZR (2 ^ 58))%R with (bpow radix2 (-58)). replace (bpow radix2 (-52) / 2)%R with (bpow radix2 (-53)); [apply bpow_lt; lia|].
      change (bpow radix2 (-52)) with (/ IZR (2 ^ 52))%R. change (bpow radix2 (-53)) with (/ IZR (2 ^ 53))%R.
      replace (IZR (2 ^ 53)) with (IZR (2 ^ 52) * 2)%R by (rewrite <- mult_IZR; reflexivity). rewrite Rinv_mult; reflexivity. }
    lra.
  - rewrite <- (rnd_int n) at 1 by lia. apply rnd_le. lra.
Qed.
Lemma printed_zero : (0 <= printed 0 < 1/4)%R.
Proof.
  unfold printed, fadd. rewrite Rplus_0_l. assert (T := tiny18_bound). split.
  - rewrite <- (rnd_int 0) by (cbn; lia). apply rnd_le. lra.
  - assert (E : rnd (/ IZR (2 ^ 58)) = (/ IZR (2 ^ 58))%R).
    { change (/ IZR (2 ^ 58))%R with (bpow radix2 (-58)). unfold rnd. apply round_generic; [apply valid_rnd_N|].
      apply generic_format_bpow. unfold b64exp, FLT_exp. lia. }
    apply Rle_lt_trans with (/ IZR (2 ^ 58))%R; [rewrite <- E; apply rnd_le; lra|].
    assert (/ IZR (2 ^ 58) < / 4)%R; [|lra]. apply Rinv_lt_contravar; [|apply IZR_lt; reflexivity]. apply Rmult_lt_0_compat; [lra|apply IZR_lt; reflexivity].
Qed.
Lemma printed_int n : 0 <= n <= 2 ^ 53 -> py_int (printed n) = n.
Proof.
  intros H. destruct (Z.eq_dec n 0) as [->|D].
  - destruct printed_zero as [A B]. unfold py_int. rewrite Ztrunc_floor by exact A. apply Zfloor_imp. cbn. lra.
  - rewrite printed_exact by lia. apply py_int_int.
Qed.
Lemma printed_scaled n f : 0 <= n -> 1 <= f <= 2 -> n * f <= 2 ^ 53 -> py_int (fmul (printed n) (IZR f)) = n * f.
Proof.
  intros H F B. destruct (Z.eq_dec n 0) as [->|D].
  - destruct printed_zero as [A C]. unfold fmul.
    assert (X : (0 <= printed 0 * IZR f <= 1/2)%R).
    { assert (1 <= IZR f <= 2)%R by (split; [apply (IZR_le 1); lia|apply (IZR_le _ 2); lia]). split; [apply Rmult_le_pos; lra|].
      apply Rle_trans with (1 / 4 * 2)%R; [apply Rmult_le_compat; lra|lra]. }
    assert (Y : (0 <= rnd (printed 0 * IZR f) <= 1/2)%R).
    { split; [rewrite <- (rnd_int 0) by (cbn; lia); apply rnd_le; lra|].
      assert (E : rnd (1/2) = (1/2)%R).
      { replace (1/2)%R with (bpow radix2 (-1)) by (cbn; lra). unfold rnd. apply round_generic; [apply valid_rnd_N|]. apply generic_format_bpow. unfold b64exp, FLT_exp; lia. }
      rewrite <- E. apply rnd_le. lra. }
    unfold py_int. rewrite Ztrunc_floor by lra. rewrite Z.mul_0_l. apply Zfloor_imp. cbn. lra.
  - rewrite printed_exact by nia. unfold fmul. rewrite <- mult_IZR, rnd_int by nia. apply py_int_int.
Qed.

(** ** sums over name lists *)
Lemma sum_pick (f : string -> Z) (l : list string) x : NoDup l -> In x l ->
  sum_list (map (fun k => if String.eqb x k then f k else 0) l) = f x.
Proof.
  induction 1 as [|y l N Nd IH]; intros I; [destruct I|]. cbn [map]. rewrite sum_cons. destruct I as [->|I].
  - rewrite String.eqb_refl, sum_map_zero; [lia|]. intros k K. destruct (String.eqb_spec x k); [subst; contradiction|reflexivity].
  - destruct (String.eqb_spec x y); [subst; contradiction|]. rewrite IH by exact I. lia.
Qed.
Lemma sum_counts (f : string -> Z) (init reads : list string) : NoDup init ->
  sum_list (map (fun x => if memb x init then f x else 0) reads) = sum_list (map (fun k => Z.of_nat (count k reads) * f k) init).
Proof.
  intros Nd. induction reads as [|x reads IH]; cbn [map].
  - symmetry. apply sum_map_zero. intros; reflexivity.
  - rewrite sum_cons, IH.
    replace (sum_list (map (fun k => Z.of_nat (count k (x :: reads)) * f k) init))
      with (sum_list (map (fun k => (if String.eqb x k then f k else 0) + Z.of_nat (count k reads) * f k) init)).
    + rewrite sum_map_add. destruct (memb x init) eqn:M.
      * rewrite sum_pick by (auto; apply memb_In; exact M). reflexivity.
      * rewrite (sum_map_zero (fun k => if String.eqb x k then f k else 0)); [reflexivity|]. intros k K. destruct (String.eqb_spec x k); [|reflexivity].
        subst. apply memb_nIn in M. contradiction.
    + apply sum_map_ext. intros k _. cbn [count]. rewrite (String.eqb_sym k x). destruct (String.eqb x k); [|lia]. rewrite Nat2Z.inj_succ. lia.
Qed.
Lemma sum_filter {A} (f : A -> Z) (P : A -> bool) l : (forall x, In x l -> P x = false -> f x = 0) -> sum_list (map f l) = sum_list (map f (filter P l)).
Proof.
  induction l as [|x l IH]; intros H; [reflexivity|]. cbn [map filter]. rewrite sum_cons, IH by (intros y Y; apply H; right; exact Y).
  destruct (P x) eqn:E; cbn [map]; rewrite ?sum_cons; [reflexivity|]. rewrite (H x (or_introl eq_refl) E). reflexivity.
Qed.
Lemma sum_support (f : string -> Z) a b : NoDup a -> NoDup b -> (forall x, In x a -> ~ In x b -> f x = 0) -> (forall x, In x b -> ~ In x a -> f x = 0) ->
  sum_list (map f a) = sum_list (map f b).
Proof.
  intros Na Nb Ha Hb. rewrite (sum_filter f (fun x => memb x b) a), (sum_filter f (fun x => memb x a) b).
  - apply sum_perm. apply Permutation_map. apply NoDup_Permutation; try apply NoDup_filter; auto.
    intros x. rewrite !filter_In, !memb_In. tauto.
  - intros x I E. apply Hb; [exact I|]. apply memb_nIn. exact E.
  - intros x I E. apply Ha; [exact I|]. apply memb_nIn. exact E.
Qed.

(** ** parameters read through weights *)
Lemma smap_F2 {A B} (f : A -> sres B) l out : smap f l = SOk out -> Forall2 (fun a b => f a = SOk b) l out.
Proof.
  revert out. induction l as [|a l IH]; intros out H; cbn in H.
  - injection H as <-. constructor.
  - apply sbind_ok in H as (b & Hb & H). apply sbind_ok in H as (bs & Hs & H). injection H as <-. constructor; auto.
Qed.
Definition weight_size (g : graph) (x : string) : Z := match dget (tensormap g) x with Some t => volume (t_shape t) | None => 0 end.
Definition is_weight (g : graph) (x : string) : Prop := x <> ""%string /\ exists t, dget (tensormap g) x = Some t /\ t_kind t = STATIC.
Lemma row_params nprof g k w n : profile_node nprof g k = SOk w -> dget (nodemap g) k = Some n ->
  (forall x, In x (n_in n) -> (is_weight g x <-> In x (initials g))) ->
  r_params w = sum_list (map (fun x => if memb x (initials g) then weight_size g x else 0) (n_in n)).
Proof.
  intros H G Hw. unfold profile_node in H. apply sbind_ok in H as (n' & G' & H). apply dlook_ok in G'. assert (n' = n) by congruence. subst n'.
  apply sbind_ok in H as (its & I & H). apply sbind_ok in H as (ots & O & H). apply sbind_ok in H as ([[a b] c] & _ & H). injection H as <-. cbn [r_params].
  apply smap_F2 in I. clear -I Hw. induction I as [|x t xs ts E I IH]; [reflexivity|]. cbn [combine filter map]. rewrite sum_cons.
  rewrite <- IH by (intros y Y; apply Hw; right; exact Y). apply dlook_ok in E. unfold is_static at 1. cbn [fst snd]. unfold weight_size. rewrite E.
  specialize (Hw x (or_introl eq_refl)). destruct (memb x (initials g)) eqn:M.
  - apply memb_In in M. apply Hw in M as (N & t' & E' & K). assert (t' = t) by congruence. subst t'. rewrite (proj2 (String.eqb_neq x "") N), K. cbn [negb andb map]. rewrite sum_cons. reflexivity.
  - apply memb_nIn in M. destruct (String.eqb_spec x ""); cbn [negb andb map]; [lia|]. destruct (t_kind t) eqn:K; cbn [map]; [|lia].
    exfalso. apply M, Hw. split; [assumption|]. exists t. auto.
Qed.
Lemma params_sum nprof g keys rows : Forall2 (fun k w => profile_node nprof g k = SOk w) keys rows ->
  (forall k n x, dget (nodemap g) k = Some n -> In x (n_in n) -> (is_weight g x <-> In x (initials g))) ->
  sum_list (map r_params rows) = sum_list (map (fun x => if memb x (initials g) then weight_size g x else 0)
    (flat_map (fun k => match dget (nodemap g) k with Some n => n_in n | None => [] end) keys)).
Proof.
  intros F Hw. induction F as [|k w ks ws H F IH]; [reflexivity|]. cbn [map flat_map]. rewrite sum_cons, map_app, sum_app, IH. f_equal.
  destruct (row_of _ _ _ _ H) as (n & G & _). rewrite G. apply (row_params nprof g k w n H G). intros x X. exact (Hw k n x G X).
Qed.
Lemma reads_by_key (nm : dict node) : NoDup (dkeys nm) ->
  flat_map (fun k => match dget nm k with Some n => n_in n | None => [] end) (dkeys nm) = flat_map n_in (map snd nm).
Proof.
  unfold dkeys. intros Nd. rewrite !flat_map_concat_map, !map_map. f_equal. apply map_ext_in. intros [k n] I. cbn. rewrite (In_dget _ nm k n Nd I). reflexivity.
Qed.
