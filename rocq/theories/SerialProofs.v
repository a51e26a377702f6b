(** Reading back what the writers of serialization.py write. *)
From Coq Require Import Reals Lra.
From Flocq Require Import Core IEEE754.Binary IEEE754.Bits.
From Verif Require Import PyBase GraphModel FloatPy ShapeModel SerialModel SerialSpec SerialFits.
Open Scope Z_scope.

(** [w] succeeds, and reading what it wrote gives a value related by [P] and the rest of the file *)
Definition codec {A} (w : sres bytes) (r : reader A) (P : A -> Prop) : Prop :=
  exists b, w = SOk b /\ forall rest, exists a, r (b ++ rest) = Some (a, rest) /\ P a.

Lemma codec_imp : forall A w (r : reader A) (P Q : A -> Prop), codec w r P -> (forall a, P a -> Q a) -> codec w r Q.
Proof. intros A w r P Q (b & E & H) I. exists b. split; auto. intros rest. destruct (H rest) as (a & R & Pa). eauto. Qed.

Lemma wcat_assoc : forall a b c, (a +++ b) +++ c = a +++ (b +++ c).
Proof.
  intros [a|e] [b|e'] [c|e'']; cbn; try reflexivity. rewrite app_assoc. reflexivity.
Qed.
Lemma wcat_nil : forall a, a +++ wnil = a.
Proof. intros [a|e]; cbn; auto. rewrite app_nil_r. reflexivity. Qed.

Lemma codec_ret : forall A (a : A) (P : A -> Prop), P a -> codec wnil (ret a) P.
Proof. intros A a P H. exists []. split; auto. intros rest. exists a. split; auto. Qed.

(** sequential composition; the bytes of both parts are deterministic *)
Lemma codec_bind : forall A B w1 w2 (r : reader A) (k : A -> reader B) P Q,
  codec w1 r P -> (exists b2, w2 = SOk b2 /\ forall a, P a -> forall rest, exists c, k a (b2 ++ rest) = Some (c, rest) /\ Q c) ->
  codec (w1 +++ w2) (SerialSpec.bind r k) Q.
Proof.
  intros A B w1 w2 r k P Q (b1 & E1 & H1) (b2 & E2 & H2).
  exists (b1 ++ b2). rewrite E1, E2. split; [reflexivity|]. intros rest.
  unfold SerialSpec.bind. rewrite <- app_assoc. destruct (H1 (b2 ++ rest)) as (a & R & Pa). rewrite R. apply H2; auto.
Qed.
(** the usual case: the continuation is a codec for every possible result, and some result exists *)
Lemma codec_seq : forall A B w1 w2 (r : reader A) (k : A -> reader B) P Q,
  codec w1 r P -> (forall a, P a -> codec w2 (k a) Q) -> codec (w1 +++ w2) (SerialSpec.bind r k) Q.
Proof.
  intros A B w1 w2 r k P Q C1 C2. apply (codec_bind A B w1 w2 r k P Q C1).
  destruct C1 as (b1 & E1 & H1). destruct (H1 []) as (a0 & _ & P0).
  destruct (C2 a0 P0) as (b2 & E2 & _). exists b2. split; auto.
  intros a Pa rest. destruct (C2 a Pa) as (b2' & E2' & H). rewrite E2 in E2'. injection E2' as <-. apply H.
Qed.
Lemma codec_last : forall A B w (r : reader A) (k : A -> B) P (Q : B -> Prop),
  codec w r P -> (forall a, P a -> Q (k a)) -> codec w (SerialSpec.bind r (fun a => ret (k a))) Q.
Proof.
  intros A B w r k P Q C H. rewrite <- (wcat_nil w). eapply codec_seq; [exact C|]. intros a Pa. apply codec_ret. auto.
Qed.

Lemma codec_times : forall X A (f : X -> sres bytes) (r : reader A) (R : X -> A -> Prop) l,
  (forall x, In x l -> codec (f x) r (R x)) -> codec (wall f l) (read_times (length l) r) (Forall2 R l).
Proof.
  intros X A f r R l. induction l as [|x l IH]; intros H; cbn [wall length read_times].
  - apply codec_ret. constructor.
  - eapply codec_seq; [apply H; simpl; auto|]. intros a Ra. eapply codec_last; [apply IH; intros; apply H; simpl; auto|].
    intros t F. constructor; auto.
Qed.

(** ** integers *)
Lemma read_le : forall k z rest, read_unsigned k (le_bytes k z ++ rest) = Some (z mod 2 ^ (8 * Z.of_nat k), rest).
Proof.
  induction k as [|k IH]; intros z rest; cbn [le_bytes read_unsigned app].
  - simpl. rewrite Z.mod_1_r. reflexivity.
  - rewrite IH. rewrite N_ascii_embedding.
    2:{ pose proof (Z.mod_pos_bound z 256 ltac:(lia)). lia. }
    rewrite Z2N.id by (pose proof (Z.mod_pos_bound z 256 ltac:(lia)); lia).
    f_equal. f_equal.
    replace (8 * Z.of_nat (S k)) with (8 + 8 * Z.of_nat k) by lia. rewrite Z.pow_add_r by lia.
    change (2 ^ 8) with 256. rewrite Z.rem_mul_r by lia. reflexivity.
Qed.
Lemma codec_int : forall k z, (0 < k)%nat -> - 2 ^ (8 * Z.of_nat k - 1) <= z < 2 ^ (8 * Z.of_nat k - 1) ->
  codec (write_int z k) (read_int k) (fun a => a = z).
Proof.
  intros k z Hk H. exists (le_bytes k z). split.
  - unfold write_int, to_bytes. destruct (Z.leb_spec (- 2 ^ (8 * Z.of_nat k - 1)) z); [|lia].
    destruct (Z.ltb_spec z (2 ^ (8 * Z.of_nat k - 1))); [reflexivity|lia].
  - intros rest. unfold read_int, SerialSpec.bind. rewrite read_le. eexists. split; [reflexivity|].
    assert (E : 2 ^ (8 * Z.of_nat k) = 2 * 2 ^ (8 * Z.of_nat k - 1)).
    { rewrite <- (Z.pow_succ_r 2) by lia. f_equal. lia. }
    assert (P : 0 < 2 ^ (8 * Z.of_nat k - 1)) by (apply Z.pow_pos_nonneg; lia).
    rewrite E. set (h := 2 ^ (8 * Z.of_nat k - 1)) in *.
    destruct (Z.le_gt_cases 0 z).
    + rewrite Z.mod_small by lia. destruct (Z.leb_spec h z); lia.
    + assert (M : z mod (2 * h) = z + 2 * h).
      { rewrite <- (Z_mod_plus_full z 1 (2 * h)). rewrite Z.mod_small by lia. lia. }
      rewrite M. destruct (Z.leb_spec h (z + 2 * h)); lia.
Qed.
Lemma codec_int4 : forall z, int32 z -> codec (write_int z 4) (read_int 4) (fun a => a = z).
Proof. intros. apply codec_int; [lia|exact H]. Qed.
Lemma codec_int8 : forall z, int64 z -> codec (write_int z 8) (read_int 8) (fun a => a = z).
Proof. intros. apply codec_int; [lia|exact H]. Qed.

Lemma codec_list : forall X A k (f : X -> sres bytes) (r : reader A) (R : X -> A -> Prop) l,
  (0 < k)%nat -> Z.of_nat (length l) < 2 ^ (8 * Z.of_nat k - 1) ->
  (forall x, In x l -> codec (f x) r (R x)) -> codec (write_len l k +++ wall f l) (read_list k r) (Forall2 R l).
Proof.
  intros X A k f r R l Hk L H. unfold read_list. eapply codec_seq.
  - apply (codec_int k (Z.of_nat (length l))); auto. split; auto.
    assert (0 < 2 ^ (8 * Z.of_nat k - 1)) by (apply Z.pow_pos_nonneg; lia). lia.
  - intros a ->. rewrite Nat2Z.id. apply codec_times. auto.
Qed.
(** the same followed by more output *)
Lemma codec_list_seq : forall X A B k (f : X -> sres bytes) (r : reader A) (R : X -> A -> Prop) l w (c : list A -> reader B) Q,
  (0 < k)%nat -> Z.of_nat (length l) < 2 ^ (8 * Z.of_nat k - 1) ->
  (forall x, In x l -> codec (f x) r (R x)) -> (forall ys, Forall2 R l ys -> codec w (c ys) Q) ->
  codec (write_len l k +++ wall f l +++ w) (SerialSpec.bind (read_list k r) c) Q.
Proof.
  intros. rewrite <- wcat_assoc. eapply codec_seq; [apply codec_list; eauto|]. auto.
Qed.

(** ** strings *)
Lemma has_nul_free : forall s, nul_free s -> has_nul s = false.
Proof.
  intros s H. unfold has_nul. destruct (existsb (Ascii.eqb NUL) (list_ascii_of_string s)) eqn:E; auto.
  apply existsb_exists in E. destruct E as (x & I & Q). apply Ascii.eqb_eq in Q. subst x. contradiction.
Qed.
Lemma read_str_app : forall l rest, ~ In NUL l -> read_str (l ++ NUL :: rest) = Some (string_of_list_ascii l, rest).
Proof.
  induction l as [|c l IH]; intros rest H; cbn [app read_str].
  - reflexivity.
  - destruct (Ascii.eqb_spec c "000"%char) as [->|N]; [exfalso; apply H; left; reflexivity|].
    rewrite IH by (intros I; apply H; right; auto). reflexivity.
Qed.
Lemma codec_str : forall s, nul_free s -> codec (write_str s) read_str (fun a => a = s).
Proof.
  intros s H. exists (list_ascii_of_string s ++ [NUL]). unfold write_str. rewrite has_nul_free by auto. split; [reflexivity|].
  intros rest. exists s. rewrite <- app_assoc. simpl app. rewrite read_str_app by auto.
  rewrite string_of_list_ascii_of_string. auto.
Qed.

(** ** floats *)

Lemma B2R_finite : forall s m e H, B2R 53 1024 (B754_finite 53 1024 s m e H) = F2R (Float radix2 (cond_Zopp s (Zpos m)) e).
Proof. reflexivity. Qed.
Lemma to_f32_nearest : forall f, f32_range f -> nearest_f32 f (to_f32 f) /\ overflows_f32 f = false.
Proof.
  intros f H. destruct f as [s|s|s pl Hp|s m e Hb].
  - split; [|reflexivity]. split; [reflexivity|]. simpl. rewrite round_0; [reflexivity|apply valid_rnd_N].
  - split; reflexivity.
  - split; reflexivity.
  - specialize (H eq_refl). rewrite B2R_finite in H.
    pose proof (binary_normalize_correct 24 128 eq_refl eq_refl mode_NE (cond_Zopp s (Zpos m)) e s) as C.
    change (BinarySingleNaN.round_mode mode_NE) with ZnearestE in C.
    change (SpecFloat.fexp 24 128) with (FLT_exp (-149) 24) in C.
    rewrite Rlt_bool_true in C by exact H. destruct C as (C1 & C2 & C3).
    split.
    + split; [exact C2|]. rewrite B2R_finite. exact C1.
    + unfold overflows_f32, to_f32. rewrite C2. reflexivity.
Qed.
Lemma bits_range : forall x : binary32, 0 <= bits_of_b32 x < 2 ^ 32.
Proof. intros x. apply (bits_of_binary_float_range 23 8); reflexivity. Qed.
Lemma codec_float : forall f, f32_range f -> codec (write_float f) read_float (nearest_f32 f).
Proof.
  intros f H. destruct (to_f32_nearest f H) as [N O]. unfold write_float, pack_f. rewrite O.
  eexists. split; [reflexivity|]. intros rest. exists (to_f32 f). split; [|exact N].
  unfold read_float, SerialSpec.bind. rewrite read_le. change (8 * Z.of_nat 4) with 32. rewrite Z.mod_small by apply bits_range.
  unfold ret. do 2 f_equal.
  apply (binary_float_of_bits_of_binary_float 23 8 eq_refl eq_refl eq_refl).
Qed.

(** integers of at most 24 bits survive float() and struct.pack exactly *)
Lemma float_of_int_exact : forall z, Z.abs z <= 2 ^ 24 -> exists f, float_of_int z = SOk f /\ is_finite 53 1024 f = true /\
  B2R 53 1024 f = IZR z.
Proof.
  intros z H. unfold float_of_int.
  pose proof (binary_normalize_correct 53 1024 eq_refl eq_refl mode_NE z 0 false) as C.
  change (BinarySingleNaN.round_mode mode_NE) with ZnearestE in C.
  change (SpecFloat.fexp 53 1024) with (FLT_exp (-1074) 53) in C.
  assert (E : F2R (Float radix2 z 0) = IZR z) by (unfold F2R; simpl; ring).
  rewrite E in C.
  assert (R : round radix2 (FLT_exp (-1074) 53) ZnearestE (IZR z) = IZR z).
  { apply (rnd_int z). lia. }
  rewrite R in C.
  assert (B : (Rabs (IZR z) < bpow radix2 1024)%R).
  { rewrite <- abs_IZR. apply Rle_lt_trans with (IZR (2 ^ 24)); [apply IZR_le; exact H|].
    change (IZR (2 ^ 24)) with (IZR (Zpower radix2 24)). rewrite IZR_Zpower by lia. apply bpow_lt. lia. }
  rewrite Rlt_bool_true in C by exact B. destruct C as (C1 & C2 & _).
  rewrite C2. eexists. split; [reflexivity|]. auto.
Qed.
Lemma f32_int : forall z, Z.abs z <= 2 ^ 24 -> round radix2 (FLT_exp (-149) 24) ZnearestE (IZR z) = IZR z.
Proof.
  intros z H. apply round_generic; [apply valid_rnd_N|].
  assert (L : Z.abs z < 2 ^ 24 \/ Z.abs z = 2 ^ 24) by lia. destruct L as [L|L].
  - apply generic_format_FLT. apply (FLT_spec radix2 (-149) 24 (IZR z) (Float radix2 z 0)); simpl.
    + unfold F2R. simpl. ring.
    + exact L.
    + lia.
  - assert (P : generic_format radix2 (FLT_exp (-149) 24) (bpow radix2 24)).
    { apply generic_format_bpow. unfold FLT_exp. simpl. lia. }
    assert (Q : z = 2 ^ 24 \/ z = - 2 ^ 24) by lia. destruct Q as [-> | ->].
    + exact P.
    + rewrite opp_IZR. apply generic_format_opp. exact P.
Qed.
Lemma codec_float_int : forall z, Z.abs z <= 2 ^ 24 ->
  codec (let* a := float_of_int z in write_float a) read_float
        (fun g => is_finite 24 128 g = true /\ B2R 24 128 g = IZR z).
Proof.
  intros z H. destruct (float_of_int_exact z H) as (f & -> & F & B). cbn [sbind].
  assert (R : f32_range f).
  { intros _. rewrite B, f32_int by auto. rewrite <- abs_IZR. apply Rle_lt_trans with (IZR (2 ^ 24)); [apply IZR_le; auto|].
    change (IZR (2 ^ 24)) with (IZR (Zpower radix2 24)). rewrite IZR_Zpower by lia. apply bpow_lt. lia. }
  eapply codec_imp; [apply codec_float; exact R|].
  intros g N. destruct f; try discriminate F; destruct N as [N1 N2]; (split; [exact N1|]);
    rewrite N2, B; apply f32_int; auto.
Qed.

Lemma codec_parse : forall A w (r : reader A) P, codec w r P -> exists b v, w = SOk b /\ parse r b = Some v /\ P v.
Proof.
  intros A w r P (b & E & H). destruct (H []) as (a & R & Pa). exists b, a. split; auto. split; auto.
  unfold parse. rewrite app_nil_r in R. rewrite R. reflexivity.
Qed.

(** ** memory plan file *)
Lemma F2_eq : forall A (l l' : list A), Forall2 eq l l' -> l' = l.
Proof. induction 1; congruence. Qed.
Theorem plan_roundtrip : forall p, plan_fits p -> exists b, serialize_plan p = SOk b /\
  parse read_plan b = Some {| pv_total := pf_total p; pv_blocks := pf_blocks p; pv_max := pf_max p |}.
Proof.
  intros p (T & LB & LM & HB & HM).
  assert (C : codec (serialize_plan p) read_plan (fun v => v = {| pv_total := pf_total p; pv_blocks := pf_blocks p; pv_max := pf_max p |})).
  { unfold serialize_plan, read_plan. eapply codec_seq; [apply codec_int8; exact T|]. intros a ->.
    eapply codec_list_seq with (R := eq); [lia|exact LB| |].
    - intros [k [o s]] I. destruct (HB k o s I) as (N & O & S). cbn [fst snd].
      eapply codec_seq; [apply codec_str; exact N|]. intros a ->.
      eapply codec_seq; [apply codec_int8; exact O|]. intros a ->.
      eapply codec_last; [apply codec_int8; exact S|]. intros a ->. reflexivity.
    - intros ys F. apply F2_eq in F. subst ys. eapply codec_last.
      + eapply codec_list with (R := eq); [lia|exact LM|]. intros [k v] I. destruct (HM k v I) as (N & V). cbn [fst snd].
        eapply codec_seq; [apply codec_str; exact N|]. intros a ->.
        eapply codec_last; [apply codec_int8; exact V|]. intros a ->. reflexivity.
      + intros ys F. apply F2_eq in F. subst. reflexivity. }
  destruct (codec_parse _ _ _ _ C) as (b & v & E & R & ->). eauto.
Qed.

(** ** names *)
Lemma names_read : forall l, (forall s, In s l -> nul_free s) -> exists b, wall write_str l = SOk b /\
  forall rest, read_times (length l) read_str (b ++ rest) = Some (l, rest).
Proof.
  intros l H. assert (C : codec (wall write_str l) (read_times (length l) read_str) (Forall2 eq l)).
  { apply codec_times. intros x I. eapply codec_imp; [apply codec_str; auto|]. intros a ->. reflexivity. }
  destruct C as (b & E & R). exists b. split; auto. intros rest. destruct (R rest) as (a & R1 & F). apply F2_eq in F. subst. auto.
Qed.
Lemma wall_str_cons : forall s l b, nul_free s -> wall write_str (s :: l) = SOk b ->
  exists b', wall write_str l = SOk b' /\ b = list_ascii_of_string s ++ NUL :: b'.
Proof.
  intros s l b N E. change (wall write_str (s :: l)) with (write_str s +++ wall write_str l) in E.
  destruct (wall write_str l) as [b'|]; [|discriminate]. unfold write_str in E. rewrite has_nul_free in E by auto.
  cbn in E. injection E as <-. exists b'. rewrite <- app_assoc. auto.
Qed.
Lemma names_prefix : forall l l' b, (forall s, In s l -> nul_free s) -> (forall s, In s l' -> nul_free s) ->
  wall write_str l = SOk b -> wall write_str l' = SOk b -> l = l'.
Proof.
  induction l as [|s l IH]; intros l' b H H' E E'.
  - change (SOk [] = SOk b) in E. injection E as <-. destruct l' as [|t l']; auto. exfalso.
    apply wall_str_cons in E'; [|apply H'; simpl; auto]. destruct E' as (b' & _ & X). destruct (list_ascii_of_string t); discriminate.
  - apply wall_str_cons in E; [|apply H; simpl; auto]. destruct E as (b1 & E1 & ->).
    destruct l' as [|t l'].
    + exfalso. change (SOk [] = SOk (list_ascii_of_string s ++ NUL :: b1)) in E'. assert (X : [] = list_ascii_of_string s ++ NUL :: b1) by congruence. destruct (list_ascii_of_string s); discriminate.
    + apply wall_str_cons in E'; [|apply H'; simpl; auto]. destruct E' as (b2 & E2 & X).
      apply (f_equal read_str) in X. rewrite read_str_app in X by (apply H; simpl; auto). rewrite read_str_app in X by (apply H'; simpl; auto).
      rewrite !string_of_list_ascii_of_string in X. assert (X1 : s = t) by congruence. assert (X2 : b1 = b2) by congruence. subst. f_equal.
      apply (IH l' b2); auto; intros; [apply H|apply H']; simpl; auto.
Qed.

(** ** shape engine file *)

Lemma codec_desc : forall v, desc_fits v ->
  codec (write_data v) (SerialSpec.bind (read_int 4) (fun t => read_value t)) (desc_as v).
Proof.
  intros [s|b|z|f|n] H; try contradiction; unfold write_data, write_data_type.
  - eapply codec_seq; [apply codec_int4; unfold int32, DTYPE_STR, DTYPE_INT, DTYPE_FLOAT; lia|]. intros a ->.
    unfold read_value. cbn [Z.eqb Pos.eqb DTYPE_STR]. eapply codec_last; [apply codec_str; exact H|]. intros a ->. reflexivity.
  - eapply codec_seq; [apply codec_int4; unfold int32, DTYPE_STR, DTYPE_INT, DTYPE_FLOAT; lia|]. intros a ->.
    unfold read_value. cbn [Z.eqb DTYPE_INT]. eapply codec_last; [apply codec_int4; exact H|]. intros a ->. reflexivity.
Qed.
Lemma codec_expr : forall e, expr_fits e -> codec (write_expr e) read_expr (expr_as e).
Proof.
  intros e (A & B & F & T). unfold write_expr, read_expr.
  eapply codec_seq; [apply codec_float_int; exact A|]. intros a [A1 A2].
  eapply codec_seq; [apply codec_float_int; exact B|]. intros b [B1 B2].
  eapply codec_seq; [apply codec_int4; exact F|]. intros f ->.
  eapply codec_last; [apply codec_int4; exact T|]. intros t ->. repeat split; auto.
Qed.
Theorem engine_roundtrip : forall en, engine_fits en ->
  exists b v, serialize_engine en = SOk b /\ parse read_engine b = Some v /\ engine_as en v.
Proof.
  intros en (LV & LD & LE & HV & HD & HE). apply codec_parse. unfold serialize_engine, read_engine.
  eapply codec_list_seq with (R := fun p q => q = fst p); [lia|exact LV| |].
  { intros [k v] I. apply codec_str. eapply HV; eauto. }
  intros vs FV.
  eapply codec_list_seq with (R := fun p q => fst q = fst p /\ Forall2 desc_as (snd p) (snd q)); [lia|exact LD| |].
  { intros [k d] I. destruct (HD k d I) as (N & L & F). cbn [fst snd].
    eapply codec_seq; [apply codec_str; exact N|]. intros a ->. eapply codec_last.
    - eapply codec_list; [lia|exact L|]. intros x Ix. apply codec_desc. rewrite Forall_forall in F. auto.
    - intros l Fl. cbn [fst snd]. auto. }
  intros ds FD. eapply codec_last.
  - eapply codec_list with (R := fun p q => fst q = fst p /\ fst (snd q) = fst (snd p) /\ expr_as (snd (snd p)) (snd (snd q))); [lia|exact LE|].
    intros [k [s e]] I. destruct (HE k s e I) as (N & S & F). cbn [fst snd].
    eapply codec_seq; [apply codec_str; exact N|]. intros a ->.
    eapply codec_seq; [apply codec_str; exact S|]. intros a ->.
    eapply codec_last; [apply codec_expr; exact F|]. intros x X. cbn [fst snd]. auto.
  - intros es FE. split; [|split]; cbn [ev_vars ev_desc ev_expr]; auto.
    clear -FV. unfold dkeys. induction FV; simpl; congruence.
Qed.

(** ** graph file *)

Lemma codec_value : forall v, value_fits v -> codec (write_value v) (read_value (kind v)) (value_as v).
Proof.
  intros [s|b|z|f|n] H; try contradiction; unfold write_value, kind, read_value; cbn [Z.eqb Pos.eqb].
  - eapply codec_last; [apply codec_str; exact H|]. intros a ->. reflexivity.
  - exists (b ++ [NUL]). split; [reflexivity|]. intros rest. exists (VStr (string_of_list_ascii b)).
    unfold SerialSpec.bind. rewrite <- app_assoc. simpl app. rewrite read_str_app by exact H. split; [reflexivity|].
    simpl. apply list_ascii_of_string_of_list_ascii.
  - eapply codec_last; [apply codec_int4; exact H|]. intros a ->. reflexivity.
  - eapply codec_last; [apply codec_float; exact H|]. intros a N. exact N.
Qed.
Lemma codec_tag : forall v, value_fits v -> codec (write_data_type v) (read_int 4) (fun t => t = kind v).
Proof. intros [s|b|z|f|n] H; try contradiction; apply codec_int4; unfold int32, DTYPE_STR, DTYPE_INT, DTYPE_FLOAT, kind; lia. Qed.

Lemma F2_names : forall l ys, Forall2 (fun (x y : string) => y = x) l ys -> ys = l.
Proof. induction 1; congruence. Qed.

Lemma codec_attr : forall k a, nul_free k -> attr_fits a ->
  codec (write_str k +++ write_attribute a)
    (SerialSpec.bind read_str (fun k => SerialSpec.bind (read_int 4) (fun len => SerialSpec.bind (read_int 4) (fun t =>
       SerialSpec.bind (read_times (Z.to_nat len) (read_value t)) (fun v => ret (k, v))))))
    (fun q => fst q = k /\ Forall2 value_as (attr_elems a) (snd q)).
Proof.
  intros k a N (NE & L & F & K). unfold write_attribute. fold (attr_elems a).
  set (l := attr_elems a) in *. clearbody l.
  eapply codec_seq; [apply codec_str; exact N|]. intros k' ->.
  destruct l as [|v l]; [congruence|].
  eapply codec_seq; [apply codec_int4; split; [lia|exact L]|]. intros len ->.
  rewrite Forall_forall in F.
  eapply codec_seq; [apply codec_tag; apply F; simpl; auto|]. intros t ->.
  eapply codec_last; [|intros vs V; split; [reflexivity|exact V]].
  rewrite Nat2Z.id. apply codec_times. intros w I. rewrite (K v w) by (simpl; auto). apply codec_value. auto.
Qed.
Lemma codec_node : forall p, node_fits p -> codec (write_node p) read_node (node_as p).
Proof.
  intros [name n] (N & O & I & LI & U & LU & LA & A). cbn [fst snd] in *. unfold write_node, read_node. cbn [fst snd].
  rewrite Forall_forall in I, U.
  eapply codec_seq; [apply codec_str; exact N|]. intros x ->.
  eapply codec_seq; [apply codec_str; exact O|]. intros x ->.
  eapply codec_list_seq with (R := fun x y => y = x); [lia|exact LI|intros s Is; apply codec_str; auto|]. intros ins FI.
  eapply codec_list_seq with (R := fun x y => y = x); [lia|exact LU|intros s Is; apply codec_str; auto|]. intros outs FU.
  eapply codec_last.
  - eapply codec_list with (R := fun a q => fst q = fst a /\ Forall2 value_as (attr_elems (snd a)) (snd q)); [lia|exact LA|].
    intros [k a] Ik. destruct (A k a Ik). cbn [fst snd].
    apply (codec_attr k a); auto.
  - intros attrs FA. apply F2_names in FI. apply F2_names in FU. subst. repeat split; auto.
Qed.
Lemma read_raw_app : forall d rest, read_raw (length d) (d ++ rest) = Some (d, rest).
Proof. induction d; intros; cbn [length read_raw app]; [reflexivity|]. rewrite IHd. reflexivity. Qed.
Lemma codec_array : forall a, array_fits a -> codec (write_ndarray a) read_array (array_as a).
Proof.
  intros a ((tag & size & T & D) & L & S). unfold write_ndarray, read_array.
  assert (E : write_npdtype (nd_dtype a) = write_int tag 4 /\ int32 tag /\ item_size tag = Some size).
  { unfold int32. destruct (nd_dtype a); try discriminate T; cbn in T; injection T as <- <-; repeat split; try reflexivity; vm_compute; discriminate. }
  destruct E as (-> & I & E).
  eapply codec_seq; [apply codec_int4; exact I|]. intros t ->.
  rewrite Forall_forall in S.
  eapply codec_list_seq with (R := fun x y => y = x); [lia|exact L|intros d Id; apply codec_int4; auto|].
  intros s FS.
  assert (s = nd_shape a) by (clear -FS; induction FS; congruence). subst s. clear FS.
  rewrite E. exists (nd_data a). split; [reflexivity|]. intros rest.
  unfold SerialSpec.bind. rewrite <- D, read_raw_app. eexists. split; [reflexivity|].
  split; [exists size; exact T|]. split; reflexivity.
Qed.
Theorem graph_roundtrip : forall g, graph_fits g ->
  exists b v, serialize_graph g = SOk b /\ parse read_graph b = Some v /\ graph_as g v.
Proof.
  intros g (LN & LI & FN & HI). apply codec_parse. unfold serialize_graph, read_graph. rewrite Forall_forall in FN.
  eapply codec_list_seq with (R := node_as); [lia|exact LN|intros p Ip; apply codec_node; auto|]. intros ns F.
  eapply codec_last.
  - eapply codec_list with (R := fun k q => fst q = k /\ exists a, dget (sg_values g) k = Some (Some a) /\ array_as a (snd q)); [lia|exact LI|].
    intros k Ik. destruct (HI k Ik) as (N & a & D & FA).
    unfold write_initial. rewrite D. eapply codec_seq; [apply codec_str; exact N|]. intros x ->.
    eapply codec_last; [apply codec_array; exact FA|]. intros v V. cbn [fst snd]. split; auto. exists a. auto.
  - intros is FI. split; auto.
Qed.
(** exact floats: a value that binary32 can represent is read back unchanged *)
Theorem float_exact : forall f g, nearest_f32 f g -> is_finite 53 1024 f = true ->
  generic_format radix2 (FLT_exp (-149) 24) (B2R 53 1024 f) -> B2R 24 128 g = B2R 53 1024 f.
Proof.
  intros f g N F G. destruct f; try discriminate F; destruct N as [_ ->]; apply round_generic; auto; apply valid_rnd_N.
Qed.

(** ** Success implies that every number fits *)
Lemma wcat_ok : forall a b r, (a +++ b) = SOk r -> exists x y, a = SOk x /\ b = SOk y.
Proof. intros a b r H. unfold wcat in H. destruct a as [x|]; [|discriminate]. cbn in H. destruct b as [y|]; [|discriminate]. eauto. Qed.
Lemma wall_ok : forall A (f : A -> sres bytes) l r, wall f l = SOk r -> forall x, In x l -> exists y, f x = SOk y.
Proof.
  intros A f l. induction l as [|a l IH]; intros r H x I; [contradiction|]. cbn [wall] in H. apply wcat_ok in H as (u & v & H1 & H2).
  destruct I as [<-|I]; [eauto|]. eapply IH; eauto.
Qed.
Lemma to_bytes_ok : forall k z r, to_bytes k z = SOk r -> - 2 ^ (8 * Z.of_nat k - 1) <= z < 2 ^ (8 * Z.of_nat k - 1).
Proof. intros k z r H. unfold to_bytes in H. destruct (_ && _) eqn:E; [|discriminate]. apply andb_prop in E as [E1 E2]. apply Z.leb_le in E1. apply Z.ltb_lt in E2. lia. Qed.
Lemma write_int4_ok : forall z r, write_int z 4 = SOk r -> int32 z.
Proof. intros z r H. apply to_bytes_ok in H. unfold int32. change (8 * Z.of_nat 4 - 1) with 31 in H. exact H. Qed.
Lemma write_int8_ok : forall z r, write_int z 8 = SOk r -> int64 z.
Proof. intros z r H. apply to_bytes_ok in H. unfold int64. change (8 * Z.of_nat 8 - 1) with 63 in H. exact H. Qed.
Lemma write_len4_ok : forall A (l : list A) r, write_len l 4 = SOk r -> Z.of_nat (length l) < 2 ^ 31.
Proof. intros A l r H. apply to_bytes_ok in H. change (8 * Z.of_nat 4 - 1) with 31 in H. lia. Qed.
Lemma write_len8_ok : forall A (l : list A) r, write_len l 8 = SOk r -> Z.of_nat (length l) < 2 ^ 63.
Proof. intros A l r H. apply to_bytes_ok in H. change (8 * Z.of_nat 8 - 1) with 63 in H. lia. Qed.
Lemma plan_success_fits : forall p b, serialize_plan p = SOk b ->
  (forall k o s, In (k, (o, s)) (pf_blocks p) -> nul_free k) -> (forall k v, In (k, v) (pf_max p) -> nul_free k) -> plan_fits p.
Proof.
  intros p b H NB NM. unfold serialize_plan in H.
  apply wcat_ok in H as (? & ? & H1 & H). apply wcat_ok in H as (? & ? & H2 & H). apply wcat_ok in H as (? & ? & H3 & H). apply wcat_ok in H as (? & ? & H4 & H5).
  split; [eapply write_int8_ok; eauto|]. split; [eapply write_len8_ok; eauto|]. split; [eapply write_len8_ok; eauto|]. split.
  - intros k o s I. split; [eauto|]. destruct (wall_ok _ _ _ _ H3 _ I) as (y & Y). cbn [fst snd] in Y. apply wcat_ok in Y as (? & ? & _ & Y). apply wcat_ok in Y as (? & ? & Y1 & Y2).
    split; eapply write_int8_ok; eauto.
  - intros k v I. split; [eauto|]. destruct (wall_ok _ _ _ _ H5 _ I) as (y & Y). cbn [fst snd] in Y. apply wcat_ok in Y as (? & ? & _ & Y). eapply write_int8_ok; eauto.
Qed.
(** names without NUL, descriptors of ints and names, coefficients that binary32 holds exactly *)
Definition engine_shape (en : engine) : Prop :=
  (forall k v, In (k, v) (en_vars en) -> nul_free k) /\
  (forall k d, In (k, d) (en_desc en) -> nul_free k /\ Forall (fun v => match v with PyStr s => nul_free s | PyInt _ => True | _ => False end) d) /\
  (forall k s e, In (k, (s, e)) (en_expr en) -> nul_free k /\ nul_free s /\ Z.abs (e_alpha e) <= 2 ^ 24 /\ Z.abs (e_beta e) <= 2 ^ 24).
Lemma engine_success_fits : forall en b, serialize_engine en = SOk b -> engine_shape en -> engine_fits en.
Proof.
  intros en b H (NV & ND & NE). unfold serialize_engine in H.
  apply wcat_ok in H as (? & ? & H1 & H). apply wcat_ok in H as (? & ? & H2 & H). apply wcat_ok in H as (? & ? & H3 & H). apply wcat_ok in H as (? & ? & H4 & H). apply wcat_ok in H as (? & ? & H5 & H6).
  split; [eapply write_len4_ok; eauto|]. split; [eapply write_len4_ok; eauto|]. split; [eapply write_len4_ok; eauto|]. split; [exact NV|]. split.
  - intros k d I. destruct (ND k d I) as (N & F). split; [exact N|]. destruct (wall_ok _ _ _ _ H4 _ I) as (y & Y). cbn [fst snd] in Y.
    apply wcat_ok in Y as (? & ? & _ & Y). apply wcat_ok in Y as (? & ? & Y1 & Y2). split; [eapply write_len4_ok; eauto|].
    rewrite Forall_forall in *. intros v Iv. specialize (F v Iv). destruct (wall_ok _ _ _ _ Y2 v Iv) as (z & Z). unfold write_data in Z. apply wcat_ok in Z as (? & ? & _ & Z).
    destruct v; try contradiction; cbn; [exact F|]. eapply write_int4_ok; eauto.
  - intros k s e I. destruct (NE k s e I) as (N1 & N2 & A & B). split; [exact N1|]. split; [exact N2|]. destruct (wall_ok _ _ _ _ H6 _ I) as (y & Y). cbn [fst snd] in Y.
    apply wcat_ok in Y as (? & ? & _ & Y). apply wcat_ok in Y as (? & ? & _ & Y). unfold write_expr in Y. apply wcat_ok in Y as (? & ? & _ & Y). apply wcat_ok in Y as (? & ? & _ & Y). apply wcat_ok in Y as (? & ? & Y1 & Y2).
    split; [exact A|]. split; [exact B|]. split; eapply write_int4_ok; eauto.
Qed.
