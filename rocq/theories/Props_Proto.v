(** C43, C44, C61, C62: data types and tensor protos. *)
From Verif Require Import PyBase GraphModel FloatPy ShapeModel SerialModel ProtoModel ProtoSpec ProtoProofs.
From Coq Require Import Lia.
Open Scope Z_scope.

(** ** C43 *)
(** onnx -> numpy -> onnx is the identity on every code the library knows. *)
Theorem C43_onnx_np_onnx : forall c t, onnxdtype2npdtype c = Some t -> npdtype2onnxdtype t = Some c.
Proof.
  intros c t. unfold onnxdtype2npdtype.
  repeat match goal with |- context [if ?c =? ?k then _ else _] =>
    destruct (Z.eqb_spec c k); [subst c; intros [= <-]; reflexivity|] end. discriminate.
Qed.
(** numpy -> onnx -> numpy is the identity on every dtype it knows. *)
Theorem C43_np_onnx_np : forall t c, npdtype2onnxdtype t = Some c -> onnxdtype2npdtype c = Some t.
Proof. intros t c. destruct t as [| | | | | | | | | |w|]; try destruct w; cbn [npdtype2onnxdtype]; intros [= <-]; reflexivity. Qed.
(** The known codes are exactly these eleven (1 FLOAT, 2 UINT8, 3 INT8, 4 UINT16, 5 INT16, 6 INT32,
    7 INT64, 8 STRING, 9 BOOL, 10 FLOAT16, 11 DOUBLE); so the two tables are a bijection between
    eleven codes and eleven types. *)
Theorem C43_domain : forall c, (exists t, onnxdtype2npdtype c = Some t) <-> 1 <= c <= 11.
Proof.
  intros c. split.
  - intros [t H]. unfold onnxdtype2npdtype, FLOAT, DOUBLE, FLOAT16, INT32, INT16, INT64, INT8, UINT8, UINT16, BOOL, STRING in H.
    repeat match goal with H : context [if ?c =? ?k then _ else _] |- _ => destruct (Z.eqb_spec c k); [lia|] end. discriminate.
  - intros H. assert (D : c = 1 \/ c = 2 \/ c = 3 \/ c = 4 \/ c = 5 \/ c = 6 \/ c = 7 \/ c = 8 \/ c = 9 \/ c = 10 \/ c = 11) by lia.
    decompose [or] D; subst; eexists; reflexivity.
Qed.
Theorem C43_codomain : forall t, (exists c, npdtype2onnxdtype t = Some c) <-> numeric t \/ t = DBytes 0.
Proof.
  intros t; split.
  - intros [c H]. destruct t as [| | | | | | | | | |w|]; try destruct w; cbn in *; try discriminate; auto.
  - intros [H | ->]; [|eexists; reflexivity]. destruct t; cbn in *; try contradiction; eexists; reflexivity.
Qed.
(** The dtype of an actual byte-string array has a positive width and is unknown to the table:
    the type every loaded string tensor gets is not the type of a string array. *)
Theorem C43_string_arrays_unknown : forall w, (0 < w)%nat -> npdtype2onnxdtype (DBytes w) = None.
Proof. intros [|w] H; [lia|reflexivity]. Qed.

(** ** C44 *)
(** Every array of rank at least one and of a numeric type, with any contents (also empty), reads back. *)
Theorem C44_array_roundtrip : forall a, wf_arr a -> numeric (a_dt a) -> a_shape a <> [] ->
  exists p, make_tensor_proto a = SOk p /\ tensorproto2ndarray p = SOk a.
Proof.
  intros [t shape es] (Hs & Hl & He) Ht Hne. cbn [a_dt a_shape a_elems] in *. unfold make_tensor_proto, tobytes. cbn [a_dt a_shape a_elems].
  destruct shape as [|d shape]; [contradiction|].
  destruct t; cbn in Ht; try contradiction;
    first [apply typed_roundtrip; cbn; auto; fail | apply raw_roundtrip; cbn; auto; fail].
Qed.
(** Scalars of float16/32/64 and int32/64 read back. *)
Theorem C44_scalar_roundtrip : forall a, wf_arr a -> numeric (a_dt a) -> a_shape a = [] -> ~ narrow (a_dt a) ->
  exists p, make_tensor_proto a = SOk p /\ tensorproto2ndarray p = SOk a.
Proof.
  intros [t shape es] (Hs & Hl & He) Ht Hne Hn. cbn [a_dt a_shape a_elems] in *. subst shape. unfold make_tensor_proto. cbn [a_dt a_shape a_elems].
  cbn [fold_right] in Hl. destruct es as [|e [|? ?]]; cbn [length] in Hl; try lia.
  cbn [firstn]. apply typed_roundtrip; auto.
Qed.
(** A scalar of int8, uint8, int16, uint16 or bool reads back as zero whatever it was. *)
Theorem C44_narrow_scalar_reads_zero : forall a, wf_arr a -> a_shape a = [] -> narrow (a_dt a) ->
  exists p, make_tensor_proto a = SOk p /\
            tensorproto2ndarray p = SOk {| a_dt := a_dt a; a_shape := []; a_elems := [EN 0] |}.
Proof.
  intros [t shape es] (Hs & Hl & He) Hsh Hn. cbn [a_dt a_shape a_elems] in *. subst shape. unfold make_tensor_proto. cbn [a_dt a_shape a_elems].
  cbn [fold_right] in Hl. destruct es as [|e [|? ?]]; cbn [length] in Hl; try lia.
  destruct t; cbn in Hn; try contradiction; eexists; split; reflexivity.
Qed.
(** So for numeric arrays the round trip is exact except for non-zero narrow scalars. *)
Theorem C44_exact : forall a, wf_arr a -> numeric (a_dt a) ->
  ((exists p, make_tensor_proto a = SOk p /\ tensorproto2ndarray p = SOk a) <->
   ~ (a_shape a = [] /\ narrow (a_dt a) /\ a_elems a <> [EN 0])).
Proof.
  intros a Hw Ht. split.
  - intros (p & Hp & Hr) (Hs & Hn & Hz). destruct (C44_narrow_scalar_reads_zero a Hw Hs Hn) as (p' & Hp' & Hr').
    rewrite Hp in Hp'. injection Hp' as <-. rewrite Hr in Hr'. injection Hr' as Hr'. rewrite Hr' in Hz. apply Hz. reflexivity.
  - intros H. destruct (a_shape a) as [|d s] eqn:Es.
    + destruct a as [t shape es]. cbn [a_dt a_shape a_elems] in *. subst shape.
      assert (D : narrow t \/ ~ narrow t) by (destruct t; cbn; tauto). destruct D as [D|D].
      * destruct (C44_narrow_scalar_reads_zero _ Hw eq_refl D) as (p & Hp & Hr). exists p. split; [exact Hp|].
        rewrite Hr. cbn [a_dt]. f_equal. f_equal.
        destruct es as [|[z|b] [|? ?]]; try (exfalso; apply H; repeat split; auto; discriminate).
        destruct (Z.eq_dec z 0) as [-> | Hz]; [reflexivity|]. exfalso; apply H; repeat split; auto. intros [= E]; auto.
      * apply (C44_scalar_roundtrip _ Hw); auto.
    + apply C44_array_roundtrip; auto. rewrite Es. discriminate.
Qed.
(** Arrays of any other type, string arrays included, cannot be saved: TypeError. *)
Theorem C44_other_types_raise : forall a, (forall c, npdtype2onnxdtype (a_dt a) <> Some c) ->
  make_tensor_proto a = SRaise TypeErr.
Proof.
  intros [t shape es] H. cbn [a_dt] in H. unfold make_tensor_proto. cbn [a_dt a_shape a_elems].
  destruct (npdtype2onnxdtype t) eqn:E; [exfalso; eapply H; reflexivity|].
  unfold make_tensor_vals, make_tensor_raw. rewrite E. destruct shape; [reflexivity|]. destruct t; try discriminate; reflexivity.
Qed.
Definition int8_scalar : arr := {| a_dt := DI8; a_shape := []; a_elems := [EN 5] |}.
Theorem C44_roundtrip_refuted : exists a p, wf_arr a /\ numeric (a_dt a) /\ make_tensor_proto a = SOk p /\
  exists b, tensorproto2ndarray p = SOk b /\ b <> a.
Proof.
  exists int8_scalar. eexists. repeat split; cbn; auto.
  - repeat constructor; cbn; lia.
  - eexists; split; [reflexivity|]. discriminate.
Qed.
(** hypotheses are met: a 2x3 int64 array with negative entries, and a scalar *)
Definition demo_arr : arr := {| a_dt := DI64; a_shape := [2; 3]; a_elems := [EN 1; EN (-2); EN 3; EN (-4); EN (2^62); EN (-2^63)] |}.
Example demo_arr_wf : wf_arr demo_arr /\ numeric (a_dt demo_arr).
Proof. repeat split; repeat constructor; cbn; lia. Qed.
Example demo_arr_rt : (let* p := make_tensor_proto demo_arr in tensorproto2ndarray p) = SOk demo_arr.
Proof. vm_compute. reflexivity. Qed.

(** ** C61 *)
(** raw storage: any numeric type, any contents *)
Theorem C61_raw : forall c t shape es p, onnxdtype2npdtype c = Some t -> numeric t -> es <> [] ->
  Forall (fun d => 0 <= d) shape -> Z.of_nat (length es) = fold_right Z.mul 1 shape -> Forall (elem_ok t) es ->
  t_type p = c -> t_dims p = shape -> t_raw p = flat_map (fun e => match e with EN z => le_bytes (itemsize t) z | ES b => b end) es ->
  tensorproto2ndarray p = SOk {| a_dt := t; a_shape := shape; a_elems := es |}.
Proof.
  intros c t shape es p Hc Ht Hne Hs Hl He Hpt Hpd Hpr.
  destruct (raw_roundtrip t shape es Ht Hs Hl He) as (p' & Hp' & Hr).
  unfold make_tensor_raw in Hp'. rewrite (C43_onnx_np_onnx _ _ Hc) in Hp'.
  destruct (c =? STRING); [discriminate|].
  match type of Hp' with (if ?b then _ else _) = _ => destruct b; [|discriminate] end. injection Hp' as <-.
  change (flat_map (fun e => match e with EN z => le_bytes (itemsize t) z | ES b => b end) es) with (flat_map (enc_elem t) es) in Hpr.
  rewrite <- Hr. unfold tensorproto2ndarray. cbn [t_type t_raw t_dims]. rewrite Hpt, Hpd, Hpr.
  destruct (flat_map (enc_elem t) es) eqn:E; [|reflexivity].
  assert (L := tobytes_length t es Ht He). rewrite E in L. cbn [length] in L.
  destruct es; [contradiction|]. destruct t; cbn in Ht; try contradiction; cbn [itemsize length] in L; lia.
Qed.
(** typed storage: float32, float64, int32, int64, and float16 given as bit patterns *)
Theorem C61_typed : forall p es, t_raw p = [] -> onnx_typed p es -> In (t_type p) [1; 6; 7; 10; 11] ->
  (t_type p = 10 -> Forall (fun z => 0 <= z < 65536) (t_int32 p)) ->
  Forall (fun d => 0 <= d) (t_dims p) -> Z.of_nat (length es) = fold_right Z.mul 1 (t_dims p) ->
  exists t, onnxdtype2npdtype (t_type p) = Some t /\
    tensorproto2ndarray p = SOk {| a_dt := t; a_shape := t_dims p; a_elems := es |}.
Proof.
  intros p es Hraw Ho Hin H16 Hs Hl. unfold tensorproto2ndarray. rewrite Hraw, (nonneg_forallb _ Hs). cbn [negb].
  destruct Ho as [p H|p H|p H|p H].
  - rewrite H. eexists; split; [reflexivity|]. apply reshape_ok; auto.
  - cbn in H, Hin. assert (D : t_type p = 6 \/ t_type p = 10) by (decompose [or] H; decompose [or] Hin; lia).
    destruct D as [D|D]; rewrite D; (eexists; split; [reflexivity|]).
    + apply reshape_ok; auto.
    + cbn [onnxdtype2npdtype FLOAT DOUBLE FLOAT16 Z.eqb Pos.eqb]. rewrite as_uint16_ok by auto. apply reshape_ok; auto.
  - rewrite H. eexists; split; [reflexivity|]. apply reshape_ok; auto.
  - rewrite H. eexists; split; [reflexivity|]. apply reshape_ok; auto.
Qed.
(** typed storage of int8, uint8, int16, uint16, bool: the stored values are ignored, zeros come back *)
Theorem C61_narrow_typed_zero : forall p, t_raw p = [] -> In (t_type p) [2; 3; 4; 5; 9] ->
  Forall (fun d => 0 <= d) (t_dims p) ->
  exists t, onnxdtype2npdtype (t_type p) = Some t /\
    tensorproto2ndarray p = SOk {| a_dt := t; a_shape := t_dims p;
                                   a_elems := repeat (EN 0) (Z.to_nat (fold_right Z.mul 1 (t_dims p))) |}.
Proof.
  intros p Hraw Hin Hs. unfold tensorproto2ndarray. rewrite Hraw, (nonneg_forallb _ Hs). cbn [negb].
  assert (P : 0 <= fold_right Z.mul 1 (t_dims p)).
  { clear -Hs. induction Hs; cbn [fold_right]; lia. }
  cbn in Hin. decompose [or] Hin; try contradiction;
    match goal with H : _ = t_type p |- _ => rewrite <- H end;
    (eexists; split; [reflexivity|]); apply reshape_ok; auto; rewrite repeat_length; lia.
Qed.
Definition int8_typed : tproto :=
  {| t_dims := [2]; t_type := 3; t_raw := []; t_float := []; t_int32 := [1; -7]; t_int64 := []; t_double := []; t_string := [] |}.
Theorem C61_typed_refuted : exists p es a, onnx_typed p es /\ t_raw p = [] /\
  Z.of_nat (length es) = fold_right Z.mul 1 (t_dims p) /\ tensorproto2ndarray p = SOk a /\ a_elems a <> es.
Proof.
  exists int8_typed, [EN 1; EN (-7)]. eexists. repeat split.
  - apply (ot_int32 int8_typed). cbn. auto.
  - discriminate.
Qed.

(** ** C62 *)
(** Any unsupported type with eight bytes per element loads silently as float64 bit patterns... *)
Theorem C62_eight_byte_types_become_float64 : forall p es, ~ (1 <= t_type p <= 11) -> es <> [] ->
  Forall (fun d => 0 <= d) (t_dims p) -> Z.of_nat (length es) = fold_right Z.mul 1 (t_dims p) ->
  Forall (fun z => 0 <= z < 2 ^ 64) es -> t_raw p = flat_map (le_bytes 8) es ->
  tensorproto2ndarray p = SOk {| a_dt := DF64; a_shape := t_dims p; a_elems := map EN es |}.
Proof.
  intros p es Hc Hne Hs Hl He Hraw.
  assert (N : onnxdtype2npdtype (t_type p) = None).
  { destruct (onnxdtype2npdtype (t_type p)) eqn:E; [|reflexivity]. exfalso. apply Hc, C43_domain. eauto. }
  rewrite <- (C61_raw DOUBLE DF64 (t_dims p) (map EN es)
     {| t_dims := t_dims p; t_type := DOUBLE; t_raw := t_raw p; t_float := []; t_int32 := []; t_int64 := []; t_double := []; t_string := [] |}); auto.
  - unfold tensorproto2ndarray. cbn [t_type t_raw t_dims]. rewrite N, Hraw. cbn [or_f64 onnxdtype2npdtype DOUBLE FLOAT Z.eqb Pos.eqb].
    destruct es as [|z es]; [contradiction|]. cbn [flat_map le_bytes app]. reflexivity.
  - cbn. auto.
  - destruct es; [contradiction|discriminate].
  - rewrite map_length. exact Hl.
  - apply Forall_map. eapply Forall_impl; [|exact He]. intros z Hz. cbn beta in Hz. change (2 ^ 64) with 18446744073709551616 in Hz. exact Hz.
  - cbn [t_raw]. rewrite Hraw. rewrite !flat_map_concat_map, map_map. reflexivity.
Qed.
(** ...and with typed data (no raw_data) as zeros. *)
Theorem C62_typed_become_zero : forall p, ~ (1 <= t_type p <= 11) -> t_raw p = [] -> Forall (fun d => 0 <= d) (t_dims p) ->
  tensorproto2ndarray p = SOk {| a_dt := DF64; a_shape := t_dims p; a_elems := repeat (EN 0) (Z.to_nat (fold_right Z.mul 1 (t_dims p))) |}.
Proof.
  intros p Hc Hraw Hs.
  assert (N : onnxdtype2npdtype (t_type p) = None).
  { destruct (onnxdtype2npdtype (t_type p)) eqn:E; [|reflexivity]. exfalso. apply Hc, C43_domain. eauto. }
  unfold tensorproto2ndarray. rewrite N, Hraw, (nonneg_forallb _ Hs). cbn [negb or_f64 sbind]. 
  assert (P : 0 <= fold_right Z.mul 1 (t_dims p)) by (clear -Hs; induction Hs; cbn [fold_right]; lia).
  apply reshape_ok; auto. rewrite repeat_length. unfold prod. lia.
Qed.
(** Raw data whose size is not eight bytes per element is refused (uint32, bfloat16, ...). *)
Theorem C62_other_sizes_refused : forall p, ~ (1 <= t_type p <= 11) -> t_raw p <> [] ->
  Z.of_nat (length (t_raw p)) <> 8 * fold_right Z.mul 1 (t_dims p) ->
  tensorproto2ndarray p = SRaise ValueErr.
Proof.
  intros p Hc Hraw Hl.
  assert (N : onnxdtype2npdtype (t_type p) = None).
  { destruct (onnxdtype2npdtype (t_type p)) eqn:E; [|reflexivity]. exfalso. apply Hc, C43_domain. eauto. }
  unfold tensorproto2ndarray. rewrite N. cbn [or_f64].
  destruct (t_raw p) as [|b0 bs] eqn:E; [contradiction|]. rewrite <- E in *. clear E b0 bs.
  unfold frombuffer. cbn [itemsize]. change (Z.of_nat 8) with 8.
  destruct (Z.eqb_spec (Z.of_nat (length (t_raw p)) mod 8) 0) as [Hm|Hm]; [|reflexivity]. cbn [sbind]. unfold reshape.
  destruct (forallb _ _); [|reflexivity]. cbn [andb]. rewrite map_length.
  assert (C : forall fuel b, (length b <= fuel)%nat -> Z.of_nat (length b) mod 8 = 0 -> 8 * Z.of_nat (length (chunks fuel 8 b)) = Z.of_nat (length b)).
  { induction fuel as [|fuel IH]; intros b Hf Hb; [destruct b; [reflexivity|cbn [length] in Hf; lia]|].
    destruct b as [|b0 b]; [reflexivity|]. change (chunks (S fuel) 8 (b0 :: b)) with (firstn 8 (b0 :: b) :: chunks fuel 8 (skipn 8 (b0 :: b))).
    assert (G : (8 <= length (b0 :: b))%nat).
    { assert (X := Z.div_mod (Z.of_nat (length (b0 :: b))) 8 ltac:(lia)). rewrite Hb in X.
      assert (0 < Z.of_nat (length (b0 :: b))) by (cbn [length]; lia). lia. }
    assert (K := skipn_length 8 (b0 :: b)).
    remember (skipn 8 (b0 :: b)) as tl eqn:Et. clear Et. remember (length (b0 :: b)) as n eqn:En. clear En.
    cbn [length]. rewrite Nat2Z.inj_succ, Z.mul_succ_r, IH; rewrite ?K; [lia|lia|].
    rewrite Nat2Z.inj_sub by lia. change (Z.of_nat 8) with 8.
    replace (Z.of_nat n - 8) with (Z.of_nat n + (-1) * 8) by lia.
    rewrite Z.mod_add by lia. exact Hb. }
  specialize (C (length (t_raw p)) (t_raw p) (le_n _) Hm).
  destruct (Z.eqb_spec (Z.of_nat (length (chunks (length (t_raw p)) 8 (t_raw p)))) (prod (t_dims p))) as [Q|Q]; [|reflexivity].
  unfold prod in Q. rewrite Q in C. lia.
Qed.
Definition uint64_one : tproto :=
  {| t_dims := [1]; t_type := 13; t_raw := le_bytes 8 1; t_float := []; t_int32 := []; t_int64 := []; t_double := []; t_string := [] |}.
Theorem C62_refused_refuted : exists p a, ~ (1 <= t_type p <= 11) /\ tensorproto2ndarray p = SOk a.
Proof. exists uint64_one. eexists. split; [cbn; lia|]. vm_compute. reflexivity. Qed.
