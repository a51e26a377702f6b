From Verif Require Import PyBase GraphModel FloatPy ShapeModel SerialModel ProtoModel ProtoSpec.
From Coq Require Import Lia.
Open Scope Z_scope.

Lemma le_bytes_length k z : length (le_bytes k z) = k.
Proof. revert z; induction k; intros; simpl; auto. Qed.

Lemma le_val_bytes k z : le_val (le_bytes k z) = z mod 2 ^ (8 * Z.of_nat k).
Proof.
  revert z; induction k as [|k IH]; intros z.
  - simpl. rewrite Z.mod_1_r. reflexivity.
  - cbn [le_bytes le_val]. rewrite IH.
    assert (Hm := Z.mod_pos_bound z 256 ltac:(lia)).
    rewrite N_ascii_embedding by lia. rewrite Z2N.id by lia.
    replace (8 * Z.of_nat (S k)) with (8 + 8 * Z.of_nat k) by lia.
    rewrite Z.pow_add_r by lia. change (2 ^ 8) with 256.
    rewrite Z.rem_mul_r by (try apply Z.pow_pos_nonneg; lia). lia.
Qed.

Lemma decode_enc t z : elem_ok t (EN z) -> decode t (le_bytes (itemsize t) z) = z.
Proof.
  intros H. unfold decode. rewrite le_bytes_length, le_val_bytes.
  destruct t; cbn [itemsize is_signed] in *; cbn in H; try contradiction;
    match goal with |- context [Z.of_nat ?n] => let v := eval compute in (Z.of_nat n) in change (Z.of_nat n) with v end;
    repeat match goal with |- context [2 ^ ?e] => let v := eval compute in (2 ^ e) in change (2 ^ e) with v end.
  all: try (rewrite Z.mod_small by lia; reflexivity).
  all: try (destruct H as [-> | ->]; reflexivity).
  all: destruct (Z_lt_le_dec z 0);
    [match goal with |- context [?z mod ?m] =>
        replace (z mod m) with (z + m) by (rewrite <- (Z.mod_small (z + m) m) by lia; rewrite <- (Z.mul_1_l m) at 1; rewrite Z.mod_add by lia; reflexivity)
     end
    | rewrite Z.mod_small by lia];
    match goal with |- (if ?u <? ?h then _ else _) = _ => destruct (Z.ltb_spec u h) end; lia.
Qed.

Lemma chunks_enc t : numeric t -> forall es fuel, Forall (elem_ok t) es ->
  (length (flat_map (enc_elem t) es) <= fuel)%nat ->
  map (fun c => EN (decode t c)) (chunks fuel (itemsize t) (flat_map (enc_elem t) es)) = es.
Proof.
  intros Ht es. induction es as [|e es IH]; intros fuel Hok Hf.
  - cbn. destruct fuel; reflexivity.
  - inversion Hok as [|? ? He Hes]; subst.
    destruct e as [z|b]; [|destruct t; cbn in *; contradiction].
    cbn [flat_map enc_elem] in *. rewrite app_length, le_bytes_length in Hf.
    assert (Hk : exists k, itemsize t = S k) by (destruct t; cbn in *; try contradiction; eauto).
    destruct Hk as [k Hk].
    destruct fuel as [|fuel]; [lia|].
    assert (Hne : exists c r, le_bytes (itemsize t) z ++ flat_map (enc_elem t) es = c :: r)
      by (rewrite Hk; cbn [le_bytes app]; eauto).
    destruct Hne as (c & r & Hne). 
    assert (E : chunks (S fuel) (itemsize t) (le_bytes (itemsize t) z ++ flat_map (enc_elem t) es)
                = le_bytes (itemsize t) z :: chunks fuel (itemsize t) (flat_map (enc_elem t) es)).
    { rewrite Hne. cbn [chunks]. rewrite <- Hne. f_equal.
      - rewrite firstn_app, le_bytes_length, Nat.sub_diag. cbn [firstn]. rewrite app_nil_r.
        rewrite firstn_all2 by (rewrite le_bytes_length; lia). reflexivity.
      - f_equal. rewrite skipn_app, le_bytes_length, Nat.sub_diag. cbn [skipn].
        rewrite skipn_all2 by (rewrite le_bytes_length; lia). reflexivity. }
    rewrite E. cbn [map]. rewrite IH by (auto; lia). rewrite decode_enc by auto. reflexivity.
Qed.

Lemma tobytes_length t es : numeric t -> Forall (elem_ok t) es ->
  length (flat_map (enc_elem t) es) = (itemsize t * length es)%nat.
Proof.
  intros Ht H. induction H as [|e es He Hes IH].
  - simpl. lia.
  - cbn [flat_map length]. rewrite app_length, IH.
    destruct e as [z|b]; [|destruct t; cbn in *; contradiction].
    cbn [enc_elem]. rewrite le_bytes_length. lia.
Qed.

Lemma nums_EN t es : numeric t -> Forall (elem_ok t) es -> map EN (nums es) = es.
Proof.
  intros Ht H. induction H as [|e es He Hes IH]; [reflexivity|].
  destruct e as [z|b]; [|destruct t; cbn in *; contradiction].
  unfold nums in *. cbn [map]. rewrite IH. reflexivity.
Qed.

Lemma reshape_ok t es shape : Forall (fun d => 0 <= d) shape -> Z.of_nat (length es) = fold_right Z.mul 1 shape ->
  reshape es t shape = SOk {| a_dt := t; a_shape := shape; a_elems := es |}.
Proof.
  intros H E. unfold reshape, prod. rewrite E, Z.eqb_refl.
  replace (forallb (fun d => 0 <=? d) shape) with true; [reflexivity|].
  symmetry. apply forallb_forall. intros d Hd. apply Z.leb_le. rewrite Forall_forall in H. auto.
Qed.

Lemma nonneg_forallb shape : Forall (fun d => 0 <= d) shape -> forallb (fun d => 0 <=? d) shape = true.
Proof. intros H. apply forallb_forall. intros d Hd. apply Z.leb_le. rewrite Forall_forall in H. auto. Qed.

Lemma as_uint16_ok l : Forall (fun z => 0 <= z < 65536) l -> as_uint16 l = SOk l.
Proof.
  induction 1 as [|z l Hz Hl IH]; [reflexivity|]. cbn [as_uint16]. rewrite IH.
  destruct (0 <=? z) eqn:A; [|apply Z.leb_gt in A; lia].
  destruct (z <? 65536) eqn:B; [|apply Z.ltb_ge in B; lia]. reflexivity.
Qed.

(** A typed proto of any numeric, non-narrow array reads back. *)
Lemma typed_roundtrip t shape es : numeric t -> ~ narrow t ->
  Forall (fun d => 0 <= d) shape -> Z.of_nat (length es) = fold_right Z.mul 1 shape -> Forall (elem_ok t) es ->
  exists p, make_tensor_vals t shape es = SOk p /\
            tensorproto2ndarray p = SOk {| a_dt := t; a_shape := shape; a_elems := es |}.
Proof.
  intros Ht Hn Hs Hl He. unfold make_tensor_vals, prod. rewrite Hl, Z.eqb_refl.
  assert (HE := nums_EN t es Ht He). assert (HN := nonneg_forallb _ Hs).
  destruct t; cbn in Ht, Hn; try tauto; cbn [npdtype2onnxdtype]; (eexists; split; [reflexivity|]);
    unfold tensorproto2ndarray;
    cbn [t_type t_raw t_dims t_float t_int32 t_int64 t_double]; rewrite HN;
    cbn [onnxdtype2npdtype FLOAT DOUBLE FLOAT16 INT32 INT64 Z.eqb Pos.eqb negb sbind or_f64];
    try (rewrite HE; apply reshape_ok; auto).
  rewrite as_uint16_ok.
  - cbn [sbind]. rewrite HE. apply reshape_ok; auto.
  - unfold nums. apply Forall_map. eapply Forall_impl; [|exact He]. intros [z|b] H; cbn in *; tauto.
Qed.

Lemma raw_roundtrip t shape es : numeric t ->
  Forall (fun d => 0 <= d) shape -> Z.of_nat (length es) = fold_right Z.mul 1 shape -> Forall (elem_ok t) es ->
  exists p, make_tensor_raw t shape (flat_map (enc_elem t) es) = SOk p /\
            tensorproto2ndarray p = SOk {| a_dt := t; a_shape := shape; a_elems := es |}.
Proof.
  intros Ht Hs Hl He. unfold make_tensor_raw, prod. rewrite tobytes_length by auto. rewrite Nat2Z.inj_mul, Hl, Z.eqb_refl.
  assert (HN := nonneg_forallb _ Hs).
  assert (Hc : exists c, npdtype2onnxdtype t = Some c /\ (c =? STRING) = false /\ onnxdtype2npdtype c = Some t)
    by (destruct t; cbn in Ht; try tauto; cbn [npdtype2onnxdtype]; eexists; repeat split; reflexivity).
  destruct Hc as (c & Hc1 & Hc2 & Hc3). rewrite Hc1, Hc2. eexists; split; [reflexivity|].
  unfold tensorproto2ndarray. cbn [t_type t_raw t_dims]. rewrite Hc3. cbn [or_f64].
  assert (Hk : exists k, itemsize t = S k) by (destruct t; cbn in *; try contradiction; eauto).
  destruct Hk as [k Hk].
  destruct es as [|e es].
  - cbn [flat_map]. rewrite HN. cbn [negb t_float t_int32 t_int64 t_double].
    cbn [length] in Hl. 
    replace (Z.to_nat (prod shape)) with O by (unfold prod; rewrite <- Hl; reflexivity).
    destruct t; cbn in Ht; try tauto; cbn [map repeat as_uint16 sbind]; apply reshape_ok; auto.
  - assert (Hlen := tobytes_length t (e :: es) Ht He).
    destruct (flat_map (enc_elem t) (e :: es)) as [|b0 bs] eqn:E;
      [rewrite Hk in Hlen; cbn [length] in Hlen; lia|]. rewrite <- E in *.
    unfold frombuffer. rewrite Hk, <- Hk, Hlen, Nat2Z.inj_mul, Z.mul_comm, Z.mod_mul by lia.
    cbn [Z.eqb]. rewrite <- Hlen, chunks_enc by (auto; lia). cbn [sbind]. apply reshape_ok; auto.
Qed.
