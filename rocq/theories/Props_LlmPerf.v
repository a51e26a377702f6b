(** C51: the LLM latency estimate. *)
From Coq Require Import Reals Lra.
From Flocq Require Import Core.
From Verif Require Import PyBase FloatPy LlmPerf.
Open Scope R_scope.

(** ** C51 *)
(** The estimate is the (left-to-right, binary64) sum over the operators of
    max(compute time, memory time) + synchronisation time, where compute time is FLOPs over the peak of the
    operator's class and memory time is bytes over bandwidth, divided by the number of devices for MatMul,
    attention and the fused operators only; there is no synchronisation with one device. *)
Theorem C51_sum_of_rooflines : forall b d ns,
  lr_latency (llm_profile b d ns) = fsum (map (fun n => fadd (Rmax (l_compute (estimate b d n)) (l_memory (estimate b d n))) (l_sync (estimate b d n))) ns) /\
  lr_flops (llm_profile b d ns) = fold_right Z.add 0%Z (map p_flops ns) /\
  lr_mem (llm_profile b d ns) = fsum (map (mem b) ns) /\
  forall n, In n ns ->
    let fl := rnd (IZR (p_flops n)) in
    (In (p_op n) ["MatMul"; "MoE"; "MLA"; "GDN"]%string ->
       l_compute (estimate b d n) = fdiv (fdiv fl (speed d (d_mm d))) (IZR (d_num d)) /\
       l_memory (estimate b d n) = fdiv (fdiv (fadd (bytes (p_io n) (b_others b)) (bytes (p_static n) (b_mm b))) (mem_speed d)) (IZR (d_num d))) /\
    (p_op n = "SDPA"%string ->
       l_compute (estimate b d n) = fdiv (fdiv fl (speed d (d_mha d))) (IZR (d_num d)) /\
       l_memory (estimate b d n) = fdiv (fdiv (fadd (bytes (p_io n) (b_others b)) (bytes (p_kv n) (b_mha b))) (mem_speed d)) (IZR (d_num d))) /\
    (~ In (p_op n) ["MatMul"; "MoE"; "MLA"; "GDN"; "SDPA"]%string ->
       l_compute (estimate b d n) = fdiv fl (speed d (d_others d)) /\
       l_memory (estimate b d n) = fdiv (fadd (bytes (p_io n) (b_others b))
                                               (bytes (p_static n) (if String.eqb (p_op n) "Gather" then b_mm b else b_others b))) (mem_speed d) /\
       l_sync (estimate b d n) = fdiv 0 (link_bw d) * (if Z.ltb 1 (d_num d) then 1 else 0)) /\
    (d_num d = 1%Z -> l_sync (estimate b d n) = 0).
Proof.
  intros b d ns. split; [|split; [|split]].
  - rewrite fsum_map. reflexivity.
  - unfold llm_profile. cbn [lr_flops]. assert (G : forall a, fold_left (fun a n => Z.add a (p_flops n)) ns a = (a + fold_right Z.add 0 (map p_flops ns))%Z).
    { induction ns as [|n ns IH]; intros a; cbn; [lia|]. rewrite IH. lia. }
    rewrite G. lia.
  - rewrite fsum_map. reflexivity.
  - intros n _ fl. unfold estimate, mem, io_mem, w_mem. cbn [l_compute l_memory l_sync]. split; [|split; [|split]].
    + intros I. assert (K : kind_of (p_op n) = KMatMul \/ kind_of (p_op n) = KFused) by (cbn in I; destruct I as [<-|[<-|[<-|[<-|[]]]]]; vm_compute; auto).
      destruct K as [-> | ->]; auto.
    + intros ->. cbn. auto.
    + intros N. assert (K : kind_of (p_op n) = if String.eqb (p_op n) "Gather" then KGather else KOther).
      { unfold kind_of. cbn in N. destruct (String.eqb_spec (p_op n) "MatMul") as [e|]; [exfalso; apply N; rewrite e; auto 10|]. destruct (String.eqb_spec (p_op n) "SDPA") as [e|]; [exfalso; apply N; rewrite e; auto 10|].
        destruct (String.eqb_spec (p_op n) "MoE") as [e|]; [exfalso; apply N; rewrite e; auto 10|]. destruct (String.eqb_spec (p_op n) "MLA") as [e|]; [exfalso; apply N; rewrite e; auto 10|].
        destruct (String.eqb_spec (p_op n) "GDN") as [e|]; [exfalso; apply N; rewrite e; auto 10|]. reflexivity. }
      rewrite K. destruct (String.eqb (p_op n) "Gather"); (split; [reflexivity|split; [reflexivity|]]); destruct (Z.ltb 1 (d_num d)); ring.
    + intros ->. reflexivity.
Qed.
(** It is never below the sum of the compute times, nor below the sum of the memory times. *)
Theorem C51_not_below : forall b d ns, sane_bits b -> usable d -> Forall sane_node ns ->
  fsum (map (fun n => l_compute (estimate b d n)) ns) <= lr_latency (llm_profile b d ns) /\
  fsum (map (fun n => l_memory (estimate b d n)) ns) <= lr_latency (llm_profile b d ns).
Proof.
  intros b d ns Hb U F. rewrite Forall_forall in F. rewrite !fsum_map. unfold llm_profile. cbn [lr_latency].
  split; apply fold_le; try lra; intros n I; apply estimate_ge; auto.
Qed.
(** A device at least as fast in every respect never gets a larger estimate. *)
Theorem C51_faster_device : forall b d e ns, sane_bits b -> usable d -> Forall sane_node ns -> faster d e ->
  lr_latency (llm_profile b e ns) <= lr_latency (llm_profile b d ns).
Proof.
  intros b d e ns Hb U F Fa. rewrite Forall_forall in F. unfold llm_profile. cbn [lr_latency]. apply fold_le; [lra|]. intros n I. apply estimate_mono; auto.
Qed.
(** Without a link bandwidth the number of devices is ignored. *)
Theorem C51_no_link : forall b d e ns, link_bw d = 0 ->
  e = {| d_fp32 := d_fp32 d; d_mm := d_mm d; d_mha := d_mha d; d_others := d_others d; d_bw := d_bw d; d_link := d_link d; d_number := d_number e |} ->
  lr_latency (llm_profile b e ns) = lr_latency (llm_profile b d ns) /\ forall n, l_sync (estimate b d n) = 0.
Proof.
  intros b d e ns L ->. cbn [d_number].
  assert (D : forall x y z u v w k, fmul (getR w 0) giga = 0 -> d_num {| d_fp32 := x; d_mm := y; d_mha := z; d_others := u; d_bw := v; d_link := w; d_number := k |} = 1%Z).
  { intros. unfold d_num, link_bw. cbn [d_link]. destruct (Req_EM_T (fmul (getR w 0) giga) 0); [reflexivity|contradiction]. }
  assert (D0 : d_num d = 1%Z) by (unfold d_num; destruct (Req_EM_T (link_bw d) 0); [reflexivity|contradiction]).
  split.
  - unfold llm_profile. cbn [lr_latency].
    assert (E : forall n k, estimate b {| d_fp32 := d_fp32 d; d_mm := d_mm d; d_mha := d_mha d; d_others := d_others d; d_bw := d_bw d; d_link := d_link d; d_number := k |} n = estimate b d n).
    { intros n k. unfold estimate. rewrite D by exact L. rewrite D0. reflexivity. }
    generalize 0. induction ns as [|n ns IH]; intros a; [reflexivity|]. cbn [fold_left]. rewrite E. apply IH.
  - intros n. unfold estimate. cbn [l_sync]. rewrite D0. reflexivity.
Qed.
(** The context memory is split into weights, kv cache and the rest, each operator counted in one part. *)
Theorem C51_context_parts : forall b d ns,
  lr_mm (llm_profile b d ns) = fsum (map (w_mem b) (filter (fun n => memb (p_op n) ["MatMul"; "MoE"; "MLA"; "GDN"; "Gather"]%string) ns)) /\
  lr_mha (llm_profile b d ns) = fsum (map (w_mem b) (filter (fun n => String.eqb (p_op n) "SDPA") ns)) /\
  lr_other (llm_profile b d ns) = fsum (map (w_mem b) (filter (fun n => negb (memb (p_op n) ["MatMul"; "MoE"; "MLA"; "GDN"; "Gather"; "SDPA"]%string)) ns)) /\
  lr_context (llm_profile b d ns) = fadd (fadd (lr_mm (llm_profile b d ns)) (lr_mha (llm_profile b d ns))) (lr_other (llm_profile b d ns)).
Proof.
  intros b d ns.
  assert (G : forall (p : kind -> bool) (q : pnode -> bool), (forall n, p (kind_of (p_op n)) = q n) ->
    fold_left (fun a n => if p (kind_of (p_op n)) then fadd a (w_mem b n) else a) ns 0 = fsum (map (w_mem b) (filter q ns))).
  { intros p q H. rewrite fsum_map. generalize 0. induction ns as [|n ns IH]; intros a; [reflexivity|]. cbn [fold_left filter]. rewrite H. destruct (q n); apply IH. }
  unfold llm_profile. cbn [lr_mm lr_mha lr_other lr_context]. split; [|split; [|split]]; [| | |reflexivity].
  1: apply (G (fun k => match k with KMatMul | KFused | KGather => true | _ => false end)).
  2: apply (G (fun k => match k with KSDPA => true | _ => false end)).
  3: apply (G (fun k => match k with KOther => true | _ => false end)).
  all: intros n; unfold kind_of; cbn [memb];
    (destruct (String.eqb_spec (p_op n) "MatMul") as [e|]; [try rewrite e; reflexivity|]); (destruct (String.eqb_spec (p_op n) "SDPA") as [e|]; [try rewrite e; reflexivity|]);
    destruct (String.eqb (p_op n) "MoE"), (String.eqb (p_op n) "MLA"), (String.eqb (p_op n) "GDN"), (String.eqb (p_op n) "Gather"); reflexivity.
Qed.
(** two devices at 1000 GFLOPS, 100 GB/s, linked at 10 GB/s; a MatMul and an Add *)
Definition demo_dev : device := {| d_fp32 := 1000; d_mm := None; d_mha := None; d_others := None; d_bw := 100; d_link := Some 10; d_number := Some 2%Z |}.
Definition demo_bits : bits := {| b_mm := 9 / 2; b_mha := 16; b_others := 32 |}.
Definition demo_nodes : list pnode :=
  [{| p_op := "MatMul"; p_flops := 2000000; p_io := 5000; p_static := 1000000; p_kv := 0 |}; {| p_op := "Add"; p_flops := 2000; p_io := 3000; p_static := 0; p_kv := 0 |}].
Lemma mul_giga n : (0 <= n <= 1000000)%Z -> fmul (IZR n) giga = IZR (n * 10 ^ 9).
Proof. intros H. unfold fmul, giga. rewrite <- mult_IZR. apply rnd_int. assert (10 ^ 9 = 1000000000)%Z by reflexivity. assert (2 ^ 53 = 9007199254740992)%Z by reflexivity. lia. Qed.
Example C51_applies : usable demo_dev /\ sane_bits demo_bits /\ Forall sane_node demo_nodes /\ d_num demo_dev = 2%Z /\
  exists e, faster demo_dev e /\ mem_speed demo_dev < mem_speed e.
Proof.
  assert (D : d_num demo_dev = 2%Z).
  { unfold d_num, link_bw. cbn [getR d_link demo_dev d_number]. rewrite (mul_giga 10) by lia. destruct (Req_EM_T (IZR (10 * 10 ^ 9)) 0) as [E|]; [|reflexivity]. apply eq_IZR in E. discriminate E. }
  split; [|split; [|split; [|split; [exact D|]]]].
  - unfold usable. rewrite D. unfold speed, mem_speed, link_bw. cbn [getR d_link d_mm d_mha d_others d_bw d_fp32 demo_dev]. rewrite (mul_giga 1000), (mul_giga 100), (mul_giga 10) by lia.
    repeat split; try (apply IZR_lt; reflexivity); try (apply IZR_le; vm_compute; discriminate); lia.
  - unfold sane_bits; cbn. lra.
  - repeat constructor; cbn; lia.
  - exists {| d_fp32 := 1000; d_mm := None; d_mha := None; d_others := None; d_bw := 200; d_link := Some 10; d_number := Some 2%Z |}.
    split.
    + unfold faster. split; [apply Rle_refl|]. split; [apply Rle_refl|]. split; [apply Rle_refl|]. split; [|split; [apply Rle_refl|reflexivity]].
      unfold mem_speed. cbn. rewrite (mul_giga 100), (mul_giga 200) by lia. apply IZR_le. vm_compute. discriminate.
    + unfold mem_speed. cbn [d_bw demo_dev]. rewrite (mul_giga 100), (mul_giga 200) by lia. apply IZR_lt. reflexivity.
Qed.
(** Twice the devices can make the estimate worse: the synchronisation term does not shrink. *)
Theorem C51_more_devices_can_be_slower : exists b d e n, sane_bits b /\ sane_node n /\ d_num d = 1%Z /\ d_num e = 2%Z /\
  speed d (d_mm d) = speed e (d_mm e) /\ mem_speed d = mem_speed e /\
  lr_latency (llm_profile b d [n]) < lr_latency (llm_profile b e [n]).
Proof.
  exists {| b_mm := 8; b_mha := 8; b_others := 8 |}.
  exists {| d_fp32 := 1000; d_mm := None; d_mha := None; d_others := None; d_bw := 1000; d_link := None; d_number := Some 2%Z |}.
  exists {| d_fp32 := 1000; d_mm := None; d_mha := None; d_others := None; d_bw := 1000; d_link := Some 1; d_number := Some 2%Z |}.
  exists {| p_op := "MatMul"; p_flops := 0; p_io := 1000000000; p_static := 0; p_kv := 0 |}.
  split; [unfold sane_bits; cbn; lra|]. split; [unfold sane_node; cbn; lia|].
  assert (L0 : fmul 0 giga = 0) by (unfold fmul; rewrite Rmult_0_l; apply rnd_0).
  assert (L1 : fmul 1 giga = IZR (10 ^ 9)) by (apply (mul_giga 1); lia).
  assert (D1 : d_num {| d_fp32 := 1000; d_mm := None; d_mha := None; d_others := None; d_bw := 1000; d_link := None; d_number := Some 2%Z |} = 1%Z).
  { unfold d_num, link_bw. cbn [getR d_link]. rewrite L0. destruct (Req_EM_T 0 0); [reflexivity|lra]. }
  assert (D2 : d_num {| d_fp32 := 1000; d_mm := None; d_mha := None; d_others := None; d_bw := 1000; d_link := Some 1; d_number := Some 2%Z |} = 2%Z).
  { unfold d_num, link_bw. cbn [getR d_link d_number]. rewrite L1. destruct (Req_EM_T (IZR (10 ^ 9)) 0) as [E|]; [apply eq_IZR in E; discriminate E|reflexivity]. }
  split; [exact D1|]. split; [exact D2|]. split; [reflexivity|]. split; [reflexivity|].
  assert (P9 : (10 ^ 9 = 1000000000)%Z) by reflexivity. assert (P53 : (2 ^ 53 = 9007199254740992)%Z) by reflexivity.
  assert (Io : forall z, (0 <= z <= 1000000000)%Z -> bytes z 8 = IZR z).
  { intros z Hz. unfold bytes, fmul, fdiv. rewrite (rnd_int z) by lia. rewrite <- mult_IZR, rnd_int by lia. rewrite mult_IZR. replace (IZR z * 8 / 8) with (IZR z) by field. apply rnd_int. lia. }
  unfold llm_profile, estimate, mem, io_mem, w_mem, speed, mem_speed. cbn [lr_latency fold_left l_node p_op kind_of String.eqb Ascii.eqb Bool.eqb p_flops p_io p_static b_mm b_others getR d_mm d_fp32 d_bw link_bw d_link].
  rewrite D1, D2. cbn [Z.ltb Z.compare Pos.compare Pos.compare_cont]. rewrite (Io 1000000000%Z) by lia. rewrite (Io 0%Z) by lia.
  unfold link_bw. cbn [getR d_link]. rewrite L1. rewrite (mul_giga 1000) by lia.
  assert (A0 : fadd (IZR 1000000000) (IZR 0) = IZR 1000000000) by (unfold fadd; rewrite <- plus_IZR; apply rnd_int; lia). rewrite A0.
  assert (C0 : fdiv (rnd (IZR 0)) (IZR (1000 * 10 ^ 9)) = 0) by (unfold fdiv; rewrite (rnd_int 0) by lia; unfold Rdiv; rewrite Rmult_0_l; apply rnd_0). rewrite C0.
  assert (C1 : forall x, fdiv 0 x = 0) by (intros x; unfold fdiv, Rdiv; rewrite Rmult_0_l; apply rnd_0). rewrite !C1.
  set (l := fdiv (IZR 1000000000) (IZR (1000 * 10 ^ 9))).
  assert (Hl : 0 <= l <= 1/2).
  { unfold l, fdiv. replace (IZR 1000000000 / IZR (1000 * 10 ^ 9)) with (/ 1000).
    - split; [apply rnd_pos; lra|]. replace (1/2) with (rnd (1/2)); [apply rnd_le; lra|]. apply rnd_id. replace (1/2) with (bpow radix2 (-1)) by (cbn; lra). apply generic_format_bpow. unfold b64exp, FLT_exp; lia.
    - rewrite P9. change (1000 * 1000000000)%Z with 1000000000000%Z. lra. }
  assert (S1 : fdiv (IZR 1000000000) (IZR (10 ^ 9)) = 1).
  { unfold fdiv. rewrite P9. replace (IZR 1000000000 / IZR 1000000000) with 1 by (field; lra). apply (rnd_int 1). lia. } rewrite S1.
  assert (F : forall x, is_float x -> fdiv x (IZR 1) = x) by (intros x Fx; unfold fdiv; replace (x / 1) with x by lra; apply rnd_id; exact Fx).
  rewrite (F l) by apply rnd_float.
  assert (Z0 : forall x, is_float x -> fadd 0 x = x) by (intros x Fx; unfold fadd; rewrite Rplus_0_l; apply rnd_id; exact Fx).
  assert (Z1 : forall x, is_float x -> fadd x 0 = x) by (intros x Fx; unfold fadd; rewrite Rplus_0_r; apply rnd_id; exact Fx).
  assert (Fl : is_float l) by apply rnd_float.
  rewrite Rmax_right by lra. rewrite (Z1 l Fl), (Z0 l Fl). rewrite Z0 by apply rnd_float.
  apply Rle_lt_trans with (1/2); [lra|]. apply Rlt_le_trans with 1; [lra|].
  replace 1 with (rnd 1) at 1 by (apply (rnd_int 1); lia). unfold fadd. apply rnd_le.
  assert (0 <= Rmax 0 (fdiv l 2)) by apply Rmax_l. lra.
Qed.
