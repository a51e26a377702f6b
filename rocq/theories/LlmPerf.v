(** onnx_tool/llm.py:1113-1193 [Builder.profile]: the device estimate, in binary64.
    Simplifications: overflow and division by zero (a device without speed) are not modelled; a byte count
    [x * bits / 8] is taken as float(x) * bits / 8 with one rounding per operation. *)
From Coq Require Import Reals Lra.
From Flocq Require Import Core.
From Verif Require Import PyBase FloatPy.
Open Scope R_scope.

(** what [graph.profile()] left on a node: [macs * 2], [io_params], [static_params], [kv_size] *)
Record pnode := { p_op : string; p_flops : Z; p_io : Z; p_static : Z; p_kv : Z }.
Record bits := { b_mm : R; b_mha : R; b_others : R }.
(** [Device.get(cfg['Compute'][..], Device['FP32'])]: an option per class; GFLOPS and GB/s *)
Record device := { d_fp32 : R; d_mm : option R; d_mha : option R; d_others : option R; d_bw : R; d_link : option R; d_number : option Z }.
Definition giga : R := IZR (10 ^ 9).
Definition getR (o : option R) (d : R) : R := match o with Some x => x | None => d end.
(** llm.py:1118-1123 *)
Definition link_bw (d : device) : R := fmul (getR (d_link d) 0) giga.
Definition d_num (d : device) : Z := if Req_EM_T (link_bw d) 0 then 1%Z else match d_number d with Some n => n | None => 1%Z end.
Definition speed (d : device) (o : option R) : R := fmul (getR o (d_fp32 d)) giga.
Definition mem_speed (d : device) : R := fmul (d_bw d) giga.
Definition bytes (x : Z) (b : R) : R := fdiv (fmul (rnd (IZR x)) b) 8.

Inductive kind := KMatMul | KSDPA | KFused | KGather | KOther.
(** llm.py:1136, 1145, 1154, 1165-1173 *)
Definition kind_of (op : string) : kind :=
  if String.eqb op "MatMul" then KMatMul else if String.eqb op "SDPA" then KSDPA
  else if String.eqb op "MoE" || String.eqb op "MLA" || String.eqb op "GDN" then KFused
  else if String.eqb op "Gather" then KGather else KOther.
(** weight (or kv cache) bytes, and all bytes *)
Definition w_mem (b : bits) (n : pnode) : R :=
  match kind_of (p_op n) with
  | KMatMul | KFused | KGather => bytes (p_static n) (b_mm b)
  | KSDPA => bytes (p_kv n) (b_mha b)
  | KOther => bytes (p_static n) (b_others b)
  end.
Definition io_mem (b : bits) (n : pnode) : R := bytes (p_io n) (b_others b).
Definition mem (b : bits) (n : pnode) : R := fadd (io_mem b n) (w_mem b n).
Record latency := { l_compute : R; l_memory : R; l_node : R; l_sync : R }.
Definition estimate (b : bits) (d : device) (n : pnode) : latency :=
  let fl := rnd (IZR (p_flops n)) in let dn := IZR (d_num d) in
  let c := match kind_of (p_op n) with
           | KMatMul | KFused => fdiv (fdiv fl (speed d (d_mm d))) dn
           | KSDPA => fdiv (fdiv fl (speed d (d_mha d))) dn
           | KGather | KOther => fdiv fl (speed d (d_others d))
           end in
  let l := match kind_of (p_op n) with
           | KMatMul | KFused | KSDPA => fdiv (fdiv (mem b n) (mem_speed d)) dn
           | KGather | KOther => fdiv (mem b n) (mem_speed d)
           end in
  let comm := match kind_of (p_op n) with KMatMul | KFused | KSDPA => io_mem b n | KGather | KOther => 0 end in
  let sync := if Z.ltb 1 (d_num d) then fdiv comm (link_bw d) else 0 in
  {| l_compute := c; l_memory := l; l_node := fadd (Rmax c l) sync; l_sync := sync |}.
(** [x += y] over a list *)
Definition fsum (l : list R) : R := fold_left fadd l 0.
(** llm.py:1126-1193: FLOPs, bytes, latency, and [context_mem] *)
Record llm_report := { lr_flops : Z; lr_mem : R; lr_latency : R; lr_mm : R; lr_mha : R; lr_other : R; lr_context : R }.
Definition llm_profile (b : bits) (d : device) (ns : list pnode) : llm_report :=
  let part (p : kind -> bool) := fold_left (fun a n => if p (kind_of (p_op n)) then fadd a (w_mem b n) else a) ns 0 in
  let mm := part (fun k => match k with KMatMul | KFused | KGather => true | _ => false end) in
  let mha := part (fun k => match k with KSDPA => true | _ => false end) in
  let other := part (fun k => match k with KOther => true | _ => false end) in
  {| lr_flops := fold_left (fun a n => Z.add a (p_flops n)) ns 0%Z;
     lr_mem := fold_left (fun a n => fadd a (mem b n)) ns 0;
     lr_latency := fold_left (fun a n => fadd a (l_node (estimate b d n))) ns 0;
     lr_mm := mm; lr_mha := mha; lr_other := other; lr_context := fadd (fadd mm mha) other |}.

(** ** Lemmas *)
Definition is_float (x : R) : Prop := generic_format radix2 b64exp x.
Lemma rnd_float x : is_float (rnd x).
Proof. apply generic_format_round; [apply b64_valid|apply valid_rnd_N]. Qed.
Lemma rnd_id x : is_float x -> rnd x = x.
Proof. intros H. apply round_generic; [apply valid_rnd_N|exact H]. Qed.
Lemma rnd_0 : rnd 0 = 0.
Proof. apply rnd_id. apply generic_format_0. Qed.
Lemma rnd_pos x : 0 <= x -> 0 <= rnd x.
Proof. intros H. rewrite <- rnd_0. apply rnd_le. exact H. Qed.
Lemma fadd_ge x y : is_float x -> 0 <= y -> x <= fadd x y.
Proof. intros F H. rewrite <- (rnd_id x F) at 1. apply rnd_le. lra. Qed.
Lemma fadd_le x x' y y' : x <= x' -> y <= y' -> fadd x y <= fadd x' y'.
Proof. intros. apply rnd_le. lra. Qed.
Lemma fdiv_pos x y : 0 <= x -> 0 < y -> 0 <= fdiv x y.
Proof. intros. apply rnd_pos. apply Rmult_le_pos; [assumption|]. left. apply Rinv_0_lt_compat. assumption. Qed.
Lemma fdiv_anti x x' y y' : 0 <= x <= x' -> 0 < y' <= y -> fdiv x y <= fdiv x' y'.
Proof.
  intros [A1 A2] [B1 B2]. apply rnd_le. unfold Rdiv. apply Rmult_le_compat; [lra| |lra|].
  - left. apply Rinv_0_lt_compat. lra.
  - apply Rinv_le_contravar; lra.
Qed.
Lemma fold_le {A} (f g : A -> R) (l : list A) : forall a b, a <= b -> (forall x, In x l -> f x <= g x) ->
  fold_left (fun s x => fadd s (f x)) l a <= fold_left (fun s x => fadd s (g x)) l b.
Proof.
  induction l as [|x l IH]; intros a b H F; [exact H|]. cbn [fold_left]. apply IH; [|intros y Y; apply F; right; exact Y].
  apply fadd_le; [exact H|]. apply F. left. reflexivity.
Qed.
Lemma fsum_map {A} (f : A -> R) l : fsum (map f l) = fold_left (fun s x => fadd s (f x)) l 0.
Proof. unfold fsum. generalize 0. induction l as [|x l IH]; intros a; [reflexivity|]. cbn. apply IH. Qed.
(** a device with positive speeds *)
Definition usable (d : device) : Prop :=
  0 < speed d (d_mm d) /\ 0 < speed d (d_mha d) /\ 0 < speed d (d_others d) /\ 0 < mem_speed d /\ 0 <= link_bw d /\ (1 <= d_num d)%Z.
Definition sane_bits (b : bits) : Prop := 0 <= b_mm b /\ 0 <= b_mha b /\ 0 <= b_others b.
Definition sane_node (n : pnode) : Prop := (0 <= p_flops n /\ 0 <= p_io n /\ 0 <= p_static n /\ 0 <= p_kv n)%Z.
Lemma bytes_pos x b : (0 <= x)%Z -> 0 <= b -> 0 <= bytes x b.
Proof. intros H Hb. apply fdiv_pos; [|lra]. apply rnd_pos. apply Rmult_le_pos; [|exact Hb]. apply rnd_pos. apply IZR_le. exact H. Qed.
Lemma mem_pos b n : sane_bits b -> sane_node n -> 0 <= mem b n /\ 0 <= io_mem b n /\ 0 <= w_mem b n.
Proof.
  intros (B1 & B2 & B3) (N1 & N2 & N3 & N4).
  assert (I : 0 <= io_mem b n) by (apply bytes_pos; assumption).
  assert (W : 0 <= w_mem b n) by (unfold w_mem; destruct (kind_of (p_op n)); apply bytes_pos; assumption).
  repeat split; auto. apply rnd_pos. lra.
Qed.
Lemma flops_pos n : sane_node n -> 0 <= rnd (IZR (p_flops n)).
Proof. intros (N & _). apply rnd_pos. apply IZR_le. exact N. Qed.
Lemma estimate_pos b d n : sane_bits b -> sane_node n -> usable d ->
  0 <= l_compute (estimate b d n) /\ 0 <= l_memory (estimate b d n) /\ 0 <= l_sync (estimate b d n).
Proof.
  intros Hb Hn (U1 & U2 & U3 & U4 & U5 & U6). destruct (mem_pos b n Hb Hn) as (M1 & M2 & M3). pose proof (flops_pos n Hn) as F.
  assert (D : 0 < IZR (d_num d)) by (apply IZR_lt; lia).
  unfold estimate. cbn [l_compute l_memory l_sync]. split; [|split].
  - destruct (kind_of (p_op n)); repeat (apply fdiv_pos; auto).
  - destruct (kind_of (p_op n)); repeat (apply fdiv_pos; auto).
  - destruct (Z.ltb_spec 1 (d_num d)); [|lra].
    assert (0 < link_bw d). { unfold d_num in H. destruct (Req_EM_T (link_bw d) 0); [lia|]. lra. }
    apply fdiv_pos; [|assumption]. destruct (kind_of (p_op n)); auto; lra.
Qed.
Lemma estimate_float b d n : is_float (l_compute (estimate b d n)) /\ is_float (l_memory (estimate b d n)).
Proof. unfold estimate. cbn. destruct (kind_of (p_op n)); split; apply rnd_float. Qed.
Lemma estimate_ge b d n : sane_bits b -> sane_node n -> usable d ->
  l_compute (estimate b d n) <= l_node (estimate b d n) /\ l_memory (estimate b d n) <= l_node (estimate b d n).
Proof.
  intros Hb Hn U. destruct (estimate_pos b d n Hb Hn U) as (P1 & P2 & P3). destruct (estimate_float b d n) as [F1 F2].
  assert (E : l_node (estimate b d n) = fadd (Rmax (l_compute (estimate b d n)) (l_memory (estimate b d n))) (l_sync (estimate b d n))) by reflexivity.
  rewrite E. clear E. set (x := l_compute _) in *. set (y := l_memory _) in *.
  assert (Fm : is_float (Rmax x y)) by (destruct (Rle_dec x y); [rewrite Rmax_right by lra|rewrite Rmax_left by lra]; assumption).
  pose proof (fadd_ge _ _ Fm P3). pose proof (Rmax_l x y). pose proof (Rmax_r x y). lra.
Qed.
(** [e] is at least as fast as [d] in every respect, with as many devices *)
Definition faster (d e : device) : Prop :=
  speed d (d_mm d) <= speed e (d_mm e) /\ speed d (d_mha d) <= speed e (d_mha e) /\ speed d (d_others d) <= speed e (d_others e) /\
  mem_speed d <= mem_speed e /\ link_bw d <= link_bw e /\ d_num d = d_num e.
Lemma estimate_mono b d e n : sane_bits b -> sane_node n -> usable d -> faster d e -> l_node (estimate b e n) <= l_node (estimate b d n).
Proof.
  intros Hb Hn (U1 & U2 & U3 & U4 & U5 & U6) (V1 & V2 & V3 & V4 & V5 & V6). destruct (mem_pos b n Hb Hn) as (M1 & M2 & M3). pose proof (flops_pos n Hn) as F.
  assert (D : 0 < IZR (d_num e)) by (apply IZR_lt; lia).
  unfold estimate. cbn [l_node]. rewrite V6. apply fadd_le.
  - apply Rmax_lub.
    + apply Rle_trans with (2 := Rmax_l _ _). destruct (kind_of (p_op n)); repeat (apply fdiv_anti; [split; [try apply fdiv_pos; try lra|]|]); try lra; apply Rle_refl.
    + apply Rle_trans with (2 := Rmax_r _ _). destruct (kind_of (p_op n)); repeat (apply fdiv_anti; [split; [try apply fdiv_pos; try lra|]|]); try lra; apply Rle_refl.
  - destruct (Z.ltb_spec 1 (d_num e)); [|lra].
    assert (0 < link_bw d). { rewrite <- V6 in H. unfold d_num in H. destruct (Req_EM_T (link_bw d) 0); [lia|]. lra. }
    apply fdiv_anti; [|lra]. destruct (kind_of (p_op n)); lra.
Qed.
