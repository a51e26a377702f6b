(** Every item of the vision builder's log fits the ones before it; names are distinct. *)
From Coq Require Import Permutation.
From Verif Require Import PyBase PyBaseFacts GraphModel CompressSpec ShapeModel FusionModel FusionProofs RegressModel RegressProofs LlmModel LlmSpec LlmNames LlmBuild LlmCost LlmCostSpec LlmCostProofs LlmRel InferModel LlmInfer VisionModel VisionProofs.
Open Scope string_scope. Open Scope Z_scope.

Notation tentry := (tensor * option (list Z * list Z))%type.
Section FITS.
Context (P : string -> list tentry -> list Z -> cost -> Prop).
Definition item_ok (d : list entry) (i : item) : Prop :=
  match i with
  | IS n op ins sh k => exists es, Forall2 (fun x e => In (x, e) d) ins es /\ P op es sh k
  | _ => True
  end.
Fixpoint fits (d : list entry) (l : list item) : Prop := match l with [] => True | i :: r => item_ok d i /\ fits (d ++ [ent i]) r end.
Lemma fits_app d a b : fits d (a ++ b) <-> fits d a /\ fits (d ++ map ent a) b.
Proof.
  revert d. induction a as [|i a IH]; intros d; cbn [app fits map]; [rewrite app_nil_r; tauto|].
  rewrite IH, <- app_assoc. cbn [app]. tauto.
Qed.
Lemma item_ok_incl d d' i : incl d d' -> item_ok d i -> item_ok d' i.
Proof. intros I. destruct i; cbn [item_ok]; auto. intros (es & F & Q). exists es. split; [|exact Q]. eapply Forall2_impl; [|exact F]. cbn. auto. Qed.
Lemma fits_incl l : forall d d', incl d d' -> fits d l -> fits d' l.
Proof.
  induction l as [|i l IH]; intros d d' I F; [exact F|]. destruct F as [A B]. split; [eapply item_ok_incl; eauto|].
  eapply IH; [|exact B]. apply incl_app; [apply incl_appl; exact I|apply incl_appr, incl_refl].
Qed.
Lemma fits_each l : forall d i, fits d l -> In i l -> item_ok (d ++ map ent l) i.
Proof.
  induction l as [|j l IH]; intros d i F I; [destruct I|]. destruct F as [A B]. destruct I as [->|I].
  - eapply item_ok_incl; [|exact A]. apply incl_appl, incl_refl.
  - cbn [map]. specialize (IH _ _ B I). rewrite <- app_assoc in IH. exact IH.
Qed.
End FITS.
Lemma fits_weaken (P Q : string -> list tentry -> list Z -> cost -> Prop) : (forall op es sh k, P op es sh k -> Q op es sh k) -> forall l d, fits P d l -> fits Q d l.
Proof.
  intros H. induction l as [|i l IH]; intros d F; [exact F|]. destruct F as [A B]. split; [|auto].
  destruct i; cbn [item_ok] in *; auto. destruct A as (es & X & Y). eauto.
Qed.

(** ** The operators *)
Section OPS.
Context (v : vdims) (n : Z).
Let d := d_hidden v.
Let a := d_heads v * d_head v.
Notation B1 w := [1; n; w].
Definition pl (t : tensor) : tentry := (t, None).
Definition nu (l : list Z) : tentry := (ct [zlen l], Some ([zlen l], l)).
Inductive op_ok : string -> list tentry -> list Z -> cost -> Prop :=
| ok_norm : op_ok "LayerNormalization" [pl (act (B1 d)); pl (wt [d]); pl (wt [d])] (B1 d) (norm_on 1 n d (2 * d))
| ok_lin i o : op_ok "MatMul" [pl (act (B1 i)); pl (wt [i; o]); pl (wt [o])] (B1 o) (linear_cost 1 n i o true)
| ok_slice w off m : (0 <= a -> 0 <= off /\ 0 <= m /\ off + m <= w) -> (w = 3 * a) -> m = a ->
    op_ok "Slice" [pl (act (B1 w)); nu [off]; nu [off + m]; nu [2]; nu [1]] (B1 m) (slice_cost 1 n m)
| ok_sdpa : op_ok "SDPA" [pl (act (B1 a)); pl (act (B1 a)); pl (act (B1 a))] (B1 a) (sdpa_cost v n)
| ok_add : op_ok "Add" [pl (act (B1 d)); pl (act (B1 d))] (B1 d) (eltwise_cost 1 n d 1)
| ok_pos : op_ok "Add" [pl (act (B1 d)); pl (wt (B1 d))] (B1 d) (mkCost (n * d) (n * d) (n * d) (n * d))
| ok_gelu m : op_ok "Gelu" [pl (act (B1 m))] (B1 m) (eltwise_cost 1 n m 34).

Ltac look := first [eassumption | apply in_or_app; first [right; left; reflexivity | left; look]].
Ltac one := first [exact Logic.I | cbn [item_ok]; eexists; split; [repeat (apply Forall2_cons; [look|]); apply Forall2_nil|]].
Notation fit := (fits op_ok).
Lemma lin_fits D nm x i o : In (x, pl (act (B1 i))) D -> fit D (lin_items n nm x i o).
Proof. intros H. cbn [fits lin_items ent]. split; [one|]. split; [one|]. split; [|one]. one. apply ok_lin. Qed.
Lemma ln_fits D nm x : In (x, pl (act (B1 d))) D -> fit D (ln_items v n nm x).
Proof. intros H. cbn [fits ln_items ent]. split; [one|]. split; [one|]. split; [|one]. one. apply ok_norm. Qed.
Lemma slice_fits D nm x w off m : In (x, pl (act (B1 w))) D -> (0 <= a -> 0 <= off /\ 0 <= m /\ off + m <= w) -> w = 3 * a -> m = a -> fit D (slice_items n nm x off m).
Proof. intros H R E1 E2. cbn [fits slice_items ent]. repeat (split; [one; try (apply ok_slice; assumption)|]). exact Logic.I. Qed.
Lemma gelu_fits D nm x m : In (x, pl (act (B1 m))) D -> fit D (gelu_items n nm x m).
Proof. intros H. cbn [fits gelu_items ent]. split; [|one]. one. apply ok_gelu. Qed.
Lemma add_fits D nm x y : In (x, pl (act (B1 d))) D -> In (y, pl (act (B1 d))) D -> fit D (add_items v n nm x y).
Proof. intros H K. cbn [fits add_items ent]. split; [|one]. one. apply ok_add. Qed.
(** the result of the last step is available afterwards *)
Lemma lin_out D nm x i o : In (nm ++ ".output", pl (act (B1 o))) (D ++ map ent (lin_items n nm x i o)).
Proof. apply in_or_app. right. cbn [lin_items map ent In]. tauto. Qed.
Lemma ln_out D nm x : In (nm ++ ".output", pl (act (B1 d))) (D ++ map ent (ln_items v n nm x)).
Proof. apply in_or_app. right. cbn [ln_items map ent In]. tauto. Qed.
Lemma slice_out D nm x off m : In (nm ++ ".output", pl (act (B1 m))) (D ++ map ent (slice_items n nm x off m)).
Proof. apply in_or_app. right. cbn [slice_items map ent In]. tauto. Qed.
Lemma gelu_out D nm x m : In (nm ++ ".output", pl (act (B1 m))) (D ++ map ent (gelu_items n nm x m)).
Proof. apply in_or_app. right. cbn [gelu_items map ent In]. tauto. Qed.
Lemma add_out D nm x y : In (nm ++ ".output", pl (act (B1 d))) (D ++ map ent (add_items v n nm x y)).
Proof. apply in_or_app. right. cbn [add_items map ent In]. tauto. Qed.
Ltac keep := first [eassumption | apply lin_out | apply ln_out | apply slice_out | apply gelu_out | apply add_out | apply in_or_app; left; keep].
Lemma attn_fits D nm x : In (x, pl (act (B1 d))) D -> fit D (attn_items v n nm x).
Proof.
  intros H. unfold attn_items. fold d. fold a. apply fits_app. split; [apply lin_fits; exact H|].
  apply fits_app. split; [eapply slice_fits; [keep| |reflexivity|reflexivity]; lia|].
  apply fits_app. split; [eapply slice_fits; [keep| |reflexivity|reflexivity]; lia|].
  apply fits_app. split; [eapply slice_fits; [keep| |reflexivity|reflexivity]; lia|].
  apply fits_app. split.
  - cbn [fits ent]. split; [|exact Logic.I]. eexists. split; [constructor; [keep|constructor; [keep|constructor; [keep|constructor]]]|]. apply ok_sdpa.
  - apply lin_fits. apply in_or_app. right. left. reflexivity.
Qed.
Lemma attn_out D nm x : In ((nm ++ ".o") ++ ".output", pl (act (B1 d))) (D ++ map ent (attn_items v n nm x)).
Proof. unfold attn_items. fold d. rewrite !map_app, !app_assoc. apply lin_out. Qed.
Lemma mlp_fits D nm x i m o : In (x, pl (act (B1 i))) D -> fit D (mlp_items n nm x i m o).
Proof.
  intros H. unfold mlp_items. apply fits_app. split; [apply lin_fits; exact H|]. apply fits_app. split; [apply gelu_fits; keep|]. apply lin_fits; keep.
Qed.
Lemma mlp_out D nm x i m o : In ((nm ++ ".fc2") ++ ".output", pl (act (B1 o))) (D ++ map ent (mlp_items n nm x i m o)).
Proof. unfold mlp_items. rewrite !map_app, !app_assoc. apply lin_out. Qed.
Ltac keep2 := first [eassumption | apply ln_out | apply attn_out | apply mlp_out | apply add_out | apply in_or_app; left; keep2].
Lemma layer_fits D p x : In (x, pl (act (B1 d))) D -> fit D (layer_items v n p x).
Proof.
  intros H. unfold layer_items. fold d. apply fits_app. split; [apply ln_fits; exact H|]. apply fits_app. split; [apply attn_fits; keep2|].
  apply fits_app. split; [apply add_fits; keep2|]. apply fits_app. split; [apply ln_fits; keep2|]. apply fits_app. split; [apply mlp_fits; keep2|]. apply add_fits; keep2.
Qed.
Lemma layer_out D p x : In ((p ++ ".mlp_add") ++ ".output", pl (act (B1 d))) (D ++ map ent (layer_items v n p x)).
Proof. unfold layer_items. rewrite !map_app, !app_assoc. apply add_out. Qed.
Lemma layers_fits k : forall i D x, In (x, pl (act (B1 d))) D -> fit D (layers_items v n i k x).
Proof.
  induction k as [|k IH]; intros i D x H; cbn [layers_items]; [exact Logic.I|]. apply fits_app. split; [apply layer_fits; exact H|]. apply IH. apply layer_out.
Qed.
Lemma layers_last k : forall i D x, In (x, pl (act (B1 d))) D -> In (layers_out i k x, pl (act (B1 d))) (D ++ map ent (layers_items v n i k x)).
Proof.
  induction k as [|k IH]; intros i D x H; cbn [layers_items layers_out]; [apply in_or_app; auto|]. rewrite map_app, app_assoc. apply IH. apply layer_out.
Qed.
Lemma proj_fits D x : In (x, pl (act (B1 d))) D -> fit D (proj_items v n x).
Proof. intros H. unfold proj_items. destruct (d_mlp v); [apply mlp_fits|apply lin_fits]; exact H. Qed.
End OPS.

(** the items after the patches have become tokens *)
Section TOKENS.
Context (v : vdims) (c h w : Z).
Notation n := (grid v h w).
Definition token_items : list item := (skipn 5 (head_items v c h w) ++ body_items v h w ++ tail_items v h w)%list.
Lemma token_split : vision_items v c h w = (firstn 5 (head_items v c h w) ++ token_items)%list.
Proof. unfold vision_items, token_items. unfold head_items. reflexivity. Qed.
Definition tokens : entry := ("vision.patch_reshape.output", pl (act [1; n; d_hidden v])).
Lemma token_fits : fits (op_ok v n) [tokens] token_items.
Proof.
  unfold token_items. apply fits_app. split.
  - cbn [skipn head_items fits ent]. split; [exact Logic.I|]. split; [|exact Logic.I]. eexists. split; [constructor; [left; reflexivity|constructor; [right; left; reflexivity|constructor]]|]. apply ok_pos.
  - apply fits_app. split.
    + apply layers_fits. cbn. tauto.
    + unfold tail_items. apply fits_app. split.
      * apply ln_fits. apply layers_last. cbn. tauto.
      * apply proj_fits. exact (ln_out v n _ "vision.post_ln" (body_out v)).
Qed.
(** all operators *)
Inductive any_ok : string -> list tentry -> list Z -> cost -> Prop :=
| any_conv : any_ok "Conv" [pl (act [1; c; h; w]); pl (wt [d_hidden v; c; d_patch v; d_patch v])] [1; d_hidden v; h / d_patch v; w / d_patch v] (conv_cost v c h w)
| any_reshape : any_ok "Reshape" [pl (act [1; d_hidden v; h / d_patch v; w / d_patch v]); nu [1; n; d_hidden v]] [1; n; d_hidden v] (mkCost 0 (n * d_hidden v) 3 3)
| any_token op es sh k : op_ok v n op es sh k -> any_ok op es sh k.
Lemma vision_fits : fits any_ok [] (vision_items v c h w).
Proof.
  rewrite token_split. apply fits_app. split.
  - cbn [firstn head_items fits ent app]. split; [exact Logic.I|]. split; [exact Logic.I|].
    split; [eexists; split; [constructor; [left; reflexivity|constructor; [right; left; reflexivity|constructor]]|apply any_conv]|]. split; [exact Logic.I|].
    split; [|exact Logic.I]. eexists. split; [constructor; [right; right; left; reflexivity|constructor; [right; right; right; left; reflexivity|constructor]]|apply any_reshape].
  - eapply fits_weaken; [intros; apply any_token; eassumption|]. eapply fits_incl; [|apply token_fits]. intros y [<-|[]]. cbn. tauto.
Qed.
End TOKENS.

(** ** Names *)
Definition tnames (l : list item) : list string := map (fun i => fst (ent i)) l.
Definition nnames (l : list item) : list string := flat_map (fun i => match i with IS n _ _ _ _ => [n] | _ => [] end) l.
Lemma tnames_app a b : tnames (a ++ b) = (tnames a ++ tnames b)%list.
Proof. apply map_app. Qed.
Lemma nnames_app a b : nnames (a ++ b) = (nnames a ++ nnames b)%list.
Proof. apply flat_map_app. Qed.
Definition local_t : list string := Eval vm_compute in
  tnames (layer_items {| d_hidden := 0; d_layers := 0; d_heads := 0; d_inter := 0; d_patch := 0; d_head := 0; d_proj := 0; d_mlp := true; d_llm := 0 |} 0 "" "").
Definition local_n : list string := Eval vm_compute in
  nnames (layer_items {| d_hidden := 0; d_layers := 0; d_heads := 0; d_inter := 0; d_patch := 0; d_head := 0; d_proj := 0; d_mlp := true; d_llm := 0 |} 0 "" "").
Lemma layer_t v n p x : tnames (layer_items v n p x) = map (append p) local_t.
Proof.
  unfold tnames, layer_items, attn_items, mlp_items, lin_items, ln_items, slice_items, add_items, gelu_items. cbn [map app ent fst local_t]. rewrite !app_assoc_s. reflexivity.
Qed.
Lemma layer_n v n p x : nnames (layer_items v n p x) = map (append p) local_n.
Proof.
  unfold nnames, layer_items, attn_items, mlp_items, lin_items, ln_items, slice_items, add_items, gelu_items. cbn [flat_map map app ent fst local_n]. rewrite !app_assoc_s. reflexivity.
Qed.
Definition spread (l : list string) (i k : nat) : list string := flat_map (fun j => map (append (block_name j)) l) (seq i k).
Lemma layers_t v n k : forall i x, tnames (layers_items v n i k x) = spread local_t i k.
Proof. induction k as [|k IH]; intros i x; [reflexivity|]. cbn [layers_items]. rewrite tnames_app, layer_t, IH. reflexivity. Qed.
Lemma layers_n v n k : forall i x, nnames (layers_items v n i k x) = spread local_n i k.
Proof. induction k as [|k IH]; intros i x; [reflexivity|]. cbn [layers_items]. rewrite nnames_app, layer_n, IH. reflexivity. Qed.
Definition dotted (l : list string) : Prop := forall s, In s l -> exists b, s = "." ++ b.
Lemma block_inj i j x y : block_name i ++ ("." ++ x) = block_name j ++ ("." ++ y) -> i = j /\ x = y.
Proof. unfold block_name. rewrite !app_assoc_s. apply layer_inj. Qed.
Lemma spread_nodup l k : forall i, dotted l -> NoDup l -> NoDup (spread l i k).
Proof.
  induction k as [|k IH]; intros i D N; [constructor|]. unfold spread. cbn [seq flat_map]. apply NoDup_app_intro.
  - apply FinFun.Injective_map_NoDup; [|exact N]. intros x y E. apply app_inj_l in E. exact E.
  - apply IH; assumption.
  - intros s H1 H2. apply in_map_iff in H1 as (x & <- & I1). apply in_flat_map in H2 as (j & Ij & H2). apply in_map_iff in H2 as (y & E & I2).
    destruct (D x I1) as (bx & ->), (D y I2) as (bz & ->). apply block_inj in E as [-> _]. apply in_seq in Ij. lia.
Qed.
Lemma spread_prefix l i k s : In s (spread l i k) -> String.prefix "vision.blocks." s = true.
Proof. intros H. apply in_flat_map in H as (j & _ & H). apply in_map_iff in H as (x & <- & _). unfold block_name. rewrite app_assoc_s. apply prefix_app. Qed.
Definition global_t (mlp : bool) : list string * list string :=
  (["pixel_values"; "vision.patch_embed.weight"; "vision.patch_embed.output"; "vision.patch_reshape.shape"; "vision.patch_reshape.output"; "vision.pos_embed"; "vision.pos_embed_add.output"],
   ["vision.post_ln.weight"; "vision.post_ln.bias"; "vision.post_ln.output"] ++
   if mlp then ["vision.projector.fc1.weight"; "vision.projector.fc1.bias"; "vision.projector.fc1.output"; "vision.projector.gelu.output"; "vision.projector.fc2.weight"; "vision.projector.fc2.bias"; "vision.projector.fc2.output"]
   else ["vision.projector.weight"; "vision.projector.bias"; "vision.projector.output"])%list.
Definition global_n (mlp : bool) : list string * list string :=
  (["vision.patch_embed"; "vision.patch_reshape"; "vision.pos_embed_add"],
   ["vision.post_ln"] ++ if mlp then ["vision.projector.fc1"; "vision.projector.gelu"; "vision.projector.fc2"] else ["vision.projector"])%list.
Lemma mid_nodup a m b : NoDup m -> NoDup (a ++ b) -> (forall s, In s m -> String.prefix "vision.blocks." s = true) -> (forall s, In s (a ++ b) -> String.prefix "vision.blocks." s = false) -> NoDup (a ++ m ++ b).
Proof.
  intros Nm Nab Pm Pab. eapply NoDup_perm with (b := (m ++ a ++ b)%list).
  - rewrite !app_assoc. apply Permutation_app_tail. apply Permutation_app_comm.
  - apply NoDup_app_intro; [exact Nm|exact Nab|]. intros s H K. specialize (Pm s H). specialize (Pab s K). congruence.
Qed.
Section WHOLE.
Context (v : vdims) (c h w : Z).
Lemma items_t : tnames (vision_items v c h w) = (fst (global_t (d_mlp v)) ++ spread local_t 0 (Z.to_nat (d_layers v)) ++ snd (global_t (d_mlp v)))%list.
Proof.
  unfold vision_items. rewrite !tnames_app. unfold body_items. rewrite layers_t. unfold tail_items. rewrite tnames_app. unfold proj_items. destruct (d_mlp v); reflexivity.
Qed.
Lemma items_n : nnames (vision_items v c h w) = (fst (global_n (d_mlp v)) ++ spread local_n 0 (Z.to_nat (d_layers v)) ++ snd (global_n (d_mlp v)))%list.
Proof.
  unfold vision_items. rewrite !nnames_app. unfold body_items. rewrite layers_n. unfold tail_items. rewrite nnames_app. unfold proj_items. destruct (d_mlp v); reflexivity.
Qed.
Ltac nodup := repeat (constructor; [cbn; intuition discriminate|]); constructor.
Lemma local_t_ok : dotted local_t /\ NoDup local_t.
Proof. split; [intros s H; vm_compute in H; repeat (destruct H as [<-|H]; [eexists; cbn; reflexivity|]); contradiction|unfold local_t; nodup]. Qed.
Lemma local_n_ok : dotted local_n /\ NoDup local_n.
Proof. split; [intros s H; vm_compute in H; repeat (destruct H as [<-|H]; [eexists; cbn; reflexivity|]); contradiction|unfold local_n; nodup]. Qed.
Lemma items_t_nodup : NoDup (tnames (vision_items v c h w)).
Proof.
  rewrite items_t. apply mid_nodup.
  - apply spread_nodup; apply local_t_ok.
  - destruct (d_mlp v); cbn; nodup.
  - intros s. apply spread_prefix.
  - intros s H. destruct (d_mlp v); cbn in H; repeat (destruct H as [<-|H]; [reflexivity|]); contradiction.
Qed.
Lemma items_n_nodup : NoDup (nnames (vision_items v c h w)).
Proof.
  rewrite items_n. apply mid_nodup.
  - apply spread_nodup; apply local_n_ok.
  - destruct (d_mlp v); cbn; nodup.
  - intros s. apply spread_prefix.
  - intros s H. destruct (d_mlp v); cbn in H; repeat (destruct H as [<-|H]; [reflexivity|]); contradiction.
Qed.
Lemma items_t_named : ~ In "" (tnames (vision_items v c h w)).
Proof.
  rewrite items_t. intros H. apply in_app_or in H as [H|H]; [cbn in H; intuition discriminate|]. apply in_app_or in H as [H|H].
  - apply spread_prefix in H. discriminate.
  - destruct (d_mlp v); cbn in H; intuition discriminate.
Qed.
End WHOLE.
