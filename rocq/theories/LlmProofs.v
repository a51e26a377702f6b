(** The module-level architecture table under a history of builders. *)
From Verif Require Import PyBase PyBaseFacts GraphModel ShapeModel FusionModel FusionProofs RegressModel LlmModel.
Open Scope Z_scope. Open Scope string_scope.

Lemma dset_dset {A} (d : dict A) k a b : dset (dset d k a) k b = dset d k b.
Proof. induction d as [|[k' v] d IH]; cbn; [rewrite String.eqb_refl; reflexivity|]. destruct (String.eqb k k') eqn:E; cbn; rewrite E; [reflexivity|]. rewrite IH. reflexivity. Qed.
Lemma dset_comm {A} (d : dict A) k l a b : k <> l -> dhas d k = true -> dset (dset d k a) l b = dset (dset d l b) k a.
Proof.
  intros N. induction d as [|[k' v] d IH]; intros H; [discriminate|]. cbn. unfold dhas in H. cbn in H. destruct (String.eqb_spec k k') as [->|E].
  - cbn. destruct (String.eqb_spec l k') as [->|E2]; [contradiction|]. cbn. rewrite String.eqb_refl. reflexivity.
  - cbn. destruct (String.eqb_spec l k') as [->|E2]; cbn; destruct (String.eqb_spec k k'); try contradiction; [reflexivity|]. rewrite IH; [reflexivity|exact H].
Qed.
Lemma dhas_dset {A} (d : dict A) k l a : dhas d k = true -> dhas (dset d l a) k = true.
Proof. unfold dhas. rewrite dget_dset. destruct (String.eqb k l); auto. Qed.

(** the three flags as last set *)
Definition over (om oa : option bool) (f : flags) : flags :=
  let f := match om with Some b => dset f "mlp_bias" b | None => f end in
  match oa with Some b => dset (dset f "qkv_bias" b) "o_bias" b | None => f end.
Definition later (new old : option bool) : option bool := match new with Some b => Some b | None => old end.
Definition full (f : flags) : Prop := dhas f "mlp_bias" = true /\ dhas f "qkv_bias" = true /\ dhas f "o_bias" = true.
Lemma over_over f om oa om' oa' : full f -> over om' oa' (over om oa f) = over (later om' om) (later oa' oa) f.
Proof.
  intros (H1 & H2 & H3). unfold over, later.
  assert (N1 : "mlp_bias" <> "qkv_bias") by discriminate. assert (N2 : "mlp_bias" <> "o_bias") by discriminate. assert (N3 : "qkv_bias" <> "o_bias") by discriminate.
  assert (Q : forall (d : flags) a b a' b', dhas d "qkv_bias" = true -> dset (dset (dset (dset d "qkv_bias" a) "o_bias" b) "qkv_bias" a') "o_bias" b' = dset (dset d "qkv_bias" a') "o_bias" b').
  { intros d a b a' b' Hd. rewrite <- (dset_comm (dset d "qkv_bias" a) "qkv_bias" "o_bias" a' b N3 (dhas_dset _ _ _ _ Hd)), !dset_dset. reflexivity. }
  assert (M : forall (d : flags) a b x, dhas d "mlp_bias" = true -> dset (dset (dset d "qkv_bias" a) "o_bias" b) "mlp_bias" x = dset (dset (dset d "mlp_bias" x) "qkv_bias" a) "o_bias" b).
  { intros d a b x Hd. rewrite <- (dset_comm (dset d "qkv_bias" a) "mlp_bias" "o_bias" x b N2 (dhas_dset _ _ _ _ Hd)).
    rewrite <- (dset_comm d "mlp_bias" "qkv_bias" x a N1 Hd). reflexivity. }
  destruct om as [m|], oa as [a|], om' as [m'|], oa' as [a'|]; try reflexivity;
    rewrite ?M by (rewrite ?dhas_dset; auto); rewrite ?dset_dset; rewrite ?Q by (rewrite ?dhas_dset; auto); reflexivity.
Qed.
Lemma set_flags_over c f : set_flags c f = over (c_mlp_bias c) (c_attention_bias c) f.
Proof. reflexivity. Qed.
Lemma archmap_full k f : dget ArchMap k = Some f -> full f.
Proof.
  intros H. apply dget_In in H. assert (X : forallb (fun kf => dhas (snd kf) "mlp_bias" && dhas (snd kf) "qkv_bias" && dhas (snd kf) "o_bias") ArchMap = true) by (vm_compute; reflexivity).
  rewrite forallb_forall in X. specialize (X _ H). cbn [snd] in X. apply andb_prop in X as [X X3]. apply andb_prop in X as [X1 X2]. split; [|split]; assumption.
Qed.

(** same table entry *)
Definition same_arch (c d : config) : bool := String.eqb (arch_key ArchMap c) (arch_key ArchMap d).
(** the value most recently given to an option by the configurations that use the same entry *)
Fixpoint last_given (sel : config -> option bool) (k : string) (h : list config) : option bool :=
  match h with
  | [] => None
  | d :: r => later (last_given sel k r) (if String.eqb (arch_key ArchMap d) k then sel d else None)
  end.
Definition table_after (h : list config) (m : dict flags) : Prop :=
  (forall k, dhas m k = dhas ArchMap k) /\
  forall k f, dget ArchMap k = Some f -> dget m k = Some (over (last_given c_mlp_bias k h) (last_given c_attention_bias k h) f).
Lemma arch_key_in c : exists f, dget ArchMap (arch_key ArchMap c) = Some f.
Proof. unfold arch_key. destruct (dhas ArchMap (c_arch c)) eqn:E; [unfold dhas in E; destruct (dget ArchMap (c_arch c)); [eauto|discriminate]|]. eexists. vm_compute. reflexivity. Qed.
Lemma table_key h m c : table_after h m -> arch_key m c = arch_key ArchMap c.
Proof. intros [H _]. unfold arch_key. rewrite H. reflexivity. Qed.
Lemma last_given_snoc sel k h c : last_given sel k (h ++ [c])%list = later (if String.eqb (arch_key ArchMap c) k then sel c else None) (last_given sel k h).
Proof.
  induction h as [|d h IH]; cbn [app last_given].
  - destruct (String.eqb (arch_key ArchMap c) k); [destruct (sel c)|]; reflexivity.
  - rewrite IH. unfold later. destruct (String.eqb (arch_key ArchMap c) k); [destruct (sel c)|]; reflexivity.
Qed.
Lemma builder_step h m c : table_after h m -> exists m', new_builder m c = SOk m' /\ table_after (h ++ [c]) m'.
Proof.
  intros T. destruct (arch_key_in c) as (f0 & F0). pose proof (table_key _ _ c T) as K. destruct T as [Tk Tf]. unfold new_builder. rewrite K. unfold dlook. rewrite (Tf _ _ F0). cbn [sbind].
  eexists. split; [reflexivity|]. split.
  - intros k. unfold dhas at 1. rewrite dget_dset. destruct (String.eqb_spec k (arch_key ArchMap c)) as [->|]; [unfold dhas; rewrite F0; reflexivity|]. exact (Tk k).
  - intros k f F. rewrite dget_dset, !last_given_snoc. destruct (String.eqb_spec k (arch_key ArchMap c)) as [->|N].
    + rewrite String.eqb_refl. assert (f = f0) by congruence. subst f. f_equal. rewrite set_flags_over, over_over by (apply (archmap_full _ _ F0)). reflexivity.
    + destruct (String.eqb_spec (arch_key ArchMap c) k); [congruence|]. cbn [later]. apply Tf. exact F.
Qed.
Lemma builders_table : forall h2 h1 m, table_after h1 m -> exists m', new_builders m h2 = SOk m' /\ table_after (h1 ++ h2) m'.
Proof.
  induction h2 as [|c h2 IH]; intros h1 m T; cbn [new_builders].
  - exists m. rewrite app_nil_r. auto.
  - destruct (builder_step _ _ c T) as (m1 & E1 & T1). rewrite E1. cbn [sbind]. destruct (IH _ _ T1) as (m' & E & T'). exists m'. split; [exact E|]. rewrite <- app_assoc in T'. exact T'.
Qed.
Lemma table0 : table_after [] ArchMap.
Proof. split; [reflexivity|]. intros k f H. exact H. Qed.
Lemma arch_after h m c : table_after h m -> exists f0, arch_config ArchMap c = SOk f0 /\
  arch_config m c = SOk (over (last_given c_mlp_bias (arch_key ArchMap c) h) (last_given c_attention_bias (arch_key ArchMap c) h) f0).
Proof.
  intros T. destruct (arch_key_in c) as (f0 & F0). exists f0. unfold arch_config. rewrite (table_key _ _ c T). unfold dlook. rewrite F0, (proj2 T _ _ F0). auto.
Qed.
