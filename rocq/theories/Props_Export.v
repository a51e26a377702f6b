(** C55: exported tensor files. *)
From Verif Require Import PyBase PyBaseFacts ShapeModel FusionModel FusionProofs ExportModel ExportProofs ConvBNProofs.
Open Scope string_scope. Open Scope list_scope.

Definition out_folder (folder : option string) : string := match folder with Some f => f | None => "./" end.
Definition path_of (folder : option string) (k : string) : string := path_join (out_folder folder) (file_name k).
Definition exported (initials : list string) (names : option (list string)) (k : string) : Prop :=
  match names with None => In k initials | Some l => In k l /\ In k initials end.

(** Whatever the names: a file gets the last tensor saved under its path and no other file changes;
    so each tensor whose path is shared with no other exported tensor is in its own file. *)
Theorem C55_each_in_its_file_partial : forall A accept (conv : A -> A) initials vals names folder fs fs',
  export_tensors accept conv initials vals names folder fs = SOk fs' ->
  (forall k, exported initials names k ->
     (forall j, exported initials names j -> path_of folder j = path_of folder k -> j = k) ->
     exists v, dget vals k = Some v /\ dget fs' (path_of folder k) = Some (conv v)) /\
  (forall p, (forall k, exported initials names k -> path_of folder k <> p) -> dget fs' p = dget fs p).
Proof.
  intros A accept conv initials vals names folder fs fs' H.
  assert (Hx : exists keys, save_all accept conv vals (out_folder folder) keys fs = SOk fs' /\ (forall k, In k keys <-> exported initials names k)).
  { unfold export_tensors in H. destruct names as [l|].
    - exists (filter (fun n => memb n initials) l). split; [exact H|]. intros k. rewrite filter_In, memb_In. cbn. tauto.
    - exists initials. split; [exact H|]. intros k. cbn. tauto. }
  clear H. destruct Hx as (keys & H & Iff). destruct (save_all_spec accept conv _ _ _ _ _ H) as (S1 & S2 & S3). split.
  - intros k Hk U. apply Iff in Hk as I. destruct (S1 k I) as (_ & v & Hv). exists v. split; [exact Hv|].
    assert (Q : exists a b, keys = a ++ k :: b /\ ~ In k b).
    { clear -I. induction keys as [|x keys IH]; [contradiction|]. destruct (in_dec string_dec k keys) as [J|J].
      - destruct (IH J) as (a & b & -> & N). exists (x :: a), b. auto.
      - destruct I as [->|I]; [|contradiction]. exists [], keys. auto. }
    destruct Q as (a & b & E & N). apply (S3 a k b v E); auto. intros j Hj Ej. apply N.
    replace k with j; [exact Hj|]. apply U; [apply Iff; rewrite E, in_app_iff; cbn; auto|exact Ej].
  - intros p Hp. apply S2. intros k Hk. apply Hp, Iff, Hk.
Qed.
(** Names without slashes and backslashes never collide, for any folder. *)
Theorem C55_plain_names_distinct : forall folder a b,
  has_char slash a = false -> has_char bslash a = false -> has_char slash b = false -> has_char bslash b = false ->
  path_of folder a = path_of folder b -> a = b.
Proof.
  intros folder a b A1 A2 B1 B2 H. apply join_inj in H; try (apply file_name_noslash; auto).
  rewrite !file_name_nob in H by auto. rewrite !replace_id in H by auto. apply append_inj in H. exact H.
Qed.
(** Exactly which backslash-free names collide: those equal up to '/' and '_'. *)
Theorem C55_collision_iff : forall folder a b, has_char bslash a = false -> has_char bslash b = false ->
  (path_of folder a = path_of folder b <-> replace_char slash under a = replace_char slash under b).
Proof.
  intros folder a b A B. unfold path_of. split; intros H.
  - apply join_inj in H; try (apply file_name_noslash; auto). rewrite !file_name_nob in H by auto. apply append_inj in H. exact H.
  - f_equal. rewrite !file_name_nob by auto. f_equal. exact H.
Qed.
(** Names with at most one of the two separators stay directly inside the folder. *)
Theorem C55_inside_folder : forall folder k, has_char slash k = false \/ has_char bslash k = false ->
  exists f, has_char slash f = false /\
   path_of folder k = (match out_folder folder with EmptyString => f | d => if ends_slash d then d ++ f else d ++ "/" ++ f end)%string.
Proof.
  intros folder k H. exists (file_name k).
  assert (N : has_char slash (file_name k) = false) by (destruct H; [apply file_name_noslash2|apply file_name_noslash]; auto).
  split; [exact N|]. unfold path_of. rewrite join_relative by exact N. destruct (out_folder folder); reflexivity.
Qed.

(** Two initializers of one model in one file: the first one is lost. *)
Theorem C55_collision_refuted : forall (x y : nat), x <> y -> exists fs',
  export_tensors (fun _ => true) id ["layer/w"; "layer_w"] [("layer/w", x); ("layer_w", y)] None (Some "out") [] = SOk fs' /\
  path_of (Some "out") "layer/w" = path_of (Some "out") "layer_w" /\ forall p, dget fs' p <> Some x.
Proof.
  intros x y D. eexists. split; [vm_compute; reflexivity|]. split; [vm_compute; reflexivity|].
  intros p. cbn. destruct (String.eqb p _); congruence.
Qed.
(** A name with both separators keeps its slashes: the file lands outside the chosen folder. *)
Theorem C55_escape_refuted : forall folder, path_of folder "/etc/x\y" = "/etc/x_y.npy".
Proof. intros [f|]; vm_compute; reflexivity. Qed.

(** The hypotheses hold of an ordinary export. *)
Example export_demo : exists fs', export_tensors (fun _ => true) (Z.add 1) ["a/w"; "b"; "c"] [("a/w", 1); ("b", 2); ("c", 3)]%Z (Some ["b"; "zz"; "a/w"]) None [("old", 9%Z)] = SOk fs' /\
  fs' = [("old", 9); ("./b.npy", 3); ("./a_w.npy", 2)]%Z.
Proof. eexists. split; vm_compute; reflexivity. Qed.
