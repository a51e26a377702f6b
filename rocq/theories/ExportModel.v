(** onnx_tool/__init__.py:29-62 [model_export_tensors_numpy] (after loading the model). *)
From Verif Require Import PyBase ShapeModel FusionModel.
Open Scope string_scope. Open Scope list_scope.

Definition slash : ascii := "/"%char.
Definition bslash : ascii := "\"%char.
Definition under : ascii := "_"%char.
(** [c in s] *)
Fixpoint has_char (c : ascii) (s : string) : bool :=
  match s with EmptyString => false | String a r => (Ascii.eqb a c || has_char c r)%bool end.
(** [s.replace(c, d)] for one-character strings *)
Fixpoint replace_char (c d : ascii) (s : string) : string :=
  match s with EmptyString => EmptyString | String a r => String (if Ascii.eqb a c then d else a) (replace_char c d r) end.
(** posix [os.path.join(folder, f)] *)
Fixpoint ends_slash (s : string) : bool :=
  match s with EmptyString => false | String a EmptyString => Ascii.eqb a slash | String _ r => ends_slash r end.
Definition path_join (folder f : string) : string :=
  match f with
  | String "/" _ => f
  | _ => match folder with EmptyString => f | _ => if ends_slash folder then (folder ++ f)%string else (folder ++ "/" ++ f)%string end
  end.
(** __init__.py:43-49 and 56-62: each replacement starts from the key *)
Definition file_name (key : string) : string :=
  let name := if has_char slash key then replace_char slash under key else key in
  let name := if has_char bslash key then replace_char bslash under key else name in
  (name ++ ".npy")%string.
Section EXPORT.
Context {A : Type}.
(** [accept path]: the operating system lets the process create the file (an OSError, written
    RuntimeErr here, otherwise); [conv]: the optional cast to float16 (lines 32-35). *)
Context (accept : string -> bool) (conv : A -> A).
Fixpoint save_all (vals : dict A) (folder : string) (keys : list string) (fs : dict A) : sres (dict A) :=
  match keys with
  | [] => SOk fs
  | k :: r => let* v := dlook vals k in
              let path := path_join folder (file_name k) in
              if accept path then save_all vals folder r (dset fs path (conv v)) else SRaise RuntimeErr
  end.
(** [tensornames is None]: every initializer; otherwise the given names that are initializers (the
    others are skipped with a warning).  A missing folder argument is "./". *)
Definition export_tensors (initials : list string) (vals : dict A) (names : option (list string)) (folder : option string) (fs : dict A) : sres (dict A) :=
  let f := match folder with Some f => f | None => "./" end in
  match names with
  | None => save_all vals f initials fs
  | Some l => save_all vals f (filter (fun n => memb n initials) l) fs
  end.
End EXPORT.
