(** C52: operator registration. *)
From Verif Require Import PyBase PyBaseFacts ShapeModel RegistryModel RegistryProofs.
Open Scope string_scope. Open Scope list_scope.

(** [get] returns the latest object registered under the name, None if there is none. *)
Theorem C52_get_latest : forall A (h : list (reg_op A)) name,
  (forall x, latest h name x -> reg_get (reg_run [] h) name = Some x) /\
  (~ registered h name -> reg_get (reg_run [] h) name = None) /\
  (registered h name -> exists x, latest h name x).
Proof.
  intros A h name. unfold reg_get, latest, registered. rewrite run_sets. split; [|split].
  - intros x (a & b & E & Nb). rewrite E, sets_app. cbn [sets]. rewrite sets_other by exact Nb. apply dget_dset_eq.
  - intros H. rewrite sets_other by exact H. reflexivity.
  - intros H. destruct (sets_latest (regs_of h) [] name H) as (x & a & b & E & Nb & _). exists x, a, b. auto.
Qed.
(** [R[name]] returns the same object and raises KeyError exactly for names never registered. *)
Theorem C52_getitem : forall A (h : list (reg_op A)) name,
  (forall x, latest h name x -> reg_getitem (reg_run [] h) name = SOk x) /\
  (reg_getitem (reg_run [] h) name = SRaise KeyErr <-> ~ registered h name).
Proof.
  intros A h name. destruct (C52_get_latest A h name) as (G1 & G2 & G3). unfold reg_get in *. unfold reg_getitem, dhas. split.
  - intros x L. rewrite (G1 x L). reflexivity.
  - split.
    + intros H R. destruct (G3 R) as [x L]. rewrite (G1 x L) in H. discriminate.
    + intros R. rewrite (G2 R). reflexivity.
Qed.
(** Membership, and the list of keys: each registered name once, in order of first registration. *)
Theorem C52_keys : forall A (h : list (reg_op A)),
  NoDup (reg_keys (reg_run [] h)) /\
  (forall name, In name (reg_keys (reg_run [] h)) <-> registered h name) /\
  (forall name, reg_contains (reg_run [] h) name = true <-> registered h name) /\
  (forall h' , exists later, reg_keys (reg_run [] (h ++ h')) = reg_keys (reg_run [] h) ++ later).
Proof.
  intros A h. unfold reg_keys. rewrite run_sets. split; [|split; [|split]].
  - apply sets_nodup. constructor.
  - intros name. rewrite sets_keys. cbn. unfold registered. tauto.
  - intros name. destruct (C52_get_latest A h name) as (G1 & G2 & G3). unfold reg_get in *. rewrite run_sets in *. unfold reg_contains, dhas. split.
    + intros H. destruct (in_dec string_dec name (map fst (regs_of h))) as [I|I]; [exact I|]. rewrite (G2 I) in H. discriminate.
    + intros R. destruct (G3 R) as [x L]. rewrite (G1 x L). reflexivity.
  - intros h'. rewrite run_sets. unfold regs_of at 1. rewrite flat_map_app. apply sets_prefix.
Qed.
(** A registration warns exactly when the name is already taken, and leaves every other name alone. *)
Theorem C52_step : forall A (h : list (reg_op A)) n x o, o = RSet n x \/ o = RCall (Some (n, x)) \/ o = RDeco n x ->
  (snd (reg_step (reg_run [] h) o) = true <-> registered h n) /\
  (forall m, m <> n -> reg_get (reg_run [] (h ++ [o])) m = reg_get (reg_run [] h) m) /\
  reg_get (reg_run [] (h ++ [o])) n = Some x.
Proof.
  intros A h n x o Ho. split; [|split].
  - destruct (C52_keys A h) as (_ & _ & C & _). rewrite <- C. destruct Ho as [->|[->| ->]]; reflexivity.
  - intros m D. unfold reg_get. rewrite !run_sets. unfold regs_of at 1. rewrite flat_map_app, sets_app. apply sets_other.
    destruct Ho as [->|[->| ->]]; cbn; intuition congruence.
  - apply (proj1 (C52_get_latest A (h ++ [o]) n)). exists (regs_of h), []. split; [|auto].
    unfold regs_of. rewrite flat_map_app. destruct Ho as [->|[->| ->]]; reflexivity.
Qed.
(** Loading a node: the latest class registered as "<op>Node" is used, the base class (with a
    warning) otherwise; registering a class for one operator does not change the others. *)
Theorem C52_create_node : forall A (h : list (reg_op A)) base op,
  (forall c, latest h (op ++ "Node")%string c -> create_node_class (reg_run [] h) base op = (c, false)) /\
  (~ registered h (op ++ "Node")%string -> create_node_class (reg_run [] h) base op = (base, true)).
Proof.
  intros A h base op. destruct (C52_get_latest A h (op ++ "Node")%string) as (G1 & G2 & _). unfold create_node_class. split.
  - intros c L. rewrite (G1 c L). reflexivity.
  - intros R. rewrite (G2 R). reflexivity.
Qed.
(** the hypotheses are met: a history with an overriding registration and a decorator call *)
Example reg_demo : let h := [RDeco "ReluNode" 1; RCall None; RSet "ReluNode" 2; RCall (Some ("AddNode", 3))] in
  latest h "ReluNode" 2 /\ latest h "AddNode" 3 /\ ~ registered h "SubNode" /\ reg_keys (reg_run [] h) = ["ReluNode"; "AddNode"].
Proof.
  cbn. repeat split.
  - exists [("ReluNode", 1)], [("AddNode", 3)]. split; [reflexivity|]. cbn. intuition discriminate.
  - exists [("ReluNode", 1); ("ReluNode", 2)], []. split; [reflexivity|]. auto.
  - unfold registered. cbn. intuition discriminate.
Qed.
