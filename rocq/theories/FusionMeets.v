(** The test the search applies is the independent condition of FusionSpec. *)
From Verif Require Import PyBase PyBaseFacts GraphModel ShapeModel FusionModel FusionSpec.
Open Scope string_scope. Open Scope Z_scope.

Lemma op_ok_meets : forall c op, op_ok c op = true <-> op_meets c op.
Proof.
  intros [s|l] op; cbn [op_ok op_meets].
  - destruct (String.eqb_spec s "Any") as [->|N]; [tauto|]. rewrite String.eqb_eq. split; [auto|]. intros [?|?]; [contradiction|auto].
  - apply memb_In.
Qed.
Lemma logical_compares : forall op v num, logical op v num = SOk true <-> exists z, v = AvInt z /\ compares op z num.
Proof.
  intros op v num. unfold logical, compares. destruct v as [z|l|].
  2,3: destruct (String.eqb op "=="); split; [discriminate|intros (z & E & _); discriminate|discriminate|intros (z & E & _); discriminate].
  destruct (String.eqb_spec op "<=") as [->|N1]; [|destruct (String.eqb_spec op "<") as [->|N2]; [|destruct (String.eqb_spec op ">=") as [->|N3];
    [|destruct (String.eqb_spec op ">") as [->|N4]; [|destruct (String.eqb_spec op "==") as [->|N5]]]]].
  6:{ split; [discriminate|]. intros (z' & _ & H). intuition. }
  all: split; [intros H; injection H as H; exists z; split; [reflexivity|]; lia || (apply Z.leb_le in H || apply Z.ltb_lt in H || apply Z.eqb_eq in H; intuition lia)
    |intros (z' & E & H); injection E as <-; f_equal; (apply Z.leb_le || apply Z.ltb_lt || apply Z.eqb_eq);
     destruct H as [[Q ?]|[[Q ?]|[[Q ?]|[[Q ?]|[Q ?]]]]]; try discriminate Q; lia].
Qed.
Lemma attr_meets : forall G x n, attr_call G x n = SOk true <->
  exists v z, fattr G (n_name n) (x_name x) = Some v /\ selects v (x_idx x) z /\ compares (x_op x) z (x_num x).
Proof.
  intros G x n. unfold attr_call, selects. destruct (fattr G (n_name n) (x_name x)) as [v|].
  2:{ split; [discriminate|]. intros (v & z & E & _). discriminate. }
  destruct (Z.eqb_spec (x_idx x) (-1)) as [E1|N1].
  - rewrite logical_compares. split; [intros (z & -> & H); exists (AvInt z), z; auto|]. intros (v' & z & E & -> & H). injection E as ->. eauto.
  - destruct v as [z|l|].
    1,3: split; [discriminate|intros (v & z' & E & (l & Q & _) & _); congruence].
    assert (P : forall z, py_index l (x_idx x) = SOk z <-> ((0 <= x_idx x /\ nth_error l (Z.to_nat (x_idx x)) = Some z) \/
       (x_idx x < 0 /\ 0 <= Z.of_nat (length l) + x_idx x /\ nth_error l (Z.to_nat (Z.of_nat (length l) + x_idx x)) = Some z))).
    { intros z. unfold py_index. destruct (Z.ltb_spec (x_idx x) 0) as [L|L].
      - replace (x_idx x + Z.of_nat (length l)) with (Z.of_nat (length l) + x_idx x) by lia.
        destruct (Z.ltb_spec (Z.of_nat (length l) + x_idx x) 0); [split; [discriminate|lia]|].
        destruct (nth_error l (Z.to_nat (Z.of_nat (length l) + x_idx x))) as [y|].
        + split; [intros E; injection E as ->; auto|intros [[? _]|(_ & _ & E)]; [lia|congruence]].
        + split; [discriminate|intros [[? _]|(_ & _ & E)]; [lia|congruence]].
      - destruct (Z.ltb_spec (x_idx x) 0); [lia|]. destruct (nth_error l (Z.to_nat (x_idx x))) as [y|].
        + split; [intros E; injection E as ->; auto|intros [[_ E]|(? & _)]; [congruence|lia]].
        + split; [discriminate|intros [[_ E]|(? & _)]; [congruence|lia]]. }
    destruct (py_index l (x_idx x)) as [y|e] eqn:PI; cbn [sbind].
    + rewrite logical_compares. split.
      * intros (z & E & H). injection E as ->. exists (AvList l), z. split; auto. split; auto. exists l. split; auto. apply P. reflexivity.
      * intros (v & z & E & (l' & -> & S) & H). injection E as <-. apply P in S. injection S as ->. eauto.
    + split; [discriminate|]. intros (v & z & E & (l' & -> & S) & H). injection E as <-. apply P in S. discriminate.
Qed.
Theorem is_node_meets : forall G d n, is_node G d n = SOk true <-> node_meets G d n.
Proof.
  intros G d n. unfold is_node, node_meets. rewrite <- op_ok_meets.
  assert (H : forall xs b, attrs_ok G xs n b = SOk true <-> b = true /\ forall x, In x xs -> attr_call G x n = SOk true).
  { induction xs as [|x xs IH]; intros b; cbn [attrs_ok].
    - split; [intros E; injection E as ->; split; [reflexivity|intros x []]|intros [-> _]; reflexivity].
    - destruct (attr_call G x n) as [c|e] eqn:A; cbn [sbind].
      + rewrite IH. split.
        * intros [B C]. apply andb_prop in B as [-> ->]. split; [reflexivity|]. intros y [<-|Y]; auto.
        * intros [-> C]. assert (Q := C x (or_introl eq_refl)). rewrite A in Q. injection Q as ->. split; [reflexivity|]. intros y Y. apply C. right; exact Y.
      + split; [discriminate|]. intros [_ C]. assert (Q := C x (or_introl eq_refl)). congruence. }
  rewrite H. split; intros [A B]; (split; [exact A|]); intros x I; apply attr_meets; auto.
Qed.
