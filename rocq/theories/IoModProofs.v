(** Proofs about model_io_modify. *)
From Coq Require Import String Ascii DecimalString DecimalN DecimalFacts ZArith List Lia.
From Verif Require Import PyBase PyBaseFacts GraphModel CompressSpec RelSpec RelProofs TopSortSpec OrderProofs
  EditModel EditSpec RemoveProofs IoProofs PartitionModel PartitionSpec PartitionProofs ConstProofs RegressModel LoadModel LoadSpec LoadNames LoadLoop LoadProofs LoadFinal LoadFold LoadSave
  IoModModel IoModSpec.
Import ListNotations.
Local Open Scope list_scope.

(** ---- splitting ---- *)
Lemma has_cons c d s : has_char c (String d s) <-> c = d \/ has_char c s.
Proof.
  split.
  - intros (a & b & E). destruct a as [|e a]; cbn in E; injection E as -> ->; [left; reflexivity|right; exists a, b; reflexivity].
  - intros [->|(a & b & ->)]; [exists ""%string, s; reflexivity|exists (String d a), b; reflexivity].
Qed.
Lemma has_nil c : ~ has_char c "".
Proof. intros (a & b & E). destruct a; discriminate. Qed.
Lemma split_ne s : split_x s <> [].
Proof. destruct s as [|c s]; cbn [split_x]; [discriminate|]. destruct (Ascii.eqb c "x"); [discriminate|]. destruct (split_x s); discriminate. Qed.
Lemma split_word s : ~ has_char "x" s -> split_x s = [s].
Proof.
  induction s as [|c s IH]; intros H; [reflexivity|]. rewrite has_cons in H. cbn [split_x].
  destruct (Ascii.eqb_spec c "x") as [->|N]; [exfalso; apply H; auto|]. rewrite IH by tauto. reflexivity.
Qed.
Lemma split_cat s r : ~ has_char "x" s -> split_x (s ++ "x" ++ r) = s :: split_x r.
Proof.
  induction s as [|c s IH]; intros H; [reflexivity|]. rewrite has_cons in H. cbn [String.append split_x].
  destruct (Ascii.eqb_spec c "x") as [->|N]; [exfalso; apply H; auto|]. cbn [String.append] in IH. rewrite IH by tauto. reflexivity.
Qed.

(** ---- numerals ---- *)
Lemma uint_digits d : all_digits (NilEmpty.string_of_uint d) = true.
Proof. induction d; cbn [NilEmpty.string_of_uint all_digits]; [reflexivity|..]; rewrite IHd; reflexivity. Qed.
Lemma digits_no_x s : all_digits s = true -> ~ has_char "x" s.
Proof.
  induction s as [|c s IH]; intros H; [apply has_nil|]. cbn [all_digits] in H. apply andb_true_iff in H as [A B]. rewrite has_cons. intros [<-|X]; [discriminate|]. exact (IH B X).
Qed.
Lemma numeral_ne n : numeral n <> ""%string.
Proof.
  unfold numeral. intros E. assert (N.to_uint n <> Decimal.Nil). { destruct n; [discriminate|]. apply DecimalPos.Unsigned.to_uint_nonnil. }
  destruct (N.to_uint n); [contradiction|discriminate..].
Qed.
Lemma numeral_numeric n : isnumeric (numeral n) = true.
Proof. assert (N := numeral_ne n). assert (D := uint_digits (N.to_uint n)). fold (numeral n) in D. unfold isnumeric. destruct (numeral n); [contradiction|exact D]. Qed.
Lemma numeral_int n : int_of (numeral n) = Z.of_N n.
Proof. unfold int_of, numeral. rewrite NilEmpty.usu, Unsigned.of_to. reflexivity. Qed.
Lemma numeric_chars s c : isnumeric s = true -> has_char c s -> (48 <= N_of_ascii c <= 57)%N.
Proof.
  intros H. assert (A : all_digits s = true) by (destruct s; [discriminate|exact H]). clear H. induction s as [|d s IH]; intros X; [destruct (has_nil _ X)|].
  cbn [all_digits] in A. apply andb_true_iff in A as [A B]. apply has_cons in X as [->|X]; [|auto]. unfold is_digit in A. apply andb_true_iff in A as [P Q]. lia.
Qed.
Lemma plain_no_x w : plain w -> ~ has_char "x" (spell w).
Proof. destruct w as [n|s]; cbn [plain spell]; [intros _; apply digits_no_x, uint_digits|tauto]. Qed.
Lemma plain_dim w : plain w -> set_dim (spell w) = Ok (want_dim w).
Proof.
  destruct w as [n|s]; cbn [plain spell want_dim]; unfold set_dim.
  - intros L. rewrite numeral_numeric, numeral_int. replace (Z.of_N n <=? 2 ^ 63 - 1)%Z with true; [reflexivity|]. symmetry. apply Z.leb_le. 
    assert (Z.of_N n < Z.of_N (2 ^ 63))%Z by lia. replace (Z.of_N (2 ^ 63)) with (2 ^ 63)%Z in H by reflexivity. lia.
  - intros [_ H]. destruct (isnumeric s) eqn:E; [|reflexivity]. exfalso. destruct H as [->|(c & X & Y)]; [discriminate|]. assert (Z := numeric_chars s c E X). lia.
Qed.
Lemma split_spelled ws : ws <> [] -> Forall plain ws -> split_x (spell_all ws) = map spell ws.
Proof.
  induction ws as [|w r IH]; intros N F; [contradiction|]. inversion_clear F as [|? ? P F']. destruct r as [|w2 r].
  - cbn [spell_all map]. apply split_word, plain_no_x. exact P.
  - change (spell_all (w :: w2 :: r)) with (spell w ++ "x" ++ spell_all (w2 :: r))%string. rewrite split_cat by (apply plain_no_x; exact P). rewrite IH by (congruence || assumption). reflexivity.
Qed.
Lemma set_spelled ws : Forall plain ws -> set_dims (map spell ws) = Ok (map want_dim ws).
Proof. induction 1 as [|w r P F IH]; [reflexivity|]. cbn [map set_dims]. rewrite plain_dim by exact P. cbn [bind]. rewrite IH. reflexivity. Qed.

(** ---- the edit ---- *)
Definition good (asks : list (string * list want)) : Prop := forall t ws, wanted asks t = Some ws -> ws <> [] /\ Forall plain ws.
Definition edited (asks : list (string * list want)) (x : string * vinfo) : string * vinfo :=
  (fst x, match wanted asks (fst x) with Some ws => mkVI (vi_elem (snd x)) (map want_dim ws) | None => snd x end).
Lemma request_get asks t : dget (request asks) t = option_map spell_all (wanted asks t).
Proof. unfold request, wanted. induction asks as [|[k w] r IH]; [reflexivity|]. cbn [map fst snd dget]. destruct (String.eqb t k); [reflexivity|exact IH]. Qed.
Definition ranks_ok asks (l : list (string * vinfo)) : Prop := forall t v ws, In (t, v) l -> wanted asks t = Some ws -> length ws = length (vi_dims v).
Lemma edit_one_ok asks x : good asks -> (forall ws, wanted asks (fst x) = Some ws -> length ws = length (vi_dims (snd x))) -> edit_one (request asks) x = Ok (edited asks x).
Proof.
  intros G R. unfold edit_one, edited. rewrite request_get. destruct (wanted asks (fst x)) as [ws|] eqn:E; cbn [option_map]; [|destruct x; reflexivity].
  destruct (G _ _ E) as [N F]. rewrite split_spelled by assumption. rewrite map_length, (R ws eq_refl), Nat.eqb_refl. rewrite set_spelled by exact F. reflexivity.
Qed.
Lemma edit_one_bad asks x ws : good asks -> wanted asks (fst x) = Some ws -> length ws <> length (vi_dims (snd x)) -> edit_one (request asks) x = AssertionError.
Proof.
  intros G E R. unfold edit_one. rewrite request_get, E. cbn [option_map]. destruct (G _ _ E) as [N F]. rewrite split_spelled by assumption. rewrite map_length.
  destruct (Nat.eqb_spec (length ws) (length (vi_dims (snd x)))); [contradiction|reflexivity].
Qed.
Lemma edit_all_ok asks l : good asks -> ranks_ok asks l -> edit_all (request asks) l = Ok (map (edited asks) l).
Proof.
  intros G. induction l as [|x r IH]; intros R; [reflexivity|]. cbn [edit_all map]. rewrite edit_one_ok; [|exact G|].
  - cbn [bind]. rewrite IH; [reflexivity|]. intros t v ws I. apply R. right. exact I.
  - intros ws E. apply (R (fst x) (snd x) ws); [left; destruct x; reflexivity|exact E].
Qed.
Lemma edit_all_bad asks l t v ws : good asks -> In (t, v) l -> wanted asks t = Some ws -> length ws <> length (vi_dims v) -> edit_all (request asks) l = AssertionError.
Proof.
  intros G I E L. induction l as [|x r IH]; [destruct I|]. cbn [edit_all]. destruct I as [->|I].
  - rewrite (edit_one_bad asks (t, v) ws G E L). reflexivity.
  - destruct (wanted asks (fst x)) as [w|] eqn:W.
    + destruct (Nat.eq_dec (length w) (length (vi_dims (snd x)))) as [Q|Q].
      * rewrite edit_one_ok; [|exact G|intros w' X; congruence]. cbn [bind]. rewrite IH by exact I. reflexivity.
      * rewrite (edit_one_bad asks x w G W Q). reflexivity.
    + rewrite edit_one_ok; [|exact G|intros w' X; congruence]. cbn [bind]. rewrite IH by exact I. reflexivity.
Qed.

(** ---- the whole call ---- *)
Lemma seen_names l : map fst (seen_all l) = map fst l.
Proof. unfold seen_all. rewrite map_map. reflexivity. Qed.
Lemma edited_names asks l : map fst (map (edited asks) l) = map fst l.
Proof. rewrite map_map. reflexivity. Qed.
Lemma dget_map_val {A B} (f : string -> A -> B) (l : dict A) t : dget (map (fun x => (fst x, f (fst x) (snd x))) l) t = option_map (f t) (dget l t).
Proof. induction l as [|[k v] r IH]; [reflexivity|]. cbn [map fst snd dget]. destruct (String.eqb_spec t k) as [->|]; [reflexivity|exact IH]. Qed.
(** the description written for [t], declared as [v] *)
Definition new_info asks (t : string) (v : vinfo) : vinfo := mkVI (vi_elem v) (new_dims asks t v).
Lemma seen_edited asks x : seen (snd (edited asks x)) = new_info asks (fst x) (snd x).
Proof.
  unfold edited, new_info, new_dims, seen. cbn [snd]. destruct (wanted asks (fst x)) as [ws|]; cbn [vi_elem vi_dims]; f_equal.
  rewrite map_map. apply map_ext. intros [n|s]; reflexivity.
Qed.
Section CALL.
Context {D : Type}.
Variable info_of : D -> vinfo.
Variable v0 : vinfo.
Variable eval : node -> list (option D) -> nat -> option D.
Implicit Types (p : @proto D vinfo).
Definition after asks (p : @proto D vinfo) : @proto D vinfo :=
  mkProto (p_nodes p) (p_init p) (map (fun x => (fst x, new_info asks (fst x) (snd x))) (p_in p))
    (map (fun x => (fst x, new_info asks (fst x) (snd x))) (p_out p)) (seen_all (p_vi p)).
Lemma after_seen asks p : as_seen (mkProto (p_nodes p) (p_init p) (map (edited asks) (p_in p)) (map (edited asks) (p_out p)) (p_vi p)) = after asks p.
Proof.
  unfold as_seen, after. cbn [p_nodes p_init p_in p_out p_vi]. unfold seen_all. f_equal; rewrite map_map; apply map_ext; intros x; rewrite seen_edited; reflexivity.
Qed.
Lemma valid_same (p q : @proto D vinfo) : p_nodes q = p_nodes p -> p_init q = p_init p -> declared q = declared p -> valid_file p -> valid_file q.
Proof. intros E1 E2 E3 [A B C0 C1 C2 C3]. constructor; unfold stored_in in *; rewrite ?E1, ?E2, ?E3; assumption. Qed.
Lemma after_valid asks p : valid_file p -> valid_file (after asks p).
Proof. apply valid_same; try reflexivity. unfold declared, after. cbn [p_init p_in p_out p_vi]. rewrite !map_map, seen_names. reflexivity. Qed.
Lemma seen_valid p : valid_file p -> valid_file (as_seen p).
Proof. apply valid_same; try reflexivity. unfold declared, as_seen. cbn [p_init p_in p_out p_vi]. rewrite !seen_names. reflexivity. Qed.
Lemma edit_ok asks p : good asks -> ranks_ok asks (p_in p ++ p_out p) ->
  edit_proto (request asks) p = Ok (mkProto (p_nodes p) (p_init p) (map (edited asks) (p_in p)) (map (edited asks) (p_out p)) (p_vi p)).
Proof.
  intros G R. unfold edit_proto. rewrite edit_all_ok; [cbn [bind]; rewrite edit_all_ok; [reflexivity|exact G|]|exact G|]; intros t v ws I; apply (R t v ws); apply in_app_iff; auto.
Qed.
Lemma edit_bad asks p t v ws : good asks -> In (t, v) (p_in p ++ p_out p) -> wanted asks t = Some ws -> length ws <> length (vi_dims v) ->
  edit_proto (request asks) p = AssertionError.
Proof.
  intros G I E L. unfold edit_proto. apply in_app_iff in I as [I|I]; [rewrite (edit_all_bad asks _ t v ws G I E L); reflexivity|].
  assert (X : edit_all (request asks) (p_in p) = Ok (map (edited asks) (p_in p)) \/ edit_all (request asks) (p_in p) = AssertionError).
  { clear I. induction (p_in p) as [|x r IH]; [left; reflexivity|]. cbn [edit_all map].
    destruct (wanted asks (fst x)) as [w|] eqn:W.
    - destruct (Nat.eq_dec (length w) (length (vi_dims (snd x)))) as [Q|Q].
      + rewrite edit_one_ok; [|exact G|intros w' Y; congruence]. cbn [bind]. destruct IH as [-> | ->]; auto.
      + rewrite (edit_one_bad asks x w G W Q). auto.
    - rewrite edit_one_ok; [|exact G|intros w' Y; congruence]. cbn [bind]. destruct IH as [-> | ->]; auto. }
  destruct X as [-> | ->]; cbn [bind]; [|reflexivity]. rewrite (edit_all_bad asks _ t v ws G I E L). reflexivity.
Qed.
End CALL.
