(** C119: the printed report of an LLM (Builder.print_profile). *)
From Coq Require Import DecimalString DecimalN Reals Lra Lia Bool Arith.
From Flocq Require Import Core.
From Verif Require Import PyBase FloatPy ProfileModel LlmPerf Props_LlmPerf Props_Profile LlmReportModel.
Local Open Scope string_scope.
Local Open Scope list_scope.
Local Open Scope Z_scope.

(** ** Reading the cells: decimal digits, commas ignored; a decimal fraction; sizes separated by 'x' *)
Fixpoint horner (acc : Z) (s : string) : option Z :=
  match s with
  | EmptyString => Some acc
  | String c r => let d := Z.of_nat (nat_of_ascii c) - 48 in if (0 <=? d) && (d <=? 9) then horner (10 * acc + d) r else None
  end.
Fixpoint strip (a : ascii) (s : string) : string :=
  match s with EmptyString => EmptyString | String c r => if Ascii.eqb c a then strip a r else String c (strip a r) end.
Definition number (s : string) : option Z := match strip ","%char s with EmptyString => None | t => horner 0 t end.
Definition decimal (s : string) : option R :=
  match pieces "."%char s with
  | [a; f] => match number a, number f with Some m, Some k => Some (IZR m + IZR k / IZR (10 ^ Z.of_nat (String.length f)))%R | _, _ => None end
  | _ => None
  end.
Definition sizes (s : string) : list (option Z) := map number (pieces "x"%char s).
(** the cell of a row under a heading *)
Fixpoint cell (h : string) (head row : list string) : option string :=
  match head, row with a :: r, c :: q => if String.eqb a h then Some c else cell h r q | _, _ => None end.

(** ** Lemmas *)
Lemma horner_digit acc c r d : Z.of_nat (nat_of_ascii c) - 48 = d -> 0 <= d <= 9 -> horner acc (String c r) = horner (10 * acc + d) r.
Proof.
  intros E H. cbn [horner]. rewrite E. cbv zeta. destruct (Z.leb_spec 0 d); [|lia]. destruct (Z.leb_spec d 9); [|lia]. reflexivity.
Qed.
Lemma horner_acc d : forall p, horner (Zpos p) (NilEmpty.string_of_uint d) = Some (Zpos (Pos.of_uint_acc d p)).
Proof.
  induction d as [|d IH|d IH|d IH|d IH|d IH|d IH|d IH|d IH|d IH|d IH]; intros p; cbn [NilEmpty.string_of_uint Pos.of_uint_acc]; [reflexivity|..];
    (erewrite horner_digit; [|vm_compute; reflexivity|lia]); rewrite <- IH; f_equal; lia.
Qed.
Lemma horner_0 d : horner 0 (NilEmpty.string_of_uint d) = Some (Z.of_N (Pos.of_uint d)).
Proof.
  induction d as [|d IH|d IH|d IH|d IH|d IH|d IH|d IH|d IH|d IH|d IH]; cbn [NilEmpty.string_of_uint Pos.of_uint]; [reflexivity|..];
    (erewrite horner_digit; [|vm_compute; reflexivity|lia]); cbn [Z.mul Z.add Z.of_N]; [exact IH|apply horner_acc..].
Qed.
Lemma udec_horner n : 0 <= n -> horner 0 (udec n) = Some n /\ udec n <> ""%string.
Proof.
  intros H. unfold udec. pose proof (DecimalN.Unsigned.of_to (Z.to_N n)) as X. unfold N.of_uint in X.
  assert (Y : N.to_uint (Z.to_N n) = Decimal.Nil \/ NilZero.string_of_uint (N.to_uint (Z.to_N n)) = NilEmpty.string_of_uint (N.to_uint (Z.to_N n))).
  { unfold NilZero.string_of_uint. destruct (N.to_uint (Z.to_N n)); auto. }
  destruct Y as [Y|Y].
  - rewrite Y in *. change (Pos.of_uint Decimal.Nil) with 0%N in X. assert (n = 0) by lia. subst n. split; [reflexivity|discriminate].
  - rewrite Y. rewrite horner_0. change (Pos.of_uint (N.to_uint (Z.to_N n))) with (N.of_uint (N.to_uint (Z.to_N n))) at 1. split; [f_equal; unfold N.of_uint; rewrite X; lia|].
    rewrite <- Y. unfold NilZero.string_of_uint. destruct (N.to_uint (Z.to_N n)); discriminate.
Qed.
(** digits only *)
Definition is_digit (c : ascii) : bool := (48 <=? Z.of_nat (nat_of_ascii c)) && (Z.of_nat (nat_of_ascii c) <=? 57).
Lemma horner_digits s : forall acc v, horner acc s = Some v -> forall a, is_digit a = false -> has_char a s = false.
Proof.
  induction s as [|c r IH]; intros acc v H a A; [reflexivity|]. cbn [horner has_char] in *.
  destruct ((0 <=? Z.of_nat (nat_of_ascii c) - 48) && (Z.of_nat (nat_of_ascii c) - 48 <=? 9)) eqn:E; [|discriminate].
  rewrite (IH _ _ H a A), orb_false_r. destruct (Ascii.eqb_spec c a) as [->|]; [|reflexivity]. exfalso.
  unfold is_digit in A. apply andb_true_iff in E as [E1 E2]. apply Z.leb_le in E1, E2. apply andb_false_iff in A as [A|A]; apply Z.leb_gt in A; lia.
Qed.
Lemma strip_id a s : has_char a s = false -> strip a s = s.
Proof. induction s as [|c r IH]; intros H; cbn in *; [reflexivity|]. apply orb_false_iff in H as [H1 H2]. rewrite H1, (IH H2). reflexivity. Qed.
Lemma strip_grouped s : has_char ","%char s = false -> strip ","%char (grouped s) = s.
Proof.
  induction s as [|c r IH]; intros H; [reflexivity|]. cbn [has_char] in H. apply orb_false_iff in H as [H1 H2]. cbn [grouped strip]. rewrite H1.
  f_equal. destruct r as [|d q]; [reflexivity|]. destruct (Nat.eqb _ 0).
  - change (strip "," (String "," (grouped (String d q)))) with (strip ","%char (grouped (String d q))). apply IH, H2.
  - apply IH, H2.
Qed.
Lemma number_of s n : horner 0 s = Some n -> s <> ""%string -> number s = Some n /\ number (grouped s) = Some n.
Proof.
  intros H N. pose proof (horner_digits _ _ _ H ","%char eq_refl) as D. unfold number. rewrite strip_grouped, strip_id by exact D.
  destruct s; [contradiction|]. auto.
Qed.
Lemma udec_number n : 0 <= n -> number (udec n) = Some n.
Proof. intros H. destruct (udec_horner n H). apply number_of; assumption. Qed.
Lemma zdec_pos n : 0 <= n -> zdec n = udec n.
Proof. intros H. unfold zdec. destruct (Z.ltb_spec n 0); [lia|reflexivity]. Qed.
Lemma num2str_number csv n : 0 <= n -> number (num2str csv n) = Some n.
Proof.
  intros H. unfold num2str. rewrite zdec_pos by exact H. destruct (udec_horner n H). destruct csv; [apply udec_number; exact H|].
  destruct (Z.ltb_spec n 0); [lia|]. apply number_of; assumption.
Qed.
Lemma udec_has n a : 0 <= n -> is_digit a = false -> has_char a (udec n) = false.
Proof. intros H A. destruct (udec_horner n H) as [E _]. exact (horner_digits _ _ _ E a A). Qed.
Lemma zdec_has n a : is_digit a = false -> Ascii.eqb "-"%char a = false -> has_char a (zdec n) = false.
Proof.
  intros A M. unfold zdec. destruct (Z.ltb_spec n 0); [cbn [has_char]; rewrite M; cbn [orb]|]; apply udec_has; try exact A; lia.
Qed.
Lemma sizes_tuple l : l <> [] -> Forall (fun v => 0 <= v) l -> sizes (tuple2str "x" l) = map Some l.
Proof.
  intros N F. unfold sizes. induction F as [|v r V F IH]; [contradiction|]. cbn [map]. rewrite <- (udec_number v V). destruct r as [|u r].
  - cbn [tuple2str]. rewrite zdec_pos by exact V. rewrite pieces_one by (apply udec_has; [exact V|reflexivity]). reflexivity.
  - change (tuple2str "x" (v :: u :: r)) with (zdec v ++ String "x"%char (tuple2str "x" (u :: r)))%string. rewrite zdec_pos by exact V.
    rewrite pieces_app by (apply udec_has; [exact V|reflexivity]). cbn [map]. f_equal. apply IH. discriminate.
Qed.
Lemma tuple_has l a : is_digit a = false -> Ascii.eqb "-"%char a = false -> Ascii.eqb "x"%char a = false -> has_char a (tuple2str "x" l) = false.
Proof.
  intros A M X. induction l as [|v r IH]; [reflexivity|]. destruct r as [|u r]; [apply zdec_has; assumption|].
  change (tuple2str "x" (v :: u :: r)) with (zdec v ++ String "x"%char (tuple2str "x" (u :: r)))%string. rewrite has_app, zdec_has by assumption.
  cbn [has_char orb]. rewrite X. exact IH.
Qed.
Lemma digit_code d : 0 <= d <= 9 -> Z.of_nat (nat_of_ascii (digit d)) - 48 = d.
Proof. intros H. unfold digit. rewrite nat_ascii_embedding by lia. lia. Qed.
Lemma five_horner k : 0 <= k < 100000 -> horner 0 (five k) = Some k.
Proof.
  intros H. unfold five.
  assert (D : forall x, 0 <= x mod 10 <= 9) by (intros x; pose proof (Z.mod_pos_bound x 10 ltac:(lia)); lia).
  assert (D0 : 0 <= k / 10000 <= 9) by (split; [apply Z.div_pos; lia|]; assert (k / 10000 < 10) by (apply Z.div_lt_upper_bound; lia); lia).
  rewrite (horner_digit _ _ _ _ (digit_code _ D0) D0).
  do 4 (erewrite horner_digit; [|apply digit_code, D|apply D]). cbn [horner]. f_equal.
  pose proof (Z.div_mod k 10 ltac:(lia)). pose proof (Z.div_mod (k / 10) 10 ltac:(lia)). pose proof (Z.div_mod (k / 100) 10 ltac:(lia)). pose proof (Z.div_mod (k / 1000) 10 ltac:(lia)).
  assert (E0 : k / 10 / 10 = k / 100) by (rewrite Z.div_div by lia; reflexivity). assert (E1 : k / 100 / 10 = k / 1000) by (rewrite Z.div_div by lia; reflexivity).
  assert (E2 : k / 1000 / 10 = k / 10000) by (rewrite Z.div_div by lia; reflexivity). rewrite E0, E1, E2 in *. lia.
Qed.
Lemma fixed_parts n : 0 <= n -> decimal (udec (n / 100000) ++ "." ++ five (n mod 100000))%string = Some (IZR n / 100000)%R.
Proof.
  intros H. pose proof (Z.mod_pos_bound n 100000 ltac:(lia)) as B. assert (P : 0 <= n / 100000) by (apply Z.div_pos; lia).
  pose proof (five_horner _ B) as F5. unfold decimal.
  change (udec (n / 100000) ++ "." ++ five (n mod 100000))%string with (udec (n / 100000) ++ String "."%char (five (n mod 100000)))%string.
  rewrite pieces_app by (apply udec_has; [exact P|reflexivity]). rewrite pieces_one by (exact (horner_digits _ _ _ F5 "."%char eq_refl)).
  rewrite udec_number by exact P. rewrite (proj1 (number_of _ _ F5 ltac:(discriminate))). f_equal.
  change (IZR (10 ^ Z.of_nat (String.length (five (n mod 100000))))) with 100000%R.
  rewrite (Z.div_mod n 100000) at 3 by lia. rewrite plus_IZR, mult_IZR. field.
Qed.
Lemma ZnearestE_pos x : (0 <= x)%R -> 0 <= ZnearestE x.
Proof.
  intros H. apply le_IZR. pose proof (Znearest_half (fun x => negb (Z.even x)) x) as E. apply Rabs_le_inv in E.
  destruct (Z_lt_le_dec (ZnearestE x) 0) as [L|L]; [|apply IZR_le; exact L]. assert (ZnearestE x <= -1) by lia. apply IZR_le in H0. lra.
Qed.
(** the printed latency: five decimals, off by at most half a unit of the last *)
Lemma fixed5_reads x : (0 <= x)%R -> exists q, decimal (fixed5 x) = Some q /\ (Rabs (q - x) <= 5 / 1000000)%R /\ exists k, q = (IZR k / 100000)%R.
Proof.
  intros H. unfold fixed5. cbv zeta. exists (IZR (ZnearestE (x * 100000)) / 100000)%R. split; [apply fixed_parts, ZnearestE_pos; lra|]. split; [|eauto].
  pose proof (Znearest_half (fun x => negb (Z.even x)) (x * 100000)) as E. apply Rabs_le_inv in E. apply Rabs_le. lra.
Qed.
(** ** C119 *)
(** A sane row: sizes that can be counted, as [graph.profile()] leaves them ((0,) for a scalar: graph.py:1469-1476). *)
Definition sane_row (n : lrow) : Prop :=
  sane_node (w_node n) /\ w_in n <> [] /\ w_out n <> [] /\ Forall (fun v => 0 <= v) (w_in n) /\ Forall (fun v => 0 <= v) (w_out n).
Section REPORT.
Variable float_text : bool -> R -> string.
Variable b : bits.
Implicit Types (dev : option device) (ns : list lrow).

(** One row per node and the Total row, all as long as the header; the latency columns are there exactly when there is a latency. *)
Theorem C119_table : forall csv dev ns, let head := fst (llm_table float_text b csv dev ns) in let rows := snd (llm_table float_text b csv dev ns) in
  length rows = S (length ns) /\ Forall (fun r => length r = length head) rows /\
  (In "Projected Latency(ms)"%string head <-> exists d, dev = Some d /\ (0 < lr_latency (llm_profile b d (map w_node ns)))%R) /\
  map (cell "Name" head) rows = map (fun n => Some (w_name n)) ns ++ [Some "Total"%string] /\
  map (cell "Type" head) rows = map (fun n => Some (p_op (w_node n))) ns ++ [Some "_"%string].
Proof.
  intros csv dev ns head rows. unfold head, rows, llm_table. cbn [fst snd]. split; [rewrite app_length, map_length; cbn [length]; lia|]. split; [|split].
  - apply Forall_app. split.
    + apply Forall_forall. intros r I. apply in_map_iff in I as (n & <- & _). unfold llm_row, llm_header. rewrite !app_length. destruct (timed b dev ns); reflexivity.
    + constructor; [|constructor]. unfold llm_total. destruct (totals b dev ns) as [[fl me] la]. unfold llm_header. rewrite !app_length. destruct (timed b dev ns); reflexivity.
  - unfold timed, llm_header, totals. destruct dev as [d|]; cbn [snd].
    + destruct (Rlt_dec 0 (lr_latency (llm_profile b d (map w_node ns)))) as [L|L].
      * split; [intros _; eauto|intros _; cbn [app In]; auto 10].
      * split; [|intros (d' & [= <-] & L'); contradiction]. cbn [app In]. intros I. repeat (destruct I as [I|I]; [discriminate I|]). destruct I.
    + split; [|intros (d' & X & _); discriminate X]. cbn [app In]. intros I. repeat (destruct I as [I|I]; [discriminate I|]). destruct I.
  - rewrite !map_app, !map_map. unfold llm_total. destruct (totals b dev ns) as [[fl me] la]. split; reflexivity.
Qed.

(** The csv file, split at commas and lines, is that table. *)
Theorem C119_csv_reads_back : forall dev ns,
  (forall csv x, has_char ","%char (float_text csv x) = false \/ csv = false) -> (forall csv x, has_char newline (float_text csv x) = false) ->
  Forall (fun n => has_char ","%char (w_name n) = false /\ has_char newline (w_name n) = false /\
                   has_char ","%char (p_op (w_node n)) = false /\ has_char newline (p_op (w_node n)) = false) ns ->
  read_csv (llm_csv float_text b dev ns) = fst (llm_table float_text b true dev ns) :: snd (llm_table float_text b true dev ns).
Proof.
  intros dev ns F1 F2 F. unfold llm_csv, llm_table. cbn [fst snd]. apply C68_csv_reads_back_partial.
  assert (O : forall c, (has_char ","%char c = false /\ has_char newline c = false) -> has_char ","%char c = false /\ has_char newline c = false) by auto.
  assert (Z1 : forall n, has_char ","%char (zdec n) = false /\ has_char newline (zdec n) = false) by (intros; split; apply zdec_has; reflexivity).
  assert (T1 : forall l, has_char ","%char (tuple2str "x" l) = false /\ has_char newline (tuple2str "x" l) = false) by (intros; split; apply tuple_has; reflexivity).
  assert (T2 : forall x, has_char ","%char (float_text true x) = false /\ has_char newline (float_text true x) = false).
  { intros x. split; [|apply F2]. destruct (F1 true x); [assumption|discriminate]. }
  assert (X5 : forall n, 0 <= n \/ n < 0 -> has_char ","%char (udec n) = false /\ has_char newline (udec n) = false).
  { intros n _. destruct (Z_le_gt_dec 0 n) as [P|P]; [split; apply udec_has; auto|]. unfold udec. replace (Z.to_N n) with 0%N by lia. split; reflexivity. }
  assert (X6 : forall x, has_char ","%char (fixed5 x) = false /\ has_char newline (fixed5 x) = false).
  { intros x. unfold fixed5. cbv zeta. set (n := ZnearestE (x * 100000)). pose proof (Z.mod_pos_bound n 100000 ltac:(lia)) as B. pose proof (five_horner _ B) as H5.
    destruct (X5 (n / 100000) ltac:(lia)) as [A1 A2]. split; rewrite !has_app; [rewrite A1|rewrite A2]; cbn [has_char orb];
      [exact (horner_digits _ _ _ H5 ","%char eq_refl)|exact (horner_digits _ _ _ H5 newline eq_refl)]. }
  constructor; [|apply Forall_app; split].
  - split; [discriminate|]. unfold llm_header. destruct (timed b dev ns); repeat constructor.
  - apply Forall_forall. intros r I. apply in_map_iff in I as (n & <- & I). rewrite Forall_forall in F. destruct (F n I) as (N1 & N2 & N3 & N4).
    split; [discriminate|]. unfold llm_row. apply Forall_app. split; [|apply Forall_app; split].
    + constructor; [split; assumption|]. constructor; [split; assumption|]. constructor; [apply Z1|]. constructor; [apply Z1|constructor].
    + destruct (timed b dev ns); [|constructor]. cbv zeta. constructor; [apply X6|]. constructor; [|constructor]. destruct (Rlt_dec _ _); split; reflexivity.
    + constructor; [apply T1|]. constructor; [apply T1|constructor].
  - constructor; [|constructor]. unfold llm_total. destruct (totals b dev ns) as [[fl me] la]. split; [discriminate|]. apply Forall_app. split; [|apply Forall_app; split].
    + constructor; [split; reflexivity|]. constructor; [split; reflexivity|]. constructor; [apply Z1|]. constructor; [apply T2|constructor].
    + destruct (timed b dev ns); [|constructor]. constructor; [apply T2|]. constructor; [split; reflexivity|constructor].
    + constructor; [split; reflexivity|]. constructor; [split; reflexivity|constructor].
Qed.

(** What the cells of a node read as, in both formats: its FLOPs, the whole bytes of its memory, its sizes. *)
Theorem C119_cells : forall csv dev ns, sane_bits b -> Forall sane_row ns -> let head := fst (llm_table float_text b csv dev ns) in
  forall i n, nth_error ns i = Some n -> exists r, nth_error (snd (llm_table float_text b csv dev ns)) i = Some r /\
    (exists s, cell "FLOPs" head r = Some s /\ number s = Some (p_flops (w_node n))) /\
    (exists s m, cell "Memory(bytes)" head r = Some s /\ number s = Some m /\ (IZR m <= mem b (w_node n) < IZR m + 1)%R) /\
    (exists s, cell "InShape" head r = Some s /\ sizes s = map Some (w_in n)) /\
    (exists s, cell "OutShape" head r = Some s /\ sizes s = map Some (w_out n)).
Proof.
  intros csv dev ns B F head i n I. assert (In n ns) as J by (eapply nth_error_In; exact I). rewrite Forall_forall in F. destruct (F n J) as (S & N1 & N2 & P1 & P2).
  exists (llm_row b csv (timed b dev ns) n). unfold head, llm_table. cbn [fst snd].
  split. { rewrite nth_error_app1 by (rewrite map_length; apply nth_error_Some; congruence). apply map_nth_error, I. }
  destruct (mem_pos b (w_node n) B S) as (M & _). pose proof (Ztrunc_floor _ M) as TF. pose proof (Zfloor_lb (mem b (w_node n))) as L. pose proof (Zfloor_ub (mem b (w_node n))) as U.
  assert (M0 : 0 <= py_int (mem b (w_node n))). { unfold py_int. rewrite TF. apply Zfloor_lub. exact M. }
  destruct S as (S1 & _).
  split; [|split; [|split]].
  - eexists. split; [reflexivity|]. apply num2str_number. exact S1.
  - exists (num2str csv (py_int (mem b (w_node n)))), (py_int (mem b (w_node n))). split; [reflexivity|]. split; [apply num2str_number; exact M0|]. unfold py_int. rewrite TF. split; assumption.
  - exists (tuple2str "x" (w_in n)). split; [destruct (timed b dev ns); reflexivity|apply sizes_tuple; assumption].
  - exists (tuple2str "x" (w_out n)). split; [destruct (timed b dev ns); reflexivity|apply sizes_tuple; assumption].
Qed.
(** The Total row's FLOPs is the sum of the column. *)
Theorem C119_total_flops : forall csv dev ns, Forall sane_row ns -> let head := fst (llm_table float_text b csv dev ns) in
  exists r s, last (snd (llm_table float_text b csv dev ns)) [] = r /\ cell "Name" head r = Some "Total"%string /\ cell "FLOPs" head r = Some s /\
    number s = Some (fold_right Z.add 0 (map (fun n => p_flops (w_node n)) ns)).
Proof.
  intros csv dev ns F head. unfold head, llm_table. cbn [fst snd]. rewrite last_last. unfold llm_total, totals. cbv beta iota zeta. eexists. eexists.
  split; [reflexivity|]. split; [reflexivity|]. split; [reflexivity|].
  assert (G : forall a, fold_left (fun a n => a + p_flops (w_node n)) ns a = a + fold_right Z.add 0 (map (fun n => p_flops (w_node n)) ns)).
  { clear F. induction ns as [|n r IH]; intros a; cbn [fold_left map fold_right]; [lia|]. rewrite IH. lia. }
  rewrite G, Z.add_0_l. apply num2str_number. clear G head. induction F as [|n r (S & _) F IH]; cbn [map fold_right]; [lia|]. destruct S. lia.
Qed.
(** The latency cell of a node: its latency in seconds to five decimals (nothing but 0.00000 below 5 microseconds); the bottleneck. *)
Theorem C119_latency : forall csv d ns, sane_bits b -> usable d -> Forall sane_row ns -> (0 < lr_latency (llm_profile b d (map w_node ns)))%R ->
  let head := fst (llm_table float_text b csv (Some d) ns) in
  forall i n, nth_error ns i = Some n -> exists r, nth_error (snd (llm_table float_text b csv (Some d) ns)) i = Some r /\
    (exists s q, cell "Projected Latency(ms)" head r = Some s /\ decimal s = Some q /\ (Rabs (q - l_node (estimate b d (w_node n))) <= 5 / 1000000)%R /\
                 ((l_node (estimate b d (w_node n)) < 5 / 1000000)%R -> s = "0.00000"%string)) /\
    (exists s, cell "Bottleneck" head r = Some s /\
       (s = "Compute"%string <-> (l_memory (estimate b d (w_node n)) < l_compute (estimate b d (w_node n)))%R)).
Proof.
  intros csv d ns B U F L head i n I. assert (In n ns) as J by (eapply nth_error_In; exact I). rewrite Forall_forall in F. destruct (F n J) as (S & _).
  assert (T : timed b (Some d) ns = Some d) by (unfold timed, totals; cbn [snd]; destruct (Rlt_dec _ _); [reflexivity|contradiction]).
  exists (llm_row b csv (Some d) n). unfold head, llm_table. cbn [fst snd]. rewrite T.
  split. { rewrite nth_error_app1 by (rewrite map_length; apply nth_error_Some; congruence). apply map_nth_error, I. }
  destruct (estimate_pos b d (w_node n) B S U) as (P & _). destruct (estimate_ge b d (w_node n) B S U) as (G & _).
  assert (X : (0 <= l_node (estimate b d (w_node n)))%R) by lra.
  split.
  - destruct (fixed5_reads _ X) as (q & Q1 & Q2 & _). exists (fixed5 (l_node (estimate b d (w_node n)))), q. split; [reflexivity|]. split; [exact Q1|]. split; [exact Q2|].
    intros Lt. unfold fixed5. replace (ZnearestE (l_node (estimate b d (w_node n)) * 100000)) with 0; [reflexivity|]. symmetry. apply Znearest_imp. apply Rabs_lt. lra.
  - eexists. split; [reflexivity|]. destruct (Rlt_dec _ _); split; intros; try reflexivity; try assumption; try contradiction; discriminate.
Qed.
End REPORT.

(** ** A concrete report: 2 TFLOP on a device of 1000 GFLOPS *)
Definition slow_dev : device := {| d_fp32 := 1000; d_mm := None; d_mha := None; d_others := None; d_bw := 100; d_link := None; d_number := None |}.
Definition slow_row : lrow := {| w_name := "mm"; w_node := {| p_op := "MatMul"; p_flops := 2 * 10 ^ 12; p_io := 0; p_static := 0; p_kv := 0 |}; w_in := [1; 1000000]; w_out := [1; 1000] |}.
Lemma slow_latency : l_node (estimate demo_bits slow_dev (w_node slow_row)) = 2%R.
Proof.
  assert (L0 : link_bw slow_dev = 0%R) by (unfold link_bw, fmul; cbn [d_link slow_dev getR]; rewrite Rmult_0_l; apply rnd_0).
  assert (D : d_num slow_dev = 1) by (unfold d_num; rewrite L0; destruct (Req_EM_T 0 0); [reflexivity|contradiction]).
  assert (R1 : forall z, Z.abs z <= 2 ^ 53 -> fdiv (IZR z) 1 = IZR z) by (intros z Hz; unfold fdiv; replace (IZR z / 1)%R with (IZR z) by lra; apply rnd_int; exact Hz).
  unfold estimate. cbn [l_node slow_row w_node p_op p_flops]. rewrite D. change (kind_of "MatMul") with KMatMul. cbv iota zeta.
  change (1 <? 1) with false. cbv iota. change (2 * 10 ^ 12) with 2000000000000.
  rewrite rnd_int by (vm_compute; discriminate). unfold speed. cbn [d_mm slow_dev getR d_fp32]. rewrite (mul_giga 1000) by lia. change (1000 * 10 ^ 9) with 1000000000000.
  replace (fdiv 2000000000000 1000000000000) with 2%R by (unfold fdiv; replace (2000000000000 / 1000000000000)%R with 2%R by lra; symmetry; apply (rnd_int 2); vm_compute; discriminate).
  rewrite (R1 2) by (vm_compute; discriminate).
  assert (M : mem demo_bits (w_node slow_row) = 0%R).
  { unfold mem, io_mem, w_mem, bytes. cbn [slow_row w_node p_io p_static p_kv p_op]. change (kind_of "MatMul") with KMatMul. cbv iota. cbn [p_static].
    rewrite !(rnd_int 0) by (vm_compute; discriminate). unfold fmul, fdiv, fadd. rewrite !Rmult_0_l, !rnd_0. unfold Rdiv. rewrite !Rmult_0_l, !rnd_0, Rplus_0_l. apply rnd_0. }
  change {| p_op := "MatMul"; p_flops := 2000000000000; p_io := 0; p_static := 0; p_kv := 0 |} with (w_node slow_row). rewrite M.
  replace (fdiv (fdiv 0 (mem_speed slow_dev)) 1) with 0%R by (unfold fdiv, Rdiv; rewrite !Rmult_0_l, !rnd_0, Rmult_0_l, rnd_0; reflexivity).
  rewrite Rmax_left by lra. unfold fadd. rewrite Rplus_0_r. apply (rnd_int 2). vm_compute. discriminate.
Qed.
Lemma slow_usable : usable slow_dev /\ sane_bits demo_bits /\ Forall sane_row [slow_row].
Proof.
  assert (L0 : link_bw slow_dev = 0%R) by (unfold link_bw, fmul; cbn [d_link slow_dev getR]; rewrite Rmult_0_l; apply rnd_0).
  assert (D : d_num slow_dev = 1) by (unfold d_num; rewrite L0; destruct (Req_EM_T 0 0); [reflexivity|contradiction]).
  split; [|split].
  - unfold usable. rewrite D, L0. unfold speed, mem_speed. cbn [getR d_mm d_mha d_others d_bw d_fp32 slow_dev]. rewrite (mul_giga 1000), (mul_giga 100) by lia.
    repeat split; try (apply IZR_lt; reflexivity); try lra; lia.
  - unfold sane_bits; cbn; lra.
  - constructor; [|constructor]. unfold sane_row, sane_node. cbn. split; [lia|]. split; [discriminate|]. split; [discriminate|]. split; repeat constructor; lia.
Qed.
(** The column headed milliseconds holds seconds: an operator whose FLOPs take 2000 ms at the stated speed is listed with 2.00000. *)
Theorem C119_latency_unit_refuted : exists b d n, usable d /\ sane_bits b /\ Forall sane_row [n] /\
  (* its milliseconds: FLOPs over 10^6 times the GFLOPS of the device *)
  (IZR (p_flops (w_node n)) / (d_fp32 d * 1000000) = 2000)%R /\
  forall ft csv, exists r, nth_error (snd (llm_table ft b csv (Some d) [n])) 0 = Some r /\
    cell "Projected Latency(ms)" (fst (llm_table ft b csv (Some d) [n])) r = Some "2.00000"%string.
Proof.
  exists demo_bits, slow_dev, slow_row. destruct slow_usable as (U & B & F). split; [exact U|]. split; [exact B|]. split; [exact F|].
  split; [cbn [slow_row slow_dev w_node p_flops d_fp32]; change (2 * 10 ^ 12) with 2000000000000; lra|]. intros ft csv.
  assert (T : timed demo_bits (Some slow_dev) [slow_row] = Some slow_dev).
  { unfold timed, totals. cbn [snd]. destruct (Rlt_dec _ _) as [|N]; [reflexivity|]. exfalso. apply N. unfold llm_profile. cbn [map fold_left lr_latency]. rewrite slow_latency.
    unfold fadd. rewrite Rplus_0_l. rewrite (rnd_int 2) by (vm_compute; discriminate). lra. }
  unfold llm_table. cbn [fst snd]. rewrite T. eexists. split; [reflexivity|]. unfold llm_row. cbv zeta. rewrite slow_latency.
  replace (fixed5 2) with "2.00000"%string; [reflexivity|]. unfold fixed5. replace (2 * 100000)%R with (IZR 200000) by lra. rewrite (@Zrnd_IZR ZnearestE (valid_rnd_N _)). vm_compute. reflexivity.
Qed.
Definition small_row : lrow := {| w_name := "/layers.0/q_proj"; w_node := {| p_op := "MatMul"; p_flops := 1234567; p_io := 80; p_static := 160; p_kv := 0 |}; w_in := [1; 16; 4096]; w_out := [1; 16; 4096] |}.
Example C119_example : forall ft, exists m, sane_row small_row /\
  map (firstn 3) (snd (llm_table ft demo_bits false None [small_row; slow_row])) =
    [["/layers.0/q_proj"; "MatMul"; "1,234,567"]; ["mm"; "MatMul"; "2,000,000,000,000"]; ["Total"; "_"; "2,000,001,234,567"]] /\
  nth_error (snd (llm_table ft demo_bits true None [small_row])) 0 = Some ["/layers.0/q_proj"; "MatMul"; "1234567"; m; "1x16x4096"; "1x16x4096"].
Proof.
  intros ft. eexists. split; [|split].
  - unfold sane_row, sane_node. cbn. split; [lia|]. split; [discriminate|]. split; [discriminate|]. split; repeat constructor; lia.
  - reflexivity.
  - reflexivity.
Qed.
