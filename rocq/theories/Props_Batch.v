(** C55, C79: the batch runner, and its results as inputs of another batch. *)
From Coq Require Import String List Bool ZArith Ascii Arith Reals Lia.
From Verif Require Import Lib_Py Model_FormatTables Model_Format Model_Run Model_Inputs Spec_Inputs Proofs_Inputs Props_Inputs Props_InputsFile Model_Csv Spec_Csv Proofs_Csv Props_Csv.
Import ListNotations.
Open Scope string_scope. Open Scope list_scope.

(** ** Schedules *)
Lemma existsb_In : forall n l, existsb (Nat.eqb n) l = true <-> In n l.
Proof. intros n l. rewrite existsb_exists. split; [intros (x & H & E); apply Nat.eqb_eq in E; subst; exact H | intro H; exists n; split; [exact H | apply Nat.eqb_refl]]. Qed.
(** Whatever the order in which the workers finish, the results handed over are the longest finished run from the
    first input, in input order. *)
Theorem C55_handed_over : forall (A : Type) (results : list A) finished,
  exists k, ready (length results) finished k /\ handed_over 0 results finished = firstn k results.
Proof.
  intros A results finished.
  assert (G : forall (l : list A) n, exists k, k <= length l /\ (forall i, n <= i < n + k -> In i finished) /\ (k < length l -> ~ In (n + k) finished) /\ handed_over n l finished = firstn k l).
  { induction l as [|r t IH]; intro n.
    - exists 0. split; [apply le_n|]. split; [intros i Hi; lia|]. split; [cbn; lia | reflexivity].
    - cbn [handed_over]. destruct (existsb (Nat.eqb n) finished) eqn:Q.
      + destruct (IH (1 + n)) as (k & H1 & H2 & H3 & H4). exists (S k). cbn [length firstn]. split; [lia|]. split.
        * intros i Hi. destruct (Nat.eq_dec i n) as [->|]; [apply existsb_In, Q | apply H2; lia].
        * split; [|rewrite H4; reflexivity]. intro Hk. replace (n + S k) with (1 + n + k) by lia. apply H3. lia.
      + exists 0. cbn [length firstn]. split; [lia|]. split; [intros i Hi; lia|]. split; [|reflexivity]. intros _ X. rewrite Nat.add_0_r in X. apply existsb_In in X. congruence. }
  destruct (G results 0) as (k & H1 & H2 & H3 & H4). exists k. split; [|exact H4]. split; [exact H1|]. split; [intros i Hi; apply H2; lia | exact H3].
Qed.
Lemma ready_unique : forall n f j k, ready n f j -> ready n f k -> j = k.
Proof.
  intros n f j k (A1 & A2 & A3) (B1 & B2 & B3). destruct (Nat.lt_trichotomy j k) as [H|[H|H]]; [|exact H|].
  - destruct A3; [lia | apply B2, H].
  - destruct B3; [lia | apply A2, H].
Qed.
(** Only which tasks are done matters. *)
Theorem C55_any_schedule : forall E T S method overrides meta input label f1 f2, (forall i, In i f1 <-> In i f2) ->
  csvrunner E T S method overrides meta input label f1 = csvrunner E T S method overrides meta input label f2.
Proof.
  intros. unfold csvrunner. destruct (get_csv_inputs S input label) as [inputs|]; [|reflexivity]. cbn [rbind].
  replace (handed_over 0 (map (find_solution E T method overrides) inputs) f1) with (handed_over 0 (map (find_solution E T method overrides) inputs) f2); [reflexivity|].
  destruct (C55_handed_over _ (map (find_solution E T method overrides) inputs) f1) as (k1 & R1 & ->).
  destruct (C55_handed_over _ (map (find_solution E T method overrides) inputs) f2) as (k2 & R2 & ->).
  f_equal. apply (ready_unique _ _ _ _ R2). destruct R1 as (A & B & C). split; [exact A|]. split; [intros i Hi; apply H, B, Hi | intros Hk X; apply (C Hk), H, X].
Qed.

(** ** What is written *)
Lemma filter_ids : forall d : dict val, NoDup (dkeys d) ->
  dremove "solution_name" (dremove "filename" d) = filter (fun e => negb (str_in (fst e) ["filename"; "solution_name"])) d.
Proof.
  assert (R : forall (k : string) (d : dict val), NoDup (dkeys d) -> dremove k d = filter (fun e => negb (String.eqb k (fst e))) d).
  { intros k d. induction d as [|[k' v] d IH]; intro H; [reflexivity|]. cbn [dkeys map fst] in H. inversion H as [|? ? N1 N2]; subst. cbn [dremove filter fst].
    destruct (String.eqb_spec k k') as [->|N]; cbn [negb]; [|rewrite IH by exact N2; reflexivity].
    clear - N1. induction d as [|[a b] d IH]; [reflexivity|]. cbn [dkeys map fst] in N1. cbn [filter fst]. destruct (String.eqb_spec k' a) as [->|N]; [destruct N1; left; reflexivity|].
    cbn [negb]. rewrite <- IH; [reflexivity | intro X; apply N1; right; exact X]. }
  intros d H. rewrite (R "filename" d H). rewrite R.
  - induction d as [|[k v] d IH]; [reflexivity|]. cbn [dkeys map fst] in H. inversion H; subst. cbn [filter fst str_in]. rewrite !(String.eqb_sym k).
    destruct (String.eqb "filename" k) eqn:Q1; cbn [negb orb].
    + apply IH. assumption.
    + cbn [filter fst]. rewrite orb_false_r. destruct (String.eqb "solution_name" k); cbn [negb]; rewrite IH by assumption; reflexivity.
  - apply NoDup_filter_keys, H.
Qed.
(** One input: the outcome in the table is what the solver left. *)
Theorem C55_outcome : forall E T m overrides d s o, NoDup (dkeys d) -> stands_for E T overrides d s -> outcome m s o ->
  find_solution E T (Some m) overrides d = Ok o.
Proof.
  intros E T m overrides d s o ND (c & c' & H1 & H2 & H3) H. unfold find_solution. rewrite filter_ids by exact ND. rewrite H1. cbn [rbind]. rewrite H2. cbn [rbind]. rewrite H3. cbn [rbind].
  destruct H as [H|best H|H|k fs H]; rewrite H; reflexivity.
Qed.
Lemma dict_row_ok : forall E fs, of_solution_input fs -> dict_row E SOLUTION_INPUT_FIELDS fs = Ok (result_row E fs).
Proof.
  intros E fs H. unfold dict_row. replace (forallb _ fs) with true.
  - unfold result_row. reflexivity.
  - symmetry. apply forallb_forall. intros [k v] Hk. apply str_in_In, H. unfold dkeys. apply in_map_iff. exists (k, v). auto.
Qed.
Definition writable (o : option (dict val)) : Prop := match o with None => True | Some fs => of_solution_input fs end.
Lemma write_ok : forall E outcomes, Forall writable outcomes -> write_results E (map (@Ok _) outcomes) = (rows_of E outcomes, None).
Proof.
  intros E outcomes H. induction H as [|o t H1 HF IH]; [reflexivity|]. cbn [map write_results]. destruct o as [fs|]; [|exact IH].
  rewrite dict_row_ok by exact H1. rewrite IH. reflexivity.
Qed.
Lemma Forall2_len : forall (A B : Type) (R : A -> B -> Prop) l l', Forall2 R l l' -> length l = length l'.
Proof. intros A B R l l' H. induction H; cbn; congruence. Qed.
(** Missing: what an exception other than a solver error does (C55_bad_row_refuted). *)
Theorem C55_rows_partial : forall E T S m overrides meta input label inputs outcomes finished k,
  sniffs_nothing_blank S -> get_csv_inputs S input label = Ok inputs ->
  Forall2 (fun d o => exists s, stands_for E T overrides d s /\ outcome m s o /\ writable o) inputs outcomes ->
  ready (length inputs) finished k ->
  csvrunner E T S (Some m) overrides meta input label finished =
    Ok ((metadata meta ++ csv_row SOLUTION_INPUT_FIELDS ++ rows_of E (firstn k outcomes))%string, None).
Proof.
  intros E T S m overrides meta input label inputs outcomes finished k HS HI HO HR. unfold csvrunner. rewrite HI. cbn [rbind].
  destruct (C45_rows_partial S input label inputs HS HI) as (_ & _ & fieldnames & rows & _ & _ & RS).
  assert (ND : Forall (fun d => NoDup (dkeys d)) inputs) by (clear - RS; induction RS as [|r d l l' [H _] HF IH]; constructor; assumption).
  assert (Q : map (find_solution E T (Some m) overrides) inputs = map (@Ok _) outcomes /\ Forall writable outcomes).
  { clear - HO ND. induction HO as [|d o l l' (s & H1 & H2 & H3) HF IH]; [split; [reflexivity | constructor]|]. inversion ND; subst. destruct (IH H5) as [A B]. cbn [map].
    rewrite (C55_outcome E T m overrides d s o H4 H1 H2), A. split; [reflexivity | constructor; assumption]. }
  destruct Q as [Q W]. rewrite Q. destruct (C55_handed_over _ (map (@Ok _) outcomes) finished) as (k' & R' & ->).
  rewrite map_length, <- (Forall2_len _ _ _ _ _ HO) in R'. rewrite (ready_unique _ _ _ _ R' HR). rewrite firstn_map.
  rewrite write_ok; [reflexivity|]. clear - W. revert k. induction W; intros [|k]; cbn [firstn]; constructor; auto.
Qed.
(** All tasks done: a row for every input that was solved, in input order. *)
Corollary C55_complete_partial : forall E T S m overrides meta input label inputs outcomes finished,
  sniffs_nothing_blank S -> get_csv_inputs S input label = Ok inputs ->
  Forall2 (fun d o => exists s, stands_for E T overrides d s /\ outcome m s o /\ writable o) inputs outcomes ->
  (forall i, i < length inputs -> In i finished) ->
  csvrunner E T S (Some m) overrides meta input label finished =
    Ok ((metadata meta ++ csv_row SOLUTION_INPUT_FIELDS ++ rows_of E outcomes)%string, None).
Proof.
  intros E T S m overrides meta input label inputs outcomes finished HS HI HO HF.
  rewrite (C55_rows_partial E T S m overrides meta input label inputs outcomes finished (length inputs) HS HI HO).
  - rewrite (Forall2_len _ _ _ _ _ HO), firstn_all. reflexivity.
  - split; [apply le_n|]. split; [exact HF | lia].
Qed.
(** Crash points: what has been written when the run is cut short is the beginning of what would be written later. *)
Lemma handed_over_prefix : forall (A : Type) (results : list A) f1 f2, (forall i, In i f1 -> In i f2) ->
  exists rest, handed_over 0 results f2 = handed_over 0 results f1 ++ rest.
Proof.
  intros A results f1 f2 H. generalize 0. induction results as [|r t IH]; intro n; [exists []; reflexivity|]. cbn [handed_over].
  destruct (existsb (Nat.eqb n) f1) eqn:Q.
  - replace (existsb (Nat.eqb n) f2) with true by (symmetry; apply existsb_In, H, existsb_In, Q). destruct (IH (1 + n)) as (rest & ->). exists rest. reflexivity.
  - eexists. reflexivity.
Qed.
Lemma write_prefix : forall E a b, exists t, fst (write_results E (a ++ b)) = (fst (write_results E a) ++ t)%string.
Proof.
  intros E a b. induction a as [|r a IH]; [eexists; reflexivity|]. cbn [app write_results]. destruct r as [[fs|]|e]; [|exact IH|exists ""; reflexivity].
  destruct (dict_row E SOLUTION_INPUT_FIELDS fs) as [row|e]; [|exists ""; reflexivity]. destruct IH as (t & IH).
  destruct (write_results E (a ++ b)) as [x1 e1]. destruct (write_results E a) as [x2 e2]. cbn [fst] in *. exists t. rewrite IH, app_assoc_s. reflexivity.
Qed.
Theorem C55_crash_prefix : forall E T S method overrides meta input label f1 f2 t1 e1, (forall i, In i f1 -> In i f2) ->
  csvrunner E T S method overrides meta input label f1 = Ok (t1, e1) ->
  exists rest e2, csvrunner E T S method overrides meta input label f2 = Ok ((t1 ++ rest)%string, e2).
Proof.
  intros E T S method overrides meta input label f1 f2 t1 e1 H. unfold csvrunner. destruct (get_csv_inputs S input label) as [inputs|]; [|discriminate]. cbn [rbind].
  set (results := map (find_solution E T method overrides) inputs). destruct (handed_over_prefix _ results f1 f2 H) as (rest & ->).
  destruct (write_prefix E (handed_over 0 results f1) rest) as (t & W).
  destruct (write_results E (handed_over 0 results f1)) as [x1 y1]. destruct (write_results E (handed_over 0 results f1 ++ rest)) as [x2 y2]. cbn [fst] in W. subst x2.
  intros [= <- <-]. exists t, y2. rewrite !app_assoc_s. reflexivity.
Qed.
(** An unknown method is reported only after the comments and the header are in the file. *)
Theorem C55_unknown_method : forall E T S overrides meta input label d inputs finished,
  get_csv_inputs S input label = Ok (d :: inputs) -> In 0 finished ->
  csvrunner E T S None overrides meta input label finished = Ok ((metadata meta ++ csv_row SOLUTION_INPUT_FIELDS)%string, Some SolverError).
Proof.
  intros E T S overrides meta input label d inputs finished H H0. unfold csvrunner. rewrite H. cbn [rbind map handed_over]. replace (existsb (Nat.eqb 0) finished) with true by (symmetry; apply existsb_In, H0).
  cbn [find_solution write_results]. rewrite app_nil_s. reflexivity.
Qed.

(** ** C79: results as inputs *)
Definition csv_conf (E : env) (label : string) (x : string -> val) (f : string) : val :=
  if String.eqb f "label" then VText label else given f (VText (csv_text E (x f))).
Lemma given_not_empty : forall f s, s <> "" -> given f (VText s) = VText s.
Proof. intros f s H. unfold given. destruct (String.eqb_spec s ""); [contradiction | reflexivity]. Qed.
Lemma given_required : forall f s, str_in f optional_fields = false -> given f (VText s) = VText s.
Proof. intros f s H. unfold given. rewrite H, andb_false_r. reflexivity. Qed.
Lemma csv_opt_float : forall E T f v, In f optional_fields -> v = VNone \/ (exists r, v = VNum r /\ float_reads E T r) ->
  convert_in E T IOptFloat (given f (VText (csv_text E v))) = Ok v.
Proof.
  intros E T f v O [->|(r & -> & R1 & R2 & R3)].
  - unfold given. cbn [csv_text]. apply str_in_In in O. rewrite O. reflexivity.
  - cbn [csv_text text_of]. rewrite given_not_empty by exact R2. cbn [convert_in says_none]. destruct (String.eqb_spec (e_str E (VNum r)) "None"); [contradiction|]. cbn [on_text]. rewrite R1. reflexivity.
Qed.
Lemma csv_opt_int : forall E T f v, In f optional_fields -> v = VNone \/ (exists z, v = VInt z /\ int_reads T z) ->
  convert_in E T IOptInt (given f (VText (csv_text E v))) = Ok v.
Proof.
  intros E T f v O [->|(z & -> & R1)].
  - unfold given. cbn [csv_text]. apply str_in_In in O. rewrite O. reflexivity.
  - cbn [csv_text text_of]. rewrite given_not_empty by apply str_of_Z_nonempty. cbn [convert_in says_none].
    destruct (String.eqb_spec (str_of_Z z) "None") as [Q|]; [destruct (str_of_Z_not_None z Q)|]. cbn [on_text]. rewrite R1. reflexivity.
Qed.
Lemma csv_mcmc : forall E T v, (v = VNone \/ exists r a k, v = mcmc_obj (VBool r) (VBool a) (VBool k) /\ (r || a || k) = true) ->
  convert_in E T IMcmc (given "mcmc_vars" (VText (csv_text E v))) = Ok v /\ mcmc_vars_str_to_obj v = Ok v.
Proof.
  intros E T v [->|(r & a & k & -> & H)]; [split; reflexivity|]. destruct (mcmc_text_some E r a k H) as (N1 & _ & N3).
  cbn [csv_text]. split; [|reflexivity]. change (csv_text E (mcmc_obj (VBool r) (VBool a) (VBool k))) with (text_of E (mcmc_obj (VBool r) (VBool a) (VBool k))).
  rewrite given_not_empty by exact N1. exact N3.
Qed.
Lemma csv_slice : forall E T v, (v = VNone \/ exists a b s, v = slice_obj a b s /\ String.prefix "slice(" (e_str E v) = true /\ e_eval E (e_str E v) = Ok v) ->
  convert_in E T ISlice (given "interp_slice" (VText (csv_text E v))) = Ok v /\ str_to_slice E v = Ok v.
Proof.
  intros E T v [->|(a & b & s & -> & H1 & H2)]; [split; reflexivity|]. split; [|reflexivity].
  change (csv_text E (slice_obj a b s)) with (e_str E (slice_obj a b s)). set (t := e_str E (slice_obj a b s)) in *.
  assert (N : t <> "") by (intros X; rewrite X in H1; discriminate H1). rewrite given_not_empty by exact N. cbn [convert_in str_to_slice].
  destruct (String.eqb_spec t "None") as [X|_]; [rewrite X in H1; discriminate H1|]. rewrite H1. exact H2.
Qed.
Lemma csv_conf_to_soln : forall E T x label, csv_printable E T x -> to_soln_input E T (conf_object (csv_conf E label x)) = Ok (soln_object x).
Proof.
  intros E T x label [PF PI PBs PB PO PR (sm & PS) PL PM _].
  assert (GF : forall f, str_in f optional_fields = false -> String.eqb f "label" = false -> csv_conf E label x f = VText (csv_text E (x f))).
  { intros f H1 H2. unfold csv_conf. rewrite H2. apply given_required, H1. }
  unfold to_soln_input. rewrite (convert_all_fields E T (conf_object (csv_conf E label x)) (csv_conf E label x) x).
  2: { unfold to_soln_table. field_forall; (split; [apply getattr_object; inl | ]);
         try (rewrite GF by reflexivity);
         try (match goal with |- convert_in _ _ IFloat (VText (csv_text _ (x ?f))) = _ => destruct (PF f ltac:(inl)) as (r & Q & R1 & _); rewrite Q; cbn [csv_text text_of convert_in on_text]; rewrite R1; reflexivity end);
         try (match goal with |- convert_in _ _ IInt (VText (csv_text _ (x ?f))) = _ => destruct (PI f ltac:(inl)) as (z & Q & R1); rewrite Q; cbn [csv_text text_of convert_in on_text]; rewrite R1; reflexivity end);
         try (match goal with |- convert_in _ _ IBool (VText (csv_text _ (x ?f))) = _ => pose proof (bool_ok E T PBs (x f) (PB f ltac:(inl))) as R1; destruct (PB f ltac:(inl)) as (b & Q); rewrite Q in *; exact R1 end);
         try (match goal with |- convert_in _ _ IOptFloat (csv_conf _ _ _ ?f) = _ => change (convert_in E T IOptFloat (given f (VText (csv_text E (x f)))) = Ok (x f)); apply csv_opt_float; [inl | apply PO; inl] end);
         try (match goal with |- convert_in _ _ IOptInt (csv_conf _ _ _ ?f) = _ => change (convert_in E T IOptInt (given f (VText (csv_text E (x f)))) = Ok (x f)); apply csv_opt_int; [inl | apply PR] end).
       - exact (proj1 (csv_slice E T _ PL)).
       - rewrite PS. reflexivity.
       - exact (proj1 (csv_mcmc E T _ PM)). }
  cbn [rbind]. unfold soln_object, SOLUTION_INPUT_FIELDS.
  apply (construct_fields E "SolutionInput" fields_SolutionInput _ x).
  - reflexivity.
  - discriminate.
  - intros k Hk. apply str_in_iff. repeat (destruct Hk as [<-|Hk]; [reflexivity|]). destruct Hk.
  - unfold fields_SolutionInput. field_forall; (split; [reflexivity|]); cbn [convert]; try reflexivity.
    + exact (proj2 (csv_mcmc E T _ PM)).
    + exact (proj2 (csv_slice E T _ PL)).
Qed.
Lemma cell_map : forall f names g, cell f names (map g names) = if str_in f names then Some (VText (g f)) else None.
Proof.
  intros f names g. induction names as [|a t IH]; [reflexivity|]. cbn [cell map tl str_in]. rewrite IH. destruct (str_in f t); [rewrite orb_true_r; reflexivity|].
  rewrite orb_false_r. destruct (String.eqb_spec f a) as [->|N]; reflexivity.
Qed.
Lemma dget_filter_pred : forall (p : string -> bool) (d : dict val) f, p f = true -> dget f (filter (fun e => p (fst e)) d) = dget f d.
Proof. intros p d f H. rewrite dget_filter, H. reflexivity. Qed.
Definition row_texts (E : env) (x : string -> val) : list string := map (fun f => csv_text E (x f)) SOLUTION_INPUT_FIELDS.
Lemma result_row_object : forall E x, result_row E (map (fun f => (f, x f)) SOLUTION_INPUT_FIELDS) = csv_row (row_texts E x).
Proof.
  intros E x. reflexivity.
Qed.
Lemma row_stands_for : forall E T x label d, csv_printable E T x -> row_says SOLUTION_INPUT_FIELDS label (row_texts E x) d ->
  stands_for E T None d (soln_object x).
Proof.
  intros E T x label d P [ND RS]. exists (conf_object (csv_conf E label x)), (conf_object (csv_conf E label x)). split; [|split; [reflexivity | apply csv_conf_to_soln, P]].
  set (p := fun k : string => negb (str_in k ["filename"; "solution_name"])).
  change (filter (fun e : string * val => negb (str_in (fst e) ["filename"; "solution_name"])) d) with (filter (fun e : string * val => p (fst e)) d).
  assert (G : forall f, String.eqb f "label" = false -> str_in f SOLUTION_INPUT_FIELDS = true -> allowed f = true -> p f = true ->
    dget f (filter (fun e => p (fst e)) d) = Some (VText (csv_text E (x f)))).
  { intros f H1 H2 H3 H4. rewrite dget_filter_pred by exact H4. rewrite RS, H1, H3. unfold row_texts. rewrite cell_map, H2. reflexivity. }
  unfold conf_object, CONFIG_FIELDS.
  apply (construct_fields E "ConfigInput" fields_ConfigInput _ (fun f => if String.eqb f "label" then VText label else VText (csv_text E (x f))) (csv_conf E label x)); [reflexivity | discriminate | |].
  - intros k Hk. apply in_map_iff in Hk as ((k' & v) & <- & Hk). apply filter_In in Hk as [Hk1 Hk2]. cbn [fst] in *.
    assert (Q : dget k' d <> None) by (intro X; apply dget_None_keys in X; apply X; unfold dkeys; apply in_map_iff; exists (k', v); auto).
    rewrite RS in Q. destruct (String.eqb_spec k' "label") as [->|N]; [inl|]. destruct (allowed k') eqn:A; [|congruence]. unfold allowed in A. apply str_in_In in A.
    apply in_app_iff in A as [A|A]; [exact A|]. unfold p in Hk2. apply str_in_In in A. rewrite A in Hk2. discriminate Hk2.
  - unfold fields_ConfigInput. field_forall.
    all: (split; [first [apply G; vm_compute; reflexivity | idtac] | ]).
    all: try (match goal with |- convert _ _ _ = _ => first
      [ reflexivity
      | cbn [convert]; match goal with |- context [csv_conf _ _ _ ?f] => change (String.eqb f "label") with false; unfold csv_conf; change (String.eqb f "label") with false; cbn iota; rewrite given_required by reflexivity; reflexivity end
      | match goal with |- context [csv_conf _ _ _ ?f] => change (String.eqb f "label") with false; unfold csv_conf; change (String.eqb f "label") with false; cbn iota;
          unfold given; change (str_in f optional_fields) with true; rewrite andb_true_r; reflexivity end ] end).
    rewrite dget_filter_pred by reflexivity. rewrite RS. reflexivity.
Qed.
Definition solved_inputs (outcomes : list (option (dict val))) : list (dict val) := flat_map (fun o => match o with Some fs => [fs] | None => [] end) outcomes.
Lemma rows_of_rows : forall E outcomes xs, solved_inputs outcomes = map (fun x => map (fun f => (f, x f)) SOLUTION_INPUT_FIELDS) xs ->
  rows_of E outcomes = rows_text (map (row_texts E) xs).
Proof.
  intros E outcomes. induction outcomes as [|[fs|] t IH]; intros xs H; cbn [solved_inputs flat_map] in H.
  - destruct xs; [reflexivity | discriminate H].
  - destruct xs as [|x xs]; [discriminate H|]. cbn [app map] in H. pose proof (f_equal (@tl _) H) as B. pose proof (f_equal (hd []) H) as A. cbn [hd tl] in A, B. clear H. rewrite A. clear A. rename B into H. cbn [rows_of map]. unfold rows_text. cbn [map]. rewrite concat_cons, result_row_object, (IH xs H). reflexivity.
  - cbn [rows_of]. apply IH, H.
Qed.
Lemma row_keeps : forall E T x, csv_printable E T x -> Forall keeps_in_csv (row_texts E x).
Proof.
  intros E T x P. unfold row_texts. apply Forall_forall. intros s Hs. apply in_map_iff in Hs as (f & <- & Hf).
  assert (Q : x f = VNone \/ x f <> VNone) by (destruct (x f); auto; right; discriminate). destruct Q as [Q|Q].
  - rewrite Q. split; [reflexivity|]. intros pre sp post H. destruct pre; discriminate H.
  - replace (csv_text E (x f)) with (text_of E (x f)); [apply (cp_keeps E T x P); assumption|]. destruct (x f); [congruence | reflexivity..].
Qed.
Lemma one_line_keeps : forall f, has_char newline f = false -> has_char carriage_return f = false -> keeps_in_csv f.
Proof. intros f H1 H2. split; [exact H2|]. intros pre sp post ->. rewrite has_char_app in H1. cbn in H1. rewrite orb_true_r in H1. discriminate H1. Qed.
Lemma header_keeps : Forall keeps_in_csv SOLUTION_INPUT_FIELDS.
Proof. apply Forall_forall. intros f Hf. repeat (destruct Hf as [<-|Hf]; [apply one_line_keeps; vm_compute; reflexivity|]). destruct Hf. Qed.
Definition meta_comments (meta : list (string * string)) : list string := map (fun e => (fst e ++ "=" ++ snd e)%string) meta.
Definition meta_ok (meta : list (string * string)) : Prop := Forall (fun e => one_line (fst e) /\ one_line (snd e)) meta.
Lemma metadata_comments : forall meta, metadata meta = comments_text (meta_comments meta).
Proof. intro meta. unfold metadata, comments_text, meta_comments. rewrite map_map. reflexivity. Qed.
Lemma meta_lines : forall meta, meta_ok meta -> Forall one_line (meta_comments meta).
Proof.
  intros meta H. induction H as [|[a b] t [[A1 A2] [B1 B2]] HF IH]; [constructor|]. cbn [meta_comments map fst snd] in *. constructor; [|exact IH].
  split; rewrite !has_char_app; [rewrite A1, B1 | rewrite A2, B2]; reflexivity.
Qed.
Definition output (E : env) (meta : list (string * string)) (xs : list (string -> val)) : string :=
  (metadata meta ++ csv_row SOLUTION_INPUT_FIELDS ++ rows_text (map (row_texts E) xs))%string.
Lemma output_section : forall E meta xs, output E meta xs = section_text (meta_comments meta, SOLUTION_INPUT_FIELDS :: map (row_texts E) xs).
Proof. intros E meta xs. unfold output, section_text. cbn [fst snd]. rewrite metadata_comments. unfold rows_text at 2. cbn [map]. rewrite concat_cons. reflexivity. Qed.
Lemma output_ok : forall E T meta xs, meta_ok meta -> Forall (csv_printable E T) xs -> section_ok (meta_comments meta, SOLUTION_INPUT_FIELDS :: map (row_texts E) xs).
Proof.
  intros E T meta xs H1 H2. split; [apply meta_lines, H1|]. cbn [snd]. constructor; [exact header_keeps|]. apply Forall_forall. intros r Hr. apply in_map_iff in Hr as (x & <- & Hx).
  rewrite Forall_forall in H2. apply (row_keeps E T x (H2 x Hx)).
Qed.
Lemma nonblank_rows : forall E xs, filter not_blank_row (map (row_texts E) xs) = map (row_texts E) xs.
Proof. intros E xs. induction xs as [|x t IH]; [reflexivity|]. cbn [map filter]. rewrite IH. reflexivity. Qed.
Lemma header_found : forall S sections cs rows, Forall section_ok ((cs, SOLUTION_INPUT_FIELDS :: rows) :: sections) ->
  sn_sniff S (csv_row SOLUTION_INPUT_FIELDS) = Ok unix_dialect ->
  has_csv_header S (split_lines (universal_newlines (String.concat "" (map section_text ((cs, SOLUTION_INPUT_FIELDS :: rows) :: sections))))) = Ok true.
Proof.
  intros S sections cs rows H HS. unfold has_csv_header. rewrite (proj1 (sections_read _ H)). cbn [fst flat_map snd app]. unfold rows_text. cbn [map]. rewrite concat_cons.
  rewrite split_lines_ended by (right; eexists; reflexivity).
  change (split_lines (csv_row SOLUTION_INPUT_FIELDS)) with [csv_row SOLUTION_INPUT_FIELDS]. cbn [app].
  unfold has_header. rewrite HS. cbn [rbind]. change (split_lines (csv_row SOLUTION_INPUT_FIELDS)) with [csv_row SOLUTION_INPUT_FIELDS].
  change (csv_reader unix_dialect [csv_row SOLUTION_INPUT_FIELDS]) with (Ok [SOLUTION_INPUT_FIELDS]). reflexivity.
Qed.
Lemma output_read : forall E T S meta xs label2, sn_sniff S (csv_row SOLUTION_INPUT_FIELDS) = Ok unix_dialect -> meta_ok meta -> Forall (csv_printable E T) xs ->
  exists inputs2, get_csv_inputs S (output E meta xs) label2 = Ok inputs2 /\
    Forall2 (fun x d => stands_for E T None d (soln_object x) /\ dget "label" d = Some (VText label2)) xs inputs2.
Proof.
  intros E T S meta xs label2 HS2 HM HP. pose proof (output_ok E T meta xs HM HP) as OK. assert (OKs : Forall section_ok [(meta_comments meta, SOLUTION_INPUT_FIELDS :: map (row_texts E) xs)]) by (constructor; [exact OK | constructor]).
    pose proof (header_found S [] _ _ OKs HS2) as HH. pose proof (sections_read _ OKs) as [R1 R2]. cbv zeta in R1, R2.
    change (String.concat "" (map section_text [(meta_comments meta, SOLUTION_INPUT_FIELDS :: map (row_texts E) xs)])) with (section_text (meta_comments meta, SOLUTION_INPUT_FIELDS :: map (row_texts E) xs)) in *.
    rewrite output_section. unfold get_csv_inputs. rewrite HH. cbn [rbind]. rewrite R2. cbn [rbind flat_map snd app]. rewrite app_nil_r. eexists. split; [reflexivity|].
    pose proof (dict_rows_says SOLUTION_INPUT_FIELDS (map (row_texts E) xs) label2) as D. rewrite nonblank_rows in D.
    set (ds := filter_csv_columns (add_labels (dict_rows SOLUTION_INPUT_FIELDS (map (row_texts E) xs)) label2) (CONFIG_FIELDS ++ SOLUTION_IDENTIFICATION_FIELDS)) in *. clearbody ds.
    clear - D HP. revert ds D. induction HP as [|x t H1 HF IH]; intros ds D; cbn [map] in D; inversion D; subst; constructor.
    + split; [apply (row_stands_for E T x label2); assumption|]. match goal with H : row_says _ _ _ _ |- _ => rewrite (proj2 H) end. reflexivity.
    + apply IH. assumption.
Qed.
(** C79. The table of a finished batch, read as the input of another, stands for exactly the solver inputs that were
    written, in order. *)
Theorem C79_results_as_inputs_partial : forall E T S m overrides meta input label inputs outcomes finished xs,
  sniffs_nothing_blank S -> sn_sniff S (csv_row SOLUTION_INPUT_FIELDS) = Ok unix_dialect -> meta_ok meta ->
  get_csv_inputs S input label = Ok inputs ->
  Forall2 (fun d o => exists s, stands_for E T overrides d s /\ outcome m s o) inputs outcomes ->
  (forall i, i < length inputs -> In i finished) ->
  solved_inputs outcomes = map (fun x => map (fun f => (f, x f)) SOLUTION_INPUT_FIELDS) xs -> Forall (csv_printable E T) xs ->
  exists text, csvrunner E T S (Some m) overrides meta input label finished = Ok (text, None) /\
  forall label2, exists inputs2, get_csv_inputs S text label2 = Ok inputs2 /\
    Forall2 (fun x d => stands_for E T None d (soln_object x) /\ dget "label" d = Some (VText label2)) xs inputs2.
Proof.
  intros E T S m overrides meta input label inputs outcomes finished xs HS HS2 HM HI HO HF HX HP. exists (output E meta xs). split.
  - rewrite (C55_complete_partial E T S m overrides meta input label inputs outcomes finished HS HI); [unfold output; rewrite (rows_of_rows E outcomes xs HX); reflexivity | | exact HF].
    assert (W : Forall writable outcomes).
    { clear - HX. revert xs HX. induction outcomes as [|[fs|] t IH]; intros xs HX; constructor; cbn [solved_inputs flat_map] in HX.
      - destruct xs as [|x xs]; [discriminate HX|]. cbn [app map] in HX. pose proof (f_equal (hd []) HX) as A. cbn [hd] in A. rewrite A. cbn [writable]. intros k Hk. unfold dkeys in Hk. rewrite map_map, map_id in Hk. exact Hk.
      - destruct xs as [|x xs]; [discriminate HX|]. cbn [app map] in HX. pose proof (f_equal (@tl _) HX) as B. cbn [tl] in B. clear HX. rename B into HX. apply (IH xs HX).
      - exact Coq.Init.Logic.I.
      - apply (IH xs HX). }
    clear - HO W. induction HO as [|d o l l' (s & H1 & H2) HF IH]; [constructor|]. inversion W; subst. constructor; [exists s; auto | apply IH; assumption].
  - intro label2. apply output_read; assumption.
Qed.
(** The output file is opened for appending: the table of two runs contains the second header, which is read as an
    input and stops the batch, even though all the other rows are good. *)
Theorem C79_appended_refuted : forall E T S m meta xs ys label,
  sniffs_nothing_blank S -> sn_sniff S (csv_row SOLUTION_INPUT_FIELDS) = Ok unix_dialect -> meta_ok meta ->
  Forall (csv_printable E T) xs -> Forall (csv_printable E T) ys -> (exists e, t_float T "start" = Raise e) ->
  exists inputs, get_csv_inputs S (output E meta xs ++ output E meta ys) label = Ok inputs /\ length inputs = length xs + 1 + length ys /\
    exists d e, nth_error inputs (length xs) = Some d /\ find_solution E T (Some m) None d = Raise e.
Proof.
  intros E T S m meta xs ys label HS HS2 HM HX HY (e0 & HT).
  set (sx := (meta_comments meta, SOLUTION_INPUT_FIELDS :: map (row_texts E) xs)). set (sy := (meta_comments meta, SOLUTION_INPUT_FIELDS :: map (row_texts E) ys)).
  assert (OKs : Forall section_ok [sx; sy]) by (constructor; [apply (output_ok E T); assumption | constructor; [apply (output_ok E T); assumption | constructor]]).
  pose proof (header_found S [sy] _ _ OKs HS2) as HH. pose proof (sections_read _ OKs) as [R1 R2]. cbv zeta in R1, R2.
  change (String.concat "" (map section_text [sx; sy])) with (section_text sx ++ section_text sy)%string in *.
  change (String.concat "" (map section_text [(meta_comments meta, SOLUTION_INPUT_FIELDS :: map (row_texts E) xs); sy])) with (section_text sx ++ section_text sy)%string in HH.
  rewrite !output_section. fold sx sy. unfold get_csv_inputs. rewrite HH. cbn [rbind]. rewrite R2. cbn [rbind flat_map snd app sx sy]. rewrite app_nil_r. eexists. split; [reflexivity|].
  set (rows := map (row_texts E) xs ++ SOLUTION_INPUT_FIELDS :: map (row_texts E) ys).
  assert (NB : filter not_blank_row rows = rows) by (unfold rows; rewrite filter_app; cbn [filter]; rewrite !nonblank_rows; reflexivity).
  pose proof (dict_rows_says SOLUTION_INPUT_FIELDS rows label) as D. rewrite NB in D.
  set (ds := filter_csv_columns (add_labels (dict_rows SOLUTION_INPUT_FIELDS rows) label) (CONFIG_FIELDS ++ SOLUTION_IDENTIFICATION_FIELDS)) in *.
  split; [rewrite <- (Forall2_len _ _ _ _ _ D); unfold rows; rewrite app_length; cbn [length]; rewrite !map_length; lia|].
  assert (HN : exists d, nth_error ds (length xs) = Some d /\ row_says SOLUTION_INPUT_FIELDS label SOLUTION_INPUT_FIELDS d).
  { clearbody ds. clear - D. unfold rows in D. revert ds D. induction xs as [|x t IH]; intros ds D; cbn [map app] in D; inversion D; subst; [eexists; split; [reflexivity | assumption]|].
    cbn [length nth_error]. apply IH. assumption. }
  destruct HN as (d & N1 & [ND RS]). exists d.
  assert (C : forall f, str_in f SOLUTION_INPUT_FIELDS = true -> cell f SOLUTION_INPUT_FIELDS SOLUTION_INPUT_FIELDS = Some (VText f)).
  { intros f Hf. pose proof (cell_map f SOLUTION_INPUT_FIELDS (fun s => s)) as M. rewrite map_id, Hf in M. exact M. }
  unfold find_solution. rewrite filter_ids by exact ND.
  set (p := fun k : string => negb (str_in k ["filename"; "solution_name"])).
  change (filter (fun e : string * val => negb (str_in (fst e) ["filename"; "solution_name"])) d) with (filter (fun e : string * val => p (fst e)) d).
  assert (CO : exists c, construct E "ConfigInput" (filter (fun e : string * val => p (fst e)) d) = Ok (conf_object c) /\ c "start" = VText "start").
  { exists (fun f => if String.eqb f "label" then VText label else VText f). split; [|reflexivity].
    unfold conf_object, CONFIG_FIELDS. apply (construct_fields E "ConfigInput" fields_ConfigInput _ (fun f => if String.eqb f "label" then VText label else VText f)); [reflexivity | discriminate | |].
    - intros k Hk. apply in_map_iff in Hk as ((k' & v) & <- & Hk). apply filter_In in Hk as [Hk1 Hk2]. cbn [fst] in *.
      assert (Q : dget k' d <> None) by (intro X; apply dget_None_keys in X; apply X; unfold dkeys; apply in_map_iff; exists (k', v); auto).
      rewrite RS in Q. destruct (String.eqb_spec k' "label") as [->|N]; [inl|]. destruct (allowed k') eqn:A; [|congruence]. unfold allowed in A. apply str_in_In in A.
      apply in_app_iff in A as [A|A]; [exact A|]. unfold p in Hk2. apply str_in_In in A. rewrite A in Hk2. discriminate Hk2.
    - unfold fields_ConfigInput. field_forall; (split; [rewrite dget_filter_pred by reflexivity; rewrite RS; vm_compute; reflexivity | reflexivity]). }
  destruct CO as (c & C1 & C2). exists e0. split; [exact N1|]. rewrite C1. cbn [rbind add_overrides]. unfold to_soln_input, to_soln_table. cbn [convert_all].
  unfold conf_object. rewrite getattr_object by inl. cbn [rbind]. rewrite C2. cbn [convert_in on_text]. rewrite HT. reflexivity.
Qed.

(** ** Concrete cases *)
Definition E2 : env := mk_env (fun _ => Ok (slice_obj (VInt (-1000)) (VInt (-100)) VNone)) (fun _ => Raise OtherError)
  (fun v => match v with VNum (Some r) => if Req_EM_T r 1 then "1.0" else "0.5" | _ => "slice(-1000, -100, None)" end) (fun l => l) true.
Definition T2 : text_tools := mk_tools
  (fun s => if String.eqb s "1.0" then Ok (Some 1%R) else if String.eqb s "0.5" then Ok (Some (1/2)%R) else Raise ValueError) (t_int T1) (t_bool T1).
Lemma reads2_1 : float_reads E2 T2 (Some 1%R).
Proof. unfold float_reads. cbn [e_str E2]. destruct (Req_EM_T 1 1) as [_|N]; [|destruct N; reflexivity]. repeat split; discriminate. Qed.
Lemma reads2_half : float_reads E2 T2 (Some (1/2)%R).
Proof. unfold float_reads. cbn [e_str E2]. destruct (Req_EM_T (1/2) 1) as [X|_]; [Lra.lra|]. repeat split; discriminate. Qed.
Lemma x1_csv_printable : csv_printable E2 T2 x1.
Proof.
  constructor.
  - intros f Hf. repeat (destruct Hf as [<-|Hf]; [first [exists (Some 1%R); split; [reflexivity | exact reads2_1] | exists (Some (1/2)%R); split; [reflexivity | exact reads2_half]]|]). destruct Hf.
  - intros f Hf. repeat (destruct Hf as [<-|Hf]; [exists 12%Z; split; reflexivity|]). destruct Hf.
  - split; reflexivity.
  - intros f Hf. repeat (destruct Hf as [<-|Hf]; [exists true; reflexivity|]). destruct Hf.
  - intros f Hf. repeat (destruct Hf as [<-|Hf]; [first [left; reflexivity | right; exists (Some (1/2)%R); split; [reflexivity | exact reads2_half]]|]). destruct Hf.
  - right. exists 10%Z. split; reflexivity.
  - eexists. reflexivity.
  - right. do 3 eexists. split; [reflexivity|]. split; reflexivity.
  - right. exists true, false, true. split; reflexivity.
  - assert (R : forall r, keeps_in_csv (e_str E2 (VNum r))) by (intros [r|]; cbn [e_str E2]; [destruct (Req_EM_T r 1)|]; apply one_line_keeps; reflexivity).
    intros f Hf N. repeat (destruct Hf as [<-|Hf]; [first [destruct N; reflexivity | exact (R (Some 1%R)) | exact (R (Some (1/2)%R)) | apply one_line_keeps; vm_compute; reflexivity]|]). destruct Hf.
Qed.
Definition keep : solver := fun s => Ok (true, Some s).
(** Solve everything in a table of two inputs, with the tasks finishing in reverse. *)
Example C55_nonvacuous : exists inputs, get_csv_inputs simple_sniffer (output E2 [("label", "a")] [x1; x1]) "a" = Ok inputs /\ length inputs = 2 /\
  Forall2 (fun d o => exists s, stands_for E2 T2 None d s /\ outcome keep s o /\ writable o) inputs
    (map (fun x => Some (map (fun f => (f, x f)) SOLUTION_INPUT_FIELDS)) [x1; x1]) /\ (forall i, i < length inputs -> In i [1; 0]).
Proof.
  destruct (output_read E2 T2 simple_sniffer [("label", "a")] [x1; x1] "a") as (inputs & H1 & H2).
  - vm_compute. reflexivity.
  - constructor; [repeat split | constructor].
  - constructor; [exact x1_csv_printable | constructor; [exact x1_csv_printable | constructor]].
  - exists inputs. split; [exact H1|]. pose proof (Forall2_len _ _ _ _ _ H2) as L. split; [symmetry; exact L|]. split; [|rewrite <- L; cbn; intros i Hi; lia].
    clear H1 L. inversion H2 as [|? d1 ? t1 [A1 _] B1]; subst. inversion B1 as [|? d2 ? t2 [A2 _] B2]; subst. inversion B2; subst.
    assert (W : of_solution_input (map (fun f => (f, x1 f)) SOLUTION_INPUT_FIELDS)) by (intros k Hk; unfold dkeys in Hk; rewrite map_map, map_id in Hk; exact Hk).
    constructor; [|constructor; [|constructor]]; exists (soln_object x1); (split; [assumption|]); (split; [apply oc_solved with (c := "SolutionInput"); reflexivity | exact W]).
Qed.
Example C79_nonvacuous : exists text, csvrunner E2 T2 simple_sniffer (Some keep) None [("label", "a")] (output E2 [("label", "a")] [x1; x1]) "a" [1; 0] = Ok (text, None) /\
  forall label2, exists inputs2, get_csv_inputs simple_sniffer text label2 = Ok inputs2 /\
    Forall2 (fun x d => stands_for E2 T2 None d (soln_object x) /\ dget "label" d = Some (VText label2)) [x1; x1] inputs2.
Proof.
  destruct C55_nonvacuous as (inputs & H1 & _ & H3 & H4).
  apply (C79_results_as_inputs_partial E2 T2 simple_sniffer keep None [("label", "a")] (output E2 [("label", "a")] [x1; x1]) "a" inputs
    (map (fun x => Some (map (fun f => (f, x f)) SOLUTION_INPUT_FIELDS)) [x1; x1]) [1; 0] [x1; x1]).
  - exact simple_sniffer_ok.
  - vm_compute. reflexivity.
  - constructor; [repeat split | constructor].
  - exact H1.
  - clear - H3. induction H3 as [|d o l l' (s & A & B & C) HF IH]; constructor; [exists s; auto | exact IH].
  - exact H4.
  - reflexivity.
  - constructor; [exact x1_csv_printable | constructor; [exact x1_csv_printable | constructor]].
Qed.
(** An empty selection of MCMC variables is printed as nothing and comes back as None, which means all of them. *)
Theorem C79_no_mcmc_refuted : forall E T, let m := mcmc_obj (VBool false) (VBool false) (VBool false) in
  csv_text E m = "" /\ convert_in E T IMcmc (given "mcmc_vars" (VText (csv_text E m))) = Ok VNone.
Proof. intros E T. split; reflexivity. Qed.
(** One row that is not a valid input ends the whole batch: the rows after it are lost, although they stand for inputs
    that the solver solves. *)
Lemma bad_row_raises : forall E T m overrides label d, overrides = None -> row_says SOLUTION_INPUT_FIELDS label ["oops"] d -> exists e, find_solution E T (Some m) overrides d = Raise e.
Proof.
  intros E T m overrides label d -> [ND RS]. unfold find_solution. rewrite filter_ids by exact ND.
  set (p := fun k : string => negb (str_in k ["filename"; "solution_name"])).
  change (filter (fun e : string * val => negb (str_in (fst e) ["filename"; "solution_name"])) d) with (filter (fun e : string * val => p (fst e)) d).
  destruct (construct E "ConfigInput" (filter (fun e : string * val => p (fst e)) d)) as [c|e] eqn:C; [|exists e; reflexivity]. cbn [rbind add_overrides].
  set (c0 := fun f => if String.eqb f "label" then VText label else if String.eqb f "start" then VText "oops" else VNone).
  assert (C' : construct E "ConfigInput" (filter (fun e : string * val => p (fst e)) d) = Ok (conf_object c0)).
  { unfold conf_object, CONFIG_FIELDS. apply (construct_fields E "ConfigInput" fields_ConfigInput _ c0); [reflexivity | discriminate | |].
    - intros k Hk. apply in_map_iff in Hk as ((k' & v) & <- & Hk). apply filter_In in Hk as [Hk1 Hk2]. cbn [fst] in *.
      assert (Q : dget k' d <> None) by (intro X; apply dget_None_keys in X; apply X; unfold dkeys; apply in_map_iff; exists (k', v); auto).
      rewrite RS in Q. destruct (String.eqb_spec k' "label") as [->|N]; [inl|]. destruct (allowed k') eqn:A; [|congruence]. unfold allowed in A. apply str_in_In in A.
      apply in_app_iff in A as [A|A]; [exact A|]. unfold p in Hk2. apply str_in_In in A. rewrite A in Hk2. discriminate Hk2.
    - unfold fields_ConfigInput. field_forall; (split; [rewrite dget_filter_pred by reflexivity; rewrite RS; vm_compute; reflexivity | reflexivity]). }
  rewrite C' in C. injection C as <-. unfold to_soln_input, to_soln_table. cbn [convert_all].
  unfold conf_object. rewrite getattr_object by inl. cbn [rbind]. change (c0 "start") with (VText "oops"). cbn [convert_in on_text]. destruct (t_float T "oops") as [r|e]; cbn [rbind]; [|exists e; reflexivity].
  rewrite getattr_object by inl. cbn [rbind]. change (c0 "stop") with VNone. cbn [convert_in on_text rbind]. exists OtherError. reflexivity.
Qed.
Theorem C55_bad_row_refuted : forall E T S m meta x label finished, sn_sniff S (csv_row SOLUTION_INPUT_FIELDS) = Ok unix_dialect -> csv_printable E T x ->
  In 0 finished ->
  let input := (csv_row SOLUTION_INPUT_FIELDS ++ csv_row ["oops"] ++ csv_row (row_texts E x))%string in
  exists d1 d2 e, get_csv_inputs S input label = Ok [d1; d2] /\ stands_for E T None d2 (soln_object x) /\
    csvrunner E T S (Some m) None meta input label finished = Ok ((metadata meta ++ csv_row SOLUTION_INPUT_FIELDS)%string, Some e).
Proof.
  intros E T S m meta x label finished HS2 P H0 input.
  set (s := ([] : list string, [SOLUTION_INPUT_FIELDS; ["oops"]; row_texts E x])).
  assert (OKs : Forall section_ok [s]).
  { constructor; [|constructor]. split; [constructor|]. cbn [s snd]. constructor; [exact header_keeps|]. constructor; [constructor; [apply one_line_keeps; reflexivity | constructor]|]. constructor; [apply (row_keeps E T), P | constructor]. }
  assert (Q : String.concat "" (map section_text [s]) = input) by reflexivity.
  pose proof (header_found S [] _ _ OKs HS2) as HH. pose proof (sections_read _ OKs) as [R1 R2]. cbv zeta in R1, R2. rewrite Q in R1, R2.
  change (String.concat "" (map section_text [([] : list string, SOLUTION_INPUT_FIELDS :: [["oops"]; row_texts E x])])) with input in HH.
  pose proof (dict_rows_says SOLUTION_INPUT_FIELDS [["oops"]; row_texts E x] label) as D.
  assert (GI : get_csv_inputs S input label = Ok (filter_csv_columns (add_labels (dict_rows SOLUTION_INPUT_FIELDS [["oops"]; row_texts E x]) label) (CONFIG_FIELDS ++ SOLUTION_IDENTIFICATION_FIELDS))).
  { unfold get_csv_inputs. rewrite HH. cbn [rbind]. rewrite R2. reflexivity. }
  change (filter not_blank_row [["oops"]; row_texts E x]) with [["oops"]; row_texts E x] in D.
  set (ds := filter_csv_columns (add_labels (dict_rows SOLUTION_INPUT_FIELDS [["oops"]; row_texts E x]) label) (CONFIG_FIELDS ++ SOLUTION_IDENTIFICATION_FIELDS)) in *. clearbody ds.
  inversion D as [|? d1 ? t1 A1 B1]; subst. inversion B1 as [|? d2 ? t2 A2 B2]; subst. inversion B2; subst.
  destruct (bad_row_raises E T m None label d1 eq_refl A1) as (e & Hbad). exists d1, d2, e. split; [exact GI|]. split; [apply (row_stands_for E T x label d2 P A2)|].
  unfold csvrunner. rewrite GI. cbn [rbind map handed_over]. replace (existsb (Nat.eqb 0) finished) with true by (symmetry; apply existsb_In, H0).
  cbn [write_results]. rewrite Hbad. rewrite app_nil_s. reflexivity.
Qed.
