(** C93, C94: the tables of ds-stats, ds-dumpcsv and ds-dump, and their use as inputs of a batch. *)
From Coq Require Import String List Bool ZArith Ascii Arith Reals Lia.
From Verif Require Import Lib_Py Model_FormatTables Model_Format Model_Run Model_Inputs Spec_Inputs Proofs_Inputs Props_Inputs Props_InputsFile Model_Csv Spec_Csv Proofs_Csv Props_Csv Props_Batch Model_Tables.
Import ListNotations.
Open Scope string_scope. Open Scope list_scope.

(** ** Specification *)
(** Where the value of a column comes from: exactly one source for every column. *)
Inductive source := FromFile | FromName | FromInput | FromStat (i : nat).
Definition column_of (c : string) (s : source) : Prop :=
  match s with
  | FromFile => c = "filename" | FromName => c = "solution_name" | FromInput => In c SOLUTION_INPUT_FIELDS
  | FromStat i => exists keys, nth_error STATS_FUNCS i = Some keys /\ In c keys
  end.
Section Spec.
Context {Soln : Type}.
Variable E : env.
Variable inputs : Soln -> string -> val.
Variable stat : nat -> Soln -> res (string -> val).
(** The input of a solution as a dict. *)
Definition input_dict (s : Soln) : dict val := map (fun f => (f, inputs s f)) SOLUTION_INPUT_FIELDS.
(** The text in column [c] of the row of solution [s], found under [name] in [file]. *)
Definition cell_says (file name : string) (s : Soln) (c text : string) : Prop :=
  exists src, column_of c src /\
  match src with
  | FromFile => text = file | FromName => text = name | FromInput => text = csv_text E (inputs s c)
  | FromStat i => exists f, stat i s = Ok f /\ text = csv_text E (f c)
  end.
(** The statistics of a solution fail: the first function that fails does so with [e]. *)
Definition stats_fail (s : Soln) (e : exn) : Prop :=
  exists i, i < 5 /\ stat i s = Raise e /\ forall j, j < i -> exists f, stat j s = Ok f.
(** The rows for a list of entries: one for each solution that is there, unless its statistics are a ValueError. *)
Inductive table : list (string * string * option Soln) -> list (list string) -> Prop :=
| t_nil : table [] []
| t_absent : forall f n t rows, table t rows -> table ((f, n, None) :: t) rows
| t_row : forall f n s t row rows, (forall i, i < 5 -> exists v, stat i s = Ok v) -> Forall2 (cell_says f n s) FIELD_NAMES row ->
    table t rows -> table ((f, n, Some s) :: t) (row :: rows)
| t_failed : forall f n s t rows, stats_fail s ValueError -> table t rows -> table ((f, n, Some s) :: t) rows.
End Spec.

Lemma str_in_false : forall k l, str_in k l = false <-> ~ In k l.
Proof. intros k l; split; intro H; [intro X; apply str_in_In in X; congruence | destruct (str_in k l) eqn:Q; [destruct H; apply str_in_In, Q | reflexivity]]. Qed.

(** ** Columns *)
Definition sources (c : string) : list source :=
  (if String.eqb c "filename" then [FromFile] else []) ++ (if String.eqb c "solution_name" then [FromName] else []) ++
  (if str_in c SOLUTION_INPUT_FIELDS then [FromInput] else []) ++
  map FromStat (filter (fun i => str_in c (nth i STATS_FUNCS [])) (seq 0 5)).
Lemma sources_ok : forall c s, In s (sources c) <-> column_of c s.
Proof.
  intros c s. unfold sources. rewrite !in_app_iff.
  assert (M : In s (map FromStat (filter (fun i => str_in c (nth i STATS_FUNCS [])) (seq 0 5))) <-> exists i, s = FromStat i /\ column_of c (FromStat i)).
  { rewrite in_map_iff. split.
    - intros (i & <- & H). apply filter_In in H as [H2 H3]. apply in_seq in H2. exists i. split; [reflexivity|]. exists (nth i STATS_FUNCS []).
      split; [apply nth_error_nth'; cbn; lia | apply str_in_In, H3].
    - intros (i & -> & keys & H1 & H2). exists i. split; [reflexivity|]. apply filter_In. split.
      + apply in_seq. assert (i < length STATS_FUNCS) by (apply nth_error_Some; congruence). cbn in *. lia.
      + apply str_in_In. rewrite (nth_error_nth _ _ _ H1). exact H2. }
  rewrite M. clear M.
  assert (M1 : In s (if String.eqb c "filename" then [FromFile] else []) <-> s = FromFile /\ c = "filename").
  { destruct (String.eqb_spec c "filename") as [Q|Q]; cbn [In]; intuition congruence. }
  assert (M2 : In s (if String.eqb c "solution_name" then [FromName] else []) <-> s = FromName /\ c = "solution_name").
  { destruct (String.eqb_spec c "solution_name") as [Q|Q]; cbn [In]; intuition congruence. }
  assert (M3 : In s (if str_in c SOLUTION_INPUT_FIELDS then [FromInput] else []) <-> s = FromInput /\ In c SOLUTION_INPUT_FIELDS).
  { rewrite <- str_in_In. destruct (str_in c SOLUTION_INPUT_FIELDS); cbn [In]; intuition congruence. }
  rewrite M1, M2, M3. clear. destruct s as [| | |i]; split.
  all: try (intros [[X H]|[[X H]|[[X H]|(j & X & H)]]]; try discriminate X; try (injection X as <-); exact H).
  - intro H. left. auto.
  - intro H. right; left. auto.
  - intro H. right; right; left. auto.
  - intro H. right; right; right. eauto.
Qed.
(** Every column of the table has exactly one source, every source a column, and no name is there twice. *)
Theorem C93_columns : NoDup FIELD_NAMES /\ (forall c, In c FIELD_NAMES -> exists s, column_of c s /\ forall s', column_of c s' -> s' = s) /\
  (forall c s, column_of c s -> In c FIELD_NAMES).
Proof.
  assert (U : forallb (fun c => match sources c with [_] => true | _ => false end) FIELD_NAMES = true) by (vm_compute; reflexivity).
  split; [|split].
  - assert (D : forallb (fun c => Nat.eqb (count_occ string_dec FIELD_NAMES c) 1) FIELD_NAMES = true) by (vm_compute; reflexivity).
    rewrite forallb_forall in D. apply (NoDup_count_occ string_dec). intro c. destruct (in_dec string_dec c FIELD_NAMES) as [Hc|Hc].
    + apply D, Nat.eqb_eq in Hc. lia.
    + apply (count_occ_not_In string_dec) in Hc. lia.
  - rewrite forallb_forall in U. intros c Hc. specialize (U c Hc). destruct (sources c) as [|s [|? ?]] eqn:Q; try discriminate.
    exists s. split; [apply sources_ok; rewrite Q; left; reflexivity|]. intros s' H. apply sources_ok in H. rewrite Q in H. destruct H as [H|[]]. congruence.
  - intros c [| | |i] H; cbn [column_of] in H.
    + subst c. apply str_in_In. vm_compute. reflexivity.
    + subst c. apply str_in_In. vm_compute. reflexivity.
    + apply in_app_iff. left. exact H.
    + destruct H as (keys & H1 & H2).
      assert (K : forallb (fun keys => forallb (fun c => str_in c FIELD_NAMES) keys) STATS_FUNCS = true) by (vm_compute; reflexivity).
      rewrite forallb_forall in K. apply nth_error_In in H1. specialize (K _ H1). rewrite forallb_forall in K. apply str_in_In, K, H2.
Qed.
Print Assumptions C93_columns.

(** ** Rows *)
Lemma dget_dupdate : forall (ch d : dict val) f, NoDup (map fst ch) -> dget f (dupdate d ch) = match dget f ch with Some v => Some v | None => dget f d end.
Proof.
  unfold dupdate. induction ch as [|[k u] t IH]; intros d f ND; [reflexivity|]. cbn [fold_left fst snd dget]. inversion ND as [|? ? N ND']; subst. rewrite IH by exact ND'.
  destruct (String.eqb_spec f k) as [->|Nk].
  - apply dget_None_keys in N. fold (dkeys t) in N. rewrite N. apply dget_dset_same.
  - destruct (dget f t); [reflexivity|]. apply dget_dset_other. congruence.
Qed.
Lemma dget_names : forall (names : list string) (x : string -> val) f, dget f (map (fun g => (g, x g)) names) = if str_in f names then Some (x f) else None.
Proof.
  intros names x f. destruct (str_in f names) eqn:Q; [apply dget_map, str_in_In, Q | apply dget_map_none, str_in_false, Q].
Qed.
Lemma names_keys : forall (names : list string) (x : string -> val), map fst (map (fun g => (g, x g)) names) = names.
Proof. intros. rewrite map_map, map_id. reflexivity. Qed.
Definition nodupb (l : list string) : bool := forallb (fun c => Nat.eqb (count_occ string_dec l c) 1) l.
Lemma nodupb_ok : forall l, nodupb l = true -> NoDup l.
Proof.
  intros l D. unfold nodupb in D. rewrite forallb_forall in D. apply (NoDup_count_occ string_dec). intro c. destruct (in_dec string_dec c l) as [Hc|Hc].
  - apply D, Nat.eqb_eq in Hc. lia.
  - apply (count_occ_not_In string_dec) in Hc. lia.
Qed.
Ltac nodup := apply nodupb_ok; vm_compute; reflexivity.

Section Rows.
Context {Soln : Type}.
Variable E : env.
Variable inputs : Soln -> string -> val.
Variable stat : nat -> Soln -> res (string -> val).
Let row_of := stats_row E (input_dict inputs) stat.

Lemma five : forall i, i < 5 -> i = 0 \/ i = 1 \/ i = 2 \/ i = 3 \/ i = 4.
Proof. lia. Qed.
Lemma row_good : forall file name s, (forall i, i < 5 -> exists v, stat i s = Ok v) ->
  exists row, row_of file name s = Ok (csv_row row) /\ Forall2 (cell_says E inputs stat file name s) FIELD_NAMES row.
Proof.
  intros file name s H.
  destruct (H 0 ltac:(lia)) as [f0 F0]. destruct (H 1 ltac:(lia)) as [f1 F1]. destruct (H 2 ltac:(lia)) as [f2 F2].
  destruct (H 3 ltac:(lia)) as [f3 F3]. destruct (H 4 ltac:(lia)) as [f4 F4].
  unfold row_of, stats_row, compute_solution_stats. set (K := STATS_FUNCS). unfold STATS_FUNCS in K. unfold K. cbn [update_all rbind].
  rewrite F0, F1, F2, F3, F4. cbn [rbind update_all]. clear K.
  set (k0 := nth 0 STATS_FUNCS []). set (k1 := nth 1 STATS_FUNCS []). set (k2 := nth 2 STATS_FUNCS []). set (k3 := nth 3 STATS_FUNCS []). set (k4 := nth 4 STATS_FUNCS []).
  match goal with |- context [dict_row E FIELD_NAMES ?d] => change d with
    (dupdate (dupdate (dupdate (dupdate (dupdate (dupdate [] (dupdate [("filename", VText file); ("solution_name", VText name)] (input_dict inputs s)))
      (map (fun k => (k, f0 k)) k0)) (map (fun k => (k, f1 k)) k1)) (map (fun k => (k, f2 k)) k2)) (map (fun k => (k, f3 k)) k3)) (map (fun k => (k, f4 k)) k4)) end.
  set (m := dupdate [("filename", VText file); ("solution_name", VText name)] (input_dict inputs s)).
  assert (NI : NoDup (map fst (input_dict inputs s))) by (unfold input_dict; rewrite names_keys; nodup).
  assert (Gm : forall c, dget c m = if str_in c SOLUTION_INPUT_FIELDS then Some (inputs s c) else if String.eqb c "filename" then Some (VText file) else if String.eqb c "solution_name" then Some (VText name) else None).
  { intro c. unfold m. rewrite dget_dupdate by exact NI. unfold input_dict. rewrite dget_names. destruct (str_in c SOLUTION_INPUT_FIELDS); reflexivity. }
  assert (NM : NoDup (map fst m)).
  { unfold m. assert (Q : map fst (dupdate [("filename", VText file); ("solution_name", VText name)] (input_dict inputs s)) = ["filename"; "solution_name"] ++ SOLUTION_INPUT_FIELDS) by reflexivity.
    rewrite Q. nodup. }
  set (d := dupdate (dupdate _ _) _).
  assert (Gd : forall c, dget c d = if str_in c k4 then Some (f4 c) else if str_in c k3 then Some (f3 c) else if str_in c k2 then Some (f2 c) else if str_in c k1 then Some (f1 c) else if str_in c k0 then Some (f0 c) else dget c m).
  { intro c. unfold d. rewrite !dget_dupdate by (rewrite ?names_keys; try exact NM; nodup). rewrite !dget_names.
    destruct (str_in c k4); [reflexivity|]. destruct (str_in c k3); [reflexivity|]. destruct (str_in c k2); [reflexivity|]. destruct (str_in c k1); [reflexivity|].
    destruct (str_in c k0); [reflexivity|]. cbn [dget]. destruct (dget c m); reflexivity. }
  assert (KE : forallb (fun e => str_in (fst e) FIELD_NAMES) d = true).
  { apply forallb_forall. intros [k v] Hk. cbn [fst].
    assert (Q : dget k d <> None) by (intro X; apply dget_None_keys in X; apply X; unfold dkeys; apply in_map_iff; exists (k, v); auto).
    rewrite Gd, Gm in Q. apply str_in_In. destruct C93_columns as (_ & _ & CC).
    repeat match type of Q with context [str_in k ?l] => destruct (str_in k l) eqn:? end.
    1: apply (CC k (FromStat 4)); exists k4; split; [reflexivity | apply str_in_In; assumption].
    1: apply (CC k (FromStat 3)); exists k3; split; [reflexivity | apply str_in_In; assumption].
    1: apply (CC k (FromStat 2)); exists k2; split; [reflexivity | apply str_in_In; assumption].
    1: apply (CC k (FromStat 1)); exists k1; split; [reflexivity | apply str_in_In; assumption].
    1: apply (CC k (FromStat 0)); exists k0; split; [reflexivity | apply str_in_In; assumption].
    1: apply (CC k FromInput); apply str_in_In; assumption.
    destruct (String.eqb_spec k "filename") as [->|]; [apply (CC _ FromFile); reflexivity|]. destruct (String.eqb_spec k "solution_name") as [->|]; [apply (CC _ FromName); reflexivity | congruence]. }
  unfold dict_row. rewrite KE. eexists. split; [reflexivity|].
  assert (G : forall l, (forall c, In c l -> In c FIELD_NAMES) -> Forall2 (cell_says E inputs stat file name s) l (map (fun f => match dget f d with Some v => csv_text E v | None => "" end) l)).
  { induction l as [|c l IH]; intro Hl; [constructor|]. cbn [map]. constructor; [|apply IH; intros c' Hc'; apply Hl; right; exact Hc'].
    destruct C93_columns as (_ & CU & _). destruct (CU c (Hl c (or_introl eq_refl))) as (src & S1 & S2). exists src. split; [exact S1|].
    assert (N : forall s', s' <> src -> ~ column_of c s') by (intros s' Hs Hc; apply Hs, S2, Hc).
    assert (Nk : forall i, FromStat i <> src -> i < 5 -> str_in c (nth i STATS_FUNCS []) = false).
    { intros i Hi Hlt. apply str_in_false. intro X. apply (N _ Hi). exists (nth i STATS_FUNCS []). split; [apply nth_error_nth'; cbn; lia | exact X]. }
    assert (Ni : FromInput <> src -> str_in c SOLUTION_INPUT_FIELDS = false) by (intro Hi; apply str_in_false; apply (N _ Hi)).
    rewrite Gd, Gm. destruct src as [| | |i].
    - unfold k0, k1, k2, k3, k4. rewrite !Nk by (lia || discriminate). rewrite Ni by discriminate. cbn [column_of] in S1. subst c. reflexivity.
    - unfold k0, k1, k2, k3, k4. rewrite !Nk by (lia || discriminate). rewrite Ni by discriminate. cbn [column_of] in S1. subst c. reflexivity.
    - unfold k0, k1, k2, k3, k4. rewrite !Nk by (lia || discriminate). cbn [column_of] in S1. apply str_in_In in S1. rewrite S1. reflexivity.
    - destruct S1 as (keys & K1 & K2). assert (Hi : i < 5) by (assert (i < length STATS_FUNCS) by (apply nth_error_Some; congruence); cbn in *; lia).
      assert (Hin : str_in c (nth i STATS_FUNCS []) = true) by (rewrite (nth_error_nth _ _ _ K1); apply str_in_In, K2).
      destruct (five i Hi) as [Q|[Q|[Q|[Q|Q]]]]; subst i; unfold k0, k1, k2, k3, k4.
      + rewrite (Nk 1), (Nk 2), (Nk 3), (Nk 4), Hin by (lia || discriminate). exists f0. split; [exact F0 | reflexivity].
      + rewrite (Nk 2), (Nk 3), (Nk 4), Hin by (lia || discriminate). exists f1. split; [exact F1 | reflexivity].
      + rewrite (Nk 3), (Nk 4), Hin by (lia || discriminate). exists f2. split; [exact F2 | reflexivity].
      + rewrite (Nk 4), Hin by (lia || discriminate). exists f3. split; [exact F3 | reflexivity].
      + rewrite Hin. exists f4. split; [exact F4 | reflexivity]. }
  apply G. auto.
Qed.
Lemma row_bad : forall file name s e, stats_fail stat s e -> row_of file name s = Raise e.
Proof.
  intros file name s e (i & Hi & F & G). unfold row_of, stats_row, compute_solution_stats. set (K := STATS_FUNCS). unfold STATS_FUNCS in K. unfold K.
  destruct (five i Hi) as [Q|[Q|[Q|[Q|Q]]]]; subst i.
  - cbn [update_all]. rewrite F. reflexivity.
  - destruct (G 0 ltac:(lia)) as [f0 F0]. cbn [update_all]. rewrite F0. cbn [rbind update_all]. rewrite F. reflexivity.
  - destruct (G 0 ltac:(lia)) as [f0 F0]. destruct (G 1 ltac:(lia)) as [f1 F1]. cbn [update_all]. rewrite F0, F1. cbn [rbind update_all]. rewrite F. reflexivity.
  - destruct (G 0 ltac:(lia)) as [f0 F0]. destruct (G 1 ltac:(lia)) as [f1 F1]. destruct (G 2 ltac:(lia)) as [f2 F2]. cbn [update_all]. rewrite F0, F1, F2. cbn [rbind update_all].
    rewrite F. reflexivity.
  - destruct (G 0 ltac:(lia)) as [f0 F0]. destruct (G 1 ltac:(lia)) as [f1 F1]. destruct (G 2 ltac:(lia)) as [f2 F2]. destruct (G 3 ltac:(lia)) as [f3 F3].
    cbn [update_all]. rewrite F0, F1, F2, F3. cbn [rbind update_all]. rewrite F. reflexivity.
Qed.
End Rows.

(** ** The table *)
Lemma string_app_nil : forall s : string, (s ++ "")%string = s.
Proof. induction s as [|c s IH]; cbn; congruence. Qed.
Section Table.
Context {Soln : Type}.
Variable E : env.
Variable inputs : Soln -> string -> val.
Variable stat : nat -> Soln -> res (string -> val).

Lemma loop_table : forall a rows, table E inputs stat a rows -> forall b,
  write_loop (stats_row E (input_dict inputs) stat) (a ++ b) =
    let '(rest, e) := write_loop (stats_row E (input_dict inputs) stat) b in ((rows_text rows ++ rest)%string, e).
Proof.
  intros a rows H b. induction H as [|f n t rows H IH|f n s t row rows H1 H2 H IH|f n s t rows H1 H IH]; cbn [app write_loop].
  - destruct (write_loop _ b). reflexivity.
  - exact IH.
  - destruct (row_good E inputs stat f n s H1) as (row' & R1 & R2). cbn zeta in R1. rewrite R1, IH.
    assert (row = row').
    { destruct C93_columns as (_ & CU & _). clear - H2 R2 CU.
      assert (Q : forall l, (forall c, In c l -> In c FIELD_NAMES) -> forall row row', Forall2 (cell_says E inputs stat f n s) l row -> Forall2 (cell_says E inputs stat f n s) l row' -> row = row').
      { induction l as [|c l IH]; intros HL r r' A B; inversion A; subst; inversion B; subst; [reflexivity|]. f_equal; [|apply IH; auto; intros c' Hc'; apply HL; right; exact Hc'].
        destruct (CU c (HL c (or_introl eq_refl))) as (src & _ & U). destruct H1 as (s1 & C1 & V1). destruct H3 as (s2 & C2 & V2). rewrite (U s1 C1) in *. rewrite (U s2 C2) in *.
        destruct src as [| | |i]; try congruence. destruct V1 as (v1 & W1 & ->). destruct V2 as (v2 & W2 & ->). congruence. }
      apply (Q FIELD_NAMES); auto. }
    subst row'. destruct (write_loop _ b) as [rest e]. unfold rows_text. cbn [map]. rewrite concat_cons, app_assoc_s. reflexivity.
  - rewrite (row_bad E inputs stat f n s ValueError H1). exact IH.
Qed.
(** C93. The table: what was in the file, a header, and one row for each solution of the files, in order, with every value in its column; a solution whose
    statistics end in a ValueError is left out and changes nothing else. *)
Theorem C93_table_partial : forall old entries rows, table E inputs stat entries rows ->
  write_stats E (input_dict inputs) stat old entries = ((old ++ rows_text (FIELD_NAMES :: rows))%string, None).
Proof.
  intros old entries rows H. unfold write_stats. pose proof (loop_table entries rows H []) as L. rewrite app_nil_r in L. cbn [write_loop] in L. rewrite L.
  unfold rows_text. cbn [map]. rewrite concat_cons, string_app_nil. reflexivity.
Qed.
(** Missing above: any other exception. It ends the command; the rows before it are in the file, those after it, and of all later files, are not. *)
Theorem C93_other_error_exact : forall old before rows f n s after e, table E inputs stat before rows -> stats_fail stat s e -> e <> ValueError ->
  write_stats E (input_dict inputs) stat old (before ++ (f, n, Some s) :: after) = ((old ++ rows_text (FIELD_NAMES :: rows))%string, Some e).
Proof.
  intros old before rows f n s after e H HF He. unfold write_stats. rewrite (loop_table before rows H). cbn [write_loop]. rewrite (row_bad E inputs stat f n s e HF).
  replace (match e with ValueError => write_loop (stats_row E (input_dict inputs) stat) after | _ => ("", Some e) end) with ("", Some e) by (destruct e; congruence).
  unfold rows_text. cbn [map]. rewrite concat_cons, string_app_nil. reflexivity.
Qed.
(** Every list of entries whose statistics only fail with ValueError has such rows. *)
Theorem C93_table_exists : forall entries, (forall f n s, In (f, n, Some s) entries -> (forall i, i < 5 -> exists v, stat i s = Ok v) \/ stats_fail stat s ValueError) ->
  exists rows, table E inputs stat entries rows.
Proof.
  induction entries as [|[[f n] [s|]] t IH]; intro H.
  - exists []. constructor.
  - destruct IH as (rows & IH); [intros f' n' s' H'; apply (H f' n' s'); right; exact H'|].
    destruct (H f n s (or_introl eq_refl)) as [H1|H1]; [|exists rows; apply t_failed; assumption].
    destruct (row_good E inputs stat f n s H1) as (row & _ & R). exists (row :: rows). apply t_row; assumption.
  - destruct IH as (rows & IH); [intros f' n' s' H'; apply (H f' n' s'); right; exact H'|]. exists rows. apply t_absent, IH.
Qed.
(** Read back, the table of one run is its header and its rows. But the file is opened for appending and every run writes the header: after a second run the
    names of the columns are a row among the solutions. *)
Theorem C93_appended_refuted : forall e1 r1 e2 r2 t1, table E inputs stat e1 r1 -> table E inputs stat e2 r2 ->
  write_stats E (input_dict inputs) stat "" e1 = (t1, None) ->
  csv_reader unix_dialect (split_lines t1) = Ok (FIELD_NAMES :: r1) /\
  exists t2, write_stats E (input_dict inputs) stat t1 e2 = (t2, None) /\ csv_reader unix_dialect (split_lines t2) = Ok (FIELD_NAMES :: r1 ++ FIELD_NAMES :: r2).
Proof.
  intros e1 r1 e2 r2 t1 H1 H2 W. rewrite (C93_table_partial "" e1 r1 H1) in W. injection W as <-. cbn [append]. split; [unfold csv_reader; rewrite read_text_correct; apply read_rows|].
  eexists. split; [apply (C93_table_partial _ e2 r2 H2)|]. rewrite <- rows_text_app. unfold csv_reader. rewrite read_text_correct. cbn [app]. apply read_rows.
Qed.
End Table.
Print Assumptions C93_table_partial.
Print Assumptions C93_appended_refuted.

(** ** Where the rows come from *)
(** The files of a command: those named on the command line and then, if asked, those named on the lines of standard input. *)
Definition trimmed (s : string) : Prop := strip s = s /\ s <> "".
Lemma strip_line : forall s, trimmed s -> strip (s ++ String newline "") = s.
Proof.
  intros s [H N]. unfold strip in *.
  assert (L : forall t, lstrip t <> "" -> lstrip (t ++ String newline "")%string = (lstrip t ++ String newline "")%string).
  { induction t as [|a t IH]; intro K; [cbn in K; congruence|]. cbn [append lstrip] in *. destruct (is_space a); [apply IH, K|reflexivity]. }
  assert (Rr : forall t, rstrip (t ++ String newline "")%string = rstrip t).
  { induction t as [|a t IH]; [reflexivity|]. cbn [append rstrip]. rewrite IH. reflexivity. }
  rewrite L; [rewrite Rr; exact H|]. intro K. rewrite K in H. cbn in H. congruence.
Qed.
Theorem C93_files : forall files names with_stdin, Forall trimmed names ->
  get_all_files files (map (fun s => (s ++ String newline "")%string) names) with_stdin = files ++ (if with_stdin then names else []).
Proof.
  intros files names with_stdin H. unfold get_all_files. destruct with_stdin; [|reflexivity]. f_equal. rewrite map_map.
  induction H as [|s t Hs Ht IH]; [reflexivity|]. cbn [map]. rewrite strip_line by exact Hs. rewrite IH. reflexivity.
Qed.
Example C93_files_nonvacuous : Forall trimmed ["run 1.hdf5"; "b.hdf5"].
Proof. repeat constructor; discriminate. Qed.

Section Sources.
Context {Soln : Type}.
Variable read : string -> list (string * option Soln) * file_end (Soln := Soln).
(** Every solution a file yields is an entry, also of a file that breaks later, and the final solution is one more; nothing else is. *)
Theorem C93_sources : forall files f n s, In (f, n, s) (get_all_solutions read files) <->
  In f files /\ (In (n, s) (fst (read f)) \/ (n = "final" /\ snd (read f) = Final s)).
Proof.
  intros files f n s. unfold get_all_solutions. rewrite in_flat_map. split.
  - intros (g & Hg & H). unfold solutions_in in H. destruct (read g) as [items stop] eqn:R. apply in_app_iff in H as [H|H].
    + apply in_map_iff in H as ((n' & s') & Q & H). cbn [fst snd] in Q. injection Q as -> -> ->. rewrite R. split; [exact Hg | left; exact H].
    + destruct stop as [final|e]; [|destruct H]. destruct H as [Q|[]]. injection Q as <- <- <-. rewrite R. split; [exact Hg | right; split; reflexivity].
  - intros [Hf H]. exists f. split; [exact Hf|]. unfold solutions_in. destruct (read f) as [items stop]. cbn [fst snd] in H. apply in_app_iff. destruct H as [H|[-> ->]].
    + left. apply in_map_iff. exists (n, s). split; [reflexivity | exact H].
    + right. left. reflexivity.
Qed.
(** In order: file by file, in a file the solutions as they come and the final one last. *)
Theorem C93_order : forall files1 f files2 items final, read f = (items, Final final) ->
  get_all_solutions read (files1 ++ f :: files2) =
    get_all_solutions read files1 ++ map (fun p => (f, fst p, snd p)) items ++ (f, "final", final) :: get_all_solutions read files2.
Proof.
  intros files1 f files2 items final R. unfold get_all_solutions. rewrite flat_map_app. cbn [flat_map]. unfold solutions_in at 2. rewrite R, <- app_assoc. reflexivity.
Qed.
(** So a solution that is the final one of its run is there twice. *)
Theorem C93_final_twice_refuted : forall f name s items, read f = (items, Final (Some s)) -> In (name, Some s) items -> name <> "final" ->
  exists a b c, get_all_solutions read [f] = a ++ (f, name, Some s) :: b ++ (f, "final", Some s) :: c.
Proof.
  intros f name s items R H N. apply in_split in H as (i1 & i2 & ->).
  change [f] with ([] ++ f :: []). rewrite (C93_order [] f [] _ _ R). cbn [get_all_solutions flat_map app]. rewrite map_app. cbn [map fst snd].
  exists (map (fun p => (f, fst p, snd p)) i1), (map (fun p => (f, fst p, snd p)) i2), []. rewrite <- app_assoc. reflexivity.
Qed.
End Sources.
Print Assumptions C93_sources.

(** ** C94: tables as inputs of a batch *)
(** A row that says the fields of [x] in whatever columns stands for [x]; this is row_stands_for for any header. *)
Lemma row_stands_for_any : forall E T x names label row d, csv_printable E T x -> row_says names label row d ->
  (forall f, In f SOLUTION_INPUT_FIELDS -> cell f names row = Some (VText (csv_text E (x f)))) -> stands_for E T None d (soln_object x).
Proof.
  intros E T x names label row d P [ND RS] HC. exists (conf_object (csv_conf E label x)), (conf_object (csv_conf E label x)). split; [|split; [reflexivity | apply csv_conf_to_soln, P]].
  set (p := fun k : string => negb (str_in k ["filename"; "solution_name"])).
  change (filter (fun e : string * val => negb (str_in (fst e) ["filename"; "solution_name"])) d) with (filter (fun e : string * val => p (fst e)) d).
  assert (G : forall f, String.eqb f "label" = false -> str_in f SOLUTION_INPUT_FIELDS = true -> allowed f = true -> p f = true ->
    dget f (filter (fun e => p (fst e)) d) = Some (VText (csv_text E (x f)))).
  { intros f H1 H2 H3 H4. rewrite dget_filter_pred by exact H4. rewrite RS, H1, H3. apply HC, str_in_In, H2. }
  unfold conf_object, CONFIG_FIELDS.
  apply (construct_fields E "ConfigInput" fields_ConfigInput _ (fun f => if String.eqb f "label" then VText label else VText (csv_text E (x f))) (csv_conf E label x)); [reflexivity | discriminate | |].
  - intros k Hk. apply in_map_iff in Hk as ((k' & v) & <- & Hk). apply filter_In in Hk as [Hk1 Hk2]. cbn [fst] in *.
    assert (Q : dget k' d <> None) by (intro X; apply dget_None_keys in X; apply X; unfold dkeys; apply in_map_iff; exists (k', v); auto).
    rewrite RS in Q. destruct (String.eqb_spec k' "label") as [->|N]; [inl|]. destruct (allowed k') eqn:A; [|congruence]. unfold allowed in A. apply str_in_In in A.
    apply in_app_iff in A as [A|A]; [exact A|]. unfold p in Hk2. apply str_in_In in A. rewrite A in Hk2. discriminate Hk2.
  - unfold fields_ConfigInput. field_forall.
    all: (split; [first [apply G; vm_compute; reflexivity | idtac] | ]).
    all: try (match goal with |- convert _ _ _ = _ => first
      [ reflexivity
      | cbn [convert]; match goal with |- context [csv_conf _ _ _ ?f] => change (String.eqb f "label") with false; unfold csv_conf; change (String.eqb f "label") with false; cbn iota; rewrite given_required by reflexivity; reflexivity end
      | match goal with |- context [csv_conf _ _ _ ?f] => change (String.eqb f "label") with false; unfold csv_conf; change (String.eqb f "label") with false; cbn iota;
          unfold given; change (str_in f optional_fields) with true; rewrite andb_true_r; reflexivity end ] end).
    rewrite dget_filter_pred by reflexivity. rewrite RS. reflexivity.
Qed.
Section Batch.
Context {Soln : Type}.
Variable E : env.
Variable T : text_tools.
Variable S : sniffer.
Variable inputs : Soln -> string -> val.
Variable stat : nat -> Soln -> res (string -> val).
(** The solutions among the entries; those of them whose statistics do not fail. *)
Definition solutions_of (entries : list (string * string * option Soln)) : list Soln :=
  flat_map (fun e => match snd e with Some s => [s] | None => [] end) entries.
Definition computable (s : Soln) : bool := forallb (fun i => match stat i s with Ok _ => true | Raise _ => false end) (seq 0 5).

Lemma inputs_loop : forall entries,
  write_loop (inputs_row E (input_dict inputs)) entries = (rows_text (map (fun s => row_texts E (inputs s)) (solutions_of entries)), None).
Proof.
  induction entries as [|[[f n] [s|]] t IH]; [reflexivity | | exact IH]. cbn [write_loop solutions_of flat_map snd app map].
  unfold inputs_row at 1. rewrite dict_row_ok.
  - rewrite IH. unfold input_dict. rewrite result_row_object. unfold rows_text. cbn [map]. rewrite concat_cons. reflexivity.
  - intros k Hk. unfold dkeys, input_dict in Hk. rewrite names_keys in Hk. exact Hk.
Qed.
(** ds-dumpcsv into a new file: given to the batch runner, the table stands for exactly the inputs of the solutions, in order. *)
Theorem C94_inputs_partial : forall entries label, sn_sniff S (csv_row SOLUTION_INPUT_FIELDS) = Ok unix_dialect ->
  Forall (fun s => csv_printable E T (inputs s)) (solutions_of entries) ->
  exists text, write_inputs E (input_dict inputs) "" entries = (text, None) /\
  exists ds, get_csv_inputs S text label = Ok ds /\
    Forall2 (fun s d => stands_for E T None d (soln_object (inputs s)) /\ dget "label" d = Some (VText label)) (solutions_of entries) ds.
Proof.
  intros entries label HS HP. unfold write_inputs. rewrite inputs_loop. eexists. split; [reflexivity|].
  destruct (output_read E T S [] (map inputs (solutions_of entries)) label HS) as (ds & D1 & D2); [constructor | apply Forall_map; exact HP |].
  exists ds. split; [rewrite <- D1; unfold output; rewrite map_map; reflexivity|]. clear - D2. remember (map inputs (solutions_of entries)) as xs eqn:Q. revert Q.
  generalize (solutions_of entries). induction D2 as [|x d xs ds H1 HF IH]; intros [|s l] Q; try discriminate Q; constructor; injection Q as -> Q; [exact H1 | apply IH, Q].
Qed.
(** A second ds-dumpcsv into the same file makes the table useless: the second header is read as an input, and stops the batch. *)
Theorem C94_appended_refuted : forall entries entries2 m label, sniffs_nothing_blank S -> sn_sniff S (csv_row SOLUTION_INPUT_FIELDS) = Ok unix_dialect ->
  Forall (fun s => csv_printable E T (inputs s)) (solutions_of entries ++ solutions_of entries2) -> (exists e, t_float T "start" = Raise e) ->
  exists t1 t2, write_inputs E (input_dict inputs) "" entries = (t1, None) /\ write_inputs E (input_dict inputs) t1 entries2 = (t2, None) /\
  exists ds, get_csv_inputs S t2 label = Ok ds /\
  exists d e, nth_error ds (length (solutions_of entries)) = Some d /\ find_solution E T (Some m) None d = Raise e.
Proof.
  intros entries entries2 m label HB HS HP HT. apply Forall_app in HP as [H1 H2]. unfold write_inputs. rewrite !inputs_loop. eexists. eexists. split; [reflexivity|]. split; [reflexivity|].
  destruct (C79_appended_refuted E T S m [] (map inputs (solutions_of entries)) (map inputs (solutions_of entries2)) label HB HS) as (ds & D1 & _ & d & e & D2 & D3);
    [constructor | apply Forall_map; exact H1 | apply Forall_map; exact H2 | exact HT |].
  exists ds. split; [|exists d, e; rewrite map_length in D2; auto]. rewrite <- D1. unfold output. rewrite !map_map. reflexivity.
Qed.
(** ds-dump appends the input of one solution; with a header it makes, without one it continues, such a table. *)
Theorem C94_dump : forall entries s, exists t1, write_inputs E (input_dict inputs) "" entries = (t1, None) /\
  dump_csv E (input_dict inputs) t1 s false = write_inputs E (input_dict inputs) "" (entries ++ [("", "", Some s)]) /\
  dump_csv E (input_dict inputs) "" s true = write_inputs E (input_dict inputs) "" [("", "", Some s)].
Proof.
  intros entries s. unfold write_inputs, dump_csv. rewrite !inputs_loop. eexists. split; [reflexivity|].
  rewrite dict_row_ok by (intros k Hk; unfold dkeys, input_dict in Hk; rewrite names_keys in Hk; exact Hk). unfold input_dict. rewrite result_row_object.
  unfold solutions_of. rewrite flat_map_app, map_app, rows_text_app. cbn [flat_map snd app map].
  assert (R1 : forall r, rows_text [r] = csv_row r) by (intro r; unfold rows_text; cbn [map]; rewrite concat_cons; apply string_app_nil).
  rewrite !R1. cbn [append]. rewrite !app_assoc_s. split; reflexivity.
Qed.

Lemma field_names_keep : Forall keeps_in_csv FIELD_NAMES.
Proof. apply Forall_forall. intros f Hf. repeat (destruct Hf as [<-|Hf]; [apply one_line_keeps; vm_compute; reflexivity|]). destruct Hf. Qed.
Lemma table_says : forall entries rows, table E inputs stat entries rows ->
  Forall2 (fun s row => exists f n, Forall2 (cell_says E inputs stat f n s) FIELD_NAMES row) (filter computable (solutions_of entries)) rows.
Proof.
  intros entries rows H. induction H as [|f n t rows H IH|f n s t row rows H1 H2 H IH|f n s t rows (i & Hi & F & G) H IH]; cbn [solutions_of flat_map snd app filter]; [constructor | exact IH | |].
  - replace (computable s) with true; [constructor; [exists f, n; exact H2 | exact IH]|]. symmetry. apply forallb_forall. intros i Hi. apply in_seq in Hi. destruct (H1 i ltac:(lia)) as [v ->]. reflexivity.
  - replace (computable s) with false; [exact IH|]. symmetry. apply not_true_iff_false. intro K. unfold computable in K. rewrite forallb_forall in K. specialize (K i). rewrite F in K.
    discriminate K. apply in_seq. lia.
Qed.
Lemma says_cell : forall f n s names row, NoDup names -> Forall2 (cell_says E inputs stat f n s) names row ->
  forall c, In c names -> exists t, cell c names row = Some (VText t) /\ cell_says E inputs stat f n s c t.
Proof.
  intros f n s names row ND H. induction H as [|c t names row H1 HF IH]; intros c' Hc; [destruct Hc|]. inversion ND as [|? ? N ND']; subst. cbn [cell tl].
  destruct Hc as [<-|Hc].
  - exists t. split; [|exact H1]. replace (cell c names row) with (@None val); [rewrite String.eqb_refl; reflexivity|]. clear - N. revert row. induction names as [|a names IH]; intro row; [reflexivity|].
    cbn [cell]. rewrite <- IH by (intro X; apply N; right; exact X). destruct (String.eqb_spec c a) as [->|]; [destruct N; left; reflexivity | reflexivity].
  - destruct (IH ND' c' Hc) as (t' & -> & H'). exists t'. split; [reflexivity | exact H'].
Qed.
(** The table of ds-stats can be given to the batch runner as well: the columns that are not of an input are ignored, and the rows stand for the inputs of the
    solutions that have a row. *)
Theorem C94_stats_partial : forall entries rows label, sn_sniff S (csv_row FIELD_NAMES) = Ok unix_dialect ->
  table E inputs stat entries rows -> Forall (Forall keeps_in_csv) rows -> Forall (fun s => csv_printable E T (inputs s)) (solutions_of entries) ->
  exists text, write_stats E (input_dict inputs) stat "" entries = (text, None) /\
  exists ds, get_csv_inputs S text label = Ok ds /\
    Forall2 (fun s d => stands_for E T None d (soln_object (inputs s)) /\ dget "label" d = Some (VText label)) (filter computable (solutions_of entries)) ds.
Proof.
  intros entries rows label HS HT HK HP. rewrite (C93_table_partial E inputs stat "" entries rows HT). eexists. split; [reflexivity|]. cbn [append].
  set (s := ([] : list string, FIELD_NAMES :: rows)).
  assert (OKs : Forall section_ok [s]) by (constructor; [split; [constructor | constructor; [exact field_names_keep | exact HK]] | constructor]).
  pose proof (sections_read _ OKs) as [R1 R2]. cbv zeta in R1, R2.
  change (String.concat "" (map section_text [s])) with (rows_text (FIELD_NAMES :: rows)) in R1, R2. cbn [flat_map snd fst s app] in R1, R2. rewrite app_nil_r in R1, R2.
  assert (HH : has_csv_header S (split_lines (universal_newlines (rows_text (FIELD_NAMES :: rows)))) = Ok true).
  { unfold has_csv_header. rewrite R1. cbn [fst]. unfold rows_text. cbn [map]. rewrite concat_cons. rewrite split_lines_ended by (right; eexists; reflexivity).
    change (split_lines (csv_row FIELD_NAMES)) with [csv_row FIELD_NAMES]. cbn [app].
    unfold has_header. rewrite HS. cbn [rbind]. change (split_lines (csv_row FIELD_NAMES)) with [csv_row FIELD_NAMES].
    change (csv_reader unix_dialect [csv_row FIELD_NAMES]) with (Ok [FIELD_NAMES]). reflexivity. }
  unfold get_csv_inputs. rewrite HH. cbn [rbind]. rewrite R2. cbn [rbind]. eexists. split; [reflexivity|].
  pose proof (dict_rows_says FIELD_NAMES rows label) as D. pose proof (table_says entries rows HT) as TS.
  assert (NB : filter not_blank_row rows = rows).
  { clear - TS. induction TS as [|x r l l' (f & n & H) HF IH]; [reflexivity|]. cbn [filter]. rewrite IH. inversion H; subst. reflexivity. }
  rewrite NB in D. set (ds := filter_csv_columns _ _) in *. clearbody ds.
  assert (HP' : Forall (fun s => csv_printable E T (inputs s)) (filter computable (solutions_of entries))).
  { apply Forall_forall. intros x Hx. apply filter_In in Hx as [Hx _]. rewrite Forall_forall in HP. apply HP, Hx. }
  clear - D TS HP'. revert ds D. induction TS as [|x r l l' (f & n & H) HF IH]; intros ds D; inversion D; subst; constructor.
  - inversion HP'; subst. split.
    + apply (row_stands_for_any E T (inputs x) FIELD_NAMES label r); [assumption | assumption |]. intros c Hc.
      destruct C93_columns as (ND & CU & CI). assert (Hc' : In c FIELD_NAMES) by (apply (CI c FromInput), Hc). destruct (says_cell f n x FIELD_NAMES r ND H c Hc') as (t & -> & src & S1 & S2).
      destruct (CU c Hc') as (s0 & _ & U). assert (src = FromInput) by (rewrite (U src S1); symmetry; apply U; exact Hc). subst src. rewrite S2. reflexivity.
    + match goal with H : row_says _ _ _ _ |- _ => rewrite (proj2 H) end. reflexivity.
  - inversion HP'; subst. apply IH; assumption.
Qed.
End Batch.
Print Assumptions C94_stats_partial.

(** ** A table with a solution, one whose jet velocity is never a number, one that is not there, and the final one *)
Definition toy_stat (i : nat) (s : bool) : res (string -> val) := if negb s && Nat.eqb i 3 then Raise ValueError else Ok (fun _ => VInt 7).
Definition toy_read (f : string) : list (string * option bool) * file_end (Soln := bool) :=
  if String.eqb f "a.h5" then ([("0", Some true); ("1", Some false); ("2", None)], Final (Some true)) else ([("0", Some true)], Broken OtherError).
Definition toy_entries := get_all_solutions toy_read ["b.h5"; "a.h5"].
Example C93_nonvacuous : exists rows, table E2 (fun _ : bool => x1) toy_stat toy_entries rows /\ length rows = 3 /\ Forall (Forall keeps_in_csv) rows /\
  stats_fail toy_stat false ValueError /\ sn_sniff simple_sniffer (csv_row FIELD_NAMES) = Ok unix_dialect /\
  Forall (fun _ : bool => csv_printable E2 T2 x1) (solutions_of toy_entries) /\ length (filter (computable toy_stat) (solutions_of toy_entries)) = 3.
Proof.
  assert (OK : forall i, i < 5 -> exists v, toy_stat i true = Ok v) by (intros; eexists; reflexivity).
  assert (BAD : stats_fail toy_stat false ValueError).
  { exists 3. split; [lia|]. split; [reflexivity|]. intros j Hj. destruct (five j ltac:(lia)) as [Q|[Q|[Q|[Q|Q]]]]; subst j; try (eexists; reflexivity). all: lia. }
  assert (K : forall f n row, one_line f -> one_line n -> Forall2 (cell_says E2 (fun _ : bool => x1) toy_stat f n true) FIELD_NAMES row -> Forall keeps_in_csv row).
  { intros f n row [F1 F2] [N1 N2] H. clear - H F1 F2 N1 N2. assert (KK := row_keeps E2 T2 x1 x1_csv_printable). unfold row_texts in KK. rewrite Forall_map, Forall_forall in KK. induction H as [|c t l l' (src & S1 & S2) HF IH]; [constructor|]. constructor; [|exact IH].
    destruct src as [| | |i]; [subst t; apply one_line_keeps; assumption | subst t; apply one_line_keeps; assumption | rewrite S2; apply KK, S1 |].
    destruct S2 as (v & [= <-] & ->). apply one_line_keeps; vm_compute; reflexivity. }
  destruct (row_good E2 (fun _ : bool => x1) toy_stat "b.h5" "0" true OK) as (r1 & _ & R1).
  destruct (row_good E2 (fun _ : bool => x1) toy_stat "a.h5" "0" true OK) as (r2 & _ & R2).
  destruct (row_good E2 (fun _ : bool => x1) toy_stat "a.h5" "final" true OK) as (r3 & _ & R3).
  exists [r1; r2; r3]. split; [|split; [reflexivity | split; [|split; [exact BAD | split; [vm_compute; reflexivity | split; [|reflexivity]]]]]].
  - apply t_row; [exact OK | exact R1|]. apply t_row; [exact OK | exact R2|]. apply t_failed; [exact BAD|]. apply t_absent. apply t_row; [exact OK | exact R3|]. apply t_nil.
  - constructor; [apply (K "b.h5" "0"); [split; reflexivity | split; reflexivity | exact R1]|]. constructor; [apply (K "a.h5" "0"); [split; reflexivity | split; reflexivity | exact R2]|].
    constructor; [apply (K "a.h5" "final"); [split; reflexivity | split; reflexivity | exact R3] | constructor].
  - repeat (constructor; [exact x1_csv_printable|]). constructor.
Qed.
