(** C124: the table that ds-csvrunner writes, read back. *)
From Coq Require Import String List Bool ZArith Ascii Arith Reals Lia Permutation.
From Verif Require Import Lib_Py Model_Format Model_Inputs Spec_Inputs Proofs_Inputs Props_InputsFile Model_Csv Spec_Csv Proofs_Csv Props_Csv Props_Batch Model_TableCommands Model_CsvOutput Spec_CsvOutput
  Proofs_CsvOutput.
Import ListNotations.
Open Scope string_scope. Open Scope list_scope.

Lemma writes_tables : forall E results, write_results E results = (String.concat "" (tables (fst (result_writes E results))), snd (result_writes E results)).
Proof.
  intros E results. induction results as [|x t IH]; [reflexivity|]. cbn [write_results result_writes]. destruct x as [[d|]|e]; [| |reflexivity].
  - destruct (dict_row E SOLUTION_INPUT_FIELDS d) as [row|e]; [|reflexivity]. rewrite IH. destruct (result_writes E t) as [l e]. cbn [fst snd tables flat_map app].
    f_equal. symmetry. apply concat_cons.
  - rewrite IH. destruct (result_writes E t) as [l e]. reflexivity.
Qed.
Lemma csvrunner_all : forall E T S method overrides meta input label inputs, get_csv_inputs S input label = Ok inputs ->
  csvrunner E T S method overrides meta input label (seq 0 (List.length inputs)) =
    Ok ((metadata meta ++ csv_row SOLUTION_INPUT_FIELDS ++ String.concat "" (tables (fst (result_writes E (map (find_solution E T method overrides) inputs)))))%string,
        snd (result_writes E (map (find_solution E T method overrides) inputs))).
Proof.
  intros E T S method overrides meta input label inputs H. unfold csvrunner. rewrite H. cbn [rbind].
  assert (A : forall (l : list (res (option (dict val)))) k finished, (forall i, k <= i < k + List.length l -> In i finished) -> handed_over k l finished = l).
  { intro l. induction l as [|x t IH]; intros k fin Q; [reflexivity|]. cbn [handed_over]. replace (existsb (Nat.eqb k) fin) with true.
    - f_equal. apply IH. intros i Hi. apply Q. cbn [List.length]. lia.
    - symmetry. apply existsb_In, Q. cbn [List.length]. lia. }
  rewrite A by (intros i Hi; rewrite map_length in Hi; apply in_seq; exact Hi). rewrite writes_tables. reflexivity.
Qed.
Lemma dget_same : forall (d : dict string) k v, dget k (dset k v d) = Some v.
Proof. induction d as [|[a b] t IH]; intros k v; cbn [dset dget]; [rewrite String.eqb_refl; reflexivity|]. destruct (String.eqb_spec k a) as [->|N]; cbn [dget]; [rewrite String.eqb_refl; reflexivity|]. destruct (String.eqb_spec k a); [contradiction|apply IH]. Qed.
Lemma dget_other : forall (d : dict string) k k' v, k' <> k -> dget k' (dset k v d) = dget k' d.
Proof.
  induction d as [|[a b] t IH]; intros k k' v N; cbn [dset dget]; [destruct (String.eqb_spec k' k); [contradiction|reflexivity]|].
  destruct (String.eqb_spec k a) as [->|N2]; cbn [dget]; [destruct (String.eqb_spec k' a); [contradiction|reflexivity]|]. destruct (String.eqb_spec k' a); [reflexivity|apply IH, N].
Qed.

(** C124: with a file as its output nothing but the table is added to it, whatever is printed meanwhile and in whatever order; no other
    file is changed. *)
Theorem C124_file_partial : forall E T S show later method overrides meta input label output_file inputs w w' e,
  output_file <> "-" -> get_csv_inputs S input label = Ok inputs ->
  csvrunner_leaves E T S show later method overrides meta input label output_file w w' e ->
  exists text, csvrunner E T S method overrides meta input label (seq 0 (List.length inputs)) = Ok (text, e) /\
    dget output_file (w_files w') = Some ((match dget output_file (w_files w) with Some old => old | None => "" end) ++ text)%string /\
    (forall f, f <> output_file -> dget f (w_files w') = dget f (w_files w)) /\
    exists n lines, n <= List.length inputs /\ Permutation lines (repeat (printed no_solution_message) n ++ flat_map (task_prints E show later method overrides) inputs) /\
      w_stdout w' = (w_stdout w ++ String.concat "" lines)%string.
Proof.
  intros E T S show later method overrides meta input label output_file inputs w w' e N HI H. unfold csvrunner_leaves in H. rewrite HI in H.
  rewrite (csvrunner_all E T S method overrides meta input label inputs HI).
  assert (MS : exists n, n <= List.length inputs /\ messages (fst (result_writes E (map (find_solution E T method overrides) inputs))) = repeat (printed no_solution_message) n).
  { rewrite <- (map_length (find_solution E T method overrides)). generalize (map (find_solution E T method overrides) inputs) as results. clear.
    induction results as [|x t (n & I1 & I2)]; [exists 0; split; [apply le_n|reflexivity]|]. cbn [result_writes List.length]. destruct x as [[d|]|x]; [| |exists 0; split; [lia|reflexivity]].
    - destruct (dict_row E SOLUTION_INPUT_FIELDS d) as [row|x]; [|exists 0; split; [lia|reflexivity]]. destruct (result_writes E t) as [l e]. exists n. split; [lia|exact I2].
    - destruct (result_writes E t) as [l e]. exists (Datatypes.S n). split; [lia|]. cbn [fst messages flat_map app repeat] in *. rewrite <- I2. reflexivity. }
  destruct (result_writes E (map (find_solution E T method overrides) inputs)) as [l e0].
  destruct H as (ws & chunks & PW & H). unfold open_or_stream in H. destruct (String.eqb_spec output_file "-") as [Q|_]; [contradiction|].
  destruct H as [MG H]. injection H as -> ->. cbn [fst snd w_files w_stdout] in *. eexists. split; [reflexivity|]. split; [|split].
  - rewrite dget_same. rewrite app_assoc_s. reflexivity.
  - intros f Hf. apply dget_other, Hf.
  - destruct MS as (n & M1 & M2). exists n, chunks. split; [exact M1|]. split; [|reflexivity]. rewrite <- M2.
    transitivity (messages l ++ ws); [|apply Permutation_app_head, PW]. clear - MG. induction MG as [|x a b c H IH|x a b c H IH]; [constructor|constructor; exact IH|].
    transitivity (x :: a ++ b); [constructor; exact IH|apply Permutation_middle].
Qed.
(** C124: so the table of a finished batch in a file of its own stands for the solver inputs found, in order. *)
Theorem C124_file_as_input_partial : forall E T S show later m overrides meta input label output_file inputs outcomes xs w w' e,
  sniffs_nothing_blank S -> sn_sniff S (csv_row SOLUTION_INPUT_FIELDS) = Ok unix_dialect -> meta_ok meta ->
  output_file <> "-" -> dget output_file (w_files w) = None -> get_csv_inputs S input label = Ok inputs ->
  Forall2 (fun d o => exists s, stands_for E T overrides d s /\ outcome m s o) inputs outcomes ->
  solved_inputs outcomes = map (fun x => map (fun f => (f, x f)) SOLUTION_INPUT_FIELDS) xs -> Forall (csv_printable E T) xs ->
  csvrunner_leaves E T S show later (Some m) overrides meta input label output_file w w' e ->
  exists text, dget output_file (w_files w') = Some text /\ forall label2, exists inputs2, get_csv_inputs S text label2 = Ok inputs2 /\
    Forall2 (fun x d => stands_for E T None d (soln_object x)) xs inputs2.
Proof.
  intros E T S show later m overrides meta input label output_file inputs outcomes xs w w' e HS HS2 HM N HF HI HO HX HP H.
  destruct (C124_file_partial E T S show later (Some m) overrides meta input label output_file inputs w w' e N HI H) as (text & R & D & _ & _). rewrite HF in D.
  destruct (C79_results_as_inputs_partial E T S m overrides meta input label inputs outcomes (seq 0 (List.length inputs)) xs HS HS2 HM HI HO) as (text' & R' & RB); [intros i Hi; apply in_seq; lia|exact HX|exact HP|].
  rewrite R in R'. injection R' as -> _. exists text'. split; [exact D|]. intro label2. destruct (RB label2) as (inputs2 & A & B). exists inputs2. split; [exact A|].
  clear - B. induction B as [|x d l l' [B1 _] BF IH]; constructor; assumption.
Qed.

(** ** Standard output *)
Lemma merge_in : forall a b c, merge a b c -> forall x, In x b -> In x c.
Proof. intros a b c H. induction H as [|y a b c H IH|y a b c H IH]; intros x Hx; [exact Hx|right; apply IH, Hx|]. destruct Hx as [<-|Hx]; [left; reflexivity|right; apply IH, Hx]. Qed.
Lemma merge_from : forall a b c, merge a b c -> forall x, In x c -> In x a \/ In x b.
Proof.
  intros a b c H. induction H as [|y a b c H IH|y a b c H IH]; intros x Hx; [destruct Hx| |]; (destruct Hx as [<-|Hx]; [|destruct (IH x Hx)]); cbn [In]; auto.
Qed.
Lemma merge_length : forall a b c, merge a b c -> List.length c = List.length a + List.length b.
Proof. intros a b c H. induction H; cbn [List.length]; lia. Qed.
Lemma merge_none : forall a c, merge a [] c -> c = a.
Proof. intros a c H. remember [] as b eqn:Q. induction H as [|y a b c H IH|]; [reflexivity|rewrite IH by exact Q; reflexivity|discriminate Q]. Qed.
Definition is_message (T : text_tools) (t : string) : Prop := exists s, t = printed s /\ message_line T s.
Definition is_row (t : string) : Prop := exists row, t = csv_row row /\ row <> [] /\ Forall keeps_in_csv row.
Lemma chunk_records : forall T chunks, Forall (fun t => is_message T t \/ is_row t) chunks ->
  exists rs, Forall2 piece chunks rs /\ Forall (fun r => r <> []) rs /\
    forall i t, nth_error chunks i = Some t -> is_message T t -> exists s, message_line T s /\ nth_error rs i = Some (cells "" s).
Proof.
  intros T chunks H. induction H as [|t l H HF (rs & I1 & I2 & I3)].
  - exists []. split; [constructor|]. split; [constructor|]. intros [|i] t Ht; discriminate Ht.
  - assert (D : exists r, piece t r /\ r <> [] /\ (is_message T t -> exists s, message_line T s /\ r = cells "" s)).
    { destruct H as [(s & -> & M)|(row & -> & N & K)].
      - exists (cells "" s). split; [apply (piece_message T), M|]. split; [apply cells_ne|]. intros _. exists s. auto.
      - exists row. split; [apply piece_row; assumption|]. split; [exact N|]. intros (s & Q & M). exfalso. destruct M as (M1 & _ & M3 & _). destruct row as [|a row]; [congruence|].
        unfold csv_row, printed in Q. destruct s as [|c s]; [congruence|]. destruct row; cbn [map String.concat quoted append] in Q; injection Q as Q _; subst c; discriminate M3. }
    destruct D as (r & D1 & D2 & D3). exists (r :: rs). split; [constructor; assumption|]. split; [constructor; assumption|].
    intros [|i] u Hu M; cbn [nth_error] in *; [injection Hu as <-; destruct (D3 M) as (s & S1 & ->); exists s; auto|apply (I3 i u Hu M)].
Qed.
Lemma result_writes_ok : forall E outcomes, Forall writable outcomes -> result_writes E (map (@Ok _) outcomes) =
  (map (fun o => match o with Some fs => Table (result_row E fs) | None => Message (printed no_solution_message) end) outcomes, None).
Proof.
  intros E outcomes H. induction H as [|[fs|] t H HF IH]; [reflexivity| |]; cbn [map result_writes].
  - rewrite (dict_row_ok E fs H), IH. reflexivity.
  - rewrite IH. reflexivity.
Qed.
Lemma solved_writable : forall outcomes xs, solved_inputs outcomes = map (fun x => map (fun f => (f, x f)) SOLUTION_INPUT_FIELDS) xs ->
  Forall writable outcomes /\ forall fs, In (Some fs) outcomes -> exists x, In x xs /\ fs = map (fun f => (f, x f)) SOLUTION_INPUT_FIELDS.
Proof.
  intros outcomes xs H.
  assert (A : forall fs, In (Some fs) outcomes -> exists x, In x xs /\ fs = map (fun f => (f, x f)) SOLUTION_INPUT_FIELDS).
  { intros fs Hin. assert (Q : In fs (solved_inputs outcomes)) by (unfold solved_inputs; apply in_flat_map; exists (Some fs); split; [exact Hin|left; reflexivity]).
    rewrite H in Q. apply in_map_iff in Q as (x & <- & Hx). exists x. auto. }
  split; [|exact A]. apply Forall_forall. intros [fs|] Ho; cbn [writable]; [|exact Coq.Init.Logic.I]. destruct (A fs Ho) as (x & _ & ->). intros k Hk. unfold dkeys in Hk. rewrite map_map, map_id in Hk. exact Hk.
Qed.
Lemma find_outcomes : forall E T S m overrides input label inputs outcomes, sniffs_nothing_blank S -> get_csv_inputs S input label = Ok inputs ->
  Forall2 (fun d o => exists s, stands_for E T overrides d s /\ outcome m s o) inputs outcomes ->
  map (find_solution E T (Some m) overrides) inputs = map (@Ok _) outcomes /\ Forall (fun d => NoDup (dkeys d)) inputs.
Proof.
  intros E T S m overrides input label inputs outcomes HS HI HO.
  destruct (C45_rows_partial S input label inputs HS HI) as (_ & _ & fieldnames & rows & _ & _ & RS).
  assert (ND : Forall (fun d => NoDup (dkeys d)) inputs) by (clear - RS; induction RS as [|r d l l' [H _] HF IH]; constructor; assumption). split; [|exact ND].
  clear - HO ND. induction HO as [|d o l l' (s & H1 & H2) HF IH]; [reflexivity|]. inversion ND; subst. cbn [map]. rewrite (C55_outcome E T m overrides d s o) by assumption. rewrite IH by assumption. reflexivity.
Qed.
(** C124 REFUTED for standard output, the default: whatever the order of the prints, the table of any batch with at least one input is
    read back with an input too many for every line printed, and such a batch ends in an exception, although the first one did not. *)
Theorem C124_stdout_refuted : forall E T S show later m overrides meta input label inputs outcomes xs w w' e label2,
  sniffs_nothing_blank S -> sn_sniff S (csv_row SOLUTION_INPUT_FIELDS) = Ok unix_dialect -> meta_ok meta ->
  get_csv_inputs S input label = Ok inputs -> inputs <> [] ->
  Forall2 (fun d o => exists s, stands_for E T overrides d s /\ outcome m s o) inputs outcomes ->
  solved_inputs outcomes = map (fun x => map (fun f => (f, x f)) SOLUTION_INPUT_FIELDS) xs -> Forall (csv_printable E T) xs ->
  message_line T no_solution_message ->
  Forall (is_message T) (flat_map (task_prints E show later (Some m) overrides) inputs) ->
  w_stdout w = "" -> csvrunner_leaves E T S show later (Some m) overrides meta input label "-" w w' e ->
  e = None /\ exists inputs2, get_csv_inputs S (w_stdout w') label2 = Ok inputs2 /\
    List.length inputs2 = List.length inputs + List.length (flat_map (task_prints E show later (Some m) overrides) inputs) /\
    List.length xs < List.length inputs2 /\
    forall m2 meta2, exists text e2, csvrunner E T S (Some m2) None meta2 (w_stdout w') label2 (seq 0 (List.length inputs2)) = Ok (text, Some e2).
Proof.
  intros E T S show later m overrides meta input label inputs outcomes xs w w' e label2 HS HS2 HM HI NE HO HX HP HN HW W0 H.
  destruct (find_outcomes E T S m overrides input label inputs outcomes HS HI HO) as [FO ND]. destruct (solved_writable outcomes xs HX) as [WR SX].
  unfold csvrunner_leaves in H. rewrite HI, FO, (result_writes_ok E outcomes WR) in H. destruct H as (ws & chunks & PW & H). change (String.eqb "-" "-") with true in H. cbv iota in H.
  destruct H as [MG H]. unfold open_or_stream in H. change (String.eqb "-" "-") with true in H. cbv iota in H. injection H as -> ->. split; [reflexivity|]. cbn [w_stdout]. rewrite W0.
  assert (WS : forall x, In x ws -> is_message T x) by (intros x Hx; rewrite Forall_forall in HW; apply HW, (Permutation_in x PW Hx)).
  assert (CK : Forall (fun t => is_message T t \/ is_row t) chunks).
  { apply Forall_forall. intros t Ht. destruct (merge_from _ _ _ MG t Ht) as [A|A]; [|left; apply WS, A]. rewrite map_map in A. apply in_map_iff in A as ([fs|] & <- & Ho).
    - right. destruct (SX fs Ho) as (x & Hx & ->). exists (row_texts E x). rewrite Forall_forall in HP. split; [reflexivity|]. split; [discriminate|apply (row_keeps E T), HP, Hx].
    - left. exists no_solution_message. split; [reflexivity|exact HN]. }
  destruct (chunk_records T chunks CK) as (rs & PR & RN & RM).
  destruct (table_read S (meta_comments meta) chunks rs label2 (meta_lines meta HM) PR RN HS2) as (inputs2 & G & RS). rewrite <- metadata_comments in G.
  exists inputs2. rewrite !app_assoc_s. change ("" ++ ?x)%string with x. split; [exact G|].
  assert (LW : List.length ws = List.length (flat_map (task_prints E show later (Some m) overrides) inputs)) by apply (Permutation_length PW).
  assert (LI : List.length inputs2 = List.length inputs + List.length (flat_map (task_prints E show later (Some m) overrides) inputs)).
  { rewrite <- (Forall2_len _ _ _ _ _ RS), <- (Forall2_len _ _ _ _ _ PR), (merge_length _ _ _ MG), !map_length, LW, (Forall2_len _ _ _ _ _ HO). reflexivity. }
  assert (W1 : exists t, In t ws).
  { destruct inputs as [|d inputs']; [congruence|]. inversion HO as [|? o ? os (s & (c & c' & C1 & C2 & C3) & _) _]; subst. inversion ND as [|? ? ND1 _]; subst.
    exists (printed ("Config is " ++ show c')). apply (Permutation_in _ (Permutation_sym PW)). cbn [flat_map]. apply in_or_app. left. unfold task_prints. rewrite filter_ids by exact ND1. rewrite C1. cbn [rbind].
    rewrite C2. left. reflexivity. }
  destruct W1 as (t & Ht).
  split; [exact LI|]. split.
  - assert (L1 : List.length xs <= List.length inputs).
    { replace (List.length xs) with (List.length (solved_inputs outcomes)) by (rewrite HX; apply map_length). rewrite (Forall2_len _ _ _ _ _ HO). clear. unfold solved_inputs. induction outcomes as [|[fs|] t IH]; cbn [flat_map app List.length]; lia. }
    rewrite <- LW in LI. destruct ws; [destruct Ht|]. cbn [List.length] in LI. lia.
  - intros m2 meta2. rewrite (csvrunner_all E T S (Some m2) None meta2 _ label2 inputs2 G).
    assert (F : exists x, In (Raise x) (map (find_solution E T (Some m2) None) inputs2)).
    { destruct (In_nth_error chunks t (merge_in _ _ _ MG t Ht)) as (i & Hi). destruct (RM i t Hi (WS t Ht)) as (s & (S1 & _ & _ & _ & (ex & S2)) & Q).
      destruct (cells_first s "") as (cs & CQ). change ("" ++ before_comma s)%string with (before_comma s) in CQ.
      assert (DD : exists d, nth_error inputs2 i = Some d /\ row_says SOLUTION_INPUT_FIELDS label2 (cells "" s) d).
      { clear - RS Q. revert i Q. induction RS as [|r d l l' A B IH]; intros [|i] Q; cbn [nth_error] in *; try discriminate Q; [injection Q as ->; exists d; auto|apply IH, Q]. }
      destruct DD as (d & Nd & Rd). destruct (row_refused E T m2 label2 _ d _ _ ex CQ Rd S2) as (x & X). exists x. rewrite <- X. apply in_map, (nth_error_In _ _ Nd). }
    pose proof (write_fails E _ F) as (text & e2 & WF). rewrite writes_tables in WF. injection WF as _ WF. rewrite WF. do 2 eexists. reflexivity.
Qed.

(** ** Concrete case *)
(** A batch of two inputs that are both solved, with its output on standard output. *)
Lemma not_comment_N : forall t c, ~ comment_of (String "N" t) c.
Proof. intros t c ([|a pre] & post & H1 & H2 & _); [discriminate H2|]. injection H2 as <- _. discriminate H1. Qed.
Lemma not_comment_C : forall t c, ~ comment_of (String "C" t) c.
Proof. intros t c ([|a pre] & post & H1 & H2 & _); [discriminate H2|]. injection H2 as <- _. discriminate H1. Qed.
Definition input2 : string := output E2 [("label", "a")] [x1; x1].
Definition show2 (_ : val) : string := "ConfigInput(start='1.0', stop='0.5')".
Lemma keep_outcomes : exists inputs, get_csv_inputs simple_sniffer input2 "a" = Ok inputs /\ List.length inputs = 2 /\
  Forall2 (fun d o => exists s, stands_for E2 T2 None d s /\ outcome keep s o) inputs (map (fun x => Some (map (fun f => (f, x f)) SOLUTION_INPUT_FIELDS)) [x1; x1]).
Proof.
  destruct C55_nonvacuous as (inputs & H1 & H2 & H3 & _). exists inputs. split; [exact H1|]. split; [exact H2|].
  clear - H3. induction H3 as [|d o l l' (s & A & B & _) HF IH]; constructor; [exists s; auto|exact IH].
Qed.
Example C124_nonvacuous : exists w', csvrunner_leaves E2 T2 simple_sniffer show2 (fun _ => ["Run size in ForkPoolWorker-1 is 5"]) (Some keep) None [("label", "a")] input2 "a" "-" (mk_world [] "") w' None /\
  exists inputs2, get_csv_inputs simple_sniffer (w_stdout w') "b" = Ok inputs2 /\ List.length inputs2 = 6 /\
    forall m2 meta2, exists text e2, csvrunner E2 T2 simple_sniffer (Some m2) None meta2 (w_stdout w') "b" (seq 0 6) = Ok (text, Some e2).
Proof.
  destruct keep_outcomes as (inputs & HI & HL & HO).
  set (outcomes := map (fun x => Some (map (fun f => (f, x f)) SOLUTION_INPUT_FIELDS)) [x1; x1]) in *.
  destruct (find_outcomes E2 T2 simple_sniffer keep None input2 "a" inputs outcomes simple_sniffer_ok HI HO) as [FO ND].
  assert (TP : forall d, In d inputs -> task_prints E2 show2 (fun _ => ["Run size in ForkPoolWorker-1 is 5"]) (Some keep) None d =
    [printed "Config is ConfigInput(start='1.0', stop='0.5')"; printed "Run size in ForkPoolWorker-1 is 5"]).
  { intros d Hd. rewrite Forall_forall in ND. assert (S : exists o s, stands_for E2 T2 None d s /\ outcome keep s o).
    { clear - HO Hd. induction HO as [|d0 o l l' (s & A & B) HF IH]; [destruct Hd|]. destruct Hd as [->|Hd]; [exists o, s; auto|apply IH, Hd]. }
    destruct S as (o & s & (c & c' & C1 & C2 & _) & _). unfold task_prints. rewrite filter_ids by apply ND, Hd. rewrite C1. cbn [rbind]. rewrite C2. reflexivity. }
  destruct inputs as [|d1 [|d2 [|]]]; try discriminate HL.
  assert (FM : flat_map (task_prints E2 show2 (fun _ => ["Run size in ForkPoolWorker-1 is 5"]) (Some keep) None) [d1; d2] =
    let l := [printed "Config is ConfigInput(start='1.0', stop='0.5')"; printed "Run size in ForkPoolWorker-1 is 5"] in l ++ l).
  { cbn [flat_map]. rewrite !TP by (cbn; auto). reflexivity. }
  assert (CL : exists w', csvrunner_leaves E2 T2 simple_sniffer show2 (fun _ => ["Run size in ForkPoolWorker-1 is 5"]) (Some keep) None [("label", "a")] input2 "a" "-" (mk_world [] "") w' None).
  { unfold csvrunner_leaves. rewrite HI, FO.
    assert (RW : result_writes E2 (map (@Ok (option (dict val))) outcomes) = ([Table (csv_row (row_texts E2 x1)); Table (csv_row (row_texts E2 x1))], None)).
    { rewrite result_writes_ok; [reflexivity|]. apply (solved_writable outcomes [x1; x1]). reflexivity. }
    rewrite RW, FM. cbv zeta. change (String.eqb "-" "-") with true. cbv iota. eexists. eexists. eexists. split; [apply Permutation_refl|]. split; [|reflexivity].
    cbn [map text_of_written app]. repeat constructor. }
  destruct CL as (w' & CL). exists w'. split; [exact CL|].
  destruct (C124_stdout_refuted E2 T2 simple_sniffer show2 (fun _ => ["Run size in ForkPoolWorker-1 is 5"]) keep None [("label", "a")] input2 "a" [d1; d2] outcomes [x1; x1] (mk_world [] "") w' None "b") as (_ & inputs2 & G & L & _ & R).
  - exact simple_sniffer_ok.
  - vm_compute. reflexivity.
  - constructor; [repeat split | constructor].
  - exact HI.
  - discriminate.
  - exact HO.
  - reflexivity.
  - constructor; [exact x1_csv_printable | constructor; [exact x1_csv_printable | constructor]].
  - split; [discriminate|]. split; [split; reflexivity|]. split; [reflexivity|]. split; [apply not_comment_N|]. exists ValueError. reflexivity.
  - rewrite FM. apply Forall_forall. cbn [app In]. intros t Ht.
    assert (M : t = printed "Config is ConfigInput(start='1.0', stop='0.5')" \/ t = printed "Run size in ForkPoolWorker-1 is 5") by intuition. clear Ht.
    destruct M as [->| ->]; eexists; (split; [reflexivity|]); (split; [discriminate|]); (split; [split; reflexivity|]); (split; [reflexivity|]); (split; [|exists ValueError; reflexivity]).
    + apply not_comment_C.
    + intros c ([|a pre] & post & H1 & H2 & _); [discriminate H2|]. injection H2 as <- _. discriminate H1.
  - reflexivity.
  - exact CL.
  - rewrite FM in L. cbn [List.length app] in L. exists inputs2. split; [exact G|]. split; [exact L|]. intros m2 meta2. specialize (R m2 meta2). rewrite L in R. exact R.
Qed.
