(** Lemmas for C124: tables with other lines among the rows. *)
From Coq Require Import String List Bool ZArith Ascii Arith Reals Lia Permutation.
From Verif Require Import Lib_Py Model_Format Model_FormatTables Proofs_Format Model_Inputs Spec_Inputs Proofs_Inputs Model_Csv Spec_Csv Proofs_Csv Props_Csv Props_Batch Model_TableCommands
  Model_CsvOutput Spec_CsvOutput.
Import ListNotations.
Open Scope string_scope. Open Scope list_scope.

(** A piece of text that is read as one record. *)
Record piece (t : string) (r : list string) : Prop := {
  pc_ended : ended t;
  pc_cr : has_char carriage_return t = false;
  pc_comment : forall rest, no_comment true rest = true -> no_comment true (t ++ rest) = true;
  pc_read : forall rest, read_text unix_dialect p_init (t ++ rest) = let! x := read_text unix_dialect p_init rest in Ok (r :: x) }.
Lemma piece_row : forall row, row <> [] -> Forall keeps_in_csv row -> piece (csv_row row) row.
Proof.
  intros row N K. constructor.
  - right. eexists. reflexivity.
  - apply no_cr_row. eapply Forall_impl; [|exact K]. intros f [H _]. exact H.
  - intros rest H. apply no_comment_row; [|exact H]. eapply Forall_impl; [|exact K]. apply keeps_no_comment.
  - intro rest. unfold p_init at 1. rewrite read_row; [reflexivity|exact N|left; reflexivity].
Qed.
(** The cells of a line without quotes. *)
Fixpoint cells (f s : string) : list string :=
  match s with EmptyString => [f] | String c t => if Ascii.eqb c ","%char then f :: cells "" t else cells (f ++ String c "") t end.
Lemma cells_ne : forall s f, cells f s <> [].
Proof. induction s as [|c t IH]; intro f; cbn [cells]; [discriminate|]. destruct (Ascii.eqb c ","%char); [discriminate|apply IH]. Qed.
Lemma cells_first : forall s f, exists rest, cells f s = (f ++ before_comma s)%string :: rest.
Proof.
  induction s as [|c t IH]; intro f; cbn [cells before_comma]; [exists []; rewrite app_nil_s; reflexivity|]. destruct (Ascii.eqb c ","%char).
  - rewrite app_nil_s. eexists. reflexivity.
  - destruct (IH (f ++ String c "")%string) as (rest & ->). exists rest. rewrite app_assoc_s. reflexivity.
Qed.
Lemma read_line : forall s f fs st rest, has_char newline s = false -> has_char carriage_return s = false -> has_char double_quote s = false ->
  st = START_FIELD \/ st = IN_FIELD \/ (st = START_RECORD /\ s <> "") ->
  read_text unix_dialect (mk_parser st f fs) (s ++ String newline rest) = let! x := read_text unix_dialect p_init rest in Ok ((fs ++ cells f s) :: x).
Proof.
  induction s as [|c t IH]; intros f fs st rest H1 H2 H3 Hst.
  - destruct Hst as [->|[->|[_ N]]]; [| |congruence]; reflexivity.
  - cbn [has_char] in H1, H2, H3. apply orb_false_iff in H1 as [A1 B1]. apply orb_false_iff in H2 as [A2 B2]. apply orb_false_iff in H3 as [A3 B3].
    assert (Br : is_break c = false) by (unfold is_break, is; rewrite A1, A2; reflexivity).
    assert (P : process_char unix_dialect (mk_parser st f fs) (Some c) =
                Ok (if Ascii.eqb c ","%char then mk_parser START_FIELD "" (fs ++ [f]) else mk_parser IN_FIELD (f ++ String c "") fs)).
    { destruct Hst as [->|[->|[-> _]]]; unfold process_char; cbn [p_state]; unfold start_field; rewrite Br; cbn [unix_dialect d_quotechar d_delimiter d_skipinitialspace];
        unfold is; rewrite ?A3, ?andb_false_r; destruct (Ascii.eqb c ","%char); reflexivity. }
    cbn [append read_text]. rewrite P. cbn [rbind]. unfold is at 1. rewrite A1.
    destruct (t ++ String newline rest)%string as [|c2 t2] eqn:D; [destruct t; discriminate D|]. rewrite <- D. clear D. cbn [cells].
    destruct (Ascii.eqb c ","%char).
    + rewrite IH by (try assumption; left; reflexivity). rewrite <- app_assoc. reflexivity.
    + rewrite IH by (try assumption; right; left; reflexivity). reflexivity.
Qed.
Lemma no_comment_message : forall s b rest, has_char newline s = false -> (b = true -> forall c, ~ comment_of s c) -> no_comment true rest = true ->
  no_comment b (s ++ String newline rest) = true.
Proof.
  induction s as [|c t IH]; intros b rest H N HR.
  - cbn [append no_comment]. change (is newline "#"%char) with false. rewrite andb_false_r. exact HR.
  - cbn [has_char] in H. apply orb_false_iff in H as [H1 H2]. cbn [append no_comment]. apply andb_true_iff. split.
    + apply negb_true_iff. destruct b; [|reflexivity]. cbn [andb]. destruct (is c "#"%char) eqn:Q; [|reflexivity]. unfold is in Q. apply Ascii.eqb_eq in Q. subst c.
      destruct (N eq_refl (rstrip t)). exists "", t. auto.
    + apply IH; [exact H2| |exact HR]. unfold is. rewrite H1. cbn [orb]. intros Q k (pre & post & P1 & P2 & P3). apply andb_true_iff in Q as [-> Q].
      apply (N eq_refl k). exists (String c pre), post. cbn [all_space]. rewrite Q, P1, P2. auto.
Qed.
Lemma piece_message : forall T s, message_line T s -> piece (printed s) (cells "" s).
Proof.
  intros T s (N & [L1 L2] & Q & C & _). unfold printed. constructor.
  - right. exists s. reflexivity.
  - rewrite has_char_app, L2. reflexivity.
  - intros rest H. rewrite app_assoc_s. apply (no_comment_message s true rest); [exact L1|intros _; exact C|exact H].
  - intro rest. rewrite app_assoc_s. change (String newline "" ++ rest)%string with (String newline rest). unfold p_init at 1. rewrite read_line by auto. reflexivity.
Qed.
Lemma pieces_read : forall ts rs, Forall2 piece ts rs ->
  has_char carriage_return (String.concat "" ts) = false /\ no_comment true (String.concat "" ts) = true /\
  read_text unix_dialect p_init (String.concat "" ts) = Ok rs.
Proof.
  intros ts rs H. induction H as [|t r ts rs [P1 P2 P3 P4] HF (I1 & I2 & I3)]; [repeat split|]. rewrite concat_cons. split; [|split].
  - rewrite has_char_app, P2. exact I1.
  - apply P3, I2.
  - rewrite P4, I3. reflexivity.
Qed.
(** Comments, the column names, and then any such pieces. *)
Lemma table_read : forall S comments ts rs label, Forall one_line comments -> Forall2 piece ts rs -> Forall (fun r => r <> []) rs ->
  sn_sniff S (csv_row SOLUTION_INPUT_FIELDS) = Ok unix_dialect ->
  exists inputs, get_csv_inputs S (comments_text comments ++ csv_row SOLUTION_INPUT_FIELDS ++ String.concat "" ts) label = Ok inputs /\
    Forall2 (row_says SOLUTION_INPUT_FIELDS label) rs inputs.
Proof.
  intros S comments ts rs label HC HP HN HS.
  assert (HP' : Forall2 piece (csv_row SOLUTION_INPUT_FIELDS :: ts) (SOLUTION_INPUT_FIELDS :: rs)).
  { constructor; [|exact HP]. apply piece_row; [discriminate|exact header_keeps]. }
  destruct (pieces_read _ _ HP') as (A1 & A2 & A3). rewrite concat_cons in A1, A2, A3. set (body := (csv_row SOLUTION_INPUT_FIELDS ++ String.concat "" ts)%string) in *.
  assert (N : has_char carriage_return (comments_text comments ++ body) = false) by (rewrite has_char_app, no_cr_comments by exact HC; exact A1).
  assert (L : split_lines (universal_newlines (comments_text comments ++ body)) = map comment_line comments ++ split_lines body)
    by (rewrite universal_newlines_id by exact N; apply lines_comments, HC).
  assert (HH : fst (helper_iter (split_lines (universal_newlines (comments_text comments ++ body)))) = split_lines body).
  { rewrite L, helper_app, helper_comments, helper_data by (apply no_comment_lines, A2). reflexivity. }
  unfold get_csv_inputs, has_csv_header. cbv zeta.
  assert (B : split_lines body = csv_row SOLUTION_INPUT_FIELDS :: split_lines (String.concat "" ts)).
  { unfold body. rewrite split_lines_ended by (right; eexists; reflexivity). reflexivity. }
  fold body. rewrite HH.
  assert (HD : match split_lines body with [] => Raise OtherError | l :: _ => has_header S l end = Ok true).
  { rewrite B. unfold has_header. rewrite HS. cbn [rbind]. change (split_lines (csv_row SOLUTION_INPUT_FIELDS)) with [csv_row SOLUTION_INPUT_FIELDS].
    change (csv_reader unix_dialect [csv_row SOLUTION_INPUT_FIELDS]) with (Ok [SOLUTION_INPUT_FIELDS]). reflexivity. }
  rewrite HD. cbn [rbind]. unfold csv_reader. rewrite read_text_correct, A3. cbn [rbind].
  cbn iota. eexists. split; [reflexivity|]. pose proof (dict_rows_says SOLUTION_INPUT_FIELDS rs label) as D.
  replace (filter not_blank_row rs) with rs in D; [exact D|]. clear - HN. induction HN as [|r t H HF IH]; [reflexivity|]. cbn [filter]. destruct r; [congruence|]. cbn [not_blank_row]. rewrite <- IH. reflexivity.
Qed.
(** A row whose first cell is not a number is no input. *)
Lemma init_start : forall E kw fs l, init_fields E fs kw = Ok l -> forall d c, In ("start", d, c) fs -> NoDup (map (fun f => fst (fst f)) fs) ->
  forall v, dget "start" kw = Some v -> exists x, convert E c v = Ok x /\ dget "start" l = Some x.
Proof.
  induction fs as [|[[f d0] c0] t IH]; intros l H d c Hin ND v Hv; [destruct Hin|]. cbn [init_fields] in H.
  destruct (match dget f kw with Some v => Ok v | None => default_value d0 end) as [raw|e] eqn:R; [cbn [rbind] in H|discriminate H].
  destruct (convert E c0 raw) as [x|e] eqn:C; [cbn [rbind] in H|discriminate H]. destruct (init_fields E t kw) as [rest|e] eqn:I; [cbn [rbind] in H|discriminate H]. injection H as <-.
  cbn [map fst] in ND. inversion ND as [|? ? ND1 ND2]; subst. destruct Hin as [Q|Hin].
  - injection Q as -> -> ->. rewrite Hv in R. injection R as <-. exists x. split; [exact C|reflexivity].
  - destruct (IH rest eq_refl d c Hin ND2 v Hv) as (y & Y1 & Y2). exists y. split; [exact Y1|]. cbn [dget]. destruct (String.eqb_spec "start" f) as [<-|N]; [|exact Y2].
    destruct ND1. apply in_map_iff. exists ("start", d, c). auto.
Qed.
Lemma row_refused : forall E T m label row d first rest e, row = first :: rest -> row_says SOLUTION_INPUT_FIELDS label row d -> t_float T first = Raise e ->
  exists e', find_solution E T (Some m) None d = Raise e'.
Proof.
  intros E T m label row d first rest e -> [ND RS] HT. unfold find_solution. rewrite filter_ids by exact ND.
  set (p := fun k : string => negb (str_in k ["filename"; "solution_name"])).
  change (filter (fun e : string * val => negb (str_in (fst e) ["filename"; "solution_name"])) d) with (filter (fun e : string * val => p (fst e)) d).
  assert (G : dget "start" (filter (fun e : string * val => p (fst e)) d) = Some (VText first)) by (rewrite dget_filter_pred by reflexivity; rewrite RS; reflexivity).
  destruct (construct E "ConfigInput" (filter (fun e : string * val => p (fst e)) d)) as [c|e0] eqn:C; [|exists e0; reflexivity]. cbn [rbind add_overrides].
  unfold construct in C. change (String.eqb "ConfigInput" "InitialConditions") with false in C. change (class_fields "ConfigInput") with (Some fields_ConfigInput) in C. cbv iota in C.
  destruct (known_kwargs (map (fun f => fst (fst f)) fields_ConfigInput) (filter (fun e : string * val => p (fst e)) d)); [|discriminate C].
  destruct (init_fields E fields_ConfigInput (filter (fun e : string * val => p (fst e)) d)) as [l|e0] eqn:I; [|discriminate C]. cbn [rbind] in C. injection C as <-.
  assert (IS : exists dd cc, In ("start", dd, cc) fields_ConfigInput /\ convert E cc (VText first) = Ok (VText first)).
  { do 2 eexists. split; [unfold fields_ConfigInput; left; reflexivity|reflexivity]. }
  destruct IS as (dd & cc & I1 & I2). destruct (init_start E _ _ _ I dd cc I1 ltac:(cbn [map fst fields_ConfigInput]; repeat (apply NoDup_cons; [let X := fresh in intro X; repeat (destruct X as [X|X]; [discriminate X|]); exact X|]); apply NoDup_nil) _ G) as (x & X1 & X2).
  rewrite I2 in X1. injection X1 as <-. unfold to_soln_input, to_soln_table. cbn [convert_all getattr]. rewrite X2. cbn [rbind convert_in on_text]. rewrite HT. exists e. reflexivity.
Qed.
Lemma write_fails : forall E l, (exists e, In (Raise e) l) -> exists text e, write_results E l = (text, Some e).
Proof.
  intros E l. induction l as [|x t IH]; intros (e & H); [destruct H|]. destruct x as [[dd|]|e0].
  - cbn [write_results]. destruct (dict_row E SOLUTION_INPUT_FIELDS dd) as [row|e1]; [|do 2 eexists; reflexivity]. destruct H as [H|H]; [discriminate H|].
    destruct (IH (ex_intro _ e H)) as (text & e2 & ->). do 2 eexists. reflexivity.
  - cbn [write_results]. destruct H as [H|H]; [discriminate H|]. apply IH. exists e. exact H.
  - do 2 eexists. reflexivity.
Qed.
