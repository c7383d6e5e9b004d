(** C44, C45: comments, columns and labels of CSV files. *)
From Coq Require Import String List Bool ZArith Ascii Arith Reals Lia.
From Verif Require Import Lib_Py Model_FormatTables Model_Format Model_Inputs Model_Csv Spec_Csv Proofs_Csv.
Import ListNotations.
Open Scope string_scope. Open Scope list_scope.

(** ** C44 *)
Theorem C44_reader : forall lines, let '(data, comments) := helper_iter lines in split_comments lines data comments.
Proof.
  induction lines as [|l t IH]; [constructor|]. cbn [helper_iter]. destruct (helper_iter t) as [data comments]. destruct (is_comment l) eqn:Q.
  - apply is_comment_iff in Q as (c & Q). rewrite (comment_text l c Q). constructor; assumption.
  - constructor; [|exact IH]. intros c H. assert (is_comment l = true) by (apply is_comment_iff; exists c; exact H). congruence.
Qed.
(** The specification leaves no choice. *)
Lemma comment_of_fun : forall l a b, comment_of l a -> comment_of l b -> a = b.
Proof. intros l a b H1 H2. rewrite <- (comment_text _ _ H1). apply (comment_text _ _ H2). Qed.
Theorem C44_reader_unique : forall lines data comments, split_comments lines data comments -> helper_iter lines = (data, comments).
Proof.
  intros lines data comments H. induction H as [|l c t data comments H1 H2 IH|l t data comments H1 H2 IH]; [reflexivity| |]; cbn [helper_iter]; rewrite IH.
  - replace (is_comment l) with true by (symmetry; apply is_comment_iff; exists c; exact H1). rewrite (comment_text _ _ H1). reflexivity.
  - destruct (is_comment l) eqn:Q; [|reflexivity]. apply is_comment_iff in Q as (c & Q). destruct (H1 c Q).
Qed.
Example C44_reader_example : helper_iter (split_lines (universal_newlines
    ("#γ=1 " ++ String carriage_return (String newline ("a,b" ++ String newline ("  # x" ++ String newline "1,#2"))))%string))
  = (["a,b" ++ String newline ""; "1,#2"]%string, ["γ=1"; " x"]).
Proof. reflexivity. Qed.

(** Missing: trailing white space of a comment is lost, and C44_written_refuted. *)
Theorem C44_written_partial : forall comments rows, Forall one_line comments -> Forall (Forall keeps_in_csv) rows ->
  let file := (String.concat "" (map comment_line comments) ++ String.concat "" (map csv_row rows))%string in
  let lines := split_lines (universal_newlines file) in
  snd (helper_iter lines) = map rstrip comments /\ csv_reader unix_dialect (fst (helper_iter lines)) = Ok rows.
Proof.
  intros comments rows H1 H2 file lines. destruct (written_read comments rows H1 H2) as [A B]. cbv zeta in A, B.
  change (comments_text comments ++ rows_text rows)%string with file in A, B. fold lines in A, B. split; [rewrite A; reflexivity | exact B].
Qed.
Lemma rstrip_id : forall s c, is_space c = false -> rstrip (s ++ String c "") = (s ++ String c "")%string.
Proof.
  intros s c H. induction s as [|a t IH]; cbn [append rstrip]; [rewrite H; reflexivity|]. rewrite IH. destruct t; reflexivity.
Qed.
(** Comments that do not end in white space come back as they were. *)
Corollary C44_comments_back : forall comments rows, Forall one_line comments -> Forall (Forall keeps_in_csv) rows ->
  Forall (fun c => exists s a, c = (s ++ String a "")%string /\ is_space a = false) comments ->
  snd (helper_iter (split_lines (universal_newlines (String.concat "" (map comment_line comments) ++ String.concat "" (map csv_row rows))))) = comments.
Proof.
  intros comments rows H1 H2 H3. rewrite (proj1 (C44_written_partial comments rows H1 H2)). clear H1 H2.
  induction H3 as [|c t (s & a & -> & Ha) HF IH]; [reflexivity|]. cbn [map]. rewrite rstrip_id by exact Ha. rewrite IH. reflexivity.
Qed.
Example C44_written_nonvacuous :
  let comments := ["overrides=None"; "label=a b"] in let rows := [["x"; "y#"]; []; ["1,2"; ("say " ++ String double_quote (String newline "z"))%string]] in
  Forall one_line comments /\ Forall (Forall keeps_in_csv) rows.
Proof.
  cbv zeta. split; [repeat constructor|].
  assert (K : forall f, has_char newline f = false -> has_char carriage_return f = false -> keeps_in_csv f).
  { intros f H1 H2. split; [exact H2|]. intros pre sp post ->. rewrite has_char_app in H1. cbn in H1. rewrite orb_true_r in H1. discriminate H1. }
  repeat constructor; try (apply K; reflexivity).
  intros pre sp post H. destruct pre as [|a1 [|a2 [|a3 [|a4 [|a5 [|a6 pre]]]]]]; cbn in H; try discriminate H; try (injection H; intros; discriminate).
  - injection H as _ _ _ _ _ H. destruct sp as [|b sp]; cbn in H; [discriminate H|]. injection H as <- H. destruct sp; reflexivity.
  - injection H as _ _ _ _ _ _ H. destruct pre as [|? [|? pre]]; discriminate H.
Qed.
(** A field of several lines is written faithfully but loses a line that looks like a comment when read. *)
Theorem C44_written_refuted : exists row,
  let lines := split_lines (universal_newlines (csv_row row)) in
  csv_reader unix_dialect lines = Ok [row] /\
  csv_reader unix_dialect (fst (helper_iter lines)) <> Ok [row] /\ snd (helper_iter lines) <> [].
Proof. exists [("a" ++ String newline "#b")%string; "c"]. split; [reflexivity|]. split; discriminate. Qed.
Theorem C44_trailing_space_refuted : exists c, one_line c /\ snd (helper_iter (split_lines (universal_newlines (comment_line c)))) <> [c].
Proof. exists "label= ". split; [split; reflexivity | discriminate]. Qed.

(** ** C45 *)
Lemma str_in_In : forall s l, str_in s l = true <-> In s l.
Proof.
  intros s l. induction l as [|a t IH]; cbn [str_in In]; [split; [discriminate | intros []]|]. rewrite orb_true_iff, IH, String.eqb_eq. intuition congruence.
Qed.
Lemma dget_filter : forall (p : string -> bool) (d : dict val) f, dget f (filter (fun e => p (fst e)) d) = if p f then dget f d else None.
Proof.
  intros p d f. induction d as [|[k v] d IH]; [destruct (p f); reflexivity|]. cbn [filter fst]. destruct (p k) eqn:Q; cbn [dget].
  - rewrite IH. destruct (String.eqb f k) eqn:E; [apply String.eqb_eq in E; subst k; rewrite Q; reflexivity | reflexivity].
  - rewrite IH. destruct (String.eqb f k) eqn:E; [apply String.eqb_eq in E; subst k; rewrite Q; reflexivity | reflexivity].
Qed.
Lemma NoDup_filter_keys : forall (p : string * val -> bool) (d : dict val), NoDup (dkeys d) -> NoDup (dkeys (filter p d)).
Proof.
  intros p d H. induction d as [|[k v] d IH]; [constructor|]. cbn [dkeys map fst] in H. inversion H as [|? ? N1 N2]; subst. cbn [filter]. destruct (p (k, v)); [|apply IH, N2].
  cbn [dkeys map fst]. constructor; [|apply IH, N2]. intro X. apply N1. unfold dkeys in *. apply in_map_iff in X as ((k' & v') & <- & X). apply filter_In in X as [X _]. apply in_map_iff. exists (k', v'). auto.
Qed.
Lemma dget_fold_none : forall fs (d : dict val) f, dget f (fold_left (fun d g => dset g VNone d) fs d) =
  match cell f fs [] with Some v => Some v | None => dget f d end.
Proof.
  induction fs as [|g t IH]; intros d f; [reflexivity|]. cbn [fold_left cell tl]. rewrite IH. destruct (cell f t []); [reflexivity|].
  destruct (String.eqb f g) eqn:Q.
  - apply String.eqb_eq in Q. subst g. apply dget_dset_same.
  - apply dget_dset_other. intros ->. rewrite String.eqb_refl in Q. discriminate Q.
Qed.
Lemma dget_zip : forall fs row (d : dict val) f, dget f (zip_row fs row d) = match cell f fs row with Some v => Some v | None => dget f d end.
Proof.
  induction fs as [|g t IH]; intros row d f; [destruct row; reflexivity|]. destruct row as [|v r]; [apply (dget_fold_none (g :: t))|].
  cbn [zip_row cell tl]. rewrite IH. destruct (cell f t r); [reflexivity|]. destruct (String.eqb f g) eqn:Q.
  - apply String.eqb_eq in Q. subst g. apply dget_dset_same.
  - apply dget_dset_other. intros ->. rewrite String.eqb_refl in Q. discriminate Q.
Qed.
Lemma NoDup_zip : forall fs row (d : dict val), NoDup (dkeys d) -> NoDup (dkeys (zip_row fs row d)).
Proof.
  assert (F : forall fs (d : dict val), NoDup (dkeys d) -> NoDup (dkeys (fold_left (fun d f => dset f VNone d) fs d))).
  { induction fs as [|g t IH]; intros d H; [exact H|]. cbn [fold_left]. apply IH, NoDup_dset, H. }
  induction fs as [|g t IH]; intros row d H; destruct row as [|v r]; try exact H; [apply (F (g :: t)), H|]. cbn [zip_row]. apply IH, NoDup_dset, H.
Qed.
Lemma row_says_ok : forall fieldnames label row,
  row_says fieldnames label row (filter (fun e => str_in (fst e) (CONFIG_FIELDS ++ SOLUTION_IDENTIFICATION_FIELDS)) (dset "label" (VText label) (zip_row fieldnames row []))).
Proof.
  intros fieldnames label row. split.
  - apply NoDup_filter_keys, NoDup_dset, NoDup_zip. constructor.
  - intro f. rewrite (dget_filter (fun k => str_in k (CONFIG_FIELDS ++ SOLUTION_IDENTIFICATION_FIELDS))). unfold allowed.
    change SOLUTION_IDENTIFICATION_FIELDS with ["filename"; "solution_name"]. destruct (String.eqb f "label") eqn:Q.
    + apply String.eqb_eq in Q. subst f. rewrite dget_dset_same. reflexivity.
    + destruct (str_in f (CONFIG_FIELDS ++ ["filename"; "solution_name"])); [|reflexivity].
      rewrite dget_dset_other by (intros <-; discriminate Q). rewrite dget_zip. destruct (cell f fieldnames row); reflexivity.
Qed.
Definition not_blank_row (row : list string) : bool := match row with [] => false | _ => true end.
Lemma dict_rows_says : forall fieldnames rows label,
  Forall2 (row_says fieldnames label) (filter not_blank_row rows)
    (filter_csv_columns (add_labels (dict_rows fieldnames rows) label) (CONFIG_FIELDS ++ SOLUTION_IDENTIFICATION_FIELDS)).
Proof.
  intros fieldnames rows label. unfold filter_csv_columns, add_labels, dict_rows. rewrite !map_map.
  change (fun row : list string => match row with [] => false | _ :: _ => true end) with not_blank_row.
  induction (filter not_blank_row rows) as [|r t IH]; [constructor|]. cbn [map]. constructor; [apply row_says_ok | exact IH].
Qed.

(** The header test: one line that is not blank always counts as a header. *)
Definition in_record (p : parser) : Prop := p_fields p <> [] \/ match p_state p with START_RECORD | EAT_CRNL => False | _ => True end.
Lemma in_record_step : forall d p c q, in_record p -> process_char d p (Some c) = Ok q -> in_record q.
Proof.
  intros d [st f fs] c q H E. assert (A : forall x, fs ++ [x] <> []) by (intros x X; destruct fs; discriminate X).
  unfold in_record in *. cbn [p_state p_fields] in H.
  destruct st; unfold process_char, start_field in E; cbn [p_state] in E;
    repeat (match type of E with context [if ?b then _ else _] => destruct b end); try discriminate E; injection E as <-; cbn; auto;
    destruct H as [H|[]]; auto.
Qed.
Lemma in_record_feed : forall d s p q, in_record p -> feed d s p = Ok q -> in_record q.
Proof.
  induction s as [|c t IH]; intros p q H E; cbn [feed] in E; [injection E as <-; exact H|]. destruct (process_char d p (Some c)) as [p'|] eqn:Q; [|discriminate E].
  cbn [rbind] in E. exact (IH p' q (in_record_step d p c p' H Q) E).
Qed.
Lemma one_record : forall d l, has_char carriage_return l = false -> split_lines l = [l] -> ~ blank l -> forall rows, csv_reader d [l] = Ok rows -> exists r, rows = [r] /\ r <> [].
Proof.
  intros d l Hcr Hl Hb rows E. destruct l as [|c t]; [destruct Hb; left; reflexivity|].
  assert (NB : is_break c = false).
  { unfold is_break. cbn [has_char] in Hcr. apply orb_false_iff in Hcr as [H1 _]. rewrite orb_false_iff. split; [|exact H1].
    destruct (is c newline) eqn:Q; [|reflexivity]. exfalso. cbn [split_lines] in Hl. rewrite Q in Hl. injection Hl as <- _. apply Hb. right. unfold is in Q. apply Ascii.eqb_eq in Q. subst c. reflexivity. }
  unfold csv_reader in E. cbn [read_records] in E. destruct (feed d (String c t) p_init) as [p1|] eqn:F; [|discriminate E]. cbn [rbind] in E.
  assert (I : in_record p1).
  { cbn [feed] in F. destruct (process_char d p_init (Some c)) as [p0|] eqn:Q; [|discriminate F]. cbn [rbind] in F. apply (in_record_feed d t p0); [|exact F].
    unfold process_char, start_field in Q. cbn [p_state p_init] in Q. rewrite NB in Q. injection Q as <-. unfold in_record.
    destruct (is c (d_quotechar d)); [right; exact I|]. destruct (is c " " && d_skipinitialspace d); [right; exact I|]. destruct (is c (d_delimiter d)); [left; discriminate | right; exact I]. }
  destruct p1 as [st f fs]. unfold in_record in I. cbn [p_state p_fields] in I. assert (A : forall x, fs ++ [x] <> []) by (intros x X; destruct fs; discriminate X).
  destruct st; cbn in E; unfold finish in E; cbn in E; rewrite ?orb_true_r in E; injection E as <-; eauto; destruct I as [I|[]]; eauto.
Qed.
Lemma votes_header : forall S header n, n > 0 ->
  (0 <? fold_right Z.add 0 (map (vote S header) (map (fun i => (i, TNone)) (seq 0 n))))%Z = true.
Proof.
  intros S header n H. apply Z.ltb_lt.
  assert (G : forall n k, fold_right Z.add 0%Z (map (vote S header) (map (fun i => (i, TNone)) (seq k n))) = Z.of_nat n).
  { clear. induction n as [|n IH]; intro k; [reflexivity|]. cbn [seq map fold_right]. rewrite IH. unfold vote. cbn [snd fst]. lia. }
  rewrite G. lia.
Qed.
Lemma helper_data_in : forall lines l, In l (fst (helper_iter lines)) -> In l lines.
Proof.
  induction lines as [|a t IH]; intros l H; [exact H|]. cbn [helper_iter] in H. destruct (helper_iter t) as [data comments]. cbn [fst] in IH.
  destruct (is_comment a); cbn [fst] in H; [right; apply IH, H|]. destruct H as [<-|H]; [left; reflexivity | right; apply IH, H].
Qed.
Lemma has_char_lines : forall c s l, has_char c s = false -> In l (split_lines s) -> has_char c l = false.
Proof.
  intros c s. induction s as [|a t IH]; intros l H Hl; [destruct Hl|]. cbn [has_char] in H. apply orb_false_iff in H as [H1 H2]. cbn [split_lines] in Hl.
  destruct (is a newline).
  - destruct Hl as [<-|Hl]; [cbn [has_char]; rewrite H1; reflexivity | apply IH; assumption].
  - destruct (split_lines t) as [|l' r] eqn:S; [destruct Hl as [<-|[]]; cbn [has_char]; rewrite H1; reflexivity|].
    destruct Hl as [<-|Hl]; [cbn [has_char]; rewrite H1; apply IH; [exact H2 | left; reflexivity] | apply IH; [exact H2 | right; exact Hl]].
Qed.
Lemma blank_dec : forall l, blank l \/ ~ blank l.
Proof.
  intro l. unfold blank. destruct (string_dec l "") as [->|N1]; [left; left; reflexivity|].
  destruct (string_dec l (String newline "")) as [->|N2]; [left; right; reflexivity | right; intros [X|X]; auto].
Qed.
(** The header is never found missing. *)
Lemma always_header : forall S, sniffs_nothing_blank S -> forall text b, has_csv_header S (split_lines (universal_newlines text)) = Ok b -> b = true.
Proof.
  intros S HS text b H. unfold has_csv_header in H. destruct (fst (helper_iter (split_lines (universal_newlines text)))) as [|l data] eqn:D; [discriminate H|].
  assert (I : In l (split_lines (universal_newlines text))) by (apply helper_data_in; rewrite D; left; reflexivity).
  destruct (split_lines_line _ _ I) as [L1 L2]. unfold has_header in H. destruct (sn_sniff S l) as [d|] eqn:Q; [|discriminate H]. cbn [rbind] in H. rewrite L1 in H.
  destruct (csv_reader d [l]) as [rows|] eqn:C; [|discriminate H]. cbn [rbind] in H.
  assert (NB : ~ blank l) by (intro X; destruct (HS l X) as (e & X2); congruence).
  destruct (one_record d l (has_char_lines _ _ _ (universal_newlines_none text) I) L1 NB rows C) as (r & -> & R).
  injection H as <-. apply votes_header. destruct r; [congruence | cbn; lia].
Qed.
Theorem C45_rows_partial : forall S text label inputs, sniffs_nothing_blank S -> get_csv_inputs S text label = Ok inputs ->
  exists data comments fieldnames rows,
    split_comments (split_lines (universal_newlines text)) data comments /\
    csv_reader unix_dialect data = Ok (fieldnames :: rows) /\
    Forall2 (row_says fieldnames label) (filter not_blank_row rows) inputs.
Proof.
  intros S text label inputs HS H. unfold get_csv_inputs in H. pose proof (C44_reader (split_lines (universal_newlines text))) as R.
  destruct (has_csv_header S (split_lines (universal_newlines text))) as [b|] eqn:B; [|discriminate H]. cbn [rbind] in H.
  rewrite (always_header S HS text b B) in H. destruct (helper_iter (split_lines (universal_newlines text))) as [data comments] eqn:D. cbn [fst] in H.
  destruct (csv_reader unix_dialect data) as [records|] eqn:C; [|discriminate H]. cbn [rbind] in H. exists data, comments.
  destruct records as [|fieldnames rows].
  - exfalso. destruct data as [|l data]; [unfold has_csv_header in B; rewrite D in B; discriminate B|].
    assert (I : In l (split_lines (universal_newlines text))) by (apply helper_data_in; rewrite D; left; reflexivity).
    assert (NB : ~ blank l). { intro X. destruct (HS l X) as (e & X2). unfold has_csv_header in B. rewrite D in B. cbn [fst] in B. unfold has_header in B. rewrite X2 in B. discriminate B. }
    destruct (split_lines_line _ _ I) as [L1 L2]. pose proof (has_char_lines _ _ _ (universal_newlines_none text) I) as CR.
    clear - C CR L1 NB.
    assert (G : forall lines p, in_record p -> read_records unix_dialect lines p <> Ok [] \/ (lines = [] /\ p_state p <> IN_QUOTED_FIELD)).
    { induction lines as [|a t IH]; intros p Hp.
      - cbn [read_records]. unfold finish. destruct p as [st f fs]. cbn [p_state p_field p_fields]. destruct st; try (right; split; [reflexivity | discriminate]). left. rewrite orb_true_r. discriminate.
      - left. cbn [read_records]. destruct (feed unix_dialect a p) as [p1|] eqn:F; [|discriminate]. cbn [rbind]. pose proof (in_record_feed _ _ _ _ Hp F) as Hp1.
        destruct p1 as [st f fs]. destruct st; cbn; try (destruct (read_records unix_dialect t p_init); discriminate).
        destruct (IH (mk_parser IN_QUOTED_FIELD f fs) (or_intror I)) as [X|[_ X]]; [exact X | destruct X; reflexivity]. }
    unfold csv_reader in C. cbn [read_records] in C. destruct (feed unix_dialect l p_init) as [p1|] eqn:F; [|discriminate C]. cbn [rbind] in C.
    destruct p1 as [st f fs]. destruct st; cbn in C; try (destruct (read_records unix_dialect data p_init); discriminate C).
    destruct (G data (mk_parser IN_QUOTED_FIELD f fs) (or_intror I)) as [X|[_ X]]; [congruence | destruct X; reflexivity].
  - exists fieldnames, rows. split; [exact R|]. split; [exact C|]. injection H as <-. apply dict_rows_says.
Qed.
(** Consequently a file without a header loses its first row of data: a file of one row gives no inputs. *)
Theorem C45_headerless_refuted : forall S row label inputs, sniffs_nothing_blank S -> Forall keeps_in_csv row ->
  get_csv_inputs S (csv_row row) label = Ok inputs -> inputs = [].
Proof.
  intros S row label inputs HS HK H. destruct (C45_rows_partial S _ label inputs HS H) as (data & comments & fieldnames & rows & A & B & C).
  destruct (C44_written_partial [] [row] (Forall_nil _) (Forall_cons _ HK (Forall_nil _))) as [_ W]. cbv zeta in W. cbn [map String.concat append] in W.
  rewrite (C44_reader_unique _ _ _ A) in W. cbn [fst] in W. rewrite B in W. injection W as -> ->. inversion C. reflexivity.
Qed.
Definition simple_sniffer : sniffer :=
  mk_sniffer (fun s => if orb (String.eqb s "") (String.eqb s (String newline "")) then Raise OtherError else Ok unix_dialect) (fun _ => false).
Lemma simple_sniffer_ok : sniffs_nothing_blank simple_sniffer.
Proof. intros l [-> | ->]; exists OtherError; reflexivity. Qed.
Example C45_rows_example : exists d1 d2,
  get_csv_inputs simple_sniffer ("#c" ++ String newline ("start,colour,start,stop" ++ String newline ("1,red,2,3" ++ String newline (String newline ("4" ++ String newline "")))))%string "run" = Ok [d1; d2] /\
  d1 = [("start", VText "2"); ("stop", VText "3"); ("label", VText "run")] /\ d2 = [("start", VNone); ("stop", VNone); ("label", VText "run")].
Proof. do 2 eexists. split; [vm_compute; reflexivity|]. split; reflexivity. Qed.
Example C45_headerless_example : get_csv_inputs simple_sniffer (csv_row SOLUTION_INPUT_FIELDS) "run" = Ok [].
Proof. vm_compute. reflexivity. Qed.
