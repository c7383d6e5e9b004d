(** Lemmas about lines, comments and the CSV reader. *)
From Coq Require Import String List Bool ZArith Ascii Arith Reals Lia.
From Verif Require Import Lib_Py Model_Format Model_Inputs Model_Csv Spec_Csv.
Import ListNotations.
Open Scope string_scope. Open Scope list_scope.

(** ** Strings *)
Lemma app_assoc_s : forall a b c : string, ((a ++ b) ++ c)%string = (a ++ (b ++ c))%string.
Proof. induction a; intros; simpl; [reflexivity | rewrite IHa; reflexivity]. Qed.
Lemma app_nil_s : forall a : string, (a ++ "")%string = a.
Proof. induction a; simpl; [reflexivity | rewrite IHa; reflexivity]. Qed.
Lemma has_char_app : forall c a b, has_char c (a ++ b) = has_char c a || has_char c b.
Proof. induction a; intros; simpl; [reflexivity | rewrite IHa, orb_assoc; reflexivity]. Qed.
Lemma lstrip_app : forall pre s, all_space pre = true -> lstrip (pre ++ s) = lstrip s.
Proof. induction pre as [|c t IH]; intros s H; [reflexivity|]. simpl in *. apply andb_true_iff in H as [H1 H2]. rewrite H1. apply IH, H2. Qed.
Lemma lstrip_split : forall s, exists pre, all_space pre = true /\ s = (pre ++ lstrip s)%string.
Proof.
  induction s as [|c t IH]; [exists ""; split; reflexivity|]. simpl. destruct (is_space c) eqn:Q.
  - destruct IH as (pre & H1 & H2). exists (String c pre). simpl. rewrite Q, H1. split; [reflexivity | rewrite <- H2; reflexivity].
  - exists "". split; reflexivity.
Qed.
Lemma rstrip_hash : forall t, rstrip (String "#" t) = String "#" (rstrip t).
Proof. intro t. cbn [rstrip]. destruct (rstrip t); reflexivity. Qed.
Lemma rstrip_cons_nonspace : forall c t, is_space c = false -> rstrip (String c t) = String c (rstrip t).
Proof. intros c t H. cbn [rstrip]. destruct (rstrip t); [rewrite H|]; reflexivity. Qed.
Lemma rstrip_starts : forall c s t, rstrip s = String c t -> exists t', s = String c t' .
Proof. intros c [|a s] t H; [discriminate H|]. cbn [rstrip] in H. destruct (rstrip s); [destruct (is_space a); [discriminate H|]|]; injection H as <- _; exists s; reflexivity. Qed.
Lemma prefix_hash : forall s, String.prefix "#" s = true <-> exists t, s = String "#" t.
Proof.
  intros [|c t]; [split; [discriminate | intros (t & H); discriminate H]|].
  cbn [String.prefix]. destruct (ascii_dec "#" c) as [<-|N].
  - split; [intros _; exists t; reflexivity | intros _; destruct t; reflexivity].
  - split; [discriminate | intros (u & [= -> ->]); congruence].
Qed.

(** ** Comments *)
Lemma is_comment_iff : forall l, is_comment l = true <-> exists c, comment_of l c.
Proof.
  intro l. unfold is_comment, comment_marker. rewrite prefix_hash. split.
  - intros (t & H). unfold strip in H. destruct (rstrip_starts _ _ _ H) as (u & Hu).
    destruct (lstrip_split l) as (pre & H1 & H2). exists (rstrip u), pre, u. split; [exact H1|]. split; [rewrite H2, Hu; reflexivity | reflexivity].
  - intros (c & pre & post & H1 & -> & _). exists (rstrip post). unfold strip. rewrite lstrip_app by exact H1.
    change (lstrip ("#" ++ post)) with (String "#" post). apply rstrip_hash.
Qed.
Lemma comment_text : forall l c, comment_of l c -> drop_chars (String.length comment_marker) (strip l) = c.
Proof.
  intros l c (pre & post & H1 & -> & ->). unfold strip. rewrite lstrip_app by exact H1. change (lstrip ("#" ++ post)) with (String "#" post).
  rewrite rstrip_hash. reflexivity.
Qed.

(** ** Lines *)
Lemma split_lines_line : forall s l, In l (split_lines s) -> split_lines l = [l] /\ l <> "".
Proof.
  induction s as [|c t IH]; [intros l []|]. intros l H. cbn [split_lines] in H. destruct (is c newline) eqn:Q.
  - destruct H as [<-|H]; [|apply IH, H]. cbn [split_lines]. rewrite Q. split; [reflexivity | discriminate].
  - destruct (split_lines t) as [|l' r] eqn:S.
    + destruct H as [<-|[]]. cbn [split_lines]. rewrite Q. split; [reflexivity | discriminate].
    + destruct H as [<-|H]; [|apply IH; right; exact H]. destruct (IH l' (or_introl eq_refl)) as [H1 H2].
      cbn [split_lines]. rewrite Q, H1. split; [reflexivity | discriminate].
Qed.
Lemma split_lines_nil : forall s, split_lines s = [] -> s = "".
Proof. intros [|c t]; [reflexivity|]. cbn [split_lines]. destruct (is c newline); [discriminate|]. destruct (split_lines t); discriminate. Qed.
Lemma split_lines_line_app : forall l s, has_char newline l = false -> split_lines (l ++ String newline s) = (l ++ String newline "")%string :: split_lines s.
Proof.
  induction l as [|c t IH]; intros s H; [reflexivity|]. cbn [has_char] in H. apply orb_false_iff in H as [H1 H2].
  cbn [append split_lines]. unfold is. rewrite H1, IH by exact H2. reflexivity.
Qed.
Lemma universal_newlines_id : forall s, has_char carriage_return s = false -> universal_newlines s = s.
Proof. induction s as [|c t IH]; intro H; [reflexivity|]. cbn [has_char] in H. apply orb_false_iff in H as [H1 H2]. cbn [universal_newlines]. unfold is. rewrite H1, IH by exact H2. reflexivity. Qed.
Lemma universal_newlines_none : forall s, has_char carriage_return (universal_newlines s) = false.
Proof.
  assert (G : forall n s, String.length s <= n -> has_char carriage_return (universal_newlines s) = false).
  { induction n as [|n IH]; intros [|c t] H; try reflexivity; simpl in H; [lia|]. cbn [universal_newlines].
    destruct (is c carriage_return) eqn:Q; cbn [has_char]; [|unfold is in Q; rewrite Q; apply IH; lia].
    change (Ascii.eqb newline carriage_return) with false. cbn [orb]. destruct t as [|c2 t2]; [reflexivity|]. simpl in H.
    destruct (is c2 newline); apply IH; simpl; lia. }
  intro s. apply (G (String.length s)). lia.
Qed.

(** [at_start]: only white space since the line began.  False at a comment. *)
Fixpoint no_comment (at_start : bool) (s : string) : bool :=
  match s with
  | EmptyString => true
  | String c t => negb (at_start && is c "#") && no_comment (is c newline || (at_start && is_space c)) t
  end.
Lemma no_comment_weak : forall b s, no_comment true s = true -> no_comment b s = true.
Proof.
  intros b s; revert b; induction s as [|c t IH]; intros b H; [reflexivity|]. cbn [no_comment] in *. apply andb_true_iff in H as [H1 H2].
  destruct b; [rewrite H1, H2; reflexivity|]. cbn [andb negb]. rewrite orb_false_r. cbn [andb] in H2.
  destruct (is c newline); [exact H2|]. cbn [orb] in H2. destruct (is_space c); [apply IH, H2 | exact H2].
Qed.
Lemma no_comment_line : forall l c, comment_of l c -> forall s, no_comment true (l ++ s) = false.
Proof.
  intros l c (pre & post & H1 & -> & _) s. rewrite app_assoc_s. assert (Q : no_comment true (("#" ++ post) ++ s) = false) by reflexivity.
  set (u := (("#" ++ post) ++ s)%string) in *. clearbody u. induction pre as [|a t IH]; [exact Q|].
  cbn [all_space] in H1. apply andb_true_iff in H1 as [H1 H2]. cbn [append no_comment]. rewrite H1. cbn [andb]. rewrite orb_true_r, IH by exact H2. apply andb_false_r.
Qed.
(** The text is its lines, one after the other; each is preceded by a line start. *)
Lemma no_comment_lines : forall s, no_comment true s = true -> forall l, In l (split_lines s) -> is_comment l = false.
Proof.
  assert (G : forall s b, no_comment b s = true -> forall l r, split_lines s = l :: r ->
    (b = true -> is_comment l = false) /\ forall l', In l' r -> is_comment l' = false).
  { induction s as [|c t IH]; intros b H l r S; [discriminate S|]. cbn [no_comment] in H. apply andb_true_iff in H as [H1 H2].
    cbn [split_lines] in S. destruct (is c newline) eqn:Q.
    - injection S as <- <-. cbn [orb] in H2. split.
      + intros _. destruct (is_comment (String c "")) eqn:K; [|reflexivity]. unfold is in Q. apply Ascii.eqb_eq in Q. subst c. discriminate K.
      + intros l' Hl. destruct (split_lines t) as [|l2 r2] eqn:S2; [destruct Hl|]. destruct (IH true H2 l2 r2 eq_refl) as [A1 A2].
        destruct Hl as [<-|Hl]; [apply A1; reflexivity | apply A2, Hl].
    - cbn [orb] in H2. destruct (split_lines t) as [|l2 r2] eqn:S2.
      + injection S as <- <-. split; [|intros l' []]. intros ->. destruct (is_comment (String c "")) eqn:K; [|reflexivity].
        apply is_comment_iff in K as (k & K). apply (no_comment_line _ _) with (s := "") in K. rewrite app_nil_s in K. cbn [no_comment] in K.
        rewrite H1, andb_true_r in K. discriminate K.
      + injection S as <- <-. destruct (IH _ H2 l2 r2 eq_refl) as [A1 A2]. split; [|exact A2]. intros ->.
        destruct (is_comment (String c l2)) eqn:K; [|reflexivity]. apply is_comment_iff in K as (k & pre & post & K1 & K2 & K3).
        destruct pre as [|a pre].
        * injection K2 as -> _. discriminate H1.
        * cbn [append] in K2. injection K2 as <- K2. cbn [all_space] in K1. apply andb_true_iff in K1 as [K0 K1]. rewrite K0 in A1. cbn [andb] in A1.
          specialize (A1 eq_refl). rewrite <- A1. symmetry. apply is_comment_iff. exists (rstrip post), pre, post. auto. }
  intros s H l Hl. destruct (split_lines s) as [|l2 r2] eqn:S; [destruct Hl|]. destruct (G s true H l2 r2 S) as [A1 A2].
  destruct Hl as [<-|Hl]; [apply A1; reflexivity | apply A2, Hl].
Qed.
Lemma helper_data : forall lines, (forall l, In l lines -> is_comment l = false) -> helper_iter lines = (lines, []).
Proof. induction lines as [|l t IH]; intro H; [reflexivity|]. cbn [helper_iter]. rewrite IH by (intros; apply H; right; assumption). rewrite H by (left; reflexivity). reflexivity. Qed.
Lemma helper_app : forall a b, helper_iter (a ++ b) = (fst (helper_iter a) ++ fst (helper_iter b), snd (helper_iter a) ++ snd (helper_iter b)).
Proof.
  induction a as [|l t IH]; intro b; [cbn; destruct (helper_iter b); reflexivity|]. cbn [app helper_iter]. rewrite IH.
  destruct (helper_iter t) as [d c]. cbn [fst snd]. destruct (is_comment l); reflexivity.
Qed.

(** ** The reader as a function of the text *)
Fixpoint read_text (d : dialect) (p : parser) (s : string) : res (list (list string)) :=
  match s with
  | EmptyString => Ok (finish p)
  | String c t =>
      let! p1 := process_char d p (Some c) in
      if is c newline
      then let! p2 := process_char d p1 None in
           if at_record_start p2 then let! rest := read_text d p_init t in Ok (p_fields p2 :: rest) else read_text d p2 t
      else match t with
           | EmptyString => let! p2 := process_char d p1 None in if at_record_start p2 then Ok [p_fields p2] else Ok (finish p2)
           | _ => read_text d p1 t
           end
  end.
Lemma read_text_correct : forall d s p, read_records d (split_lines s) p = read_text d p s.
Proof.
  induction s as [|c t IH]; intro p; [reflexivity|]. cbn [split_lines read_text]. destruct (is c newline) eqn:Q.
  - cbn [read_records feed]. destruct (process_char d p (Some c)) as [p1|e]; [cbn [rbind]|reflexivity].
    destruct (process_char d p1 None) as [p2|e]; [cbn [rbind]|reflexivity]. rewrite !IH. reflexivity.
  - destruct (split_lines t) as [|l r] eqn:S.
    + apply split_lines_nil in S. subst t. cbn [read_records feed]. destruct (process_char d p (Some c)) as [p1|e]; [cbn [rbind]|reflexivity].
      destruct (process_char d p1 None) as [p2|e]; [cbn [rbind]|reflexivity]. destruct (at_record_start p2); reflexivity.
    + assert (t <> "") as N by (intros ->; discriminate S). cbn [read_records feed].
      destruct (process_char d p (Some c)) as [p1|e]; [cbn [rbind]|reflexivity]. destruct t as [|c2 t2]; [congruence|].
      rewrite <- (IH p1). reflexivity.
Qed.

(** ** Reading what was written *)
Lemma process_quoted : forall s f fs rest, rest <> "" ->
  read_text unix_dialect (mk_parser IN_QUOTED_FIELD f fs) (double_quotes s ++ rest) = read_text unix_dialect (mk_parser IN_QUOTED_FIELD (f ++ s) fs) rest.
Proof.
  induction s as [|c t IH]; intros f fs rest N; [rewrite app_nil_s; reflexivity|].
  replace (f ++ String c t)%string with ((f ++ String c "") ++ t)%string by (rewrite app_assoc_s; reflexivity).
  cbn [double_quotes]. destruct (is c double_quote) eqn:Q.
  - unfold is in Q. apply Ascii.eqb_eq in Q. subst c. cbn [append read_text].
    change (is double_quote newline) with false. cbn iota.
    unfold process_char at 1. cbn [p_state unix_dialect d_quotechar d_doublequote]. change (is double_quote double_quote) with true. cbn iota. cbn [rbind p_goto p_field p_fields].
    cbn [read_text]. unfold process_char at 1. cbn [p_state]. change (is double_quote (d_quotechar unix_dialect)) with true. change (is double_quote newline) with false. cbn iota. cbn [rbind p_add p_field p_fields].
    destruct (double_quotes t ++ rest)%string eqn:D.
    + destruct (double_quotes t); [cbn in D; congruence | discriminate D].
    + rewrite <- D. apply IH, N.
  - cbn [append read_text]. unfold process_char at 1. cbn [p_state unix_dialect d_quotechar]. rewrite Q. cbn [rbind p_add p_field p_fields].
    destruct (is c newline).
    + unfold process_char at 1. cbn [p_state rbind at_record_start]. apply IH, N.
    + destruct (double_quotes t ++ rest)%string eqn:D.
      * destruct (double_quotes t); [cbn in D; congruence | discriminate D].
      * rewrite <- D. apply IH, N.
Qed.
Lemma read_quoted : forall st s fs rest, st = START_RECORD \/ st = START_FIELD -> rest <> "" ->
  read_text unix_dialect (mk_parser st "" fs) (quoted s ++ rest) = read_text unix_dialect (mk_parser QUOTE_IN_QUOTED_FIELD s fs) rest.
Proof.
  intros st s fs rest H N. unfold quoted. cbn [append]. rewrite app_assoc_s. cbn [read_text].
  replace (process_char unix_dialect (mk_parser st "" fs) (Some double_quote)) with (Ok (mk_parser IN_QUOTED_FIELD "" fs)) by (destruct H as [-> | ->]; reflexivity).
  cbn [rbind]. change (is double_quote newline) with false. cbn iota.
  destruct (double_quotes s ++ (String double_quote "" ++ rest))%string eqn:D; [destruct (double_quotes s); discriminate D|]. rewrite <- D.
  rewrite process_quoted by discriminate. cbn [append read_text].
  unfold process_char at 1. cbn [p_state unix_dialect d_quotechar d_doublequote]. change (is double_quote double_quote) with true. cbn [rbind p_goto p_field p_fields].
  change (is double_quote newline) with false. cbn iota. destruct rest; [congruence|]. reflexivity.
Qed.
Lemma read_row : forall row fs st rest, row <> [] -> st = START_RECORD \/ st = START_FIELD ->
  read_text unix_dialect (mk_parser st "" fs) (csv_row row ++ rest) = let! r := read_text unix_dialect p_init rest in Ok ((fs ++ row) :: r).
Proof.
  induction row as [|a t IH]; intros fs st rest N H; [congruence|]. destruct t as [|b t].
  - unfold csv_row. cbn [map String.concat]. rewrite app_assoc_s. rewrite read_quoted; [|exact H|discriminate]. cbn [append read_text].
    unfold process_char at 1. cbn [p_state]. change (is newline (d_quotechar unix_dialect)) with false. change (is newline (d_delimiter unix_dialect)) with false. change (is_break newline) with true.
    cbn iota. cbn [rbind p_save p_field p_fields]. change (is newline newline) with true. cbn iota. unfold process_char at 1. cbn [p_state rbind p_goto at_record_start p_fields p_field]. reflexivity.
  - unfold csv_row. change (String.concat "," (map quoted (a :: b :: t))) with (quoted a ++ ("," ++ String.concat "," (map quoted (b :: t))))%string.
    rewrite !app_assoc_s. rewrite read_quoted; [|exact H|discriminate]. cbn [append read_text].
    unfold process_char at 1. cbn [p_state]. change (is "," (d_quotechar unix_dialect)) with false. change (is "," (d_delimiter unix_dialect)) with true. cbn iota. cbn [rbind p_save p_field p_fields].
    change (is "," newline) with false. cbn iota.
    specialize (IH (fs ++ [a]) START_FIELD rest ltac:(discriminate) (or_intror eq_refl)). unfold csv_row in IH. rewrite !app_assoc_s in IH.
    change (String newline "" ++ rest)%string with (String newline rest) in *.
    destruct (String.concat "," (map quoted (b :: t)) ++ String newline rest)%string eqn:D.
    + destruct (String.concat "," (map quoted (b :: t))); discriminate D.
    + change (p_save (mk_parser QUOTE_IN_QUOTED_FIELD a fs) START_FIELD) with (mk_parser START_FIELD "" (fs ++ [a])).
      rewrite IH, <- app_assoc. reflexivity.
Qed.
Lemma read_blank_row : forall rest, read_text unix_dialect p_init (csv_row [] ++ rest) = let! r := read_text unix_dialect p_init rest in Ok ([] :: r).
Proof. reflexivity. Qed.
Definition rows_text (rows : list (list string)) : string := String.concat "" (map csv_row rows).
Lemma concat_cons : forall a l, String.concat "" (a :: l) = (a ++ String.concat "" l)%string.
Proof. intros a [|b l]; cbn [String.concat]; [rewrite app_nil_s; reflexivity | reflexivity]. Qed.
Lemma read_rows : forall rows, read_text unix_dialect p_init (rows_text rows) = Ok rows.
Proof.
  induction rows as [|r t IH]; [reflexivity|]. unfold rows_text in *. cbn [map]. rewrite concat_cons. destruct r as [|a r].
  - rewrite read_blank_row, IH. reflexivity.
  - unfold p_init at 1. rewrite read_row; [rewrite IH; reflexivity | discriminate | left; reflexivity].
Qed.

(** ** No comment appears in what was written *)
Lemma no_comment_false_dq : forall s, no_comment false (double_quotes s) = no_comment false s.
Proof.
  assert (G : forall s b, no_comment b (double_quotes s) = no_comment b s).
  { induction s as [|c t IH]; intro b; [reflexivity|]. cbn [double_quotes]. destruct (is c double_quote) eqn:Q.
    - unfold is in Q. apply Ascii.eqb_eq in Q. subst c. cbn [no_comment]. rewrite IH. destruct b; reflexivity.
    - cbn [no_comment]. rewrite IH. reflexivity. }
  intro s. apply G.
Qed.
Lemma no_comment_app_dq : forall s b t, no_comment b (s ++ String double_quote t) = no_comment b s && no_comment false t.
Proof.
  induction s as [|c s IH]; intros b t.
  - cbn [append no_comment]. destruct b; reflexivity.
  - cbn [append no_comment]. rewrite IH, andb_assoc. reflexivity.
Qed.
Lemma no_comment_quoted : forall s b t, no_comment b (quoted s ++ t) = no_comment false s && no_comment false t.
Proof.
  intros s b t. unfold quoted. cbn [append]. rewrite app_assoc_s. cbn [append no_comment].
  replace (negb (b && is double_quote "#")) with true by (destruct b; reflexivity). replace (is double_quote newline || b && is_space double_quote) with false by (destruct b; reflexivity).
  cbn [andb]. rewrite no_comment_app_dq, no_comment_false_dq. reflexivity.
Qed.
Lemma no_comment_row : forall row b t, Forall (fun f => no_comment false f = true) row -> no_comment true t = true -> no_comment b (csv_row row ++ t) = true.
Proof.
  intros row b t H Ht. destruct row as [|a r].
  - unfold csv_row. cbn [map String.concat append no_comment]. destruct b; cbn; exact Ht.
  - revert b a H. induction r as [|b0 r IH]; intros b a H; inversion H as [|? ? H1 H2]; subst.
    + unfold csv_row. cbn [map String.concat]. rewrite app_assoc_s, no_comment_quoted, H1. cbn [append no_comment andb]. exact Ht.
    + unfold csv_row. change (String.concat "," (map quoted (a :: b0 :: r))) with (quoted a ++ ("," ++ String.concat "," (map quoted (b0 :: r))))%string.
      rewrite !app_assoc_s, no_comment_quoted, H1. cbn [append no_comment andb]. specialize (IH (is "," newline || false && is_space ",") b0 H2).
      unfold csv_row in IH. rewrite app_assoc_s in IH. exact IH.
Qed.
Lemma no_comment_rows : forall rows, Forall (Forall (fun f => no_comment false f = true)) rows -> no_comment true (rows_text rows) = true.
Proof.
  induction rows as [|r t IH]; intro H; [reflexivity|]. inversion H; subst. unfold rows_text in *. cbn [map]. rewrite concat_cons. apply no_comment_row; [assumption | apply IH; assumption].
Qed.
Lemma keeps_no_comment : forall f, keeps_in_csv f -> no_comment false f = true.
Proof.
  intros f [_ H].
  assert (A : forall s b, no_comment b s = false -> (b = true /\ exists sp post, all_space sp = true /\ s = (sp ++ "#" ++ post)%string) \/
    exists pre sp post, all_space sp = true /\ s = (pre ++ String newline (sp ++ "#" ++ post))%string).
  { induction s as [|c t IH]; intros b Q; [discriminate Q|]. cbn [no_comment] in Q. apply andb_false_iff in Q as [Q|Q].
    - apply negb_false_iff, andb_true_iff in Q as [-> Q]. unfold is in Q. apply Ascii.eqb_eq in Q. subst c. left. split; [reflexivity|]. exists "", t. split; reflexivity.
    - destruct (IH _ Q) as [[E (sp & post & S1 & ->)]|(pre & sp & post & S1 & ->)].
      + apply orb_true_iff in E as [E|E].
        * unfold is in E. apply Ascii.eqb_eq in E. subst c. right. exists "", sp, post. split; [exact S1 | reflexivity].
        * apply andb_true_iff in E as [-> E]. left. split; [reflexivity|]. exists (String c sp), post. cbn [all_space]. rewrite E, S1. split; reflexivity.
      + right. exists (String c pre), sp, post. split; [exact S1 | reflexivity]. }
  destruct (no_comment false f) eqn:Q; [reflexivity|]. destruct (A f false Q) as [[E _]|(pre & sp & post & S1 & S2)]; [discriminate E|].
  rewrite (H pre sp post S2) in S1. discriminate S1.
Qed.
Lemma no_cr_row : forall row, Forall (fun f => has_char carriage_return f = false) row -> has_char carriage_return (csv_row row) = false.
Proof.
  assert (D : forall s, has_char carriage_return s = false -> has_char carriage_return (quoted s) = false).
  { intros s H. unfold quoted. cbn [has_char]. rewrite has_char_app. change (Ascii.eqb double_quote carriage_return) with false. cbn [orb].
    rewrite orb_false_iff. split; [|reflexivity]. induction s as [|c t IH]; [reflexivity|]. cbn [has_char] in H. apply orb_false_iff in H as [H1 H2].
    cbn [double_quotes]. destruct (is c double_quote); cbn [has_char]; rewrite ?H1; cbn [orb]; apply IH, H2. }
  intros row H. unfold csv_row. rewrite has_char_app. rewrite orb_false_iff. split; [|reflexivity].
  induction H as [|a t H1 HF IH]; [reflexivity|]. destruct t as [|b t]; [cbn [map String.concat]; apply D, H1|].
  change (String.concat "," (map quoted (a :: b :: t))) with (quoted a ++ ("," ++ String.concat "," (map quoted (b :: t))))%string.
  rewrite has_char_app, (D a H1). cbn [orb append has_char]. exact IH.
Qed.
Lemma no_cr_rows : forall rows, Forall (Forall (fun f => has_char carriage_return f = false)) rows -> has_char carriage_return (rows_text rows) = false.
Proof.
  intros rows H. unfold rows_text. induction H as [|r t H1 HF IH]; [reflexivity|]. cbn [map]. rewrite concat_cons, has_char_app, (no_cr_row r H1). exact IH.
Qed.
Definition comments_text (comments : list string) : string := String.concat "" (map comment_line comments).
Lemma comment_line_of : forall c, comment_of (comment_line c) (rstrip c).
Proof.
  intro c. exists "", (c ++ String newline "")%string. split; [reflexivity|]. split; [reflexivity|].
  induction c as [|a t IH]; [reflexivity|]. cbn [append rstrip]. rewrite <- IH. reflexivity.
Qed.
Lemma lines_comments : forall comments s, Forall one_line comments ->
  split_lines (comments_text comments ++ s) = map comment_line comments ++ split_lines s.
Proof.
  intros comments s H. unfold comments_text. induction H as [|c t [H1 H2] HF IH]; [reflexivity|]. cbn [map]. rewrite concat_cons, app_assoc_s.
  unfold comment_line at 1. rewrite !app_assoc_s. change (String newline "" ++ (String.concat "" (map comment_line t) ++ s))%string with (String newline (String.concat "" (map comment_line t) ++ s)).
  rewrite <- (app_assoc_s comment_marker c). rewrite split_lines_line_app by (rewrite has_char_app, H1; reflexivity).
  rewrite IH. cbn [app]. reflexivity.
Qed.
Lemma no_cr_comments : forall comments, Forall one_line comments -> has_char carriage_return (comments_text comments) = false.
Proof.
  intros comments H. unfold comments_text. induction H as [|c t [H1 H2] HF IH]; [reflexivity|]. cbn [map]. rewrite concat_cons, has_char_app, IH.
  unfold comment_line. rewrite !has_char_app, H2. reflexivity.
Qed.
Lemma helper_comments : forall comments, helper_iter (map comment_line comments) = ([], map rstrip comments).
Proof.
  induction comments as [|c t IH]; [reflexivity|]. cbn [map helper_iter]. rewrite IH.
  replace (is_comment (comment_line c)) with true by (symmetry; apply is_comment_iff; exists (rstrip c); apply comment_line_of).
  rewrite (comment_text _ _ (comment_line_of c)). reflexivity.
Qed.
Lemma written_read : forall comments rows, Forall one_line comments -> Forall (Forall keeps_in_csv) rows ->
  let lines := split_lines (universal_newlines (comments_text comments ++ rows_text rows)) in
  helper_iter lines = (split_lines (rows_text rows), map rstrip comments) /\ csv_reader unix_dialect (fst (helper_iter lines)) = Ok rows.
Proof.
  intros comments rows HC HR lines.
  assert (N : has_char carriage_return (comments_text comments ++ rows_text rows) = false).
  { rewrite has_char_app, no_cr_comments by exact HC. apply no_cr_rows. eapply Forall_impl; [|exact HR]. intros r Hr. eapply Forall_impl; [|exact Hr]. intros f [Hf _]. exact Hf. }
  assert (L : lines = map comment_line comments ++ split_lines (rows_text rows)) by (unfold lines; rewrite universal_newlines_id by exact N; apply lines_comments, HC).
  assert (HH : helper_iter lines = (split_lines (rows_text rows), map rstrip comments)).
  { rewrite L, helper_app, helper_comments, helper_data.
    - cbn [fst snd app]. rewrite app_nil_r. reflexivity.
    - apply no_comment_lines, no_comment_rows. eapply Forall_impl; [|exact HR]. intros r Hr. eapply Forall_impl; [|exact Hr]. apply keeps_no_comment. }
  split; [exact HH|]. rewrite HH. cbn [fst]. unfold csv_reader. rewrite read_text_correct. apply read_rows.
Qed.

(** ** A file of several runs *)
Definition ended (a : string) : Prop := a = "" \/ exists b, a = (b ++ String newline "")%string.
Lemma split_lines_ended : forall a s, ended a -> split_lines (a ++ s) = split_lines a ++ split_lines s.
Proof.
  intros a s [->|(b & ->)]; [reflexivity|]. revert s. induction b as [|c t IH]; intro s; [reflexivity|]. cbn [append split_lines]. destruct (is c newline).
  - rewrite IH. reflexivity.
  - rewrite IH. destruct (split_lines (t ++ String newline "")) as [|l r] eqn:D; [|reflexivity].
    apply split_lines_nil in D. destruct t; discriminate D.
Qed.
Lemma ended_app : forall a b, ended a -> ended b -> ended (a ++ b).
Proof.
  intros a b HA [->|(x & ->)]; [rewrite app_nil_s; exact HA|]. right. exists (a ++ x)%string. rewrite app_assoc_s. reflexivity.
Qed.
Lemma ended_concat : forall l, Forall ended l -> ended (String.concat "" l).
Proof. intros l H. induction H as [|a t H1 HF IH]; [left; reflexivity|]. rewrite concat_cons. apply ended_app; assumption. Qed.
Lemma ended_rows : forall rows, ended (rows_text rows).
Proof. intro rows. apply ended_concat, Forall_forall. intros a Ha. apply in_map_iff in Ha as (r & <- & _). right. eexists. reflexivity. Qed.
Lemma ended_comments : forall comments, ended (comments_text comments).
Proof.
  intro comments. apply ended_concat, Forall_forall. intros a Ha. apply in_map_iff in Ha as (c & <- & _). right. exists (comment_marker ++ c)%string.
  unfold comment_line. rewrite app_assoc_s. reflexivity.
Qed.
Definition section_text (s : list string * list (list string)) : string := (comments_text (fst s) ++ rows_text (snd s))%string.
Definition section_ok (s : list string * list (list string)) : Prop := Forall one_line (fst s) /\ Forall (Forall keeps_in_csv) (snd s).
Lemma rows_text_app : forall a b, rows_text (a ++ b) = (rows_text a ++ rows_text b)%string.
Proof. intros a b. unfold rows_text. induction a as [|r t IH]; [reflexivity|]. cbn [app map]. rewrite !concat_cons, IH, app_assoc_s. reflexivity. Qed.
Lemma sections_read : forall sections, Forall section_ok sections ->
  let lines := split_lines (universal_newlines (String.concat "" (map section_text sections))) in
  helper_iter lines = (split_lines (rows_text (flat_map snd sections)), map rstrip (flat_map fst sections)) /\
  csv_reader unix_dialect (fst (helper_iter lines)) = Ok (flat_map snd sections).
Proof.
  intros sections H lines.
  assert (N : has_char carriage_return (String.concat "" (map section_text sections)) = false).
  { clear lines. induction H as [|[cs rs] t [H1 H2] HF IH]; [reflexivity|]. cbn [map]. rewrite concat_cons, has_char_app, IH, orb_false_r. unfold section_text. cbn [fst snd] in *.
    rewrite has_char_app, no_cr_comments by exact H1. apply no_cr_rows. eapply Forall_impl; [|exact H2]. intros r Hr. eapply Forall_impl; [|exact Hr]. intros f [Hf _]. exact Hf. }
  assert (HH : helper_iter lines = (split_lines (rows_text (flat_map snd sections)), map rstrip (flat_map fst sections))).
  { unfold lines. rewrite universal_newlines_id by exact N. clear N lines. induction H as [|[cs rs] t [H1 H2] HF IH]; [reflexivity|]. cbn [map fst snd flat_map] in *. rewrite concat_cons.
    rewrite split_lines_ended by (apply ended_app; [apply ended_comments | apply ended_rows]). rewrite helper_app, IH.
    unfold section_text. cbn [fst snd]. pose proof (proj1 (written_read cs rs H1 H2)) as W. cbv zeta in W. rewrite universal_newlines_id in W.
    - rewrite W. cbn [fst snd]. rewrite rows_text_app, split_lines_ended by apply ended_rows. rewrite map_app. reflexivity.
    - rewrite has_char_app, no_cr_comments by exact H1. apply no_cr_rows. eapply Forall_impl; [|exact H2]. intros r Hr. eapply Forall_impl; [|exact Hr]. intros f [Hf _]. exact Hf. }
  split; [exact HH|]. rewrite HH. cbn [fst]. unfold csv_reader. rewrite read_text_correct. apply read_rows.
Qed.
