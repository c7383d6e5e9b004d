(** Lemmas for C105 and C106. *)
From Coq Require Import String Ascii List Bool Reals Lra Lia.
From Verif Require Import Lib_Py Model_Index Model_Array Model_Csv Model_Critical Model_Stats Model_Trajectory Spec_Trajectory Props_Trajectory Model_Flow Spec_Flow.
Import ListNotations.
Open Scope R_scope. Open Scope string_scope. Open Scope list_scope.

(** ** The line followed *)
Lemma searchsorted_split : forall xs x, (exists a, In a xs /\ x <= a) ->
  exists before a after, xs = before ++ a :: after /\ Forall (fun b => b < x) before /\ x <= a /\ searchsorted xs x = List.length before.
Proof.
  induction xs as [|b t IH]; intros x (a & I & L); [destruct I|]. cbn [searchsorted]. unfold Rltb. destruct (Rlt_dec b x) as [Q|Q].
  - destruct I as [->|I]; [lra|]. destruct (IH x (ex_intro _ a (conj I L))) as (be & a' & af & E & F & L' & S).
    exists (b :: be), a', af. rewrite E at 1. repeat split; [constructor; assumption | exact L' | cbn [List.length]; f_equal; exact S].
  - exists [], b, t. repeat split; [constructor | lra].
Qed.
Lemma searchsorted_out : forall xs x, ~ (exists a, In a xs /\ x <= a) -> searchsorted xs x = List.length xs.
Proof.
  induction xs as [|b t IH]; intros x N; [reflexivity|]. cbn [searchsorted List.length]. unfold Rltb. destruct (Rlt_dec b x) as [Q|Q].
  - f_equal. apply IH. intros (a & I & L). apply N. exists a. split; [right; exact I | exact L].
  - exfalso. apply N. exists b. split; [left; reflexivity | lra].
Qed.
Lemma inside_dec : forall s p, inside s p \/ ~ inside s p.
Proof. intros s p. apply Classical_Prop.classic. Qed.
Lemma column_at : forall s p i row, sampled s p row -> value_at (fl_angles s) (column i s) (polar p) = Ret (row i).
Proof.
  intros s p i row (be & a & af & E & F & L & N). unfold value_at, get_closest_value_sorted.
  assert (S : searchsorted (fl_angles s) (polar p) = List.length be).
  { rewrite E. clear E N. induction be as [|b be IH]; cbn [app searchsorted List.length]; unfold Rltb.
    - destruct (Rlt_dec a (polar p)); [lra | reflexivity].
    - inversion F; subst. destruct (Rlt_dec b (polar p)); [f_equal; apply IH; assumption | lra]. }
  rewrite S. unfold column. rewrite (map_nth_error (fun r : vec => r i) _ _ N). reflexivity.
Qed.
Lemma sampled_inside : forall s p, List.length (fl_rows s) = List.length (fl_angles s) -> inside s p -> exists row, sampled s p row.
Proof.
  intros s p L I. destruct (searchsorted_split _ _ I) as (be & a & af & E & F & Q & _).
  destruct (nth_error (fl_rows s) (List.length be)) as [row|] eqn:N.
  - exists row, be, a, af. auto.
  - exfalso. apply nth_error_None in N. rewrite L, E, app_length in N. cbn [List.length] in N. lia.
Qed.
Lemma origin_dec : forall p : pt, p = (0, 0) \/ 0 < fst p ^ 2 + snd p ^ 2.
Proof.
  intros [x y]. cbn [fst snd]. destruct (Req_dec x 0) as [->|X]; [|right; nra]. destruct (Req_dec y 0) as [->|Y]; [left; reflexivity | right; nra].
Qed.
Section Line.
Variable s : fsoln.
Hypothesis lens : List.length (fl_rows s) = List.length (fl_angles s).
Variables (r θ : nat) (power : R).
Let values (p : pt) := compute_values (fst p) (snd p) (fl_angles s) (column r s) (column θ s) power.
Lemma values_inside : forall p row, sampled s p row -> exists v, values p = Ret v /\ fst v ^ 2 + snd v ^ 2 = 1 /\
  (p <> (0, 0) -> (row r <> 0 \/ row θ <> 0) -> v = direction p (row r) (row θ)).
Proof.
  intros p row S. assert (Hr := column_at _ _ r _ S). assert (Hθ := column_at _ _ θ _ S). unfold polar in Hr, Hθ.
  assert (V : exists v, values p = Ret v) by (unfold values, compute_values; cbv zeta; rewrite Hr, Hθ; eexists; reflexivity).
  destruct V as (v & V). exists v. split; [exact V|]. split; [apply (C57_unit _ _ _ _ _ _ _ V)|].
  intros P N. unfold values in V. rewrite (C57_direction _ _ _ _ _ _ (row r) (row θ)) in V; try assumption.
  - injection V as <-. destruct p; reflexivity.
  - destruct (origin_dec p) as [E|Q]; [contradiction | exact Q].
  - destruct N; nra.
Qed.
Lemma values_outside : forall p, ~ inside s p -> values p = IndexError.
Proof.
  intros p N. unfold values, compute_values, value_at, get_closest_value_sorted.
  assert (E : searchsorted (fl_angles s) (arctan2 (snd p) (fst p)) = List.length (fl_angles s)) by (apply searchsorted_out; exact N).
  rewrite E. unfold column. rewrite (proj2 (nth_error_None (map _ (fl_rows s)) (List.length (fl_angles s)))) by (rewrite map_length; lia). reflexivity.
Qed.
Lemma values_cases : forall p, (inside s p /\ exists v, values p = Ret v) \/ (~ inside s p /\ values p = IndexError).
Proof.
  intro p. destruct (inside_dec s p) as [I|N]; [left|right; split; [exact N | apply values_outside, N]].
  split; [exact I|]. destruct (sampled_inside _ _ lens I) as (row & S). destruct (values_inside _ _ S) as (v & V & _). exists v. exact V.
Qed.
Lemma follow_end : forall todo step v p pos l e, (values pos = IndexError -> pos = move p step v) ->
  follow values todo step (Some (v, p)) pos = (l, e) ->
  e = Ended /\ ((List.length l < todo)%nat -> exists front v' p' k, (v, p) :: l = front ++ [(v', p')] /\
     ~ inside s (move p' (step / 100 ^ k) v') /\ ~ inside s (move p' (step / 100 ^ S k) v')).
Proof.
  induction todo as [|todo IH]; intros step v p pos l e H F.
  { injection F as <- <-. split; [reflexivity|]. cbn [List.length]. lia. }
  cbn [follow] in F. destruct (values_cases pos) as [[I (w & V)]|[N V]]; rewrite V in F.
  - destruct (follow values todo step (Some (w, pos)) (move pos step w)) as [l' e'] eqn:F'. injection F as <- <-.
    destruct (IH _ _ _ _ _ _ (fun _ => eq_refl) F') as [E R]. split; [exact E|]. intro L. cbn [List.length] in L.
    destruct (R ltac:(lia)) as (fr & v' & p' & k & Q & A & B). exists ((v, p) :: fr), v', p', k. rewrite Q. repeat split; assumption.
  - specialize (H V). subst pos. replace (step * (1 / 100)) with (step / 100) in F by lra.
    destruct (values_cases (move p (step / 100) v)) as [[I (w & V')]|[N' V']]; rewrite V' in F.
    + destruct (follow values todo (step / 100) (Some (w, move p (step / 100) v)) (move p (step / 100) v)) as [l' e'] eqn:F'. injection F as <- <-.
      destruct (IH (step / 100) w (move p (step / 100) v) (move p (step / 100) v) l' e' ltac:(intro X; rewrite X in V'; discriminate V') F') as [E R].
      split; [exact E|]. intro L. cbn [List.length] in L. destruct (R ltac:(lia)) as (fr & v' & p' & k & Q & A & B).
      exists ((v, p) :: fr), v', p', (S k). rewrite Q.
      assert (P : forall j, step / 100 / 100 ^ j = step / 100 ^ S j) by (intro j; cbn [pow]; field; apply pow_nonzero; lra).
      rewrite P in A. rewrite P in B. repeat split; assumption.
    + injection F as <- <-. split; [reflexivity|]. intros _. exists [], v, p, 0%nat. split; [reflexivity|].
      cbn [pow]. replace (step / 1) with step by field. replace (step / (100 * 1)) with (step / 100) by field. split; assumption.
Qed.
Lemma followed : forall start n step l e,
  follow_trajectory start (fl_angles s) (column r s) (column θ s) power n step = (l, e) ->
  (e = Ended /\ (n = 0%nat \/ inside s start) /\ is_line s r θ start n step l) \/ (e = TypeErr /\ l = [] /\ (0 < n)%nat /\ ~ inside s start).
Proof.
  intros start n step l e F. destruct n as [|n].
  { injection F as <- <-. left. split; [reflexivity|]. split; [left; reflexivity|]. repeat split; cbn [List.length]; try lia. intros v p []. }
  destruct (values_cases start) as [[I (v & V)]|[N V]].
  2:{ right. unfold follow_trajectory in F. cbn [follow] in F. fold values in F. unfold values in V. rewrite V in F. injection F as <- <-. repeat split; [lia | exact N]. }
  left. destruct (C57_points _ _ _ _ _ _ _ _ _ F) as (A & B & C).
  unfold follow_trajectory in F. cbn [follow] in F. change (fun p : pt => compute_values (fst p) (snd p) (fl_angles s) (column r s) (column θ s) power) with values in F.
  change (compute_values (fst start) (snd start) (fl_angles s) (column r s) (column θ s) power) with (values start) in F. rewrite V in F.
  destruct (follow values n step (Some (v, start)) (move start step v)) as [l' e'] eqn:F'. injection F as <- <-.
  destruct (follow_end n step v start (move start step v) l' e' (fun _ => eq_refl) F') as [E R].
  split; [exact E|]. split; [right; exact I|]. split; [exact A|]. split; [|split].
  - intros w p P. destruct (B w p P) as [Q U]. change (values p = Ret w) in Q.
    destruct (values_cases p) as [[Ip _]|[_ X]]; [|rewrite X in Q; discriminate Q].
    destruct (sampled_inside _ _ lens Ip) as (row & S). exists row. split; [exact S|]. split; [exact U|].
    destruct (values_inside _ _ S) as (w' & W & _ & D). rewrite W in Q. injection Q as <-. exact D.
  - intros _. exists v, l'. split; [reflexivity | exact (proj2 C)].
  - intro L. cbn [List.length] in L. exact (R ltac:(lia)).
Qed.
End Line.

(** ** Texts *)
Lemma append_nil : forall a : string, (a ++ "")%string = a.
Proof. induction a as [|c a IH]; [reflexivity|]. cbn [String.append]. rewrite IH. reflexivity. Qed.
Lemma append_assoc' : forall a b c : string, ((a ++ b) ++ c)%string = (a ++ (b ++ c))%string.
Proof. induction a as [|x a IH]; intros b c; [reflexivity|]. cbn [String.append]. rewrite IH. reflexivity. Qed.
Lemma double_unquoted : forall x, unquoted x -> double_quotes x = x.
Proof.
  induction x as [|c x IH]; intro U; [reflexivity|]. destruct U as [C U]. cbn [double_quotes]. unfold is.
  destruct (Ascii.eqb c double_quote) eqn:E; [apply Ascii.eqb_eq in E; contradiction|]. rewrite IH by exact U. reflexivity.
Qed.
Lemma csv_row_text : forall l, l <> [] -> Forall unquoted l -> csv_row l = (entries l ++ newline_text)%string.
Proof.
  intros l N F. unfold csv_row. change (String Model_Inputs.newline "") with newline_text. f_equal. clear N.
  induction F as [|x l U F IH]; [reflexivity|]. destruct l as [|y l].
  - cbn [map String.concat entries]. unfold quoted. rewrite double_unquoted by exact U. reflexivity.
  - change (String.concat "," (map quoted (x :: y :: l))) with (quoted x ++ "," ++ String.concat "," (map quoted (y :: l)))%string.
    rewrite IH. unfold quoted at 1. rewrite double_unquoted by exact U.
    change (entries (x :: y :: l)) with (quote_text ++ x ++ quote_text ++ "," ++ entries (y :: l))%string.
    cbn [String.append]. rewrite append_assoc'. reflexivity.
Qed.
Lemma rows_text_lines : forall rows, Forall (fun l => l <> [] /\ Forall unquoted l) rows -> rows_text rows = lines_text rows.
Proof.
  induction rows as [|x rows IH]; intro F; [reflexivity|]. inversion F as [|? ? [N U] F']; subst.
  unfold rows_text in *. cbn [lines_text]. rewrite <- IH by exact F'. cbn [map String.concat]. rewrite csv_row_text by assumption.
  destruct (map csv_row rows) as [|y t] eqn:E; [cbn [String.concat]; rewrite append_nil; reflexivity|].
  cbn [String.append]. rewrite append_assoc'. reflexivity.
Qed.
Lemma table_text : forall filename range names rows, names <> [] -> Forall unquoted names -> Forall (fun l => l <> [] /\ Forall unquoted l) rows ->
  (heading filename range names ++ rows_text rows)%string = table filename (range_text range) (names :: rows).
Proof.
  intros filename range names rows N U F. rewrite (rows_text_lines _ F). unfold heading, table. cbn [lines_text].
  rewrite csv_row_text by assumption. unfold metadata, comment_line, range_text.
  cbn [map String.concat fst snd]. unfold comment_marker. change (String Model_Inputs.newline "") with newline_text.
  rewrite !append_assoc'. cbn [String.append]. reflexivity.
Qed.
Lemma max_from_greatest : forall l m, greatest (max_from m l) (m :: l).
Proof.
  induction l as [|x l IH]; intro m; cbn [max_from].
  - split; [left; reflexivity|]. intros y [->|[]]. lra.
  - unfold Rltb. destruct (Rlt_dec m x) as [Q|Q].
    + destruct (IH x) as [I G]. split; [destruct I as [E|I]; [right; left; exact E | right; right; exact I]|].
      intros y [<-|[<-|Y]]; [specialize (G x (or_introl eq_refl)); lra | apply G; left; reflexivity | apply G; right; exact Y].
    + destruct (IH m) as [I G]. split; [destruct I as [E|I]; [left; exact E | right; right; exact I]|].
      intros y [<-|[<-|Y]]; [apply G; left; reflexivity | specialize (G m (or_introl eq_refl)); lra | apply G; right; exact Y].
Qed.
Lemma py_max_greatest : forall l m, py_max l = Ret m -> greatest m l.
Proof. intros [|x l] m H; [discriminate H|]. injection H as <-. apply max_from_greatest. Qed.
