(** C58: solution filters and sorting. *)
From Coq Require Import String Ascii List Bool ZArith Reals Lra Lia Permutation Sorted.
From Verif Require Import Lib_Py Model_Format Model_Run Model_Array Model_Filter Spec_Filter Proofs_Array.
Import ListNotations.
Open Scope string_scope. Open Scope list_scope.

Lemma split_none : forall c s, has_char c s = false -> split_on c s = [s].
Proof.
  intros c s. induction s as [|a t IH]; intro H; [reflexivity|]. cbn [has_char] in H. apply orb_false_elim in H. destruct H as [H1 H2].
  cbn [split_on]. rewrite H1, (IH H2). reflexivity.
Qed.
Lemma split_app : forall c w t, has_char c w = false -> split_on c (w ++ String c t) = w :: split_on c t.
Proof.
  intros c w t. induction w as [|a w IH]; intro H; cbn [append split_on]; [rewrite Ascii.eqb_refl; reflexivity|].
  cbn [has_char] in H. apply orb_false_elim in H. destruct H as [H1 H2]. rewrite H1, (IH H2). reflexivity.
Qed.
Lemma split_nonempty : forall c s, split_on c s <> [].
Proof. intros c [|a t]; cbn [split_on]; [discriminate|]. destruct (Ascii.eqb a c); [discriminate|]. destruct (split_on c t); discriminate. Qed.
Lemma split_lstrip : forall c s, is_space c = false -> map lstrip (split_on c (lstrip s)) = map lstrip (split_on c s).
Proof.
  intros c s C. induction s as [|a t IH]; [reflexivity|]. cbn [lstrip]. destruct (is_space a) eqn:A; [|reflexivity].
  rewrite IH. cbn [split_on]. destruct (Ascii.eqb a c) eqn:E; [apply Ascii.eqb_eq in E; congruence|].
  assert (N := split_nonempty c t). destruct (split_on c t) as [|w ws]; [congruence|]. cbn [map]. f_equal. cbn [lstrip]. rewrite A. reflexivity.
Qed.
Lemma split_rstrip : forall c s, is_space c = false -> map rstrip (split_on c (rstrip s)) = map rstrip (split_on c s).
Proof.
  intros c s C. induction s as [|a t IH]; [reflexivity|]. cbn [rstrip split_on].
  assert (N := split_nonempty c t). destruct (rstrip t) as [|b t'] eqn:R.
  - cbn [split_on map rstrip] in IH. destruct (split_on c t) as [|w [|w2 ws]]; [congruence| |discriminate]. cbn [map] in IH. injection IH as IH.
    destruct (is_space a) eqn:A.
    + destruct (Ascii.eqb a c) eqn:E; [apply Ascii.eqb_eq in E; congruence|]. cbn [map split_on rstrip]. rewrite <- IH, A. reflexivity.
    + cbn [split_on]. destruct (Ascii.eqb a c); cbn [map rstrip]; rewrite <- IH; [reflexivity|]. rewrite A. reflexivity.
  - rewrite <- R in *. rewrite R. change (split_on c (String a (String b t'))) with (if Ascii.eqb a c then "" :: split_on c (String b t') else match split_on c (String b t') with w :: ws => String a w :: ws | [] => [String a ""] end).
    rewrite <- R. assert (N2 := split_nonempty c (rstrip t)). destruct (Ascii.eqb a c); [cbn [map]; f_equal; exact IH|].
    destruct (split_on c (rstrip t)) as [|w' ws']; [congruence|]. destruct (split_on c t) as [|w ws]; [congruence|]. cbn [map] in *. injection IH as I1 I2.
    f_equal; [|exact I2]. cbn [rstrip]. rewrite I1. reflexivity.
Qed.
Lemma strip_commute : forall s, rstrip (lstrip s) = lstrip (rstrip s).
Proof.
  induction s as [|a t IH]; [reflexivity|]. cbn [lstrip]. destruct (is_space a) eqn:A.
  - rewrite IH. cbn [rstrip]. destruct (rstrip t) as [|b t'] eqn:R; [rewrite A; reflexivity|]. cbn [lstrip]. rewrite A. reflexivity.
  - cbn [rstrip]. destruct (rstrip t) as [|b t']; [rewrite A|]; cbn [lstrip]; rewrite A; reflexivity.
Qed.
Lemma split_strip : forall c s, is_space c = false -> map strip (split_on c (strip s)) = map strip (split_on c s).
Proof.
  intros c s C. unfold strip.
  assert (E : forall l, map (fun s => rstrip (lstrip s)) l = map lstrip (map rstrip l)) by (intro l; rewrite map_map; apply map_ext; intro; apply strip_commute).
  rewrite E, (split_rstrip _ _ C), <- E. rewrite <- !(map_map lstrip rstrip). rewrite (split_lstrip _ _ C). reflexivity.
Qed.
Lemma parse_entries_strip : forall l l', map strip l = map strip l' -> parse_entries l = parse_entries l'.
Proof.
  induction l as [|a l IH]; intros [|b l'] H; try discriminate; [reflexivity|]. cbn [map] in H. injection H as H1 H2. cbn [parse_entries].
  unfold parse_entry. rewrite H1, (IH _ H2). reflexivity.
Qed.
Lemma lstrip_pad : forall l s, all_spaces l = true -> lstrip (l ++ s) = lstrip s.
Proof. induction l as [|a l IH]; intros s H; [reflexivity|]. cbn [all_spaces] in H. apply andb_prop in H. destruct H as [H1 H2]. cbn [append lstrip]. rewrite H1. apply IH, H2. Qed.
Lemma rstrip_spaces : forall r, all_spaces r = true -> rstrip r = "".
Proof. induction r as [|a r IH]; intro H; [reflexivity|]. cbn [all_spaces] in H. apply andb_prop in H. destruct H as [H1 H2]. cbn [rstrip]. rewrite (IH H2), H1. reflexivity. Qed.
Lemma rstrip_pad : forall s r, all_spaces r = true -> rstrip (s ++ r) = rstrip s.
Proof. induction s as [|a s IH]; intros r H; cbn [append]; [apply rstrip_spaces, H|]. cbn [rstrip]. rewrite (IH _ H). reflexivity. Qed.
Lemma strip_pad : forall l s r, all_spaces l = true -> all_spaces r = true -> strip (l ++ s ++ r) = strip s.
Proof. intros l s r L R. unfold strip. rewrite lstrip_pad by exact L. rewrite !strip_commute, rstrip_pad by exact R. reflexivity. Qed.
Lemma spaces_no_char : forall c s, is_space c = false -> all_spaces s = true -> has_char c s = false.
Proof.
  intros c s C. induction s as [|a s IH]; intro H; [reflexivity|]. cbn [all_spaces has_char] in *. apply andb_prop in H. destruct H as [H1 H2]. rewrite (IH H2), orb_false_r.
  destruct (Ascii.eqb a c) eqn:E; [apply Ascii.eqb_eq in E; congruence | reflexivity].
Qed.
Lemma digits_no_char : forall c s, is_digit c = false -> all_digits s = true -> has_char c s = false.
Proof.
  intros c s C. induction s as [|a s IH]; intro H; [reflexivity|]. cbn [all_digits has_char] in *. apply andb_prop in H. destruct H as [H1 H2]. rewrite (IH H2), orb_false_r.
  destruct (Ascii.eqb a c) eqn:E; [apply Ascii.eqb_eq in E; congruence | reflexivity].
Qed.
Lemma has_char_app : forall c a b, has_char c (a ++ b) = has_char c a || has_char c b.
Proof. intros c a b. induction a as [|x a IH]; [reflexivity|]. cbn [append has_char]. rewrite IH. destruct (Ascii.eqb x c); reflexivity. Qed.
Lemma range_stripped : forall a b, strip (str_of_nat a ++ "-" ++ str_of_nat b) = (str_of_nat a ++ "-" ++ str_of_nat b)%string.
Proof.
  intros a b. assert (Da := str_of_nat_digits a). assert (Db := str_of_nat_digits b). assert (Na := str_of_nat_nonempty a).
  unfold strip. assert (L : forall s t, all_digits s = true -> s <> "" -> lstrip (s ++ t) = (s ++ t)%string).
  { intros [|c s] t H N; [congruence|]. cbn [all_digits] in H. apply andb_prop in H. destruct H as [H _]. cbn [append lstrip]. rewrite (digit_not_space _ H). reflexivity. }
  rewrite L by assumption.
  assert (Rr : forall s t, t <> "" -> rstrip t = t -> rstrip (s ++ t) = (s ++ t)%string).
  { induction s as [|c s IH]; intros t N H; [exact H|]. cbn [append rstrip]. rewrite (IH t N H). destruct (s ++ t)%string eqn:E; [|reflexivity]. destruct s; [cbn in E; congruence | discriminate]. }
  apply Rr; [discriminate|]. apply (Rr "-"); [apply str_of_nat_nonempty | apply rstrip_digits, Db].
Qed.
Lemma zrange_nat : forall a b, (a <= b)%nat -> map str_of_Z (zrange (Z.of_nat a) (Z.of_nat b)) = map str_of_nat (seq a (b - a)).
Proof.
  intros a b L. unfold zrange. replace (Z.to_nat (Z.of_nat b - Z.of_nat a)) with (b - a)%nat by lia. rewrite map_map.
  assert (S : forall z, (0 <= z)%Z -> str_of_Z z = str_of_nat (Z.to_nat z)) by (intros [|p|p] H; [reflexivity | reflexivity | lia]).
  replace (seq a (b - a)) with (map (fun k => (a + k)%nat) (seq 0 (b - a))).
  2:{ clear. generalize (b - a)%nat as n. intro n. revert a. induction n as [|n IH]; intro a; [reflexivity|]. cbn [seq map]. f_equal; [lia|]. rewrite <- (IH (S a)), <- seq_shift, map_map. apply map_ext. intro; lia. }
  rewrite map_map. apply map_ext. intro k. rewrite S by lia. f_equal. lia.
Qed.
Lemma parse_item : forall p, padded_ok p -> parse_entry (padded_text p) = Ok (selected (let '(_, i, _) := p in i)).
Proof.
  intros [[l i] r] (L & R & P). unfold padded_text, parse_entry. rewrite (strip_pad _ _ _ L R). destruct i as [s|a b]; cbn [item_text plain selected] in *.
  - destruct P as (_ & P2 & P3). rewrite P3, P2. reflexivity.
  - rewrite range_stripped. rewrite has_char_app. change (has_char "-" ("-" ++ str_of_nat b)) with true. rewrite orb_true_r.
    change ("-" ++ str_of_nat b)%string with (String "-" (str_of_nat b)).
    rewrite split_app by (apply digits_no_char; [reflexivity | apply str_of_nat_digits]).
    rewrite split_none by (apply digits_no_char; [reflexivity | apply str_of_nat_digits]).
    rewrite !py_int_str, (zrange_nat _ _ P). f_equal. rewrite seq_app, map_app. cbn [seq map]. repeat f_equal. lia.
Qed.
Lemma padded_no_comma : forall p, padded_ok p -> has_char "," (padded_text p) = false.
Proof.
  intros [[l i] r] (L & R & P). unfold padded_text. rewrite !has_char_app, (spaces_no_char "," l eq_refl L), (spaces_no_char "," r eq_refl R), orb_false_r. cbn [orb].
  destruct i as [s|a b]; cbn [item_text plain] in *; [apply P|].
  rewrite !has_char_app, (digits_no_char "," (str_of_nat a) eq_refl (str_of_nat_digits a)), (digits_no_char "," (str_of_nat b) eq_refl (str_of_nat_digits b)). reflexivity.
Qed.
Lemma split_filter : forall l, l <> [] -> Forall padded_ok l -> split_on "," (filter_text l) = map padded_text l.
Proof.
  induction l as [|p l IH]; intros N F; [congruence|]. inversion_clear F as [|? ? F1 F2]. destruct l as [|q l].
  - cbn [filter_text map]. apply split_none, padded_no_comma, F1.
  - change (filter_text (p :: q :: l)) with (padded_text p ++ String "," (filter_text (q :: l)))%string.
    rewrite split_app by (apply padded_no_comma, F1). rewrite (IH (fun E => ltac:(discriminate E)) F2). reflexivity.
Qed.

(** C58: the names chosen by a filter are those of its items, one after the other: a name stands for itself and a-b for
    a, a+1, ..., b, both ends included; white space around items means nothing. *)
Theorem C58_filter : forall l, l <> [] -> Forall padded_ok l ->
  parse_solution_filter (filter_text l) = Ok (flat_map (fun p => selected (let '(_, i, _) := p in i)) l).
Proof.
  intros l N F. unfold parse_solution_filter. rewrite (parse_entries_strip _ (split_on "," (filter_text l))) by (apply split_strip; reflexivity).
  rewrite (split_filter l N F). clear N. induction F as [|p l H F IH]; [reflexivity|]. cbn [map parse_entries flat_map]. rewrite (parse_item p H), IH. reflexivity.
Qed.
Example C58_filter_nonvacuous :
  let l := [(" ", Named "ab", ""); ("", Range 9 11, "  ")] in
  l <> [] /\ Forall padded_ok l /\ filter_text l = " ab,9-11  " /\ parse_solution_filter " ab,9-11  " = Ok ["ab"; "9"; "10"; "11"].
Proof. cbv zeta. repeat split; [discriminate | | reflexivity..]. repeat constructor. Qed.

(** C58, refuted for a range that goes down: 5-3 is neither empty, nor 5, 4, 3, nor an error: it is 3. *)
Theorem C58_down_refuted : forall a b, (b < a)%nat -> parse_solution_filter (str_of_nat a ++ "-" ++ str_of_nat b) = Ok [str_of_nat b].
Proof.
  intros a b L. unfold parse_solution_filter. rewrite range_stripped, split_none by (rewrite !has_char_app, (digits_no_char "," (str_of_nat a) eq_refl (str_of_nat_digits a)), (digits_no_char "," (str_of_nat b) eq_refl (str_of_nat_digits b)); reflexivity).
  cbn [parse_entries]. unfold parse_entry. rewrite range_stripped, has_char_app. change (has_char "-" ("-" ++ str_of_nat b)) with true. rewrite orb_true_r.
  change ("-" ++ str_of_nat b)%string with (String "-" (str_of_nat b)).
  rewrite split_app by (apply digits_no_char; [reflexivity | apply str_of_nat_digits]).
  rewrite split_none by (apply digits_no_char; [reflexivity | apply str_of_nat_digits]).
  rewrite !py_int_str. unfold zrange. replace (Z.to_nat (Z.of_nat b - Z.of_nat a)) with 0%nat by lia. reflexivity.
Qed.
(** C58, refuted for white space inside a range: the last name keeps it, and so names no numbered solution. *)
Theorem C58_inner_space_refuted : parse_solution_filter "1 - 3" = Ok ["1"; "2"; " 3"] /\ forall n, str_of_nat n <> " 3".
Proof. split; [reflexivity|]. intros n H. assert (D := str_of_nat_digits n). rewrite H in D. discriminate. Qed.
(** C58: an entry with two dashes or more, or with an end that is no number, is a ValueError; nothing else is. *)
Theorem C58_error : forall e,
  (exists l, parse_entry e = Ok l /\ l <> []) \/
  (parse_entry e = Raise Lib_Py.ValueError /\ has_char "-" (strip e) = true /\
   forall a b, split_on "-" (strip e) = [a; b] -> py_int a = None \/ py_int b = None).
Proof.
  intro e. unfold parse_entry. destruct (has_char "-" (strip e)); [|left; eexists; split; [reflexivity | discriminate]].
  destruct (split_on "-" (strip e)) as [|a [|b [|c l]]]; try (right; repeat split; intros; discriminate).
  destruct (py_int a) eqn:A; [destruct (py_int b) eqn:B|].
  - left. eexists. split; [reflexivity|]. intro E. apply app_eq_nil in E. destruct E. discriminate.
  - right. repeat split. intros a' b' E. injection E as <- <-. right. exact B.
  - right. repeat split. intros a' b' E. injection E as <- <-. left. exact A.
Qed.

(** C58: what is shown are the solutions so named, in the order of the filter, each as stored; one that is not there is a KeyError. *)
Theorem C58_select : forall Sol ids (d : dict Sol),
  (forall l, select ids d = Ok l -> map fst l = ids /\ forall k s, In (k, s) l -> dget k d = Some s) /\
  ((forall k, In k ids -> dget k d <> None) -> exists l, select ids d = Ok l) /\
  ((exists k, In k ids /\ dget k d = None) -> select ids d = Raise KeyError).
Proof.
  intros Sol ids d. induction ids as [|k ids (I1 & I2 & I3)]; cbn [select].
  - refine (conj _ (conj _ _)); [intros l E; injection E as <-; split; [reflexivity | intros k s []] | eauto | intros (k & [] & _)].
  - unfold dgetitem. destruct (dget k d) as [s|] eqn:G; cbn [rbind].
    + refine (conj _ (conj _ _)).
      * intros l H. destruct (select ids d) as [l'|] eqn:E; cbn [rbind] in H; [|discriminate]. injection H as <-. destruct (I1 _ eq_refl) as (J1 & J2). split; [cbn [map fst]; f_equal; exact J1|].
        intros k' s' [E2|E2]; [injection E2 as <- <-; exact G | apply J2, E2].
      * intro A. destruct (I2 (fun k' H => A k' (or_intror H))) as (l & ->). cbn [rbind]. eauto.
      * intros (k' & [<-|A] & B); [congruence|]. rewrite (I3 (ex_intro _ k' (conj A B))). reflexivity.
    + refine (conj _ (conj _ _)); [discriminate | | reflexivity]. intro A. destruct (A k (or_introl eq_refl)). exact G.
Qed.
Example C58_select_nonvacuous : select ["2"; "0"] [("0", 5); ("1", 6); ("2", 7)] = Ok [("2", 7); ("0", 5)] /\ select ["2"; "3"] [("0", 5); ("2", 7)] = Raise KeyError.
Proof. split; reflexivity. Qed.

Lemma insert_perm : forall p l, Permutation (insert_by p l) (p :: l).
Proof.
  intros p. induction l as [|q t IH]; [reflexivity|]. cbn [insert_by]. destruct (Rltb (snd p) (snd q)); [reflexivity|].
  rewrite IH. apply perm_swap.
Qed.
Definition up (p q : string * R) : Prop := (snd p <= snd q)%R.
Lemma insert_sorted : forall p l, StronglySorted up l -> StronglySorted up (insert_by p l).
Proof.
  intros p l H. induction H as [|q t H IH F]; cbn [insert_by]; [repeat constructor|].
  destruct (Rltb (snd p) (snd q)) eqn:E.
  - apply Rltb_true in E. constructor; [constructor; assumption|]. constructor; [unfold up; lra|]. eapply Forall_impl; [|exact F]. unfold up. intros; lra.
  - apply Rltb_false in E. constructor; [exact IH|]. apply (Permutation_Forall (Permutation_sym (insert_perm p t))). constructor; [unfold up; lra | exact F].
Qed.
Lemma insert_stable : forall v p l, StronglySorted up l ->
  filter (fun q => if Req_EM_T (snd q) v then true else false) (insert_by p l) = filter (fun q => if Req_EM_T (snd q) v then true else false) (l ++ [p]).
Proof.
  intros v p l H. induction H as [|q t H IH F]; cbn [insert_by app]; [reflexivity|]. destruct (Rltb (snd p) (snd q)) eqn:E.
  - apply Rltb_true in E. cbn [filter]. rewrite filter_app. cbn [filter]. destruct (Req_EM_T (snd p) v) as [Ep|Ep].
    + assert (N : forall a, up q a -> (if Req_EM_T (snd a) v then true else false) = false) by (intros a A; unfold up in A; destruct (Req_EM_T (snd a) v); [lra | reflexivity]).
      rewrite (N q) by (unfold up; lra).
      assert (Z : filter (fun q => if Req_EM_T (snd q) v then true else false) t = []).
      { clear - F N. induction F as [|a t A F IH]; [reflexivity|]. cbn [filter]. rewrite (N a A). exact IH. }
      rewrite Z. reflexivity.
    + rewrite app_nil_r. reflexivity.
  - cbn [filter]. rewrite IH. reflexivity.
Qed.
(** C58: solutions sorted by their log probability: the same ones, in increasing order, ties in the order they were stored. *)
Theorem C58_sorted : forall Sol (logprob : Sol -> R) (d : dict Sol),
  let pairs := map (fun p => (fst p, logprob (snd p))) d in
  Permutation (sort_solutions logprob d) pairs /\
  StronglySorted (fun p q => snd p <= snd q)%R (sort_solutions logprob d) /\
  forall v, filter (fun q => if Req_EM_T (snd q) v then true else false) (sort_solutions logprob d) = filter (fun q => if Req_EM_T (snd q) v then true else false) pairs.
Proof.
  intros Sol logprob d pairs. unfold sort_solutions. fold pairs.
  assert (G : forall l acc, StronglySorted up acc ->
    let r := fold_left (fun acc p => insert_by p acc) l acc in
    Permutation r (acc ++ l) /\ StronglySorted up r /\
    forall v, filter (fun q => if Req_EM_T (snd q) v then true else false) r = filter (fun q => if Req_EM_T (snd q) v then true else false) (acc ++ l)).
  { induction l as [|p l IH]; intros acc A r; subst r; cbn [fold_left]; [rewrite app_nil_r; repeat split; [reflexivity | exact A]|].
    destruct (IH (insert_by p acc) (insert_sorted p acc A)) as (I1 & I2 & I3). repeat split; [|exact I2|].
    - rewrite I1, insert_perm. apply (Permutation_middle acc l p).
    - intro v. rewrite I3, filter_app, (insert_stable v p acc A), <- filter_app, <- app_assoc. reflexivity. }
  destruct (G pairs [] (SSorted_nil _)) as (G1 & G2 & G3). repeat split; assumption.
Qed.
Example C58_sorted_nonvacuous : sort_solutions (fun x : R => x) [("0", 2%R); ("1", 1%R)] = [("1", 1%R); ("0", 2%R)].
Proof. unfold sort_solutions. cbn. unfold Rltb. destruct (Rlt_dec 1 2); [reflexivity | lra]. Qed.
