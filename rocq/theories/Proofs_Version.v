(** Strings: what the parts of the version code do to joined strings. *)
From Coq Require Import String List Bool ZArith Arith Ascii Lia.
From Verif Require Import Lib_Py Model_Version Spec_Version.
Import ListNotations.
Open Scope string_scope. Open Scope list_scope.

Lemma app_nil : forall s : string, (s ++ "")%string = s.
Proof. induction s; cbn; congruence. Qed.
Lemma app_ass : forall a b c : string, ((a ++ b) ++ c)%string = (a ++ (b ++ c))%string.
Proof. induction a; intros; cbn; [reflexivity|]. f_equal. auto. Qed.
Lemma len_app : forall a b : string, String.length (a ++ b) = (String.length a + String.length b)%nat.
Proof. induction a; intros; cbn; [reflexivity|]. f_equal. auto. Qed.
Lemma app_inv_head : forall a b c : string, (a ++ b)%string = (a ++ c)%string -> b = c.
Proof. induction a; cbn; intros b c H; [exact H|]. injection H. auto. Qed.
Lemma sub_all : forall s, substring 0 (String.length s) s = s.
Proof. induction s; cbn; congruence. Qed.
Lemma sub_left : forall a b, substring 0 (String.length a) (a ++ b) = a.
Proof. induction a; intros; cbn; [destruct b; reflexivity|]. f_equal. auto. Qed.
Lemma sub_right : forall a b, substring (String.length a) (String.length b) (a ++ b) = b.
Proof. induction a; intros; [exact (sub_all b)|]. cbn. auto. Qed.
Lemma drop_app : forall p s, drop (String.length p) (p ++ s) = s.
Proof. intros. unfold drop. rewrite len_app. replace (String.length p + String.length s - String.length p)%nat with (String.length s) by lia. apply sub_right. Qed.
Lemma prefix_app : forall p s, prefix p (p ++ s) = true.
Proof. induction p; intros; cbn; [destruct s; reflexivity|]. destruct (ascii_dec a a) as [_|n]; [auto|contradiction]. Qed.
Lemma prefix_inv : forall p s, prefix p s = true -> exists r, s = (p ++ r)%string.
Proof.
  induction p; intros s H; [exists s; reflexivity|]. destruct s as [|b s]; cbn in H; [discriminate|].
  destruct (ascii_dec a b) as [-> |n]; [|discriminate]. destruct (IHp s H) as (r & ->). exists r. reflexivity.
Qed.
Lemma split_at : forall n s, (n <= String.length s)%nat -> s = (substring 0 n s ++ substring n (String.length s - n) s)%string.
Proof.
  induction n; intros s H; [destruct s; cbn; [reflexivity|]; f_equal; symmetry; apply sub_all|].
  destruct s; cbn in H |- *; [lia|]. f_equal. apply IHn. lia.
Qed.

(** The last character. *)
Fixpoint lastc (s : string) : option ascii :=
  match s with EmptyString => None | String c EmptyString => Some c | String _ t => lastc t end.
Lemma lastc_app : forall a b, b <> "" -> lastc (a ++ b) = lastc b.
Proof.
  induction a; intros b Hb; [reflexivity|]. cbn. rewrite (IHa b Hb). destruct (a0 ++ b)%string eqn:E; [|reflexivity].
  destruct a0; cbn in E; [subst; contradiction|discriminate].
Qed.
Lemma endswith_yes : forall a p, endswith (a ++ p) p = true.
Proof.
  intros. unfold endswith. rewrite len_app. replace (String.length a + String.length p - String.length p)%nat with (String.length a) by lia.
  rewrite sub_right, String.eqb_refl, andb_true_r. apply Nat.leb_le. lia.
Qed.
Lemma endswith_last : forall s p, p <> "" -> endswith s p = true -> lastc s = lastc p.
Proof.
  intros s p Hp H. unfold endswith in H. apply andb_true_iff in H. destruct H as (L & E). apply Nat.leb_le in L. apply String.eqb_eq in E.
  rewrite (split_at (String.length s - String.length p) s) by lia.
  replace (String.length s - (String.length s - String.length p))%nat with (String.length p) by lia. rewrite E. apply lastc_app, Hp.
Qed.

(** Hexadecimal digits. *)
Lemma hex_digit_facts : forall c, hex_digit c -> is_hex c = true /\ is_space c = false /\ Ascii.eqb c "-" = false /\ Ascii.eqb c "." = false /\
  Ascii.eqb c "y" = false /\ Ascii.eqb c "v" = false.
Proof.
  intros c H. unfold hex_digit in H. cbn in H.
  repeat (destruct H as [<- |H]; [repeat split; reflexivity|]). destruct H.
Qed.
Definition hexy (s : string) : Prop := forall x, In x (chars s) -> hex_digit x.
Lemma hexy_cons : forall c s, hexy (String c s) -> hex_digit c /\ hexy s.
Proof. intros c s H. split; [apply H; left; reflexivity|]. intros x Hx. apply H. right. exact Hx. Qed.
Lemma hexy_sub : forall n s, hexy s -> hexy (substring 0 n s).
Proof.
  induction n; intros s H; [destruct s; intros x []|]. destruct s; [intros x []|]. apply hexy_cons in H. intros y Hy. cbn in Hy.
  destruct Hy as [E|Hy]; [rewrite <- E; exact (proj1 H)|]. exact (IHn s (proj2 H) y Hy).
Qed.
Lemma hexy_all_hex : forall s, hexy s -> all_hex s = true.
Proof. induction s; intros H; [reflexivity|]. apply hexy_cons in H. cbn. rewrite (proj1 (hex_digit_facts _ (proj1 H))). exact (IHs (proj2 H)). Qed.
Lemma hexy_no : forall c s, hexy s -> (forall x, hex_digit x -> Ascii.eqb x c = false) -> contains c s = false.
Proof. intros c s H F. induction s; [reflexivity|]. apply hexy_cons in H. cbn. rewrite (F _ (proj1 H)). exact (IHs (proj2 H)). Qed.
Lemma hexy_dash : forall s, hexy s -> contains "-" s = false.
Proof. intros s H. apply hexy_no; [exact H|]. intros x Hx. apply hex_digit_facts, Hx. Qed.
Lemma hexy_dot : forall s, hexy s -> contains "." s = false.
Proof. intros s H. apply hexy_no; [exact H|]. intros x Hx. apply hex_digit_facts, Hx. Qed.
Lemma hexy_last : forall s, hexy s -> lastc s <> Some "y"%char.
Proof.
  induction s; intros H; [discriminate|]. apply hexy_cons in H. cbn. destruct s; [|exact (IHs (proj2 H))].
  intros E. injection E as ->. destruct (hex_digit_facts _ (proj1 H)) as (_ & _ & _ & _ & Y & _). discriminate.
Qed.

(** White space. *)
Lemma rstrip_keep : forall s t, t <> "" -> rstrip t = t -> rstrip (s ++ t) = (s ++ t)%string.
Proof.
  induction s; intros t N E; [exact E|]. cbn. rewrite (IHs t N E). destruct (s ++ t)%string eqn:F; [|reflexivity].
  destruct s; cbn in F; [subst; contradiction|discriminate].
Qed.
Lemma rstrip_break : forall s, rstrip (s ++ line_break) = rstrip s.
Proof. induction s; [reflexivity|]. cbn. rewrite IHs. reflexivity. Qed.
Lemma rstrip_hexy : forall s, hexy s -> rstrip s = s.
Proof.
  induction s; intros H; [reflexivity|]. apply hexy_cons in H. cbn. rewrite (IHs (proj2 H)). destruct s; [|reflexivity].
  destruct (hex_digit_facts _ (proj1 H)) as (_ & E & _). rewrite E. reflexivity.
Qed.

(** The pattern. *)
Lemma digits_no : forall c s, all_digits s = true -> is_digit c = false -> contains c s = false.
Proof.
  induction s; intros H D; [reflexivity|]. cbn in H |- *. apply andb_true_iff in H. destruct H as (H1 & H2). rewrite (IHs H2 D), orb_false_r.
  destruct (Ascii.eqb_spec a c) as [-> |]; [congruence|reflexivity].
Qed.
Lemma no_match : forall s g, contains "-" s = false -> search_describe g s = None.
Proof.
  induction s; intros g H; [reflexivity|]. cbn in H. apply orb_false_iff in H. destruct H as (H1 & H2). cbn. rewrite (IHs _ H2), H1.
  destruct (nonempty g); reflexivity.
Qed.
Lemma no_match_inside : forall n h g, contains "-" n = false -> contains "-" h = false -> search_describe g (n ++ "-g" ++ h) = None.
Proof.
  induction n; intros h g Hn Hh.
  - change (("" ++ "-g" ++ h)%string) with (String "-" (String "g" h)). cbn [search_describe]. rewrite (no_match h _ Hh).
    destruct (nonempty _); destruct (nonempty g); reflexivity.
  - cbn in Hn. apply orb_false_iff in Hn. destruct Hn as (H1 & H2). cbn. cbn in IHn. rewrite (IHn h _ H2 Hh), H1. destruct (nonempty g); reflexivity.
Qed.
Lemma span_all : forall n r, all_digits n = true -> span_digits (n ++ String "-" r) = (n, String "-" r).
Proof.
  induction n; intros r H; [reflexivity|]. cbn in H. apply andb_true_iff in H. destruct H as (H1 & H2). cbn. rewrite H1, (IHn r H2). reflexivity.
Qed.
Lemma search_finds : forall T g n h, nonempty (g ++ T) = true -> all_digits n = true -> n <> "" -> hexy h -> h <> "" ->
  search_describe g (T ++ "-" ++ n ++ "-g" ++ h) = Some ((g ++ T)%string, n, h).
Proof.
  induction T; intros g n h N Hn Nn Hh Nh.
  - rewrite app_nil in *. change (("" ++ "-" ++ n ++ "-g" ++ h)%string) with (String "-" (n ++ "-g" ++ h)%string). cbn [search_describe].
    rewrite (no_match_inside n h _ (digits_no "-" n Hn eq_refl) (hexy_dash h Hh)), N. cbn [match_tail Ascii.eqb Bool.eqb].
    replace ((n ++ "-g" ++ h)%string) with ((n ++ String "-" (String "g" h))%string) by reflexivity. rewrite (span_all n _ Hn).
    change (String "-" (String "g" h)) with ("-g" ++ h)%string. rewrite prefix_app. change 2%nat with (String.length "-g"). rewrite drop_app.
    rewrite (hexy_all_hex h Hh). destruct n; [contradiction|]. destruct h; [contradiction|]. reflexivity.
  - change ((String a T ++ "-" ++ n ++ "-g" ++ h)%string) with (String a (T ++ "-" ++ n ++ "-g" ++ h)%string). cbn [search_describe].
    rewrite (IHT (g ++ String a "")%string n h) ; try assumption.
    + rewrite app_ass. reflexivity.
    + rewrite app_ass. exact N.
Qed.
Lemma contains_app : forall c a b, contains c (a ++ b) = contains c a || contains c b.
Proof. induction a; intros; [reflexivity|]. cbn. rewrite IHa. apply orb_assoc. Qed.

(** Where a separator that is in neither first part stands is determined. *)
Lemma cut_once : forall c a b x y, contains c a = false -> contains c b = false -> (a ++ String c x)%string = (b ++ String c y)%string -> a = b /\ x = y.
Proof.
  induction a; intros b x y Ha Hb E.
  - destruct b; cbn in E; [injection E; auto|]. injection E as <- _. cbn in Hb. rewrite Ascii.eqb_refl in Hb. discriminate.
  - cbn in Ha. apply orb_false_iff in Ha. destruct Ha as (H1 & H2). destruct b; cbn in E.
    + injection E as -> _. rewrite Ascii.eqb_refl in H1. discriminate.
    + cbn in Hb. apply orb_false_iff in Hb. injection E as -> E. destruct (IHa b x y H2 (proj2 Hb) E) as (-> & ->). auto.
Qed.
Lemma not_inside : forall c a b x, contains c a = false -> a <> (b ++ String c x)%string.
Proof. intros c a b x H E. rewrite E, contains_app in H. cbn in H. rewrite Ascii.eqb_refl, orb_true_r in H. discriminate. Qed.

(** Names in parentheses, separated by commas. *)
Lemma contains_chars : forall c s, contains c s = false <-> ~ In c (chars s).
Proof.
  induction s; cbn; [tauto|]. rewrite orb_false_iff, IHs. destruct (Ascii.eqb_spec a c); [subst|]; intuition congruence.
Qed.
Lemma split_one : forall c s, contains c s = false -> split c s = [s].
Proof.
  induction s; intros H; [reflexivity|]. cbn in H |- *. apply orb_false_iff in H. destruct H as (-> & H2). rewrite (IHs H2). reflexivity.
Qed.
Lemma split_first : forall c a b, contains c a = false -> split c (a ++ String c b) = a :: split c b.
Proof.
  induction a; intros b H; cbn; [rewrite Ascii.eqb_refl; reflexivity|]. cbn in H. apply orb_false_iff in H. destruct H as (-> & H2). rewrite (IHa b H2). reflexivity.
Qed.
Lemma split_joined : forall l w x, contains "," w = false -> (forall y, In y (x :: l) -> contains "," y = false) ->
  split "," (w ++ joined ", " (x :: l)) = (w ++ x)%string :: map (fun y => (" " ++ y)%string) l.
Proof.
  induction l as [|z l IH]; intros w x Hw Hl.
  - cbn. apply split_one. rewrite contains_app, Hw. apply Hl. left. reflexivity.
  - replace ((w ++ joined ", " (x :: z :: l))%string) with (((w ++ x) ++ String "," (" " ++ joined ", " (z :: l)))%string)
      by (rewrite app_ass; reflexivity).
    rewrite split_first by (rewrite contains_app, Hw; apply Hl; left; reflexivity). cbn [map]. f_equal. apply IH; [reflexivity|].
    intros y Hy. apply Hl. right. exact Hy.
Qed.
Definition no_parens (s : string) : Prop := contains "(" s = false /\ contains ")" s = false.
Lemma no_parens_cons : forall c s, no_parens (String c s) -> is_paren c = false /\ no_parens s.
Proof.
  intros c s (H1 & H2). cbn in H1, H2. apply orb_false_iff in H1, H2. unfold is_paren. rewrite (proj1 H1), (proj1 H2). split; [reflexivity|]. split; [apply H1|apply H2].
Qed.
Lemma rstrip_parens_keep : forall s, no_parens s -> rstrip_parens s = s.
Proof.
  induction s; intros H; [reflexivity|]. apply no_parens_cons in H. cbn. rewrite (IHs (proj2 H)), (proj1 H). destruct s; reflexivity.
Qed.
Lemma rstrip_parens_end : forall s, rstrip_parens (s ++ ")") = rstrip_parens s.
Proof. induction s; [reflexivity|]. cbn. rewrite IHs. reflexivity. Qed.
Lemma lstrip_parens_keep : forall s, no_parens s -> lstrip_parens s = s.
Proof. destruct s; intros H; [reflexivity|]. apply no_parens_cons in H. cbn. rewrite (proj1 H). reflexivity. Qed.
Lemma no_parens_app : forall a b, no_parens a -> no_parens b -> no_parens (a ++ b).
Proof. intros a b (A & B) (C & D). split; rewrite contains_app; [rewrite A, C|rewrite B, D]; reflexivity. Qed.
Lemma no_parens_joined : forall l, (forall y, In y l -> no_parens y) -> no_parens (joined ", " l).
Proof.
  induction l as [|x [|z l] IH]; intros H; [split; reflexivity|apply H; left; reflexivity|].
  change (joined ", " (x :: z :: l)) with (x ++ ", " ++ joined ", " (z :: l))%string. apply no_parens_app; [apply H; left; reflexivity|].
  apply no_parens_app; [split; reflexivity|]. apply IH. intros y Hy. apply H. right. exact Hy.
Qed.
Lemma strip_space : forall x, strip (" " ++ x) = strip x.
Proof. reflexivity. Qed.
Lemma refs_of_decoration : forall x l, (forall y, In y (x :: l) -> printed_name y) ->
  strip (decoration (x :: l)) = ("(" ++ joined ", " (x :: l) ++ ")")%string /\
  map strip (split "," (strip_parens (strip (decoration (x :: l))))) = x :: l.
Proof.
  intros x l H. assert (NP : no_parens (joined ", " (x :: l))).
  { apply no_parens_joined. intros y Hy. destruct (H y Hy) as (_ & _ & A & B & _). split; apply contains_chars; assumption. }
  assert (S : strip (decoration (x :: l)) = ("(" ++ joined ", " (x :: l) ++ ")")%string).
  { unfold strip, decoration. change (lstrip (" (" ++ joined ", " (x :: l) ++ ")")) with ("(" ++ joined ", " (x :: l) ++ ")")%string.
    rewrite <- app_ass. apply rstrip_keep; [discriminate|reflexivity]. }
  split; [exact S|]. rewrite S. unfold strip_parens.
  set (J := joined ", " (x :: l)) in *.
  assert (HJ : J <> "").
  { unfold J. destruct (H x (or_introl eq_refl)) as (Nx & _). destruct l; cbn; [exact Nx|]. destruct x; [contradiction|discriminate]. }
  assert (L : lstrip_parens ("(" ++ J ++ ")") = (J ++ ")")%string).
  { destruct J as [|c s]; [contradiction|]. apply no_parens_cons in NP. cbn. rewrite (proj1 NP). reflexivity. }
  rewrite L, rstrip_parens_end, (rstrip_parens_keep _ NP). unfold J.
  change (joined ", " (x :: l)) with ("" ++ joined ", " (x :: l))%string. rewrite split_joined.
  - cbn [map]. rewrite map_map. cbn [append]. f_equal; [destruct (H x (or_introl eq_refl)) as (_ & _ & _ & _ & E); exact E|].
    rewrite <- (map_id l) at 2. apply map_ext_in. intros y Hy. change (String " " y) with (" " ++ y)%string. rewrite strip_space. apply H. right. exact Hy.
  - reflexivity.
  - intros y Hy. destruct (H y Hy) as (_ & A & _). apply contains_chars, A.
Qed.

(** Sorting and picking. *)
Lemma insert_in : forall x l y, In y (insert x l) <-> y = x \/ In y l.
Proof.
  induction l as [|z l IH]; intros y; cbn; [intuition|]. destruct (String.leb x z); cbn; [intuition|]. rewrite IH. intuition.
Qed.
Lemma sorted_in : forall l y, In y (sorted l) <-> In y l.
Proof. induction l as [|x l IH]; intros y; cbn; [tauto|]. rewrite insert_in, IH. intuition. Qed.
Lemma pick_some : forall p l r, pick p l = Some r -> In (p ++ r)%string l /\ starts_with_digit r = true.
Proof.
  induction l as [|x l IH]; intros r H; [discriminate|]. cbn in H. destruct (prefix p x) eqn:P.
  - destruct (prefix_inv _ _ P) as (q & ->). rewrite drop_app in H. destruct (starts_with_digit q) eqn:D; cbn in H.
    + injection H as <-. split; [left; reflexivity|exact D].
    + destruct (IH r H) as (A & B). split; [right; exact A|exact B].
  - destruct (IH r H) as (A & B). split; [right; exact A|exact B].
Qed.
Lemma pick_none : forall p l r, pick p l = None -> starts_with_digit r = true -> ~ In (p ++ r)%string l.
Proof.
  induction l as [|x l IH]; intros r H D I; [destruct I|]. cbn in H. destruct I as [-> |I].
  - rewrite prefix_app, drop_app, D in H. discriminate.
  - destruct (prefix p x); [|exact (IH r H D I)]. destruct (negb _); [exact (IH r H D I)|discriminate].
Qed.
Lemma leb_trans : forall a b c, String.leb a b = true -> String.leb b c = true -> String.leb a c = true.
Proof.
  unfold String.leb. induction a as [|x a IH]; intros b c H1 H2; [destruct c; reflexivity|].
  destruct b as [|y b]; [discriminate|]. destruct c as [|z c]; [discriminate|]. cbn in *. unfold Ascii.compare in *.
  destruct (N.compare_spec (N_of_ascii x) (N_of_ascii y)) as [E1|L1|G1]; [| |discriminate];
    destruct (N.compare_spec (N_of_ascii y) (N_of_ascii z)) as [E2|L2|G2]; try discriminate.
  - rewrite E1, E2, N.compare_refl. exact (IH b c H1 H2).
  - rewrite E1. rewrite (proj2 (N.compare_lt_iff _ _) L2). reflexivity.
  - rewrite <- E2. rewrite (proj2 (N.compare_lt_iff _ _) L1). reflexivity.
  - rewrite (proj2 (N.compare_lt_iff _ _) (N.lt_trans _ _ _ L1 L2)). reflexivity.
Qed.
Lemma leb_refl : forall a, String.leb a a = true.
Proof. intros a. destruct (String.leb_total a a); assumption. Qed.
Fixpoint ordered (l : list string) : Prop := match l with [] => True | x :: t => (forall y, In y t -> String.leb x y = true) /\ ordered t end.
Lemma insert_ordered : forall x l, ordered l -> ordered (insert x l).
Proof.
  induction l as [|z l IH]; cbn; [intuition|]. intros (A & B). destruct (String.leb x z) eqn:E; cbn.
  - split; [|split; assumption]. intros y [<- |Hy]; [exact E|]. exact (leb_trans _ _ _ E (A y Hy)).
  - split; [|exact (IH B)]. intros y Hy. apply insert_in in Hy. destruct Hy as [-> |Hy]; [|exact (A y Hy)].
    destruct (String.leb_total x z) as [H|H]; [congruence|exact H].
Qed.
Lemma sorted_ordered : forall l, ordered (sorted l).
Proof. induction l; cbn; [exact I|]. apply insert_ordered, IHl. Qed.
Lemma leb_prefix : forall p a b, String.leb (p ++ a) (p ++ b) = String.leb a b.
Proof.
  unfold String.leb. induction p; intros; [reflexivity|]. cbn. unfold Ascii.compare. rewrite N.compare_refl. apply IHp.
Qed.
Lemma pick_least : forall p l r x, ordered l -> pick p l = Some r -> In (p ++ x)%string l -> starts_with_digit x = true -> String.leb r x = true.
Proof.
  induction l as [|z l IH]; intros r x O P I D; [destruct I|]. destruct O as (A & B). cbn in P. destruct (prefix p z) eqn:Z.
  - destruct (prefix_inv _ _ Z) as (q & ->). rewrite drop_app in P. destruct (starts_with_digit q) eqn:Q; cbn in P.
    + injection P as <-. destruct I as [E|I]; [apply app_inv_head in E; rewrite E; apply leb_refl|]. rewrite <- (leb_prefix p). exact (A _ I).
    + destruct I as [E|I]; [apply app_inv_head in E; congruence|]. exact (IH r x B P I D).
  - destruct I as [-> |I]; [rewrite prefix_app in Z; discriminate|]. exact (IH r x B P I D).
Qed.
