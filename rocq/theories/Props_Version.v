(** C141: what the version that a run records says about the code that made it. *)
From Coq Require Import String List Bool ZArith Arith Ascii Lia.
From Verif Require Import Lib_Py Model_Version Spec_Version Proofs_Version.
Import ListNotations.
Open Scope string_scope. Open Scope list_scope.

(** In a checkout the version is TAG[+DISTANCE.gHEX[.dirty]], whatever hyphens the tag has; without a tag,
    0+untagged.COMMITS.gHEX[.dirty]. *)
Theorem C141_checkout : forall c t, possible_checkout c -> checked_out c t ->
  version t =
  (match co_tag c with
   | Some tag =>
       if (co_distance c =? 0)%nat && negb (co_dirty c) then tag
       else tag ++ (if contains "+" tag then "." else "+") ++ str_of_nat (co_distance c) ++ ".g" ++ abbreviation c ++ (if co_dirty c then ".dirty" else "")
   | None => "0+untagged." ++ str_of_nat (co_commits c) ++ ".g" ++ substring 0 7 (co_commit c) ++ (if co_dirty c then ".dirty" else "")
   end)%string.
Proof.
  intros c t (Hx & (A1 & A2) & Ht) (Er & Eg). unfold version. rewrite Er.
  change (git_versions_from_keywords "$Format:%d$" "v") with (@None string). cbv iota. rewrite Eg.
  unfold git_pieces_from_vcs. cbn [g_git_dir g_describe g_head g_branch g_commits negb].
  assert (Hh : hexy (abbreviation c)) by (apply hexy_sub; exact Hx).
  assert (Nc : exists a s, co_commit c = String a s /\ hex_digit a).
  { destruct (co_commit c) as [|a s] eqn:E; [cbn in A2; lia|]. exists a, s. split; [reflexivity|]. apply Hx. left. reflexivity. }
  assert (Na : exists a s, abbreviation c = String a s).
  { destruct Nc as (a & s & E & _). unfold abbreviation. rewrite E. destruct (co_abbrev c) as [|k]; [lia|]. cbn. eauto. }
  assert (Sh : strip (co_commit c ++ line_break) = co_commit c).
  { unfold strip. destruct Nc as (a & s & E & Ha). destruct (hex_digit_facts _ Ha) as (_ & Sa & _).
    replace (lstrip (co_commit c ++ line_break)) with (co_commit c ++ line_break)%string by (rewrite E; cbn; rewrite Sa; reflexivity).
    rewrite rstrip_break. apply rstrip_hexy. exact Hx. }
  rewrite Sh.
  set (core := match co_tag c with
               | Some t => ("v" ++ t ++ "-" ++ str_of_nat (co_distance c) ++ "-g" ++ abbreviation c)%string
               | None => abbreviation c end).
  assert (Ecore : describe_text c = (core ++ (if co_dirty c then "-dirty" else ""))%string) by reflexivity.
  assert (Lcore : lastc core <> Some "y"%char).
  { destruct Na as (a & s & Ea). unfold core. destruct (co_tag c) as [tg|]; [|exact (hexy_last _ Hh)].
    replace ("v" ++ tg ++ "-" ++ str_of_nat (co_distance c) ++ "-g" ++ abbreviation c)%string
      with (("v" ++ tg ++ "-" ++ str_of_nat (co_distance c) ++ "-g") ++ abbreviation c)%string by (rewrite !app_ass; reflexivity).
    rewrite lastc_app by (rewrite Ea; discriminate). exact (hexy_last _ Hh). }
  assert (Score : rstrip core = core /\ exists a s, core = String a s /\ is_space a = false).
  { destruct Na as (a & s & Ea). unfold core. destruct (co_tag c) as [tg|].
    - split; [|eexists _, _; split; [reflexivity|reflexivity]].
      replace ("v" ++ tg ++ "-" ++ str_of_nat (co_distance c) ++ "-g" ++ abbreviation c)%string
        with (("v" ++ tg ++ "-" ++ str_of_nat (co_distance c) ++ "-g") ++ abbreviation c)%string by (rewrite !app_ass; reflexivity).
      apply rstrip_keep; [rewrite Ea; discriminate|exact (rstrip_hexy _ Hh)].
    - split; [exact (rstrip_hexy _ Hh)|]. exists a, s. split; [exact Ea|]. rewrite Ea in Hh. apply hexy_cons in Hh. apply (hex_digit_facts _ (proj1 Hh)). }
  assert (Sd : strip (describe_text c ++ line_break) = describe_text c).
  { destruct Score as (S1 & a & s & Ec & Sa). unfold strip. rewrite Ecore.
    replace (lstrip ((core ++ (if co_dirty c then "-dirty" else "")) ++ line_break)) with ((core ++ (if co_dirty c then "-dirty" else "")) ++ line_break)%string
      by (rewrite Ec; cbn; rewrite Sa; reflexivity).
    rewrite rstrip_break. destruct (co_dirty c); [apply rstrip_keep; [discriminate|reflexivity]|]. rewrite app_nil. exact S1. }
  rewrite Sd.
  assert (Ed : endswith (describe_text c) "-dirty" = co_dirty c).
  { rewrite Ecore. destruct (co_dirty c); [apply endswith_yes|]. rewrite app_nil. destruct (endswith core "-dirty") eqn:E; [|reflexivity].
    apply endswith_last in E; [|discriminate]. contradiction. }
  rewrite Ed.
  assert (Eb : (if co_dirty c then substring 0 (String.length (describe_text c) - 6) (describe_text c) else describe_text c) = core).
  { rewrite Ecore. destruct (co_dirty c); [|apply app_nil]. rewrite len_app. change (String.length "-dirty") with 6%nat.
    replace (String.length core + 6 - 6)%nat with (String.length core) by lia. apply sub_left. }
  rewrite Eb. clear Eb Ed Sd Score Lcore Ecore Sh. unfold core. clear core. destruct (co_tag c) as [tg|].
  - destruct Ht as (x & r & -> & Hd). destruct Na as (a & s & Ea).
    assert (Cd : contains "-" ("v" ++ String x r ++ "-" ++ str_of_nat (co_distance c) ++ "-g" ++ abbreviation c) = true).
    { rewrite !contains_app. cbn [contains Ascii.eqb Bool.eqb]. rewrite orb_true_r. reflexivity. }
    rewrite Cd. replace ("v" ++ String x r ++ "-" ++ str_of_nat (co_distance c) ++ "-g" ++ abbreviation c)%string
      with (("v" ++ String x r) ++ "-" ++ str_of_nat (co_distance c) ++ "-g" ++ abbreviation c)%string by reflexivity.
    rewrite search_finds; [|reflexivity|apply str_of_nat_digits|apply str_of_nat_nonempty|exact Hh|rewrite Ea; discriminate].
    cbn [append]. change (String "v" (String x r)) with ("v" ++ String x r)%string. rewrite prefix_app, drop_app, py_int_str, Nat2Z.id. cbn [negb].
    cbn [render render_pep440]. unfold plus_or_dot. destruct (co_distance c =? 0)%nat; destruct (co_dirty c); cbn [negb orb andb]; rewrite ?app_nil, ?app_ass; reflexivity.
  - rewrite (hexy_dash _ Hh). cbn [render render_pep440]. destruct (co_dirty c); rewrite ?app_nil, ?app_ass; reflexivity.
Qed.

(** Two checkouts with the same version, of repositories whose tags have no plus sign: the same nearest tag, both or neither changed;
    and either both are the tagged commit itself or the commits agree in what git writes of them. *)
Theorem C141_identifies_partial : forall c1 c2 t1 t2, possible_checkout c1 -> possible_checkout c2 -> checked_out c1 t1 -> checked_out c2 t2 ->
  (forall c tag, c = c1 \/ c = c2 -> co_tag c = Some tag -> ~ In "+"%char (chars tag)) ->
  version t1 = version t2 ->
  co_tag c1 = co_tag c2 /\ co_dirty c1 = co_dirty c2 /\
  match co_tag c1 with
  | Some _ => co_distance c1 = co_distance c2 /\ ((co_distance c1 = 0%nat /\ co_dirty c1 = false) \/ abbreviation c1 = abbreviation c2)
  | None => co_commits c1 = co_commits c2 /\ substring 0 7 (co_commit c1) = substring 0 7 (co_commit c2)
  end.
Proof.
  intros c1 c2 t1 t2 P1 P2 O1 O2 NP E. rewrite (C141_checkout c1 t1 P1 O1), (C141_checkout c2 t2 P2 O2) in E.
  assert (H1 : hexy (abbreviation c1)) by (apply hexy_sub; exact (proj1 P1)). assert (H2 : hexy (abbreviation c2)) by (apply hexy_sub; exact (proj1 P2)).
  assert (H3 : hexy (substring 0 7 (co_commit c1))) by (apply hexy_sub; exact (proj1 P1)). assert (H4 : hexy (substring 0 7 (co_commit c2))) by (apply hexy_sub; exact (proj1 P2)).
  assert (Dot : forall n, contains "." (str_of_nat n) = false) by (intros n; apply (digits_no "." _ (str_of_nat_digits n)); reflexivity).
  assert (Plus : forall c tag, c = c1 \/ c = c2 -> co_tag c = Some tag -> contains "+" tag = false)
    by (intros c tag Hc Et; apply contains_chars, (NP c tag Hc Et)).
  assert (Tail : forall n1 n2 h1 h2 (d1 d2 : bool), hexy h1 -> hexy h2 ->
    (str_of_nat n1 ++ ".g" ++ h1 ++ (if d1 then ".dirty" else ""))%string = (str_of_nat n2 ++ ".g" ++ h2 ++ (if d2 then ".dirty" else ""))%string ->
    n1 = n2 /\ h1 = h2 /\ d1 = d2).
  { intros n1 n2 h1 h2 d1 d2 X1 X2 F. apply (cut_once "." _ _ _ _ (Dot n1) (Dot n2)) in F. destruct F as (F1 & F2). apply str_of_nat_inj in F1.
    split; [exact F1|]. injection F2 as F2. destruct d1, d2.
    - apply (cut_once "." _ _ _ _ (hexy_dot _ X1) (hexy_dot _ X2)) in F2. split; [apply F2|reflexivity].
    - rewrite app_nil in F2. symmetry in F2. apply (not_inside "." _ _ _ (hexy_dot _ X2)) in F2. destruct F2.
    - rewrite app_nil in F2. apply (not_inside "." _ _ _ (hexy_dot _ X1)) in F2. destruct F2.
    - rewrite !app_nil in F2. auto. }
  assert (Digit : forall n s, exists x r, (str_of_nat n ++ s)%string = String x r /\ is_digit x = true).
  { intros n s. pose proof (str_of_nat_nonempty n) as N. pose proof (str_of_nat_digits n) as D. destruct (str_of_nat n) as [|x r]; [contradiction|].
    cbn in D. apply andb_true_iff in D. exists x, (r ++ s)%string. split; [reflexivity|apply D]. }
  assert (Cross : forall tag n h (d : bool) m g (d' : bool), contains "+" tag = false ->
    (tag ++ "+" ++ str_of_nat n ++ ".g" ++ h ++ (if d then ".dirty" else ""))%string <> ("0+untagged." ++ str_of_nat m ++ ".g" ++ g ++ (if d' then ".dirty" else ""))%string).
  { intros tag n h d m g d' Hp F. apply (cut_once "+" tag "0" _ _ Hp eq_refl) in F. destruct F as (_ & F).
    destruct (Digit n (".g" ++ h ++ (if d then ".dirty" else ""))%string) as (x & r & Ex & Dx). rewrite Ex in F. injection F as -> _. discriminate. }
  assert (Self : forall tag m g (d' : bool), contains "+" tag = false -> tag <> ("0+untagged." ++ str_of_nat m ++ ".g" ++ g ++ (if d' then ".dirty" else ""))%string).
  { intros tag m g d' Hp F. exact (not_inside "+" tag "0" _ Hp F). }
  destruct (co_tag c1) as [a|] eqn:T1; destruct (co_tag c2) as [b|] eqn:T2.
  - rewrite (Plus c1 a (or_introl eq_refl) T1), (Plus c2 b (or_intror eq_refl) T2) in E.
    pose proof (Plus c1 a (or_introl eq_refl) T1) as Pa. pose proof (Plus c2 b (or_intror eq_refl) T2) as Pb.
    destruct (Nat.eqb_spec (co_distance c1) 0) as [Z1|Z1]; destruct (co_dirty c1) eqn:D1; destruct (Nat.eqb_spec (co_distance c2) 0) as [Z2|Z2];
      destruct (co_dirty c2) eqn:D2; cbn [negb andb] in E;
      try (apply (not_inside "+" _ _ _ Pa) in E; destruct E); try (symmetry in E; apply (not_inside "+" _ _ _ Pb) in E; destruct E);
      try (apply (cut_once "+" _ _ _ _ Pa Pb) in E; destruct E as (Ea & E);
           first [ apply (Tail _ _ _ _ true true H1 H2) in E | apply (Tail _ _ _ _ true false H1 H2) in E | apply (Tail _ _ _ _ false true H1 H2) in E
                 | apply (Tail _ _ _ _ false false H1 H2) in E ]; destruct E as (E1 & E2 & E3)); try discriminate; try congruence;
      (split; [congruence|]); (split; [congruence|]); (split; [congruence|]); auto.
  - exfalso. pose proof (Plus c1 a (or_introl eq_refl) T1) as Pa. rewrite Pa in E. destruct (_ && _); [exact (Self _ _ _ _ Pa E)|exact (Cross _ _ _ _ _ _ _ Pa E)].
  - exfalso. pose proof (Plus c2 b (or_intror eq_refl) T2) as Pb. rewrite Pb in E. symmetry in E.
    destruct (_ && _); [exact (Self _ _ _ _ Pb E)|exact (Cross _ _ _ _ _ _ _ Pb E)].
  - apply (app_inv_head "0+untagged.") in E. apply Tail in E; [|assumption|assumption]. destruct E as (E1 & E2 & E3). repeat split; assumption.
Qed.

(** In an archive of a commit that has a version tag the version is one of the commit's tags, the first in order. *)
Theorem C141_archive : forall names t, (forall x, In x names -> printed_name x) -> archived names t ->
  (exists x, In ("tag: v" ++ x)%string names /\ starts_with_digit x = true) ->
  In ("tag: v" ++ version t)%string names /\ starts_with_digit (version t) = true /\
  forall x, In ("tag: v" ++ x)%string names -> starts_with_digit x = true -> String.leb (version t) x = true.
Proof.
  intros names t Hn Ha (x0 & I0 & D0). destruct names as [|n l]; [destruct I0|].
  cut (exists r, version t = r /\ In ("tag: v" ++ r)%string (n :: l) /\ starts_with_digit r = true /\
         forall x, In ("tag: v" ++ x)%string (n :: l) -> starts_with_digit x = true -> String.leb r x = true).
  { intros (r & -> & K). exact K. }
  unfold version. rewrite Ha. destruct (refs_of_decoration n l Hn) as (S & R). unfold git_versions_from_keywords. rewrite S. change (prefix "$Format" ("(" ++ joined ", " (n :: l) ++ ")")) with false.
  cbv iota zeta. rewrite S in R. rewrite R. change (String.length "tag: ") with 5%nat.
  set (tags := map (drop 5) (filter (prefix "tag: ") (n :: l))).
  assert (T : forall x, In x tags <-> In ("tag: " ++ x)%string (n :: l)).
  { intros x. unfold tags. rewrite in_map_iff. split.
    - intros (y & Ey & Iy). apply filter_In in Iy. destruct Iy as (Iy & Py). apply prefix_inv in Py. destruct Py as (r & ->).
      change 5%nat with (String.length "tag: ") in Ey. rewrite drop_app in Ey. subst r. exact Iy.
    - intros I. exists ("tag: " ++ x)%string. split; [exact (drop_app "tag: " x)|]. apply filter_In. split; [exact I|apply prefix_app]. }
  assert (I1 : In ("v" ++ x0)%string tags) by (apply T; exact I0).
  assert (Et : match tags with [] => filter has_digit (n :: l) | _ => tags end = tags) by (destruct tags; [destruct I1|reflexivity]).
  rewrite Et. destruct (pick "v" (sorted tags)) as [r|] eqn:P.
  - destruct (pick_some _ _ _ P) as (A & B). apply (proj1 (sorted_in _ _)) in A. apply (proj1 (T _)) in A. exists r. split; [reflexivity|]. split; [exact A|]. split; [exact B|].
    intros x Ix Dx. apply (pick_least "v" (sorted tags) r x (sorted_ordered tags) P); [|exact Dx]. apply (proj2 (sorted_in _ _)), (proj2 (T _)). exact Ix.
  - exfalso. apply (pick_none "v" (sorted tags) x0 P D0). apply (proj2 (sorted_in _ _)). exact I1.
Qed.

(** Which commit an archive was made of is lost if the commit has no version tag. *)
Theorem C141_archive_untagged : forall names t, (forall x, In x names -> printed_name x) -> archived names t ->
  (forall x, starts_with_digit x = true -> ~ In ("tag: v" ++ x)%string names /\ ~ In ("v" ++ x)%string names) ->
  version t = "0+unknown".
Proof.
  intros names t Hn Ha Hno. unfold version. rewrite Ha. destruct names as [|n l]; [reflexivity|].
  destruct (refs_of_decoration n l Hn) as (S & R). unfold git_versions_from_keywords. rewrite S. change (prefix "$Format" ("(" ++ joined ", " (n :: l) ++ ")")) with false.
  cbv iota zeta. rewrite S in R. rewrite R. change (String.length "tag: ") with 5%nat.
  set (tags := map (drop 5) (filter (prefix "tag: ") (n :: l))).
  set (chosen := match tags with [] => filter has_digit (n :: l) | _ => tags end).
  assert (C : forall x, In ("v" ++ x)%string chosen -> starts_with_digit x = true -> False).
  { intros x I D. destruct (Hno x D) as (N1 & N2).
    assert (Tg : In ("v" ++ x)%string tags -> False).
    { intros I'. unfold tags in I'. apply in_map_iff in I'. destruct I' as (y & Ey & Iy). apply filter_In in Iy. destruct Iy as (Iy & Py).
      apply prefix_inv in Py. destruct Py as (r & ->). change 5%nat with (String.length "tag: ") in Ey. rewrite drop_app in Ey. subst r. exact (N1 Iy). }
    unfold chosen in I. destruct tags as [|g gs]; [|exact (Tg I)]. apply filter_In in I. exact (N2 (proj1 I)). }
  destruct (pick "v" (sorted chosen)) as [r|] eqn:P; [|reflexivity]. destruct (pick_some _ _ _ P) as (A & B). apply (proj1 (sorted_in _ _)) in A. destruct (C r A B).
Qed.

(** Not every version says which commit the code is: two archives of different commits. *)
Theorem C141_refuted : ~ (forall n1 n2 t1 t2, (forall x, In x n1 -> printed_name x) -> (forall x, In x n2 -> printed_name x) ->
  archived n1 t1 -> archived n2 t2 -> version t1 = version t2 -> n1 = n2).
Proof.
  intros H. set (no := mk_git false None None false 0).
  assert (P : forall s, In s ["HEAD -> master"; "origin/fix"] -> printed_name s).
  { intros s [<- |[<- |[]]]; (split; [discriminate|]); repeat split; try reflexivity; cbn; intuition discriminate. }
  specialize (H ["HEAD -> master"] ["origin/fix"] (mk_tree " (HEAD -> master)" no []) (mk_tree " (origin/fix)" no [])).
  discriminate H; try reflexivity; intros x [<- |[]]; apply P; cbn; auto.
Qed.
(** Nor if the tags may have a plus sign: a tag can be spelt like a distance. *)
Theorem C141_plus_refuted : ~ (forall c1 c2 t1 t2, possible_checkout c1 -> possible_checkout c2 -> checked_out c1 t1 -> checked_out c2 t2 ->
  version t1 = version t2 -> co_tag c1 = co_tag c2).
Proof.
  intros H. set (c1 := mk_checkout (Some "1.0") 3 9 "abcdef0123" 7 false). set (c2 := mk_checkout (Some "1.0+3.gabcdef0") 0 9 "1234567890" 7 false).
  assert (P : forall s, s = "abcdef0123" \/ s = "1234567890" -> forall x, In x (chars s) -> hex_digit x).
  { intros s [-> | ->] x Hx; cbn in Hx; unfold hex_digit; cbn; tauto. }
  specialize (H c1 c2 (mk_tree "$Format:%d$" (mk_git true (Some (describe_text c1 ++ line_break)%string) (Some (co_commit c1 ++ line_break)%string) true 9) [])
                      (mk_tree "$Format:%d$" (mk_git true (Some (describe_text c2 ++ line_break)%string) (Some (co_commit c2 ++ line_break)%string) true 9) [])).
  discriminate H.
  - split; [apply P; left; reflexivity|]. split; [cbn; lia|]. eexists _, _. split; [reflexivity|]. cbn. tauto.
  - split; [apply P; right; reflexivity|]. split; [cbn; lia|]. eexists _, _. split; [reflexivity|]. cbn. tauto.
  - split; reflexivity.
  - split; reflexivity.
  - vm_compute. reflexivity.
Qed.

(** A tag with hyphens that looks like a description; a dirty checkout; one without a tag; an archive with two tags. *)
Example C141_nonvacuous :
  let c := mk_checkout (Some "2.0-1-gabc-dirty") 12 40 "00fedcba98" 8 true in
  let t := mk_tree "$Format:%d$" (mk_git true (Some (describe_text c ++ line_break)%string) (Some (co_commit c ++ line_break)%string) true 40) [] in
  possible_checkout c /\ checked_out c t /\ version t = "2.0-1-gabc-dirty+12.g00fedcba.dirty".
Proof.
  split; [|split; [split; reflexivity|vm_compute; reflexivity]]. split; [intros x Hx; cbn in Hx; unfold hex_digit; cbn; tauto|]. split; [cbn; lia|].
  eexists _, _. split; [reflexivity|]. cbn. tauto.
Qed.
Example C141_archive_nonvacuous :
  let names := ["HEAD -> master"; "tag: v2.0rc1"; "tag: v2.0"; "origin/master"] in let t := mk_tree " (HEAD -> master, tag: v2.0rc1, tag: v2.0, origin/master)" (mk_git false None None false 0) [] in
  (forall x, In x names -> printed_name x) /\ archived names t /\ version t = "2.0".
Proof.
  split; [|split; [reflexivity|vm_compute; reflexivity]].
  intros s Hs. cbn in Hs. repeat (destruct Hs as [<- |Hs]; [split; [discriminate|]; repeat split; try reflexivity; cbn; intuition discriminate|]). destruct Hs.
Qed.
