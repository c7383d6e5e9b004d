(** C120: a run records where it came from; re-solving goes on from the stored input and gives the same solution again. *)
From Coq Require Import String List Bool ZArith Reals Lia.
From Verif Require Import Lib_Py Model_FormatTables Model_Format Model_Inputs Model_Run Model_Mcmc Model_Solve Model_Prepare Spec_Inputs
  Proofs_Run Proofs_Inputs Props_Inputs Props_InputsFile Props_InputsMerge Props_Run.
Import ListNotations.
Open Scope string_scope. Open Scope list_scope.

(** Specification: what a run says about where it came from. *)
Record record := mk_record {
  rec_config : val;              (* the configuration *)
  rec_file : option string;      (* the configuration file *)
  rec_version : string; rec_float : string; rec_method : string;
  rec_E_r : val;                 (* whether E_r was solved for *)
  rec_from : option string;      (* the file and the solution that it is based on *)
  rec_solution : option string;
  rec_shock : bool }.
Definition record_of {Sol} (r : run Sol run_info) : record :=
  mk_record (ri_config_input (r_info r)) (ri_config_filename (r_info r)) (ri_version (r_info r)) (ri_float_type (r_info r))
    (ri_sonic_method (r_info r)) (ri_use_E_r (r_info r)) (r_based_on_filename r) (r_based_on_name r) (r_is_post_shock_only r).
(** Methods add solutions and set the final one; nothing else. *)
Definition keeps_record {Sol} (m : @method Sol run_info val) : Prop := forall inp r, record_of (fst (m inp r)) = record_of r.
(** The configuration that a file and the pairs of --override describe. *)
Definition described (f : cfg_file) (l : list (string * string)) (o : string) : val :=
  given o (VText (match last_override o l with Some s => s | None => option_text f o end)).

Lemma given_idem : forall f v, given f (given f v) = given f v.
Proof.
  intros f v. destruct v as [|?|?|u|?|? ?|?|?|? ?]; try reflexivity. unfold given at 2 3. destruct (String.eqb u "" && str_in f optional_fields)%bool eqn:Q; [reflexivity|].
  unfold given; rewrite Q; reflexivity.
Qed.
Lemma described_given : forall f l o, given o (described f l o) = described f l o.
Proof. intros. apply given_idem. Qed.
Lemma finalise_record : forall Sol (r r' : run Sol run_info), finalise r = Ok r' -> record_of r' = record_of r.
Proof.
  intros Sol r r' H. unfold finalise in H. destruct (r_final r); [|injection H as <-; reflexivity|injection H as <-; reflexivity].
  destruct (get_last_solution (r_solutions r)); [|discriminate]. injection H as <-. reflexivity.
Qed.

Section S.
Context {Sol : Type}.
Implicit Types (methods : @method_map Sol run_info val) (fs : @files Sol run_info).

(** What the part with the open file does to the files. *)
Lemma solve_in_new : forall m name inp (r : run Sol run_info) fs fs' out, keeps_record m ->
  solve_in m name inp r fs = (fs', out) ->
  (forall n, n <> name -> dget n fs' = dget n fs) /\ exists r', dget name fs' = Some r' /\ record_of r' = record_of r.
Proof.
  intros m name inp r fs fs' out K H. unfold solve_in in H. specialize (K inp r). destruct (m inp r) as [r1 o]. cbn [fst] in K.
  destruct o as [b|e].
  - destruct (finalise r1) as [r2|e] eqn:F; injection H as <- <-.
    + split; [intros n Hn; rewrite !dget_dset_other by congruence; reflexivity|]. exists r2. rewrite dget_dset_same. split; [reflexivity|].
      rewrite (finalise_record _ _ _ F). exact K.
    + split; [intros n Hn; rewrite dget_dset_other by congruence; reflexivity|]. exists r1. rewrite dget_dset_same. split; [reflexivity | exact K].
  - injection H as <- <-. split; [intros n Hn; rewrite dget_dset_other by congruence; reflexivity|]. exists r1. rewrite dget_dset_same. split; [reflexivity | exact K].
Qed.
Lemma solve_new : forall methods (r : run Sol run_info) inp sm name fs fs' out, (forall k m, dget k methods = Some m -> keeps_record m) ->
  solve methods (Ok (r, inp)) sm name fs = (fs', out) ->
  (forall n, n <> name -> dget n fs' = dget n fs) /\ (dget name fs <> None -> fs' = fs) /\
  forall r', dget name fs = None -> dget name fs' = Some r' -> record_of r' = record_of r.
Proof.
  intros methods r inp sm name fs fs' out K H. unfold solve, create, dmem in H. destruct (dget name fs) eqn:F.
  - injection H as <- <-. repeat split; congruence.
  - destruct (dget sm methods) as [m|] eqn:M.
    + destruct (solve_in_new m name inp r _ _ _ (K _ _ M) H) as (O & r1 & D & R). split; [|split; [congruence|intros r' _ D'; congruence]].
      intros n Hn. rewrite O by exact Hn. rewrite dget_dset_other by congruence. reflexivity.
    + injection H as <- <-. split; [intros n Hn; rewrite dget_dset_other by congruence; reflexivity|]. split; [congruence|].
      intros r' _ D. rewrite dget_dset_same in D. injection D as <-. reflexivity.
Qed.

Variables (E : env) (T : text_tools) (P : place) (s_input : Sol -> val).

(** ds-soln.  However it ends, files that were there are unchanged, and a file that was not there is the named one (by default after the
    label and the time) and holds a run whose record says what was solved: the configuration with the overrides, the configuration
    file, the version, the float type, the method and the flag of the input that the method was given; it is based on nothing. *)
Theorem C120_soln : forall methods f config_file l d sm dir out fs fs' res,
  (forall k m, dget k methods = Some m -> keeps_record m) -> validate_overrides l = Ok d ->
  soln E T P methods f config_file (Some d) sm dir out fs = (fs', res) ->
  (forall n, dget n fs <> None -> dget n fs' = dget n fs) /\
  forall n r, dget n fs = None -> dget n fs' = Some r ->
    (match out with Some o => n = p_join P dir o | None => exists label, described f l "label" = VText label /\ n = p_join P dir (label ++ p_now P ++ ".hdf5")%string end) /\
    exists u, to_soln_input E T (conf_object (described f l)) = Ok (soln_object u) /\
      record_of r = mk_record (conf_object (described f l)) (Some config_file) (p_version P) (p_float_type P) sm (u "use_E_r") None None false.
Proof.
  intros methods f config_file l d sm dir out fs fs' res K V H. unfold soln, prepare_soln in H.
  rewrite (C100_overrides E f l d V) in H. fold (described f l) in H. cbn [rbind] in H.
  change (conf_object (fun o => given o (VText match last_override o l with Some s => s | None => option_text f o end))) with (conf_object (described f l)) in H.
  destruct (to_soln_input E T (conf_object (described f l))) as [i|e] eqn:Q; [|injection H as <- <-; split; [reflexivity|congruence]].
  destruct (to_soln_inv _ _ _ _ Q) as (u & -> & _). cbn [rbind] in H. unfold soln_object in H at 1. rewrite getattr_object in H by inl. cbn [rbind fst r_info fresh_run ri_config_input] in H.
  destruct (output_name P dir out (conf_object (described f l)) "") as [name|e] eqn:N; [|injection H as <- <-; split; [reflexivity|congruence]]. cbn [rbind] in H.
  destruct (solve methods _ sm name fs) as [fs1 o] eqn:W. apply solve_new in W; [|exact K]. destruct W as (W1 & W2 & W3).
  assert (fs' = fs1) as -> by (destruct o; injection H as <- _; reflexivity).
  split.
  - intros n Hn. destruct (string_dec n name) as [->|Q1]; [rewrite (W2 Hn); reflexivity | apply W1, Q1].
  - intros n r N0 N1. destruct (string_dec n name) as [->|Q1]; [|rewrite W1 in N1 by exact Q1; congruence]. split.
    + unfold output_name in N. destruct out as [o'|]; [injection N as <-; reflexivity|]. unfold default_name, conf_object in N. rewrite getattr_object in N by inl. cbn [rbind] in N.
      exists (match last_override "label" l with Some s => s | None => option_text f "label" end).
      assert (described f l "label" = VText (match last_override "label" l with Some s => s | None => option_text f "label" end)) as L
        by (unfold described, given; rewrite andb_false_r; reflexivity). rewrite L in N. cbn [rbind] in N. injection N as <-. split; [exact L | reflexivity].
    + exists u. split; [reflexivity|]. rewrite (W3 r N0 N1). reflexivity.
Qed.

(** ds-resoln.  The same for a re-solve of the run in a file, whose configuration is [x]: the record names the file and the solution
    it started from, keeps the name of the configuration file, and has the configuration with the overrides; the method is given the
    overrides on top of the stored input [y] (see C43), and the flag is that input's.  Only the default name of the file is not
    what one would expect: it has the label of the old run (see below). *)
Theorem C120_resoln : forall methods old rng l d sm dir out fs fs' res old_run s x y cs ns,
  (forall k m, dget k methods = Some m -> keeps_record m) ->
  dget old fs = Some old_run -> ri_config_input (r_info old_run) = conf_object x -> (forall f, In f CONFIG_FIELDS -> given f (x f) = x f) ->
  get_solutions old_run (Some rng) = Ok (Final s) -> s_input s = soln_object y ->
  validate_overrides l = Ok d ->
  to_soln_input E T (conf_object x) = Ok cs -> to_soln_input E T (conf_object (fun f => match last_override f l with Some t => given f (VText t) | None => x f end)) = Ok ns ->
  resoln E T P s_input methods old rng (Some d) sm dir out fs = (fs', res) ->
  (forall n, dget n fs <> None -> dget n fs' = dget n fs) /\
  forall n r, dget n fs = None -> dget n fs' = Some r ->
    (match out with Some o => n = p_join P dir o | None => exists label, x "label" = VText label /\ n = p_join P dir (label ++ p_now P ++ ".hdf5")%string end) /\
    exists u z, ns = soln_object u /\
      (forall f, In f SOLUTION_INPUT_FIELDS -> match last_override f l with Some _ => z f = u f | None => same_value (z f) (y f) end) /\
      record_of r = mk_record (conf_object (fun f => match last_override f l with Some t => given f (VText t) | None => x f end)) (ri_config_filename (r_info old_run)) (p_version P) (p_float_type P)
        sm (z "use_E_r") (Some old) (Some rng) false /\
      forall m, dget sm methods = Some m -> exists r0 r1 b, record_of r0 = record_of r /\ r_solutions r0 = [] /\ r_final r0 = Unset /\
        m (soln_object z) r0 = (r1, b) /\ r_solutions r1 = r_solutions r.
Proof.
  intros methods old rng l d sm dir out fs fs' res old_run s x y cs ns K O X G S Y V C1 C2 H.
  destruct (C42_validate l) as (d' & V' & ND & D).
  { intros p Hp. destruct (in_dec string_dec (fst p) CONFIG_FIELDS) as [Q|Q]; [exact Q|]. exfalso. rewrite (C42_unknown l) in V; [discriminate V|]. exists p. split; assumption. }
  rewrite V in V'. injection V' as <-.
  assert (DK : forall k, In k (dkeys d) -> In k CONFIG_FIELDS).
  { intros k Hk. destruct (dget k d) as [w|] eqn:Q; [|apply dget_None_keys in Q; contradiction]. rewrite D in Q.
    unfold last_override in Q. destruct (find (fun p => String.eqb (fst p) k) (rev l)) as [p|] eqn:F; [|discriminate]. apply find_some in F as [F1 F2].
    apply String.eqb_eq in F2. apply in_rev in F1. destruct (in_dec string_dec k CONFIG_FIELDS) as [Q2|Q2]; [exact Q2|]. exfalso.
    rewrite (C42_unknown l) in V; [discriminate V|]. exists p. split; [exact F1 | rewrite F2; exact Q2]. }
  assert (CH : conf_object (changed d x) = conf_object (fun f => match last_override f l with Some t => given f (VText t) | None => x f end)).
  { unfold conf_object, object. f_equal. apply map_ext. intro f. unfold changed. rewrite D. destruct (last_override f l); reflexivity. }
  rewrite <- CH in *.
  destruct (C43_merge E T x y d cs ns G ND DK C1 C2) as (u & v & z & Hv & Hu & M & Z).
  unfold resoln, prepare_resoln, old_solution in H. rewrite O, S in H. cbn [rbind] in H. rewrite X, Y, M in H. cbn [rbind] in H.
  unfold soln_object in H at 1. rewrite getattr_object in H by inl. cbn [rbind] in H. rewrite X in H.
  destruct (output_name P dir out (conf_object x) "") as [name|e] eqn:N; [|injection H as <- <-; split; [reflexivity|congruence]]. cbn [rbind] in H.
  destruct (solve methods _ sm name fs) as [fs1 o] eqn:W. pose proof W as W0. apply solve_new in W; [|exact K]. destruct W as (W1 & W2 & W3).
  assert (fs' = fs1) as -> by (destruct o; injection H as <- _; reflexivity).
  split.
  - intros n Hn. destruct (string_dec n name) as [->|Q1]; [rewrite (W2 Hn); reflexivity | apply W1, Q1].
  - intros n r N0 N1. destruct (string_dec n name) as [->|Q1]; [|rewrite W1 in N1 by exact Q1; congruence]. split.
    + unfold output_name in N. destruct out as [o'|]; [injection N as <-; reflexivity|]. unfold default_name, conf_object in N. rewrite getattr_object in N by inl. cbn [rbind] in N.
      destruct (x "label") as [|?|?|t|?|? ?|?|?|? ?]; try discriminate N. cbn [rbind] in N. injection N as <-. exists t. split; reflexivity.
    + pose proof (W3 r N0 N1) as R. exists u, z. split; [exact Hu|]. split; [|split; [rewrite R; reflexivity|]].
      * intros f Hf. destruct (Z f Hf) as [Z1 Z2]. specialize (D f). destruct (last_override f l) as [t|].
        -- apply Z1. cbn in D. destruct (in_dec string_dec f (dkeys d)) as [Q|Q]; [exact Q|]. apply dget_None_keys in Q. congruence.
        -- cbn in D. apply dget_None_keys in D. destruct (Z2 D) as [_ [->|[-> SV]]]; [apply sv_refl | exact SV].
      * intros m Hm. unfold solve, create, dmem in W0. rewrite N0, Hm in W0. unfold solve_in in W0.
        destruct (m (soln_object z) _) as [r1 b] eqn:Q2 in W0. eexists _, r1, b. split; [|split; [|split; [|split; [exact Q2|]]]]; try reflexivity; [rewrite R; reflexivity|].
        destruct b as [b|e].
        -- destruct (finalise r1) as [r2|e] eqn:F; injection W0 as <- <-; rewrite dget_dset_same in N1; injection N1 as <-; [|reflexivity].
           unfold finalise in F. destruct (r_final r1); [|injection F as <-; reflexivity|injection F as <-; reflexivity].
           destruct (get_last_solution (r_solutions r1)); [|discriminate]. injection F as <-. reflexivity.
        -- injection W0 as <- <-. rewrite dget_dset_same in N1. injection N1 as <-. reflexivity.
Qed.

(** ds-hdf5runner, one row of a table that has a column for each option of a configuration, as a written table has, and maybe the two
    columns that say where the row came from.  The record has these two, no configuration file, and the configuration of the row with
    the overrides; by default the file is named after the label of that configuration, the time and the process. *)
Theorem C120_row : forall methods row t l d sm dir out proc fs fs' res,
  (forall k m, dget k methods = Some m -> keeps_record m) -> validate_overrides l = Ok d -> NoDup (dkeys row) ->
  (forall f, In f CONFIG_FIELDS -> dget f row = Some (t f)) -> (forall k, In k (dkeys row) -> In k ("filename" :: "solution_name" :: CONFIG_FIELDS)) ->
  row_solved E T P methods row (Some d) sm dir out proc fs = (fs', res) ->
  let x := fun f => given f (VText (match last_override f l with Some s => s | None => t f end)) in
  (forall n, dget n fs <> None -> dget n fs' = dget n fs) /\
  forall n r, dget n fs = None -> dget n fs' = Some r ->
    (match out with Some o => n = p_join P dir o
     | None => n = p_join P dir (match last_override "label" l with Some s => s | None => t "label" end ++ p_now P ++ proc ++ ".hdf5")%string end) /\
    exists u, to_soln_input E T (conf_object x) = Ok (soln_object u) /\
      record_of r = mk_record (conf_object x) None (p_version P) (p_float_type P) sm (u "use_E_r") (dget "filename" row) (dget "solution_name" row) false.
Proof.
  intros methods row t l d sm dir out proc fs fs' res K V ND RT RK H x. unfold row_solved in H.
  destruct (dget sm methods) as [m|] eqn:M; [|injection H as <- <-; split; [reflexivity|congruence]].
  assert (F1 : forall k k' (a : dict string), k <> k' -> dget k (filter (fun kv => negb (String.eqb (fst kv) k')) a) = dget k a).
  { intros k k' a N. induction a as [|[j w] a IH]; [reflexivity|]. cbn [filter fst dget]. destruct (String.eqb_spec j k') as [->|Q]; cbn [negb].
    - destruct (String.eqb_spec k k') as [Q2|_]; [contradiction | exact IH].
    - cbn [dget]. rewrite IH. reflexivity. }
  unfold prepare_row, pop_text in H. rewrite (F1 "solution_name" "filename") in H by discriminate.
  set (row2 := filter _ (filter _ row)) in H.
  assert (C : construct E "ConfigInput" (map (fun kv => (fst kv, VText (snd kv))) row2) = Ok (conf_object (fun f => given f (VText (t f))))).
  { assert (G : forall f v, str_in f optional_fields = true -> replace_empty_string v = given f v)
      by (intros f [] Hf; try reflexivity; unfold given; rewrite Hf, andb_true_r; reflexivity).
    assert (G' : forall f v, str_in f optional_fields = false -> v = given f v)
      by (intros f [] Hf; try reflexivity; unfold given; rewrite Hf, andb_false_r; reflexivity).
    assert (DM : forall f (a : dict string), dget f (map (fun kv => (fst kv, VText (snd kv))) a) = option_map VText (dget f a)).
    { intros f a. induction a as [|[j w] a IH]; [reflexivity|]. cbn [map fst snd dget]. destruct (String.eqb f j); [reflexivity | exact IH]. }
    apply (construct_fields E "ConfigInput" fields_ConfigInput _ (fun o => VText (t o))); [reflexivity | discriminate | |].
    - intros k Hk. rewrite map_map in Hk. cbn [fst] in Hk. apply in_map_iff in Hk as ((j & w) & <- & Hj). cbn [fst]. unfold row2 in Hj.
      apply filter_In in Hj as [Hj J1]. apply filter_In in Hj as [Hj J2]. cbn [fst] in J1, J2.
      destruct (RK j (in_map fst _ _ Hj)) as [<-|[<-|Q]]; [discriminate J2 | discriminate J1 | exact Q].
    - assert (R2 : forall f, In f CONFIG_FIELDS -> dget f (map (fun kv => (fst kv, VText (snd kv))) row2) = Some (VText (t f))).
      { intros f Hf. rewrite DM. unfold row2. rewrite !F1; [rewrite RT by exact Hf; reflexivity | |]; intros ->; apply str_in_iff in Hf; discriminate Hf. }
      unfold fields_ConfigInput. field_forall; (split; [apply R2; inl|]); cbn [convert]; f_equal; first [apply G; reflexivity | apply G'; reflexivity]. }
  rewrite C in H. cbn [rbind] in H. rewrite (C42_apply E _ l d) in H; [| intros; apply given_idem | exact V].
  assert (X : conf_object (fun f => match last_override f l with Some s => given f (VText s) | None => given f (VText (t f)) end) = conf_object x).
  { unfold conf_object, object. f_equal. apply map_ext. intro f. subst x. cbn beta. destruct (last_override f l); reflexivity. }
  rewrite X in H. cbn [rbind] in H.
  destruct (to_soln_input E T (conf_object x)) as [i|e] eqn:Q; [|injection H as <- <-; split; [reflexivity|congruence]].
  destruct (to_soln_inv _ _ _ _ Q) as (u & -> & _). cbn [rbind] in H. unfold soln_object in H at 1. rewrite getattr_object in H by inl. cbn [rbind fst r_info fresh_run ri_config_input] in H.
  destruct (output_name P dir out (conf_object x) proc) as [name|e] eqn:N; [|injection H as <- <-; split; [reflexivity|congruence]]. cbn [rbind] in H.
  assert (W : (forall n, n <> name -> dget n fs' = dget n fs) /\ (dget name fs <> None -> fs' = fs) /\
    forall r', dget name fs = None -> dget name fs' = Some r' ->
      record_of r' = mk_record (conf_object x) None (p_version P) (p_float_type P) sm (u "use_E_r") (dget "filename" row) (dget "solution_name" row) false).
  { unfold hdf5_one in H. rewrite M in H. unfold create, dmem in H. destruct (dget name fs) eqn:F.
    - cbn [solver_error] in H. injection H as <- <-. repeat split; congruence.
    - destruct (solve_in m name (soln_object u) _ _) as [fs1 o] eqn:W in H.
      destruct (solve_in_new _ _ _ _ _ _ _ (K _ _ M) W) as (O & r1 & D & R).
      assert (fs' = fs1) as -> by (destruct o as [b|e]; [|destruct (solver_error e)]; injection H as <- _; reflexivity).
      split; [|split; [congruence|intros r' _ D'; rewrite D in D'; injection D' as <-; exact R]].
      intros n Hn. rewrite O by exact Hn. rewrite dget_dset_other by congruence. reflexivity. }
  destruct W as (W1 & W2 & W3). split.
  - intros n Hn. destruct (string_dec n name) as [->|Q1]; [rewrite (W2 Hn); reflexivity | apply W1, Q1].
  - intros n r N0 N1. destruct (string_dec n name) as [->|Q1]; [|rewrite W1 in N1 by exact Q1; congruence]. split.
    + unfold output_name in N. destruct out as [o'|]; [injection N as <-; reflexivity|]. unfold default_name, conf_object in N. rewrite getattr_object in N by inl. cbn [rbind] in N.
      assert (x "label" = VText (match last_override "label" l with Some s => s | None => t "label" end)) as L
        by (subst x; unfold given; rewrite andb_false_r; reflexivity). rewrite L in N. cbn [rbind] in N. injection N as <-. reflexivity.
    + exists u. split; [reflexivity|]. apply W3; assumption.
Qed.

(** ** Solving again
    The single method with a solution function that gives the same solution for the same input, and puts the input into it. *)
Context {Cond : Type}.
Variables (define : val -> res Cond) (solution : val -> Cond -> res Sol) (methods : @method_map Sol run_info val).
Definition single (inp : val) (r : run Sol run_info) := single_solver define solution inp r false.
Definition has_single : Prop := dget "single" methods = Some single.
Definition puts_input : Prop := forall i c s, solution i c = Ok s -> s_input s = i.
Lemma single_keeps : keeps_record single.
Proof.
  intros inp r. unfold single, single_solver. destruct (define inp); [|reflexivity]. destruct (solution inp a) as [s|e]; [|reflexivity].
  destruct (add_solution s (r_solutions r)) as [[k d]|e]; [|reflexivity]. destruct (get_last_solution _) as [s'|e]; [|reflexivity].
  destruct (set_final _ _) as [r'|e] eqn:F; [|reflexivity]. cbn [fst]. unfold set_final in F. cbn [with_solutions r_final] in F.
  destruct (r_final r); [injection F as <-; reflexivity | discriminate | discriminate].
Qed.
(** A run that such a solve leaves: one solution, which is the final one and has the input of the configuration. *)
Definition solved (r : run Sol run_info) (s : Sol) : Prop :=
  r_final r = Final s /\ r_solutions r = [("0", s)] /\
  exists x v c, ri_config_input (r_info r) = conf_object x /\ (forall f, In f CONFIG_FIELDS -> given f (x f) = x f) /\
    to_soln_input E T (conf_object x) = Ok (soln_object v) /\ s_input s = soln_object v /\ define (soln_object v) = Ok c /\ solution (soln_object v) c = Ok s.
Lemma single_fresh : forall inp (r : run Sol run_info) c s, define inp = Ok c -> solution inp c = Ok s -> r_final r = Unset -> r_solutions r = [] ->
  single inp r = (with_final (with_solutions r [("0", s)]) (Final s), Ok true).
Proof.
  intros inp r c s D S F L. unfold single, single_solver. rewrite D, S, L. change (add_solution s []) with (Ok ("0", [("0", s)])). cbn [with_solutions r_solutions].
  change (get_last_solution [("0", s)]) with (Ok s). unfold set_final. cbn [with_solutions r_final]. rewrite F. reflexivity.
Qed.
Lemma solve_single : forall (r : run Sol run_info) inp name fs fs' b, has_single -> r_final r = Unset -> r_solutions r = [] ->
  solve methods (Ok (r, inp)) "single" name fs = (fs', Ok b) ->
  b = true /\ exists c s, define inp = Ok c /\ solution inp c = Ok s /\ dget name fs' = Some (with_final (with_solutions r [("0", s)]) (Final s)).
Proof.
  intros r inp name fs fs' b M F L H. unfold solve in H. destruct (create name r fs) as [fs0|]; [|discriminate]. rewrite M in H. unfold solve_in in H.
  destruct (define inp) as [c|e] eqn:D; [|unfold single, single_solver in H; rewrite D in H; discriminate].
  destruct (solution inp c) as [s|e] eqn:S; [|unfold single, single_solver in H; rewrite D, S in H; discriminate].
  rewrite (single_fresh inp r c s D S F L) in H. cbn [finalise r_final with_final] in H. injection H as <- <-. split; [reflexivity|].
  exists c, s. split; [reflexivity|]. split; [exact S | rewrite dget_dset_same; reflexivity].
Qed.
Lemma soln_solved : forall f config_file l d dir out fs fs' n b, has_single -> puts_input -> validate_overrides l = Ok d ->
  soln E T P methods f config_file (Some d) "single" dir out fs = (fs', Ok (n, b)) -> exists r s, dget n fs' = Some r /\ solved r s.
Proof.
  intros f config_file l d dir out fs fs' n b M PI V H. unfold soln, prepare_soln in H. rewrite (C100_overrides E f l d V) in H. cbn [rbind] in H.
  change (conf_object (fun o => given o (VText match last_override o l with Some s => s | None => option_text f o end))) with (conf_object (described f l)) in H.
  destruct (to_soln_input E T (conf_object (described f l))) as [i|e] eqn:Q; [|discriminate].
  destruct (to_soln_inv _ _ _ _ Q) as (u & -> & _). cbn [rbind] in H. unfold soln_object in H at 1. rewrite getattr_object in H by inl. cbn [rbind fst r_info fresh_run ri_config_input] in H.
  destruct (output_name P dir out (conf_object (described f l)) "") as [name|e]; [|discriminate]. cbn [rbind] in H.
  destruct (solve methods _ "single" name fs) as [fs1 [o|e]] eqn:W; [|discriminate]. injection H as <- <- <-.
  apply solve_single in W; [|exact M|reflexivity|reflexivity]. destruct W as (_ & c & s & D & S & G). eexists _, s. split; [exact G|].
  split; [reflexivity|]. split; [reflexivity|]. exists (described f l), u, c. split; [reflexivity|]. split; [intros; apply described_given|].
  split; [exact Q|]. split; [apply (PI _ _ _ S)|]. split; assumption.
Qed.
Lemma resolve_same : forall x v, (forall f, In f CONFIG_FIELDS -> given f (x f) = x f) -> to_soln_input E T (conf_object x) = Ok (soln_object v) ->
  new_inputs_with_overrides E T (conf_object x) (soln_object v) None = Ok (conf_object x, soln_object v).
Proof.
  intros x v G Q. assert (X : conf_object (changed [] x) = conf_object x) by reflexivity.
  destruct (C43_merge E T x v [] _ _ G (NoDup_nil _) ltac:(intros k []) Q ltac:(rewrite X; exact Q)) as (u & w & z & Ew & _ & H1 & H2).
  refine (eq_trans H1 _). rewrite X. do 2 f_equal. unfold soln_object, object. f_equal. apply map_ext_in. intros f Hf. f_equal.
  destruct (proj2 (H2 f Hf) ltac:(intros [])) as [_ [->|[-> _]]]; [reflexivity|].
  apply (f_equal (getattr f)) in Ew. unfold soln_object in Ew. rewrite !getattr_object in Ew by exact Hf. injection Ew as Ew. symmetry. exact Ew.
Qed.
Lemma solved_get : forall r s rng, solved r s -> In rng ["final"; "latest"; "0"] -> get_solutions r (Some rng) = Ok (Final s).
Proof. intros r s rng (F & L & _) [<-|[<-|[<-|[]]]]; unfold get_solutions; cbn [String.eqb Ascii.eqb Bool.eqb]; rewrite ?F, ?L; reflexivity. Qed.

(** Re-solving a run that the single method solved, without overrides, succeeds whenever there is no file of that name yet, with the
    same solution; everything recorded is as in the old run, except what it is based on, the version and the float type. *)
Theorem C120_again : forall f config_file l d dir out fs fs1 n b rng o dir2 out2, has_single -> puts_input -> validate_overrides l = Ok d ->
  soln E T P methods f config_file (Some d) "single" dir out fs = (fs1, Ok (n, b)) ->
  In rng ["final"; "latest"; "0"] -> o = None \/ o = Some [] -> dget (p_join P dir2 out2) fs1 = None ->
  exists fs2 r1 r2 s, resoln E T P s_input methods n rng o "single" dir2 (Some out2) fs1 = (fs2, Ok (p_join P dir2 out2, true)) /\
    dget n fs1 = Some r1 /\ dget n fs2 = Some r1 /\ dget (p_join P dir2 out2) fs2 = Some r2 /\
    r_final r1 = Final s /\ r_final r2 = Final s /\ r_solutions r1 = [("0", s)] /\ r_solutions r2 = [("0", s)] /\
    r_info r2 = r_info r1 /\ r_based_on_filename r2 = Some n /\ r_based_on_name r2 = Some rng.
Proof.
  intros f config_file l d dir out fs fs1 n b rng o dir2 out2 M PI V H R O N.
  assert (I1 : exists r1 s, dget n fs1 = Some r1 /\ solved r1 s /\ ri_version (r_info r1) = p_version P /\ ri_float_type (r_info r1) = p_float_type P /\
    ri_sonic_method (r_info r1) = "single" /\ exists i, to_soln_input E T (ri_config_input (r_info r1)) = Ok i /\ getattr "use_E_r" i = Ok (ri_use_E_r (r_info r1))).
  { unfold soln, prepare_soln in H. rewrite (C100_overrides E f l d V) in H. cbn [rbind] in H.
    change (conf_object (fun o => given o (VText match last_override o l with Some s => s | None => option_text f o end))) with (conf_object (described f l)) in H.
    destruct (to_soln_input E T (conf_object (described f l))) as [i|e] eqn:Q; [|discriminate].
    destruct (to_soln_inv _ _ _ _ Q) as (u & -> & _). cbn [rbind] in H. unfold soln_object in H at 1. rewrite getattr_object in H by inl. cbn [rbind fst r_info fresh_run ri_config_input] in H.
    destruct (output_name P dir out (conf_object (described f l)) "") as [name|e]; [|discriminate]. cbn [rbind] in H.
    destruct (solve methods _ "single" name fs) as [fs0 [b0|e]] eqn:W; [|discriminate]. injection H as <- <- <-.
    apply solve_single in W; [|exact M|reflexivity|reflexivity]. destruct W as (_ & c & s & D & S & G). eexists _, s. split; [exact G|].
    split; [split; [reflexivity|]; split; [reflexivity|]; exists (described f l), u, c; split; [reflexivity|]; split; [intros; apply described_given|];
      split; [exact Q|]; split; [apply (PI _ _ _ S)|]; split; assumption|].
    split; [reflexivity|]. split; [reflexivity|]. split; [reflexivity|]. exists (soln_object u). split; [exact Q|]. unfold soln_object. rewrite getattr_object by inl. reflexivity. }
  destruct I1 as (r1 & s & G & SV & IV & IF & IM & i & I1 & I2). pose proof SV as (F1 & L1 & x & v & c & X & GV & Q & SI & D & S).
  rewrite X, Q in I1. injection I1 as <-. unfold soln_object in I2. rewrite getattr_object in I2 by inl. injection I2 as I2.
  assert (O' : forall y, new_inputs_with_overrides E T (conf_object x) y o = new_inputs_with_overrides E T (conf_object x) y None) by (intro y; destruct O as [->| ->]; reflexivity).
  assert (NN : p_join P dir2 out2 <> n) by congruence.
  unfold resoln, prepare_resoln, old_solution. rewrite G, (solved_get _ _ _ SV R). cbn [rbind]. rewrite X, SI, O', (resolve_same x v GV Q). cbn [rbind].
  unfold soln_object at 1. rewrite getattr_object by inl. cbn [rbind output_name].
  unfold solve, create, dmem. rewrite N, M. unfold solve_in. rewrite (fun r => single_fresh _ r c s D S) by reflexivity. cbn [finalise r_final with_final].
  eexists _, r1, _, s. split; [reflexivity|]. split; [reflexivity|]. split; [rewrite !dget_dset_other by exact NN; exact G|]. split; [rewrite dget_dset_same; reflexivity|].
  split; [exact F1|]. split; [reflexivity|]. split; [exact L1|]. split; [reflexivity|]. split; [|split; reflexivity].
  cbn [with_final with_solutions fresh_run r_info]. destruct (r_info r1) as [ic icf iv ift im iu]. cbn in *. subst. reflexivity.
Qed.
(** Any number of such re-solves, each of the file that the one before it wrote. *)
Inductive re_solves : @files Sol run_info -> string -> @files Sol run_info -> string -> Prop :=
| no_more : forall fs n, re_solves fs n fs n
| one_more : forall fs n fs1 n1 rng dir out fs2 n2 b, re_solves fs n fs1 n1 -> In rng ["final"; "latest"; "0"] ->
    resoln E T P s_input methods n1 rng None "single" dir out fs1 = (fs2, Ok (n2, b)) -> re_solves fs n fs2 n2.
Theorem C120_chain : forall f config_file l d dir out fs fs1 n b fs2 n2, has_single -> puts_input -> validate_overrides l = Ok d ->
  soln E T P methods f config_file (Some d) "single" dir out fs = (fs1, Ok (n, b)) -> re_solves fs1 n fs2 n2 ->
  exists r1 r2 s, dget n fs1 = Some r1 /\ dget n2 fs2 = Some r2 /\ r_final r1 = Final s /\ r_final r2 = Final s /\ r_solutions r2 = [("0", s)] /\
    ri_config_input (r_info r2) = ri_config_input (r_info r1) /\ ri_config_filename (r_info r2) = ri_config_filename (r_info r1).
Proof.
  intros f config_file l d dir out fs fs1 n b fs2 n2 M PI V H C.
  destruct (soln_solved _ _ _ _ _ _ _ _ _ _ M PI V H) as (r1 & s & G & SV). clear H.
  assert (I : exists r2, dget n2 fs2 = Some r2 /\ solved r2 s /\ ri_config_input (r_info r2) = ri_config_input (r_info r1) /\ ri_config_filename (r_info r2) = ri_config_filename (r_info r1)).
  { induction C as [fs0 n0|fs0 n0 fs3 n3 rng dir3 out3 fs4 n4 b4 C IH R H]; [exists r1; repeat split; [exact G|apply SV..]|].
    destruct (IH G) as (r3 & G3 & SV3 & X1 & X2). pose proof SV3 as (F3 & L3 & x & v & c & X & GV & Q & SI & D & S).
    unfold resoln, prepare_resoln, old_solution in H. rewrite G3, (solved_get _ _ _ SV3 R) in H. cbn [rbind] in H. rewrite X, SI, (resolve_same x v GV Q) in H. cbn [rbind] in H.
    unfold soln_object in H at 1. rewrite getattr_object in H by inl. cbn [rbind] in H. rewrite X in H.
    destruct (output_name P dir3 out3 (conf_object x) "") as [name|e]; [|discriminate]. cbn [rbind] in H.
    destruct (solve methods _ "single" name fs3) as [fs5 [b0|e]] eqn:W; [|discriminate]. injection H as <- <- <-.
    apply solve_single in W; [|exact M|reflexivity|reflexivity]. destruct W as (_ & c' & s' & D' & S' & G'). rewrite D in D'. injection D' as <-. rewrite S in S'. injection S' as <-.
    eexists. split; [exact G'|]. split; [|split; [cbn; congruence | cbn; exact X2]].
    split; [reflexivity|]. split; [reflexivity|]. exists x, v, c. split; [reflexivity|]. repeat (split; [assumption|]). exact S. }
  destruct I as (r2 & G2 & (F2 & L2 & _) & X1 & X2). exists r1, r2, s. destruct SV as (F1 & _). repeat (split; [assumption|]). exact X2.
Qed.
(** The default name of the file of a re-solve does not follow an override of the label: it has the label of the old run, although the
    new run has the new one.  (ds-soln and ds-hdf5runner use the overridden label: C120_soln, C120_row.) *)
Lemma to_soln_ext : forall x y, (forall f, In f SOLUTION_INPUT_FIELDS -> x f = y f) -> to_soln_input E T (conf_object x) = to_soln_input E T (conf_object y).
Proof.
  intros x y H. unfold to_soln_input. f_equal.
  assert (G : forall t, Forall (fun e => In (fst e) CONFIG_FIELDS /\ In (fst e) SOLUTION_INPUT_FIELDS) t -> convert_all E T t (conf_object x) = convert_all E T t (conf_object y)).
  { induction t as [|[f k] t IH]; intro F; [reflexivity|]. inversion F as [|? ? [F1 F2] F3]; subst. cbn [fst] in *. cbn [convert_all]. rewrite (IH F3).
    unfold conf_object. rewrite !getattr_object by exact F1. rewrite (H f F2). reflexivity. }
  rewrite G; [reflexivity|]. unfold to_soln_table. repeat (apply Forall_cons; [cbn [fst]; split; inl|]). apply Forall_nil.
Qed.
Theorem C120_label_refuted : forall f config_file l d dir out fs fs1 n b dir2 old new, has_single -> puts_input -> validate_overrides l = Ok d ->
  soln E T P methods f config_file (Some d) "single" dir out fs = (fs1, Ok (n, b)) -> described f l "label" = VText old ->
  let n2 := p_join P dir2 (old ++ p_now P ++ ".hdf5")%string in dget n2 fs1 = None ->
  exists fs2 r2, resoln E T P s_input methods n "final" (Some [("label", VText new)]) "single" dir2 None fs1 = (fs2, Ok (n2, true)) /\
    dget n2 fs2 = Some r2 /\ getattr "label" (ri_config_input (r_info r2)) = Ok (VText new).
Proof.
  intros f config_file l d dir out fs fs1 n b dir2 old new M PI V H L n2 N.
  assert (I1 : exists r1 s, dget n fs1 = Some r1 /\ solved r1 s /\ ri_config_input (r_info r1) = conf_object (described f l)).
  { unfold soln, prepare_soln in H. rewrite (C100_overrides E f l d V) in H. cbn [rbind] in H.
    change (conf_object (fun o => given o (VText match last_override o l with Some s => s | None => option_text f o end))) with (conf_object (described f l)) in H.
    destruct (to_soln_input E T (conf_object (described f l))) as [i|e] eqn:Q; [|discriminate].
    destruct (to_soln_inv _ _ _ _ Q) as (u & -> & _). cbn [rbind] in H. unfold soln_object in H at 1. rewrite getattr_object in H by inl. cbn [rbind fst r_info fresh_run ri_config_input] in H.
    destruct (output_name P dir out (conf_object (described f l)) "") as [name|e]; [|discriminate]. cbn [rbind] in H.
    destruct (solve methods _ "single" name fs) as [fs0 [b0|e]] eqn:W; [|discriminate]. injection H as <- <- <-.
    apply solve_single in W; [|exact M|reflexivity|reflexivity]. destruct W as (_ & c & s & D & S & G). eexists _, s. split; [exact G|]. split; [|reflexivity].
    split; [reflexivity|]. split; [reflexivity|]. exists (described f l), u, c. split; [reflexivity|]. split; [intros; apply described_given|].
    split; [exact Q|]. split; [apply (PI _ _ _ S)|]. split; assumption. }
  destruct I1 as (r1 & s & G & SV & X). pose proof SV as (F1 & L1 & x0 & v & c & X0 & _ & Q & SI & D & S). rewrite X in X0.
  rewrite <- X0 in Q. clear x0 X0. set (x := described f l) in *. set (o := [("label", VText new)] : dict val).
  assert (GV : forall k, In k CONFIG_FIELDS -> given k (x k) = x k) by (intros; apply described_given).
  assert (Q2 : to_soln_input E T (conf_object (changed o x)) = Ok (soln_object v)).
  { rewrite <- Q. apply to_soln_ext. intros k Hk. unfold changed, o. cbn [dget]. destruct (String.eqb_spec k "label") as [->|_]; [apply str_in_iff in Hk; discriminate Hk | reflexivity]. }
  assert (ND : NoDup (dkeys o)) by (cbn; repeat constructor; intros []).
  assert (OK : forall k, In k (dkeys o) -> In k CONFIG_FIELDS) by (intros k [<-|[]]; inl).
  destruct (C43_merge E T x v o _ _ GV ND OK Q Q2) as (u & w & z & Ew & _ & H1 & H2).
  assert (Z : soln_object z = soln_object v).
  { unfold soln_object, object. f_equal. apply map_ext_in. intros k Hk. f_equal.
    destruct (proj2 (H2 k Hk)) as [_ [->|[-> _]]]; [intros [<-|[]]; apply str_in_iff in Hk; discriminate Hk | reflexivity|].
    apply (f_equal (getattr k)) in Ew. unfold soln_object in Ew. rewrite !getattr_object in Ew by exact Hk. injection Ew as Ew. symmetry. exact Ew. }
  rewrite Z in H1.
  unfold resoln, prepare_resoln, old_solution. rewrite G, (solved_get _ _ "final" SV (or_introl eq_refl)). cbn [rbind]. rewrite X, SI.
  match goal with |- context [new_inputs_with_overrides E T ?a ?b ?c] => replace (new_inputs_with_overrides E T a b c) with (Ok (conf_object (changed o x), soln_object v)) by (symmetry; exact H1) end.
  cbn [rbind].
  unfold soln_object at 1. rewrite getattr_object by inl. cbn [rbind]. unfold output_name, default_name. rewrite X. unfold conf_object at 1. rewrite getattr_object by inl. cbn [rbind].
  fold x in L. rewrite L. cbn [rbind].
  change (p_join P dir2 (old ++ p_now P ++ "" ++ ".hdf5")%string) with n2.
  unfold solve, create, dmem. rewrite N, M. unfold solve_in. rewrite (fun r => single_fresh _ r c s D S) by reflexivity. cbn [finalise r_final with_final].
  eexists _, _. split; [reflexivity|]. split; [rewrite dget_dset_same; reflexivity|]. cbn [with_final with_solutions fresh_run r_info ri_config_input].
  unfold conf_object. rewrite getattr_object by inl. unfold changed, o, given. cbn [dget String.eqb Ascii.eqb Bool.eqb]. rewrite andb_false_r. reflexivity.
Qed.
End S.

(** Non-vacuity: an empty configuration file with an override of the label, the single method with a solution that is just its input. *)
Definition P1 : place := mk_place "0.1" "float64" "2020-01-01" (fun d f => (d ++ "/" ++ f)%string).
Definition methods1 : @method_map val run_info val := [("single", single (fun _ => Ok tt) (fun i _ => Ok i))].
Definition fs1 : @files val run_info := fst (soln E1 T1 P1 methods1 [] "c.conf" (Some [("label", VText "first")]) "single" "out" None []).
Example C120_nonvacuous :
  has_single (fun _ => Ok tt) (fun i _ => Ok i) methods1 /\ puts_input (fun s : val => s) (fun i (_ : unit) => Ok i) /\
  (forall k m, dget k methods1 = Some m -> keeps_record m) /\ validate_overrides [("label", "first")] = Ok [("label", VText "first")] /\
  soln E1 T1 P1 methods1 [] "c.conf" (Some [("label", VText "first")]) "single" "out" None [] = (fs1, Ok ("out/first2020-01-01.hdf5", true)) /\
  described [] [("label", "first")] "label" = VText "first" /\ dget (p_join P1 "again" "first2020-01-01.hdf5") fs1 = None /\
  re_solves E1 T1 P1 (fun s => s) methods1 fs1 "out/first2020-01-01.hdf5" fs1 "out/first2020-01-01.hdf5".
Proof.
  split; [reflexivity|]. split; [intros i c s H; injection H as <-; reflexivity|].
  split; [intros k m H; unfold methods1 in H; cbn [dget] in H; destruct (String.eqb k "single"); [injection H as <-; apply single_keeps | discriminate]|].
  split; [reflexivity|]. split; [unfold fs1; lazy; reflexivity|]. split; [reflexivity|]. split; [lazy; reflexivity | constructor].
Qed.

(** The single and the MCMC method change nothing else of a run than its solutions. *)
Theorem C120_methods : forall Sol Cond E (define : val -> res Cond) (solution : val -> Cond -> res Sol) logprob points b,
  keeps_record (fun inp r => single_solver define solution inp r b) /\
  keeps_record (fun inp r => mcmc_solver E define solution logprob inp r points).
Proof.
  intros Sol Cond E define solution logprob points b.
  assert (SF : forall (r r' : run Sol run_info) o, set_final r o = Ok r' -> record_of r' = record_of r).
  { intros r r' o F. unfold set_final in F. destruct (r_final r); [injection F as <-; reflexivity | discriminate | discriminate]. }
  split; intros inp r.
  - destruct b; [|apply single_keeps]. unfold single_solver. destruct (define inp); [|reflexivity]. destruct (solution inp a) as [s|e]; [|reflexivity].
    destruct (add_solution s (r_solutions r)) as [[k d]|e]; reflexivity.
  - unfold mcmc_solver. destruct (generate_sysvars_enum inp) as [enum|]; [|reflexivity].
    assert (G : forall ps st, record_of (lg_run (fst (evaluations E define solution logprob inp enum st ps))) = record_of (lg_run st)).
    { induction ps as [|p ps IH]; intro st; [reflexivity|]. cbn [evaluations].
      assert (C : record_of (lg_run (fst (logprob_call E define solution logprob inp enum st p))) = record_of (lg_run st)).
      { unfold logprob_call. destruct (sys_vars_to_solution_input E p inp enum) as [i|]; [|reflexivity]. destruct (solution_input_valid i) as [[|]|]; try reflexivity.
        destruct (define i) as [c|[]]; try reflexivity. destruct (solution i c) as [s|[]]; try reflexivity. destruct (logprob s); [|reflexivity].
        destruct (add_solution s (r_solutions (lg_run st))) as [[k d]|]; [|reflexivity]. destruct (exceeds r0 (lg_best st)); reflexivity. }
      destruct (logprob_call E define solution logprob inp enum st p) as [st' [o|e]]; cbn [fst] in *; [rewrite IH; exact C | exact C]. }
    specialize (G points (lg_new r)). destruct (evaluations _ _ _ _ inp enum (lg_new r) points) as [st [[]|e]]; cbn [fst] in *; [|exact G].
    destruct (best_solution st) as [o|e]; [|exact G]. destruct (set_final (lg_run st) o) as [r'|e] eqn:F; [|exact G]. cbn [fst]. rewrite (SF _ _ _ F). exact G.
Qed.

(** A table row and a re-solve that meet the hypotheses. *)
Definition t1 (f : string) : string := option_text [] f.
Definition row1 : dict string := [("filename", "a.hdf5"); ("solution_name", "3")] ++ map (fun f => (f, t1 f)) CONFIG_FIELDS.
Example C120_row_nonvacuous : NoDup (dkeys row1) /\ (forall f, In f CONFIG_FIELDS -> dget f row1 = Some (t1 f)) /\
  (forall k, In k (dkeys row1) -> In k ("filename" :: "solution_name" :: CONFIG_FIELDS)) /\
  exists fs' r, row_solved E1 T1 P1 methods1 row1 (Some []) "single" "out" None "P-1" [] = (fs', Ok (Some true)) /\
    dget "out/default2020-01-01P-1.hdf5" fs' = Some r /\ r_based_on_filename r = Some "a.hdf5" /\ r_based_on_name r = Some "3".
Proof.
  split; [cbn; repeat (constructor; [intro H; apply str_in_iff in H; discriminate H|]); constructor|].
  split; [intros f Hf; repeat (destruct Hf as [<-|Hf]; [reflexivity|]); destruct Hf|].
  split; [intros k Hk; apply str_in_iff; repeat (destruct Hk as [<-|Hk]; [reflexivity|]); destruct Hk|].
  eexists _, _. split; [lazy; reflexivity|]. split; [lazy; reflexivity|]. split; reflexivity.
Qed.
Example C120_resoln_nonvacuous : exists old_run s y, dget "out/first2020-01-01.hdf5" fs1 = Some old_run /\
  ri_config_input (r_info old_run) = conf_object (described [] [("label", "first")]) /\ get_solutions old_run (Some "latest") = Ok (Final s) /\ s = soln_object y /\
  validate_overrides [("label", "x"); ("max_steps", "7")] = Ok [("label", VText "x"); ("max_steps", VText "7")] /\
  to_soln_input E1 T1 (conf_object (described [] [("label", "first")])) = Ok (soln_object y) /\
  exists ns, to_soln_input E1 T1 (conf_object (fun f => match last_override f [("label", "x"); ("max_steps", "7")] with
    Some t => given f (VText t) | None => described [] [("label", "first")] f end)) = Ok ns.
Proof.
  destruct C120_nonvacuous as (M & PI & K & V & H & L & N & _).
  destruct (soln_solved E1 T1 P1 (fun s => s) (fun _ => Ok tt) (fun i _ => Ok i) methods1 _ _ _ _ _ _ _ _ _ _ M PI V H) as (r & s & G & SV).
  assert (X : ri_config_input (r_info r) = conf_object (described [] [("label", "first")])).
  { destruct (proj2 (C120_soln E1 T1 P1 methods1 _ _ _ _ _ _ _ _ _ _ K V H) _ r eq_refl G) as (_ & u & _ & R). apply (f_equal rec_config) in R. exact R. }
  pose proof SV as (F & L1 & x & v & c & X' & _ & Q & SI & _). rewrite X in X'. rewrite <- X' in Q.
  exists r, s, v. split; [exact G|]. split; [exact X|]. split; [apply (solved_get _ _ _ _ _ _ _ _ SV); right; left; reflexivity|]. split; [exact SI|]. split; [reflexivity|].
  split; [exact Q|]. eexists. lazy. reflexivity.
Qed.
