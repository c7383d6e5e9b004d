(** C102: which solutions a plot command draws, under which names, and what it leaves behind. *)
From Coq Require Import String List Bool ZArith Lia Permutation Reals.
From Verif Require Import Lib_Py Model_Run Spec_Run Proofs_Run Model_Commands Model_Plots Props_Plots.
Import ListNotations.
Open Scope string_scope. Open Scope list_scope.

Section C.
Context {Sol Fig : Type}.
Implicit Types (load : string -> res (Model_Commands.run Sol)).

(** What a user expects a command to leave behind, given the figure: the file asked for, and a window if asked for. *)
Definition expected (o : out_args) (fig : Fig) (title : option string) : list (effect Fig) :=
  let d := mk_drawing fig title (oa_with_version o) in
  match oa_filename o, oa_show o with
  | Some f, true => [Saved f d; Shown d]
  | Some f, false => [Saved f d]
  | None, true => [Shown d]
  | None, false => []
  end.
Lemma output_is : forall o (d : drawing Fig), dr_version d = oa_with_version o ->
  plot_output_wrapper (oa_filename o) (oa_show o) true d = (expected o (dr_fig d) (dr_title d), None).
Proof.
  intros o [f t v] H. cbn in H. subst v. unfold plot_output_wrapper, expected. cbn.
  destruct (oa_filename o), (oa_show o); reflexivity.
Qed.

(** ds-plot FILE RANGE and its relatives: the solution the range names is drawn, with the formulation of its run; the title is the
    one given or FILE:RANGE; the figure is saved and shown exactly as asked. *)
Theorem C102_single : forall load (func : Sol -> bool -> res Fig) file rng o r s fig,
  load file = Ok r -> get_solutions r (Some rng) = Ok (Final s) -> func s (ri_use_E_r (r_info r)) = Ok fig ->
  single_command load func file rng o =
    (Ok None, expected o fig (Some (match oa_title o with Some t => t | None => (file ++ ":" ++ rng)%string end))).
Proof.
  intros load func file rng o r s fig Hl Hg Hf. unfold single_command. rewrite Hl. cbn [rbind].
  unfold single_solution_plotter. cbn [or_else]. rewrite Hg. cbn [rbind]. rewrite Hf. cbn [rbind].
  rewrite output_is by reflexivity. reflexivity.
Qed.
(** A command that fails, for whatever reason, leaves nothing behind. *)
Theorem C102_single_failure : forall load (func : Sol -> bool -> res Fig) file rng o e l,
  single_command load func file rng o = (Raise e, l) -> l = [].
Proof.
  intros load func file rng o e l H. unfold single_command in H.
  destruct (let! r := load file in single_solution_plotter func r (Some rng) (oa_title o) (Some file) (oa_with_version o)) as [d|x].
  - destruct (plot_output_wrapper _ _ _ _) in H. discriminate.
  - injection H as _ <-. reflexivity.
Qed.
(** It fails if the file cannot be read, if the range names no solution, and if the run has no final solution. *)
Theorem C102_single_refused : forall load (func : Sol -> bool -> res Fig) file rng o,
  (forall e, load file = Raise e -> single_command load func file rng o = (Raise e, [])) /\
  (forall r, load file = Ok r ->
     (forall e, get_solutions r (Some rng) = Raise e -> single_command load func file rng o = (Raise e, [])) /\
     (get_solutions r (Some rng) = Ok FinalNone -> single_command load func file rng o = (Raise AttributeError, []))).
Proof.
  intros load func file rng o. split; [|intros r Hr; split].
  - intros e H. unfold single_command. rewrite H. reflexivity.
  - intros e H. unfold single_command. rewrite Hr. cbn [rbind]. unfold single_solution_plotter. cbn [or_else]. rewrite H. reflexivity.
  - intro H. unfold single_command. rewrite Hr. cbn [rbind]. unfold single_solution_plotter. cbn [or_else]. rewrite H. reflexivity.
Qed.

(** ** Several runs *)
(** What the pair FILE RANGE stands for: a solution, or no final solution. *)
Inductive stands_for load : string * string -> option Sol -> Prop :=
| st_solution : forall file rng r s, load file = Ok r -> get_solutions r (Some rng) = Ok (Final s) -> stands_for load (file, rng) (Some s)
| st_none : forall file rng r, load file = Ok r -> get_solutions r (Some rng) = Ok FinalNone -> stands_for load (file, rng) None.
Definition pair_name (p : string * string) : string := (fst p ++ ":" ++ snd p)%string.
(** The solutions that exist, named after their pairs, and the pairs without one. *)
Fixpoint existing (l : list ((string * string) * option Sol)) : list (string * Sol) :=
  match l with
  | [] => []
  | (p, Some s) :: t => (pair_name p, s) :: existing t
  | (p, None) :: t => existing t
  end.
Definition absent (l : list ((string * string) * option Sol)) : list (string * string) :=
  map (fun p => (snd (fst p), fst (fst p))) (filter (fun p => match snd p with None => true | _ => false end) l).

Lemma loader_is : forall load l, Forall (fun p => stands_for load (fst p) (snd p)) l ->
  solution_loader (file_loader load (map fst l)) = (map Ok (existing l), absent l).
Proof.
  intros load l H. induction H as [|[[file rng] x] t Hx Ht IH]; [reflexivity|].
  cbn [map fst file_loader]. inversion Hx as [? ? r s Hl Hg E1 E2|? ? r Hl Hg E1 E2]; cbn [fst snd] in *; subst;
  rewrite Hl; cbn [solution_loader or_else]; rewrite Hg, IH; reflexivity.
Qed.
Lemma consume_ok : forall (A : Type) (l : list A), consume (map Ok l) = Ok l.
Proof. intros A l. induction l as [|a t IH]; [reflexivity|]. cbn [map consume]. rewrite IH. reflexivity. Qed.

(** -r FILE RANGE -r FILE RANGE …: every solution that exists is drawn, in the order given and named FILE:RANGE; runs without a
    final solution are left out with a warning each. *)
Theorem C102_multi : forall load (func : nat -> list (string * Sol) -> res Fig) l o fig, l <> [] ->
  Forall (fun p => stands_for load (fst p) (snd p)) l -> func (List.length l) (existing l) = Ok fig ->
  multi_command load func (map fst l) o = (Ok None, expected o fig (oa_title o), absent l).
Proof.
  intros load func l o fig Hne H Hf. unfold multi_command.
  destruct (map fst l) as [|p t] eqn:E; [destruct l; [congruence|discriminate]|]. rewrite <- E. clear E p t.
  unfold multiple_solution_plotter. rewrite map_length, (loader_is load l H), consume_ok. cbn [rbind]. rewrite Hf. cbn [rbind].
  rewrite output_is by reflexivity. reflexivity.
Qed.
(** Refuted for solutions that do not exist otherwise: a range which is no name of a solution ends the command with KeyError and
    nothing is drawn, whatever else was asked for. *)
Theorem C102_missing_refuted : forall load (func : nat -> list (string * Sol) -> res Fig) before file rng after o,
  Forall (fun p => stands_for load (fst p) (snd p)) before ->
  (exists r, load file = Ok r /\ dget rng (r_solutions r) = None) -> rng <> "latest" -> rng <> "final" ->
  exists w, multi_command load func (map fst before ++ (file, rng) :: after) o = (Raise KeyError, [], w).
Proof.
  intros load func before file rng after o H (r & Hl & Hd) N1 N2.
  assert (Hg : get_solutions r (Some rng) = Raise KeyError).
  { unfold get_solutions. destruct (String.eqb_spec rng "latest"); [congruence|]. destruct (String.eqb_spec rng "final"); [congruence|].
    unfold dgetitem. rewrite Hd. reflexivity. }
  assert (HL : exists g w, solution_loader (file_loader load (map fst before ++ (file, rng) :: after)) = (g, w) /\ consume g = Raise KeyError).
  { clear N1 N2 Hd. induction H as [|[[f n] x] t Hx Ht IH].
    - cbn [map app file_loader]. rewrite Hl. cbn [solution_loader]. rewrite Hg. exists [Raise KeyError], []. split; reflexivity.
    - destruct IH as (g & w & E & C). cbn [map app fst file_loader].
      inversion Hx as [? ? r' s Hl' Hg' E1 E2|? ? r' Hl' Hg' E1 E2]; cbn [fst snd] in *; subst;
      rewrite Hl'; cbn [solution_loader or_else]; rewrite Hg', E.
      + eexists _, _. split; [reflexivity|]. cbn [consume]. rewrite C. reflexivity.
      + eexists _, _. split; [reflexivity|]. exact C. }
  destruct HL as (g & w & E & C). exists w. unfold multi_command.
  destruct (map fst before ++ (file, rng) :: after) as [|q t] eqn:El; [destruct before; discriminate|]. rewrite <- El in *. clear El q t.
  unfold multiple_solution_plotter. rewrite E, C. reflexivity.
Qed.
(** A file that cannot be read stops the command with that error and nothing is drawn. *)
Theorem C102_unreadable : forall load (func : nat -> list (string * Sol) -> res Fig) before file rng after o e,
  Forall (fun p => stands_for load (fst p) (snd p)) before -> load file = Raise e ->
  exists w, multi_command load func (map fst before ++ (file, rng) :: after) o = (Raise e, [], w).
Proof.
  intros load func before file rng after o e H Hl.
  assert (HL : exists g w, solution_loader (file_loader load (map fst before ++ (file, rng) :: after)) = (g, w) /\ consume g = Raise e).
  { induction H as [|[[f n] x] t Hx Ht IH].
    - cbn [map app file_loader]. rewrite Hl. cbn [solution_loader]. exists [Raise e], []. split; reflexivity.
    - destruct IH as (g & w & E & C). cbn [map app fst file_loader].
      inversion Hx as [? ? r' s Hl' Hg' E1 E2|? ? r' Hl' Hg' E1 E2]; cbn [fst snd] in *; subst;
      rewrite Hl'; cbn [solution_loader or_else]; rewrite Hg', E.
      + eexists _, _. split; [reflexivity|]. cbn [consume]. rewrite C. reflexivity.
      + eexists _, _. split; [reflexivity|]. exact C. }
  destruct HL as (g & w & E & C). exists w. unfold multi_command.
  destruct (map fst before ++ (file, rng) :: after) as [|q t] eqn:El; [destruct before; discriminate|]. rewrite <- El in *. clear El q t.
  unfold multiple_solution_plotter. rewrite E, C. reflexivity.
Qed.
(** Refuted for no runs: KeyError. *)
Theorem C102_no_runs_refuted : forall load (func : nat -> list (string * Sol) -> res Fig) o, multi_command load func [] o = (Raise KeyError, [], []).
Proof. reflexivity. Qed.

(** ** All solutions of a file *)
Lemma insert_perm : forall p l, Permutation (insert_key p l) (p :: l).
Proof.
  intros p l. induction l as [|q t IH]; [reflexivity|]. cbn [insert_key]. destruct (fst p <? fst q)%Z; [reflexivity|].
  rewrite IH. apply perm_swap.
Qed.
Lemma sort_perm : forall l acc, Permutation (fold_left (fun acc p => insert_key p acc) l acc) (l ++ acc).
Proof.
  induction l as [|p t IH]; intro acc; [reflexivity|]. cbn [fold_left app]. rewrite IH, insert_perm.
  symmetry. apply Permutation_middle.
Qed.
Lemma zsorted_unique : forall l1 l2, zsorted l1 -> zsorted l2 -> NoDup (map fst l1) -> Permutation l1 l2 -> l1 = l2.
Proof.
  induction l1 as [|a t IH]; intros l2 S1 S2 ND P; [apply Permutation_nil in P; congruence|].
  destruct l2 as [|b u]; [apply Permutation_sym, Permutation_nil in P; discriminate|].
  inversion S1 as [|? ? F1 S1']; subst. inversion S2 as [|? ? F2 S2']; subst. inversion ND as [|? ? NI ND']; subst.
  rewrite Forall_forall in F1, F2.
  assert (a = b).
  { assert (Ha : In a (b :: u)) by (apply (Permutation_in _ P); left; reflexivity).
    assert (Hb : In b (a :: t)) by (apply (Permutation_in _ (Permutation_sym P)); left; reflexivity).
    destruct Ha as [Ha|Ha]; [congruence|]. destruct Hb as [Hb|Hb]; [exact Hb|].
    exfalso. apply NI. assert (fst a = fst b) by (specialize (F1 _ Hb); specialize (F2 _ Ha); lia).
    rewrite H. apply in_map. exact Hb. }
  subst b. f_equal. apply IH; [assumption..|]. apply Permutation_cons_inv in P. exact P.
Qed.
Lemma int_keys_numbers : forall ns, int_keys (map str_of_nat ns) = Ok (map (fun n => (Z.of_nat n, str_of_nat n)) ns).
Proof. induction ns as [|n t IH]; [reflexivity|]. cbn [map int_keys]. rewrite py_int_str, IH. reflexivity. Qed.
Lemma zsorted_seq : forall n k, zsorted (map (fun n => (Z.of_nat n, str_of_nat n)) (seq k n)).
Proof.
  induction n as [|n IH]; intro k; [constructor|]. cbn [seq map]. constructor; [|apply IH].
  rewrite Forall_forall. intros q Hq. apply in_map_iff in Hq. destruct Hq as (m & <- & Hm). apply in_seq in Hm. cbn. lia.
Qed.
Lemma sorted_numbers : forall ns n, Permutation ns (seq 0 n) -> sorted_by_int (map str_of_nat ns) = Ok (map str_of_nat (seq 0 n)).
Proof.
  intros ns n P. unfold sorted_by_int. rewrite int_keys_numbers. cbn [rbind]. f_equal.
  set (f := fun n => (Z.of_nat n, str_of_nat n)).
  assert (E : fold_left (fun acc p => insert_key p acc) (map f ns) [] = map f (seq 0 n)).
  { apply zsorted_unique.
    - destruct (sort_spec (map f ns) [] ltac:(constructor)) as [S _]. exact S.
    - apply zsorted_seq.
    - apply (Permutation_NoDup (l := map fst (map f (seq 0 n)))).
      + apply Permutation_map. rewrite sort_perm, app_nil_r. apply Permutation_map. symmetry. exact P.
      + rewrite map_map. cbn. apply FinFun.Injective_map_NoDup; [intros x y; apply Nat2Z.inj | apply seq_NoDup].
    - rewrite sort_perm, app_nil_r. apply Permutation_map. exact P. }
  rewrite E, map_map. reflexivity.
Qed.

Lemma dget_unique : forall (d : dict Sol) k v, NoDup (dkeys d) -> In (k, v) d -> dget k d = Some v.
Proof.
  induction d as [|[k0 v0] t IH]; intros k v ND H; [destruct H|]. inversion ND as [|? ? NI ND']; subst. cbn [dget].
  destruct (String.eqb_spec k k0) as [->|N].
  - destruct H as [H|H]; [congruence|]. exfalso. apply NI. apply (in_map fst) in H. exact H.
  - destruct H as [H|H]; [congruence|]. apply IH; assumption.
Qed.
Lemma fetch_all : forall (d l : dict Sol), NoDup (dkeys d) -> (forall p, In p l -> In p d) -> fetch d (map fst l) = Ok l.
Proof.
  intros d l ND. induction l as [|[k v] t IH]; intro H; [reflexivity|]. cbn [map fst fetch]. unfold dgetitem.
  rewrite (dget_unique d k v ND) by (apply H; left; reflexivity). cbn [rbind]. rewrite IH by (intros; apply H; right; assumption). reflexivity.
Qed.
(** The commands on all solutions of a file get every solution, in the order in which they were added, whatever the order in which the
    file lists them (HDF5 lists 10 before 2). *)
Theorem C102_all : forall load file r ss, load file = Ok r ->
  Permutation (r_solutions r) (combine (map str_of_nat (seq 0 (List.length ss))) ss) ->
  all_solutions load file = Ok (combine (map str_of_nat (seq 0 (List.length ss))) ss).
Proof.
  intros load file r ss Hl P. unfold all_solutions. rewrite Hl. cbn [rbind]. fold (numbered 0 ss) in *.
  assert (K : Permutation (dkeys (r_solutions r)) (map str_of_nat (seq 0 (List.length ss)))).
  { rewrite <- (numbered_keys 0 ss). unfold dkeys. apply Permutation_map. exact P. }
  destruct (Permutation_map_inv _ _ K) as (ns & E & Pn). rewrite E, (sorted_numbers ns (List.length ss)) by (symmetry; exact Pn).
  cbn [rbind]. rewrite <- (numbered_keys 0 ss). unfold dkeys. apply fetch_all.
  - apply (Permutation_NoDup (l := dkeys (numbered 0 ss))); [unfold dkeys; apply Permutation_map; symmetry; exact P | apply numbered_NoDup].
  - intros p Hp. apply (Permutation_in _ (Permutation_sym P)). exact Hp.
Qed.
(** A solution whose name is not a number stops them. *)
Theorem C102_all_refused : forall load file r k, load file = Ok r -> In k (dkeys (r_solutions r)) -> py_int k = None ->
  all_solutions load file = Raise ValueError.
Proof.
  intros load file r k Hl Hk Hn. unfold all_solutions. rewrite Hl. cbn [rbind]. unfold sorted_by_int.
  rewrite (int_keys_fail _ k Hk Hn). reflexivity.
Qed.
End C.

(** ds-compare-plot: every panel has one line for each solution that exists, in the order given, named FILE:RANGE; the figure does not
    depend on what was plotted before. *)
Theorem C102_compare : forall h load a (palette : nat -> list string) (l : list ((string * string) * option psoln)) o,
  (forall n, (n <= List.length (palette n))%nat) -> existing l <> [] ->
  Forall (fun p => stands_for load (fst p) (snd p)) l -> Forall (fun p => drawable (snd p)) (existing l) ->
  exists fig, multi_command load (fun n sols => snd (run_command (Ccompare a palette n sols) (after h))) (map fst l) o =
    (Ok None, expected o fig (oa_title o), absent l) /\
  List.length fig = 8%nat /\
  Forall (fun p => map l_label (p_lines p) = map (fun s => Some (fst s)) (existing l)) fig.
Proof.
  intros h load a palette l o Hp Hne H Hd.
  assert (Hlen : (List.length (existing l) <= List.length l)%nat).
  { clear. induction l as [|[p [s|]] t IH]; cbn; lia. }
  destruct (C97_compare h a palette (List.length l) (existing l) Hne ltac:(specialize (Hp (List.length l)); lia) Hd) as [Hfst HF].
  eexists. split; [|split].
  - apply C102_multi; [|exact H|exact HF]. intros ->. apply Hne. reflexivity.
  - rewrite map_length, seq_length. reflexivity.
  - rewrite Forall_forall. intros p Hin. apply in_map_iff in Hin. destruct Hin as (n & <- & _). unfold promised_cmp. cbn [p_lines].
    rewrite map_map. cbn [l_label]. rewrite <- Hfst at 2. rewrite map_map. reflexivity.
Qed.

(** Two runs, one without final solution: one line, one warning; a file with eleven solutions, listed as HDF5 does. *)
Example C102_nonvacuous :
  let info := mk_run_info "a.cfg" "label" false in
  let r1 := mk_run info (Final 7%nat) [("0", 5%nat); ("1", 7%nat)] false None None in
  let r2 := mk_run info FinalNone [("0", 9%nat)] false None None in
  let load f := if String.eqb f "a.hdf5" then Ok r1 else if String.eqb f "b.hdf5" then Ok r2 else Raise OtherError in
  let o := mk_out_args (Some "out.png") false None true in
  single_command load (fun s _ => Ok s) "a.hdf5" "1" o = (Ok None, [Saved "out.png" (mk_drawing 7%nat (Some "a.hdf5:1") true)]) /\
  multi_command load (fun _ l => Ok l) [("a.hdf5", "final"); ("b.hdf5", "final"); ("b.hdf5", "0")] o =
    (Ok None, [Saved "out.png" (mk_drawing [("a.hdf5:final", 7%nat); ("b.hdf5:0", 9%nat)] None true)], [("final", "b.hdf5")]) /\
  multi_command load (fun _ l => Ok l) [("a.hdf5", "final"); ("b.hdf5", "1")] o = (Raise KeyError, [], []) /\
  let names := ["0"; "1"; "10"; "2"; "3"; "4"; "5"; "6"; "7"; "8"; "9"] in
  let r3 := mk_run info FinalNone (combine names names) false None None in
  all_solutions (fun _ => Ok r3) "c.hdf5" = Ok (map (fun n => (str_of_nat n, str_of_nat n)) (seq 0 11)).
Proof. repeat split. Qed.
