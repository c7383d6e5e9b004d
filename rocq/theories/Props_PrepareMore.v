(** C120: what a task of ds-hdf5runner reports. *)
From Coq Require Import String List Bool ZArith Reals Lia.
From Verif Require Import Lib_Py Model_FormatTables Model_Format Model_Inputs Model_Run Model_Mcmc Model_Solve Model_Prepare Spec_Inputs
  Proofs_Run Proofs_Inputs Props_Inputs Props_InputsFile Props_InputsMerge Props_Run Props_Prepare.
Import ListNotations.
Open Scope string_scope. Open Scope list_scope.

Section S.
Context {Sol : Type}.
Variables (E : env) (T : text_tools) (P : place).
(** A task reports a result, or that the solver gave up, only for a method that exists; an unknown one is an error of the whole task, whatever the row, and
    no file is made or changed. *)
Theorem C120_row_unknown : forall (methods : @method_map Sol run_info val) row ov sm dir out proc fs,
  (dget sm methods = None -> row_solved E T P methods row ov sm dir out proc fs = (fs, Raise SolverError)) /\
  (forall fs' r, row_solved E T P methods row ov sm dir out proc fs = (fs', Ok r) -> exists m, dget sm methods = Some m).
Proof.
  intros methods row ov sm dir out proc fs. unfold row_solved. split; [intros ->; reflexivity|].
  intros fs' r. destruct (dget sm methods) as [m|]; [intros _; exists m; reflexivity|discriminate].
Qed.
End S.
Print Assumptions C120_row_unknown.
Example C120_row_unknown_nonvacuous : dget "sonic" methods1 = None /\ row_solved E1 T1 P1 methods1 row1 (Some []) "sonic" "out" None "P-1" [] = ([], Raise SolverError).
Proof. split; [reflexivity|]. apply C120_row_unknown. reflexivity. Qed.
