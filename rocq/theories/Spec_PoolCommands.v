(** The options of ds-shock, in the vocabulary of Spec_Options, and the number of workers asked for. *)
From Coq Require Import String List ZArith.
From Verif Require Import Lib_Py Model_Options Spec_Options Spec_SolverOptions.
Import ListNotations.
Definition shock_docs : list doc := logging_docs ++ [workers_doc].
Definition workers_asked (rd : readers) (given : list (string * list string)) : option Z :=
  match asked rd workers_doc given with VInt z => Some z | _ => None end.
