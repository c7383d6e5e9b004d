(** What the options of ds-tocsv, ds-tocfg, ds-stats and ds-dumpcsv mean, and which outputs they may change. *)
From Coq Require Import String List Bool.
From Verif Require Import Lib_Py Model_Options Spec_Options Model_TableCommands.
Import ListNotations.
Open Scope string_scope. Open Scope list_scope.

Definition out_doc : doc := row "--file" AText OutputFile (VStr "-").
Definition header_doc : doc := row "--with-header" (Switch true) (Drawing "with_header") (VBool false).
Definition stdin_doc : doc := row "--with-stdin" (Switch true) (Drawing "with_stdin") (VBool false).
Definition tocsv_docs : list doc := logging_docs ++ [out_doc; header_doc].
Definition tocfg_docs : list doc := logging_docs ++ [out_doc].
Definition many_file_docs : list doc := logging_docs ++ [out_doc; stdin_doc].

(** The output asked for: "-" is standard output. *)
Definition output_asked (rd : readers) (given : list (string * list string)) : string :=
  match asked rd out_doc given with VStr s => s | _ => "-" end.
Definition asks_for (rd : readers) (d : doc) (given : list (string * list string)) : bool :=
  match asked rd d given with VBool b => b | _ => false end.

(** What an output holds. *)
Definition holds (w : world) (name : string) : option string := if String.eqb name "-" then Some (w_stdout w) else dget name (w_files w).
(** All other outputs are as before. *)
Definition only_changes (name : string) (before after : world) : Prop := forall other, other <> name -> holds after other = holds before other.
(** What it held, if it existed. *)
Definition contents (w : world) (name : string) : string := match holds w name with Some s => s | None => "" end.
