(** What a line of text means to a reader of tables that does not know it is a message. *)
From Coq Require Import String List Bool Ascii.
From Verif Require Import Lib_Py Model_Format Model_Inputs Model_Csv Spec_Csv.
Import ListNotations.
Open Scope string_scope. Open Scope list_scope.

(** The text before the first comma. *)
Fixpoint before_comma (s : string) : string :=
  match s with EmptyString => "" | String c t => if Ascii.eqb c ","%char then "" else String c (before_comma t) end.
(** A line without double quotes that is no comment and does not begin with a number. *)
Definition message_line (T : text_tools) (s : string) : Prop :=
  s <> "" /\ one_line s /\ has_char double_quote s = false /\ (forall c, ~ comment_of s c) /\
  exists e, t_float T (before_comma s) = Raise e.
