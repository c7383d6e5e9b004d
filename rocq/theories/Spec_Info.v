(** What ds-info is to print, for each group, in terms of the file. *)
From Coq Require Import String Ascii List Bool Reals.
From Verif Require Import Lib_Py.
Import ListNotations.
Open Scope string_scope. Open Scope list_scope.

Fixpoint blanks (n : nat) : string := match n with O => "" | S m => String " " (blanks m) end.
(** A printed line that shows a name and a text: the name, possibly blanks, a colon, a blank, the text. *)
Definition shows (line name text : string) : Prop := exists n, line = (" " ++ name ++ blanks n ++ ": " ++ text)%string.

(** Reading such a line. *)
Fixpoint before_colon (s : string) : string :=
  match s with EmptyString => "" | String a t => if Ascii.eqb a ":" then "" else String a (before_colon t) end.
Fixpoint after_colon (s : string) : string :=
  match s with EmptyString => "" | String a t => if Ascii.eqb a ":" then t else after_colon t end.
Definition drop1 (s : string) : string := match s with EmptyString => "" | String _ t => t end.
Fixpoint all_blank (s : string) : bool := match s with EmptyString => true | String a t => Ascii.eqb a " " && all_blank t end.
Fixpoint trim_end (s : string) : string :=
  match s with EmptyString => "" | String a t => if all_blank s then "" else String a (trim_end t) end.
Definition read_line (line : string) : string * string :=
  (trim_end (before_colon (drop1 line)), drop1 (after_colon line)).
(** A name without a colon that does not end in a blank, as those of attributes. *)
Definition plain_name (s : string) : Prop := before_colon s = s /\ trim_end s = s.

(** The group a word stands for: the fastest wave speed passed. *)
Definition fastest (slow sonic alfven fast : option R) (word : string) : Prop :=
  (word = "fast" /\ fast <> None) \/
  (word = "alfven" /\ fast = None /\ alfven <> None) \/
  (word = "sonic" /\ fast = None /\ alfven = None /\ sonic <> None) \/
  (word = "slow" /\ fast = None /\ alfven = None /\ sonic = None /\ slow <> None) \/
  (word = "none" /\ fast = None /\ alfven = None /\ sonic = None /\ slow = None).

Definition documented_groups : list string :=
  ["crosses-points"; "initial-conditions"; "input"; "run"; "solutions"; "sonic-on-scale"; "sonic-points"; "status"].
(** Those that are about one solution. *)
Definition about_a_solution : list string :=
  ["crosses-points"; "initial-conditions"; "input"; "sonic-on-scale"; "sonic-points"; "status"].
