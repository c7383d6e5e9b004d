(** What a source tree is, seen from outside: a checkout of a git repository, or an archive that git wrote of a commit. *)
From Coq Require Import String List Bool Arith Ascii.
From Verif Require Import Lib_Py Model_Version.
Import ListNotations.
Open Scope string_scope.

(** A character that git writes in an abbreviated commit. *)
Definition hex_digit (c : ascii) : Prop := In c (list_ascii_of_string "0123456789abcdef").
Definition chars (s : string) : list ascii := list_ascii_of_string s.

(** A checkout: the nearest tag v<number...> without the v if there is one, the number of commits since it, the number of all
    commits, the commit, how many of its digits git writes, and whether files differ from it. *)
Record checkout := mk_checkout {
  co_tag : option string; co_distance : nat; co_commits : nat; co_commit : string; co_abbrev : nat; co_dirty : bool }.
Definition abbreviation (c : checkout) : string := substring 0 (co_abbrev c) (co_commit c).
Definition possible_checkout (c : checkout) : Prop :=
  (forall x, In x (chars (co_commit c)) -> hex_digit x) /\ (7 <= co_abbrev c <= String.length (co_commit c))%nat /\
  match co_tag c with Some t => exists x r, t = String x r /\ In x (chars "0123456789") | None => True end.
(** git describe --long --always --dirty *)
Definition describe_text (c : checkout) : string :=
  match co_tag c with
  | Some t => "v" ++ t ++ "-" ++ str_of_nat (co_distance c) ++ "-g" ++ abbreviation c
  | None => abbreviation c
  end ++ (if co_dirty c then "-dirty" else "").
(** The source tree of a checkout: the placeholder is still in its file, git answers (each answer ends with a line break). *)
Definition line_break : string := String (ascii_of_nat 10) "".
Definition checked_out (c : checkout) (t : source_tree) : Prop :=
  t_refnames t = "$Format:%d$" /\
  t_git t = mk_git true (Some (describe_text c ++ line_break)) (Some (co_commit c ++ line_break)) true (co_commits c).

(** An archive git wrote: the placeholder is replaced by the names of the commit. *)
Fixpoint joined (sep : string) (l : list string) : string :=
  match l with [] => "" | [x] => x | x :: r => x ++ sep ++ joined sep r end.
Definition decoration (names : list string) : string := match names with [] => "" | _ => " (" ++ joined ", " names ++ ")" end.
(** Names git prints: no comma, no parenthesis, no white space at either end, not empty. *)
Definition printed_name (s : string) : Prop :=
  s <> "" /\ ~ In ","%char (chars s) /\ ~ In "("%char (chars s) /\ ~ In ")"%char (chars s) /\ strip s = s.
Definition archived (names : list string) (t : source_tree) : Prop := t_refnames t = decoration names.
