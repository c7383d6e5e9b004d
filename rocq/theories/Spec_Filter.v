(** What a filter stands for: names and ranges of numbers, separated by commas. *)
From Coq Require Import String Ascii List Bool.
From Verif Require Import Lib_Py Model_Filter.
Import ListNotations.
Open Scope string_scope. Open Scope list_scope.
Inductive item := Named (s : string) | Range (a b : nat).
Definition item_text (i : item) : string := match i with Named s => s | Range a b => (str_of_nat a ++ "-" ++ str_of_nat b)%string end.
(** A name is any text without commas, dashes and surrounding white space; a range goes up. *)
Definition plain (i : item) : Prop :=
  match i with
  | Named s => has_char "," s = false /\ has_char "-" s = false /\ strip s = s
  | Range a b => a <= b
  end.
Definition selected (i : item) : list string :=
  match i with Named s => [s] | Range a b => map str_of_nat (seq a (b - a + 1)) end.
Fixpoint all_spaces (s : string) : bool := match s with EmptyString => true | String c t => is_space c && all_spaces t end.
(** Items with white space before and after. *)
Definition padded := (string * item * string)%type.
Definition padded_text (p : padded) : string := let '(l, i, r) := p in (l ++ item_text i ++ r)%string.
Definition padded_ok (p : padded) : Prop := let '(l, i, r) := p in all_spaces l = true /\ all_spaces r = true /\ plain i.
Fixpoint filter_text (l : list padded) : string :=
  match l with [] => "" | [p] => padded_text p | p :: t => (padded_text p ++ "," ++ filter_text t)%string end.
