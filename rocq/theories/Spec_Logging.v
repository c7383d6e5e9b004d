(** Independent specification of logging: what a reader of the terminal and of the log file expects to find. *)
From Coq Require Import List Bool Arith String.
From Verif Require Import Model_Logging.
Import ListNotations.
Open Scope string_scope.
Open Scope list_scope.

Definition sink_eqb (a b : sink) : bool :=
  match a, b with
  | To_stderr, To_stderr => true
  | To_file f, To_file g => String.eqb f g
  | To_other n, To_other k => Nat.eqb n k
  | _, _ => false
  end.
(** The messages that arrived somewhere, in order. *)
Definition received (s : sink) (w : list (sink * message)) : list message :=
  map snd (filter (fun p => sink_eqb s (fst p)) w).
(** The messages that are at least as severe as [l]. *)
Definition at_least (l : level) (ms : list message) : list message :=
  filter (fun m => Nat.leb (rank l) (rank (m_level m))) ms.
Definition less_than (l : level) (ms : list message) : list message :=
  filter (fun m => Nat.ltb (rank (m_level m)) (rank l)) ms.
(** What the options ask for: -q errors only, -v everything from DEBUG on, otherwise the level chosen, NOTICE by default;
    for the file the level chosen, DEBUG by default. *)
Definition stderr_threshold (a : log_args) : level :=
  match la_quiet a, la_verbose a, la_stderr_level a with
  | true, _, _ => ERROR | false, true, _ => DEBUG | false, false, Some l => l | false, false, None => NOTICE
  end.
Definition file_threshold (a : log_args) : level :=
  match la_log_file_level a with Some l => l | None => DEBUG end.
