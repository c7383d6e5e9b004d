(** Where log messages go.

    Models src/disc_solver/logging.py lines 19-97.  Simplifications: a message is its level and its text; the text is not
    formatted; ThreadedWrapperHandler (lines 57-67) hands the messages it accepts to the handler it wraps, in order, and takes
    level and bubble from it, so it is left out; so are the colours of ColorizedStderrHandler.  enable_multiprocess_log_handing
    (lines 77-88) sends the messages of the worker processes through the same handlers. *)
From Coq Require Import List Bool Arith String.
Import ListNotations.
Open Scope string_scope.
Open Scope list_scope.

(** The levels of logbook, from the least to the most severe (logbook.base). *)
Inductive level := TRACE | DEBUG | INFO | NOTICE | WARNING | ERROR | CRITICAL.
Definition rank (l : level) : nat :=
  match l with TRACE => 9 | DEBUG => 10 | INFO => 11 | NOTICE => 12 | WARNING => 13 | ERROR => 14 | CRITICAL => 15 end.
Record message := mk_message { m_level : level; m_text : string }.

(** A handler of logbook: where it writes, its level, whether a message it has handled goes on to the next handler (bubble,
    by default False) and, for NullHandler, that it swallows what it gets. *)
Inductive sink := To_stderr | To_file (name : string) | To_other (n : nat).
Record handler := mk_handler { h_sink : sink; h_level : option level; h_bubble : bool; h_blackhole : bool }.
Definition should_handle (h : handler) (m : message) : bool :=
  match h_level h with None => true | Some l => Nat.leb (rank l) (rank (m_level m)) end.
Definition NullHandler : handler := mk_handler (To_other 0) None false true.

(** logbook.base.RecordDispatcher.call_handlers: the handlers are asked in turn, the one set up last first. *)
Fixpoint call_handlers (hs : list handler) (m : message) : list (sink * message) :=
  match hs with
  | [] => []
  | h :: t =>
      if should_handle h m then
        if h_blackhole h then []
        else (h_sink h, m) :: (if h_bubble h then call_handlers t m else [])
      else call_handlers t m
  end.

(** logging.py:19-35: the options.  The levels that can be chosen leave out TRACE. *)
Record log_args := mk_log_args {
  la_log_file : option string; la_log_file_level : option level;
  la_stderr_level : option level; la_quiet : bool; la_verbose : bool }.
Definition or_default (o : option level) (d : level) : level := match o with Some l => l | None => d end.

(** logging.py:38-74: the handlers in the order in which NestedSetup sets them up.  An empty file name counts as none (line 53). *)
Definition log_handler (a : log_args) : list handler :=
  let stderr_handler :=
    if la_quiet a then mk_handler To_stderr (Some ERROR) false false
    else if la_verbose a then mk_handler To_stderr (Some DEBUG) false false
    else mk_handler To_stderr (Some (or_default (la_stderr_level a) NOTICE)) true false in
  let file_handler :=
    match la_log_file a with
    | Some f => if String.eqb f "" then NullHandler
                else mk_handler (To_file f) (Some (or_default (la_log_file_level a) DEBUG)) true false
    | None => NullHandler
    end in
  [NullHandler; file_handler; stderr_handler].
(** What is written while the setup is active, on top of the handlers [outer] that were active before. *)
Definition written (a : log_args) (outer : list handler) (ms : list message) : list (sink * message) :=
  flat_map (call_handlers (rev (log_handler a) ++ outer)) ms.
