(** Splitting by hand (src/disc_solver/solve/stepper.py:186-206) and the stepping solver with it.

    What the user types is a list of lines; reading past its end is Python's EOFError (here OtherError).  What the user sees
    is a list of events.  Drawing the plot (C103) is taken not to raise. *)
From Coq Require Import String List Bool ZArith.
From Verif Require Import Lib_Py Model_Run Model_Stepper.
Import ListNotations.
Open Scope string_scope. Open Scope list_scope.

Inductive event (S : Type) :=
| Shown (solutions : list (nat * S))   (* diverge_plot(tuple(enumerate(solutions)), show=True) *)
| Prompt                               (* input("What type: ") *)
| Complaint.                           (* print("Solution type must be either ...") *)
Arguments Shown {S}. Arguments Prompt {S}. Arguments Complaint {S}.

(** stepper.py:25-31, 203, 206: the accepted texts and the members of SplitterStatus with these values. *)
Definition status_of (soln_type : string) : option SplitterStatus :=
  if String.eqb soln_type "sign flip" then Some SIGN_FLIP
  else if String.eqb soln_type "diverge" then Some DIVERGE
  else if String.eqb soln_type "STOP" then Some STOP
  else None.
(** stepper.py:202-206: what is seen, the lines left and the answer. *)
Fixpoint ask {S : Type} (lines : list string) : list (event S) * list string * res SplitterStatus :=
  match lines with
  | [] => ([Prompt], [], Raise OtherError)
  | line :: t =>
      match status_of (strip line) with
      | Some s => ([Prompt], t, Ok s)
      | None => let '(events, rest, r) := ask t in ([Prompt; Complaint] ++ events, rest, r)
      end
  end.
(** The variable captured by the splitter (stepper.py:192) with the terminal. *)
Record session (S : Type) := mk_session { seen : list S; typed : list string; screen : list (event S) }.
Arguments mk_session {S}. Arguments seen {S}. Arguments typed {S}. Arguments screen {S}.
(** stepper.py:194-206. *)
Definition human_view_splitter {S : Type} (h : session S) (soln : S) : session S * res SplitterStatus :=
  let solutions := seen h ++ [soln] in
  let '(events, rest, r) := ask (typed h) in
  (mk_session solutions rest (screen h ++ [Shown (combine (seq 0 (length solutions)) solutions)] ++ events), r).

Section Solver.
Variable ar : arith.
Context {X Y I : Type}.
Local Notation soln := (ssoln ar (X := X) (Y := Y)).
Local Notation world := (sworld ar (X := X) (Y := Y) (I := I) * session soln)%type.
(** stepper.py:106-133 with this splitter. *)
Definition human_stepper (fuel max_search_steps : nat) (w : world) (s : soln) (attempt : nat) : world * res (sinput ar (X := X)) :=
  match writer ar (fst w) s attempt with
  | (sw, Raise e) => ((sw, snd w), Raise e)
  | (sw, Ok tt) =>
      match human_view_splitter (snd w) s with
      | (h, Raise e) => ((sw, h), Raise e)
      | (h, Ok soln_type) =>
          let '(st, r) := stepper_advance ar max_search_steps (sw_st ar sw) soln_type in
          let sw := mk_sw ar (sw_run ar sw) st in
          match r with
          | Raise e => ((sw, h), Raise e)
          | Ok step => ((sw, h), snd (step_func ar fuel (ss_input ar s) soln_type step))
          end
      end
  end.
Definition lift {A B} (f : sworld ar (X := X) (Y := Y) (I := I) -> A -> sworld ar * res B) (w : world) (a : A) : world * res B :=
  let '(sw, r) := f (fst w) a in ((sw, snd w), r).
(** stepper.py:306-334 with split_method "human". *)
Definition human_solver (fuel : nat) (solution_func : sinput ar (X := X) -> res (soln * bool)) (lines : list string)
  (soln_input : sinput ar (X := X)) (r : run soln I) (num_attempts max_search_steps : nat) (no_final_solution : bool)
  : run soln I * session soln * res bool :=
  let w := (mk_sw ar r (initial_stepper ar (tenth ar (s_γ ar soln_input))), mk_session [] lines []) in
  let '(w, best) := binary_searcher (fun w inp => (w, solution_func inp))
                      (fun w s attempt => lift (fun sw s => cleanup ar no_final_solution sw s attempt) w s)
                      (human_stepper fuel max_search_steps)
                      (lift (alternate_cleanup ar no_final_solution))
                      w soln_input num_attempts in
  let r := sw_run ar (fst w) in
  match best with
  | Raise e => (r, snd w, Raise e)
  | Ok best_solution =>
      match (if no_final_solution then Ok r else match r_final r with Final _ => Ok r | _ => set_final r None end) with
      | Raise e => (r, snd w, Raise e)
      | Ok r => (r, snd w, Ok (match best_solution with Some (Some _) => true | _ => no_final_solution end))
      end
  end.
End Solver.
