(** A user splitting by hand: what their typing means and how the search goes on. *)
From Coq Require Import String List Bool.
From Verif Require Import Lib_Py Model_Run Model_Stepper Model_Human.
Import ListNotations.
Open Scope string_scope. Open Scope list_scope.

(** The three words. *)
Definition means (word : string) (a : SplitterStatus) : Prop :=
  (word = "sign flip" /\ a = SIGN_FLIP) \/ (word = "diverge" /\ a = DIVERGE) \/ (word = "STOP" /\ a = STOP).
(** Of the lines typed, the first that is one of the words, white space around it apart, is the answer. *)
Definition answered (lines : list string) (a : SplitterStatus) (rest : list string) : Prop :=
  exists wrong line, lines = wrong ++ line :: rest /\ means (strip line) a /\ forall l b, In l wrong -> ~ means (strip l) b.
Definition no_answer (lines : list string) : Prop := forall l b, In l lines -> ~ means (strip l) b.
(** Things with their numbers from 0; the pictures after each of them. *)
Definition enumerated {A} (l : list A) : list (nat * A) := combine (seq 0 (length l)) l.
Definition pictures {A} (l : list A) : list (list (nat * A)) := map (fun k => enumerated (firstn (S k) l)) (seq 0 (length l)).
Definition pictures_on {A} (screen : list (event A)) : list (list (nat * A)) :=
  flat_map (fun e => match e with Shown p => [p] | _ => [] end) screen.
Definition prompts_on {A} (screen : list (event A)) : nat := length (filter (fun e => match e with Prompt => true | _ => false end) screen).
Definition complaints_on {A} (screen : list (event A)) : nat := length (filter (fun e => match e with Complaint => true | _ => false end) screen).

Section Course.
Variable ar : arith.
Context {X Y : Type}.
Variables (fuel max_steps : nat) (solve : sinput ar (X := X) -> res (ssoln ar (X := X) (Y := Y) * bool)).
(** From the stepper's variables, an input and the lines typed from then on: each of the solutions is the one of the input at
    that time, is not good enough, and is answered with diverge or sign flip, which gives the next input (see C32-C34). *)
Inductive course : stepper_state ar -> sinput ar (X := X) -> list string -> list (ssoln ar (X := X) (Y := Y)) -> stepper_state ar -> sinput ar (X := X) -> list string -> Prop :=
| course_nil : forall st inp lines, course st inp lines [] st inp lines
| course_step : forall st inp lines s a rest st1 size inp1 ss st' inp' lines',
    solve inp = Ok (s, false) -> answered lines a rest -> a <> STOP -> stepper_advance ar max_steps st a = (st1, Ok size) ->
    snd (step_func ar fuel (ss_input ar s) a size) = Ok inp1 -> course st1 inp1 rest ss st' inp' lines' ->
    course st inp lines (s :: ss) st' inp' lines'.
End Course.
