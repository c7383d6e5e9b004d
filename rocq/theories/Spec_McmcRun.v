(** What an MCMC run should do: where its walkers start, how solutions are scored, and which points are tried. *)
From Coq Require Import String List Bool Reals.
From Verif Require Import Lib_Py Model_Format.
Import ListNotations.
Open Scope list_scope.

(** The largest number in a list. *)
Definition is_max (l : list R) (m : R) : Prop := In m l /\ forall y, In y l -> (y <= m)%R.
(** How unevenly a sequence changes: the squares of the changes of the squares of its steps, added up. *)
Definition step (l : list R) (i : nat) : R := (nth (S i) l 0 - nth i l 0)%R.
Definition unevenness (l : list R) : R :=
  fold_right Rplus 0%R (map (fun i => ((step l (S i))² - (step l i)²)²)%R (seq 0 (length l - 2))).
(** The score of a solution whose v_θ takes the values [l], with largest value [m]. *)
Definition score (l : list R) (m : R) : R := (- 10 * exp (- m) - unevenness l)%R.
(** Numbers and no NaN. *)
Definition all_numbers (c : list (option R)) (l : list R) : Prop := c = map Some l.
(** The groups of points a sampler has tried, with what each point was worth: it begins with the group [first], and each
    further group is the one proposed on seeing all before it. *)
Inductive sampled {P V : Type} (worth : P -> V -> Prop) (propose : list (list P * list V) -> list P) (first : list P) : list (list P * list V) -> Prop :=
| sampled_first : forall vs, Forall2 worth first vs -> sampled worth propose first [(first, vs)]
| sampled_next : forall past vs, sampled worth propose first past -> Forall2 worth (propose past) vs ->
    sampled worth propose first (past ++ [(propose past, vs)]).
Definition points_of {P V : Type} (groups : list (list P * list V)) : list P := flat_map fst groups.
