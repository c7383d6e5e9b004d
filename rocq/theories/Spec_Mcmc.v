(** What the MCMC method should keep. *)
From Coq Require Import String List Bool Reals.
From Verif Require Import Lib_Py Model_Format Model_Run Spec_Inputs.
Import ListNotations.
Open Scope string_scope. Open Scope list_scope.

(** The input with the fields [x] and the chosen parameters replaced. *)
Fixpoint replaced (names : list string) (values : list val) (x : string -> val) : string -> val :=
  match names, values with
  | f :: t, v :: l => replaced t l (fun g => if String.eqb g f then v else x g)
  | _, _ => x
  end.
(** Positive or not a number. *)
Definition not_below (v : val) : Prop := forall y : R, v = VNum (Some y) -> (0 < y)%R.
(** The first of the best ones in a list of things with their scores. *)
Definition first_best {A} (l : list (A * R)) (a : A) : Prop :=
  exists pre x post, l = pre ++ (a, x) :: post /\ (forall b y, In (b, y) pre -> (y < x)%R) /\ (forall b y, In (b, y) post -> (y <= x)%R).
