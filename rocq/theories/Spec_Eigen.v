(** What a reader of the logarithmic plots of complex values sees, and what should be there. *)
From Coq Require Import Reals List Bool String.
From Verif Require Import Lib_Py Model_Plots Model_Eigen Spec_Plots.
Import ListNotations.
Open Scope string_scope.
Open Scope list_scope.
Open Scope R_scope.

(** The points of a series that can be seen on a logarithmic axis: those with a positive number. *)
Definition visible (p : R * num) : list (R * R) :=
  match snd p with Some y => if Rlt_dec 0 y then [(fst p, y)] else [] | None => [] end.
Definition seen (marker : string) (l : list series) : list (R * R) :=
  flat_map (fun s => if String.eqb (sr_marker s) marker then flat_map visible (sr_points s) else []) l.
(** Triangles are real parts and tripods are imaginary parts, pointing up for positive and down for negative ones. *)
Definition negated (p : R * R) : R * R := (fst p, - snd p).
Definition real_parts (l : list series) : list (R * R) := seen "^" l ++ map negated (seen "v" l).
Definition imaginary_parts (l : list series) : list (R * R) := seen "2" l ++ map negated (seen "1" l).
(** The series of one colour. *)
Definition of_colour (c : option nat) (l : list series) : list series :=
  filter (fun s => match sr_color s, c with Some a, Some b => Nat.eqb a b | None, None => true | _, _ => false end) l.

(** What should be seen of a complex quantity [q] (None where it is not known) along samples: each nonzero part at its angle. *)
Definition nonzero (x y : R) : list (R * R) := if Req_EM_T y 0 then [] else [(x, y)].
Definition expected_parts {A : Type} (angle : A -> R) (q : A -> option (R * R)) (part : R * R -> R) (l : list A) : list (R * R) :=
  flat_map (fun a => match q a with Some z => nonzero (deg (angle a)) (part z) | None => [] end) l.
Definition shown_samples {A : Type} (lo hi : R) (angle : A -> R) (l : list A) : list A := filter (fun a => between lo hi (deg (angle a))) l.

(** The quantities drawn: eigenvalue [i] of the Jacobian of a sample, component [i] of its eigenvector [j]; none if the Jacobian is
    not finite. *)
Definition eigenvalue_of (eigvals : list (list R) -> res (list (R * R))) (i : nat) (J : matrix) : option (R * R) :=
  match finite J with Some m => match eigvals m with Ok l => nth_error l i | Raise _ => None end | None => None end.
Definition component_of (eig : list (list R) -> res (list (R * R) * list (list (R * R)))) (i j : nat) (J : matrix) : option (R * R) :=
  match finite J with
  | Some m => match eig m with Ok (_, v) => match nth_error v i with Some row => nth_error row j | None => None end | Raise _ => None end
  | None => None
  end.
Definition values_only (eig : list (list R) -> res (list (R * R) * list (list (R * R)))) (m : list (list R)) : res (list (R * R)) :=
  match eig m with Ok (w, _) => Ok w | Raise e => Raise e end.
(** What the routines promise for the Jacobians of the samples: [M] eigenvalues, and [M] rows of [M] components. *)
Definition gives_values (eigvals : list (list R) -> res (list (R * R))) (M : nat) (l : list (R * matrix)) : Prop :=
  forall p, In p l -> List.length (snd p) = M /\ forall m, finite (snd p) = Some m -> exists w, eigvals m = Ok w /\ List.length w = M.
Definition gives_vectors (eig : list (list R) -> res (list (R * R) * list (list (R * R)))) (M : nat) (l : list (R * matrix)) : Prop :=
  forall p, In p l -> List.length (snd p) = M /\ forall m, finite (snd p) = Some m ->
    exists w v, eig m = Ok (w, v) /\ List.length w = M /\ List.length v = M /\ Forall (fun row => List.length row = M) v.
(** The squared length of a complex vector. *)
Definition length_squared (v : list (R * R)) : R := fold_right Rplus 0 (map (fun z => fst z ^ 2 + snd z ^ 2) v).
