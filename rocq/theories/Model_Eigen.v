(** The plots of eigenvalues and eigenvectors of the Jacobians along a solution.

    Models analyse/compute_jacobian.py lines 338-495, on the drawing primitives of [Model_Plots].  The Jacobians themselves are
    in [Model_Jacobian]; here they are tables of numbers, None standing for one that is not finite.  The eigenvalue routines of
    scipy are arguments: they answer complex numbers as pairs, or raise; the tables of eigenvectors are taken to be square. *)
From Coq Require Import Reals List Bool String Arith.
From Verif Require Import Lib_Py Model_Plots.
Import ListNotations.
Open Scope string_scope.
Open Scope list_scope.
Open Scope R_scope.

Definition cnum := (num * num)%type.
Definition matrix := list (list num).
(** isfinite(jacobian).all(), with the numbers. *)
Fixpoint all_some {A : Type} (l : list (option A)) : option (list A) :=
  match l with
  | [] => Some []
  | None :: _ => None
  | Some a :: t => match all_some t with Some r => Some (a :: r) | None => None end
  end.
Definition finite (m : matrix) : option (list (list R)) := all_some (map all_some m).
Definition complex (c : R * R) : cnum := (Some (fst c), Some (snd c)).
(** nan in an array of complex numbers. *)
Definition nan : cnum := (None, Some 0).

Fixpoint each {A B : Type} (f : A -> res B) (l : list A) : res (list B) :=
  match l with [] => Ok [] | a :: t => let! b := f a in let! r := each f t in Ok (b :: r) end.
(** nparray(list of arrays): ValueError unless all have the same length. *)
Definition same_length {A : Type} (l : list (list A)) : bool :=
  match l with [] => true | a :: t => forallb (fun b => (List.length b =? List.length a)%nat) t end.
Definition stack {A : Type} (l : list (list A)) : res (list (list A)) := if same_length l then Ok l else Raise ValueError.
(** data[:, i] *)
Definition column_at (i : nat) (data : list (list cnum)) : list cnum := map (fun r => nth i r nan) data.

(** A series drawn with markers only; the colour is an index into the 20 colours of COLOURS (line 28), None is black. *)
Record series := mk_series { sr_marker : string; sr_color : option nat; sr_label : option string; sr_points : list (R * num) }.
Definition colour (i : nat) : res (option nat) := if (i <? 20)%nat then Ok (Some i) else Raise IndexError.

(** y >= 0, false for nan. *)
Definition nonneg (a : num) : bool := match a with Some r => if Rle_dec 0 r then true else false | None => false end.
(** compute_jacobian.py:357-390. *)
Definition plot_log_complex_data (x_data : list R) (y_data : list cnum) (color : option nat) (label : option string) : res (list series) :=
  let pos_real_data_slice := map (fun c => nonneg (fst c)) y_data in
  let pos_imag_data_slice := map (fun c => nonneg (snd c)) y_data in
  let draw marker slice (part : cnum -> num) :=
    let! x := mask_list slice x_data in
    let! y := mask_list slice y_data in
    let! pts := points x (map part y) in
    Ok (mk_series marker color label pts) in
  let! a := draw "^" pos_real_data_slice (fun c => fst c) in
  let! b := draw "v" (map negb pos_real_data_slice) (fun c => option_map Ropp (fst c)) in
  let! c := draw "2" pos_imag_data_slice (fun c => snd c) in
  let! d := draw "1" (map negb pos_imag_data_slice) (fun c => option_map Ropp (snd c)) in
  Ok [a; b; c; d].

(** (start <= degrees(angles)) & (degrees(angles) <= stop) *)
Definition indexes (start stop : R) (angles : list R) : list bool := map (fun θ => in_range start stop (degrees θ)) angles.
(** One call with x_data=degrees(angles[indexes]), y_data=values[indexes]. *)
Definition plot_in_range (start stop : R) (angles : list R) (values : list cnum) (color : option nat) (label : option string) : res (list series) :=
  let! x := mask_list (indexes start stop angles) angles in
  let! y := mask_list (indexes start stop angles) values in
  plot_log_complex_data (map degrees x) y color label.

Section Eigen.
Variable eigvals : list (list R) -> res (list (R * R)).
(** The eigenvalues, and the rows of the matrix whose columns are the eigenvectors. *)
Variable eig : list (list R) -> res (list (R * R) * list (list (R * R))).

(** compute_jacobian.py:338-344. *)
Definition compute_eigenvalues (jacobian : matrix) : res (list cnum) :=
  match finite jacobian with
  | None => Ok (repeat nan (List.length jacobian))
  | Some m => let! l := eigvals m in Ok (map complex l)
  end.
(** compute_jacobian.py:347-354. *)
Definition compute_eigenvalues_and_eigenvectors (jacobian : matrix) : res (list cnum * list (list cnum)) :=
  match finite jacobian with
  | None => let M := List.length jacobian in Ok (repeat nan M, repeat (repeat nan M) M)
  | Some m => let! (w, v) := eig m in Ok (map complex w, map (map complex) v)
  end.

(** compute_jacobian.py:393-418. *)
Definition plot_jacobian_eigenvalues (jacobians : list matrix) (angles : list R) (start stop : R) : res (list series) :=
  let! rows := each compute_eigenvalues jacobians in
  let! data := stack rows in
  match data with
  | [] => Raise IndexError                      (* data.shape[1] of an empty array *)
  | r :: _ =>
      let! l := each (fun i => let! c := colour i in plot_in_range start stop angles (column_at i data) c (Some (str_of_nat i)))
                     (seq 0 (List.length r)) in
      Ok (List.concat l)
  end.

(** compute_jacobian.py:421-465: twelve axes, those without an eigenvalue stay empty. *)
Definition plot_jacobian_eigenvectors (jacobians : list matrix) (angles : list R) (start stop : R) : res (list (list series)) :=
  let! both := each compute_eigenvalues_and_eigenvectors jacobians in
  match both with
  | [] => Raise ValueError                      (* zip of nothing cannot be unpacked *)
  | (w, v) :: _ =>
      let! eigvalues := stack (map fst both) in
      let eigvecs := map snd both in
      let! axes := each (fun j =>
          if (j <? 12)%nat then
            let! first := plot_in_range start stop angles (column_at j eigvalues) None None in
            let! others := each (fun i => let! c := colour i in
                plot_in_range start stop angles (map (fun m => nth j (nth i m []) nan) eigvecs) c (Some (str_of_nat i)))
              (seq 0 (List.length (nth 0 v []))) in
            Ok (first ++ List.concat others)
          else Raise IndexError) (seq 0 (List.length w)) in
      Ok (axes ++ repeat [] (12 - List.length axes))
  end.

(** compute_jacobian.py:468-472 at one sample and one column: the sum of v * v.conj(), a real number; nan if any entry is. *)
Definition squared (c : cnum) : num := match c with (Some a, Some b) => Some (a * a + b * b) | _ => None end.
Definition num_plus (a b : num) : num := match a, b with Some x, Some y => Some (x + y) | _, _ => None end.
Definition compute_norm (column : list cnum) : num := fold_right num_plus (Some 0) (map squared column).
(** compute_jacobian.py:475-495: one line per column. *)
Definition plot_jacobian_eigenvector_norm (jacobians : list matrix) (angles : list R) (start stop : R) : res (list (list (R * num))) :=
  let! both := each compute_eigenvalues_and_eigenvectors jacobians in
  match both with
  | [] => Raise ValueError                      (* no axis 1 to sum over *)
  | (w, v) :: _ =>
      let norms j := map (fun p => compute_norm (map (fun row => nth j row nan) (snd p))) both in
      let! x := mask_list (indexes start stop angles) angles in
      each (fun j => let! y := mask_list (indexes start stop angles) (norms j) in points (map degrees x) y) (seq 0 (List.length (nth 0 v [])))
  end.
End Eigen.
