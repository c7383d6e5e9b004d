(** Critical points of a stored solution: src/disc_solver/critical_points.py:44-102 and the crosses-points group of the info
    command (src/disc_solver/analyse/info.py:138-170).

    A solution is its angles and its rows.  Rows are exact reals with positive density and nonzero B_θ (the theorems say so), where no Mach
    number is NaN or infinite. *)
From Coq Require Import Reals List Bool String.
From Verif Require Import Model_Index Model_Array Model_Waves.
Import ListNotations.
Open Scope R_scope.

(** critical_points.py:44-62: the four columns. *)
Definition slow_mach (p : vec) : R := fst (fst (fst (get_mach_numbers p))).
Definition sonic_mach (p : vec) : R := snd (fst (fst (get_mach_numbers p))).
Definition alfven_mach (p : vec) : R := snd (fst (get_mach_numbers p)).
Definition fast_mach (p : vec) : R := snd (get_mach_numbers p).
Definition mach_column (f : vec -> R) (rows : list vec) : list num := map (fun p => Some (f p)) rows.

Definition pybind {A B} (r : py A) (f : A -> py B) : py B :=
  match r with
  | Ret a => f a
  | ValueError => ValueError | IndexError => IndexError | Unmodelled => Unmodelled
  end.

(** critical_points.py:65-78; order slow, sonic, alfven, fast. *)
Definition get_critical_point_indices (rows : list vec)
  : py (option nat * option nat * option nat * option nat) :=
  pybind (first_closest_index (mach_column slow_mach rows) (Some 1)) (fun slow_index =>
  pybind (first_closest_index (mach_column sonic_mach rows) (Some 1)) (fun sonic_index =>
  pybind (first_closest_index (mach_column alfven_mach rows) (Some 1)) (fun alfven_index =>
  pybind (first_closest_index (mach_column fast_mach rows) (Some 1)) (fun fast_index =>
  Ret (slow_index, sonic_index, alfven_index, fast_index))))).

(** critical_points.py:87-90 and the three like it. *)
Definition critical_angle (angles : list R) (mach : list num) : py (option R) :=
  if existsb (fun m => nlt (Some 1) m) mach then interp_for_value angles mach 1 else Ret None.
(** critical_points.py:81-102. *)
Definition get_all_sonic_points (angles : list R) (rows : list vec)
  : py (option R * option R * option R * option R) :=
  pybind (critical_angle angles (mach_column slow_mach rows)) (fun slow_angle =>
  pybind (critical_angle angles (mach_column sonic_mach rows)) (fun sonic_angle =>
  pybind (critical_angle angles (mach_column alfven_mach rows)) (fun alfven_angle =>
  pybind (critical_angle angles (mach_column fast_mach rows)) (fun fast_angle =>
  Ret (slow_angle, sonic_angle, alfven_angle, fast_angle))))).

(** info.py:143-168: what is printed after the label. *)
Definition is_some {A} (o : option A) : bool := match o with Some _ => true | None => false end.
Definition crosses_points (angles : list R) (rows : list vec) : py string :=
  pybind (get_all_sonic_points angles rows) (fun pts =>
  let '(slow_θ, sonic_θ, alfven_θ, fast_θ) := pts in
  Ret (if is_some fast_θ then "fast"%string
       else if is_some alfven_θ then "alfven"%string
       else if is_some sonic_θ then "sonic"%string
       else if is_some slow_θ then "slow"%string
       else "none"%string)).
