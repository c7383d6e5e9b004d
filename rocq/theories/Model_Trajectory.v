(** Following a field line or streamline: src/disc_solver/analyse/trajectory.py:29-119.

    Exact reals.  Not modelled: signed zeros, NaN, the position (0, 0) (where 0 ** radial_power may be infinite), printing. *)
From Coq Require Import List Reals.
From Verif Require Import Model_Array.
Import ListNotations.
Local Open Scope R_scope.

(** numpy.arctan2(y, x). *)
Definition arctan2 (y x : R) : R :=
  if Rlt_dec 0 x then atan (y / x)
  else if Rlt_dec x 0 then (if Rle_dec 0 y then atan (y / x) + PI else atan (y / x) - PI)
  else if Rlt_dec 0 y then PI / 2 else if Rlt_dec y 0 then - (PI / 2) else 0.
Definition pt := (R * R)%type.
Definition move (p : pt) (s : R) (v : pt) : pt := (fst p + s * fst v, snd p + s * snd v).
(** A column of the solution at the angle closest from above. *)
Definition value_at (angles vals : list R) (x : R) : py R := get_closest_value_sorted angles vals x.
(** trajectory.py:29-49. *)
Definition compute_values (x y : R) (angles r_vals θ_vals : list R) (radial_power : R) : py pt :=
  let r_pos := x ^ 2 + y ^ 2 in
  let θ_pos := arctan2 y x in
  let rad_coef := Rpower r_pos radial_power in
  match value_at angles r_vals θ_pos, value_at angles θ_vals θ_pos with
  | Ret r, Ret θ => let Θ := arctan2 (rad_coef * θ) (rad_coef * r) + θ_pos in Ret (cos Θ, sin Θ)
  | Ret _, e => match e with Ret _ => IndexError | ValueError => ValueError | IndexError => IndexError | Unmodelled => Unmodelled end
  | ValueError, _ => ValueError | IndexError, _ => IndexError | Unmodelled, _ => Unmodelled
  end.
(** How the generator ends: normally, or because prev_pos and prev_vals are still the number 0 and cannot be indexed (TypeError). *)
Inductive ending := Ended | TypeErr | OtherErr.
(** trajectory.py:52-100: the loop with [todo] iterations left; the pairs yielded and the ending. *)
Section Follow.
Variable values : pt -> py pt.
Fixpoint follow (todo : nat) (scaling : R) (prev : option (pt * pt)) (pos : pt) : list (pt * pt) * ending :=
  match todo with
  | O => ([], Ended)
  | S todo =>
      match values pos with
      | Ret vals => let '(l, e) := follow todo scaling (Some (vals, pos)) (move pos scaling vals) in ((vals, pos) :: l, e)
      | IndexError =>
          let scaling := scaling * (1 / 100) in
          match prev with
          | None => ([], TypeErr)
          | Some (prev_vals, prev_pos) =>
              let pos := move prev_pos scaling prev_vals in
              match values pos with
              | Ret vals => let '(l, e) := follow todo scaling (Some (vals, pos)) pos in ((vals, pos) :: l, e)
              | IndexError => ([], Ended)
              | _ => ([], OtherErr)
              end
          end
      | _ => ([], OtherErr)
      end
  end.
End Follow.
Definition follow_trajectory (start : pt) (angles r_vals θ_vals : list R) (radial_power : R) (max_steps : nat) (step_scaling : R)
  : list (pt * pt) * ending :=
  follow (fun p => compute_values (fst p) (snd p) angles r_vals θ_vals radial_power) max_steps step_scaling None start.
