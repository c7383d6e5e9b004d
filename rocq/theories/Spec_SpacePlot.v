(** What ds-plot-taylor-space should show. *)
From Coq Require Import Reals List Bool Arith String.
From Verif Require Import Model_Index Model_Midplane.
Import ListNotations.
Open Scope R_scope.

(** What numpy.random.uniform promises: as many values as asked for, between the two bounds (whichever is larger). *)
Definition uniform_ok (uniform : nat -> R -> R -> nat -> list R) : Prop :=
  forall k low high size, List.length (uniform k low high size) = size /\
  forall x, In x (uniform k low high size) -> Rmin low high <= x <= Rmax low high.

(** The advertised parameter ranges. *)
Definition in_ranges (γ v_rin v_a c_s : R) : Prop :=
  1 / 100000 <= γ <= 1 / 100 /\ 1 / 10 <= v_rin <= 1 /\ 1 / 10 <= v_a <= 1 /\ 3 / 100 <= c_s <= 5 / 100.

(** [y] holds the coefficients of θ² at the midplane of the disc with these parameters: there is a midplane state, none of the
    quantities divided by on the way is zero, and [y] comes from that state. *)
Definition curvatures (γ v_rin v_a c_s η_O η_A η_H : R) (y : vec) : Prop :=
  exists v_φ, v_φ_boundary_func (- v_rin) η_H (η_O + η_A) (1 / c_s ^ 2) (v_a ^ 2) γ = Some v_φ /\ 0 < v_φ /\
  (let a_0 := v_a ^ 2 in let η_P := η_O + η_A in
   let Z_5 := (η_P ^ 2 + η_H ^ 2) / η_P in
   let Y_5 := Y_5_func a_0 (- v_rin) γ Z_5 in
   v_rin <> 0 /\ c_s <> 0 /\ a_0 <> 0 /\ η_P <> 0 /\ Z_5 <> 0 /\ Y_5 <> 0 /\
   Y_6_func v_φ Y_5 a_0 (η_H / η_P) Z_5 γ (- v_rin) η_P η_H <> 0) /\
  exists s : vec, y = get_taylor_second_order s γ (v_a ^ 2) false false /\
   s iB_r = 0 /\ s iB_φ = 0 /\ s iB_θ = 1 /\ s iv_r = - v_rin /\ s iv_φ = v_φ /\ s iv_θ = 0 /\ s iρ = 1 /\
   s iη_O = η_O /\ s iη_A = η_A /\ s iη_H = η_H.

(** [x] is the least of the values. *)
Definition least (x : R) (l : list R) : Prop := In x l /\ forall z, In z l -> x <= z.

(** A value within axis limits. *)
Definition within (x : R) (lim : option R * option R) : Prop :=
  (match fst lim with Some lo => lo <= x | None => True end) /\ (match snd lim with Some hi => x <= hi | None => True end).
