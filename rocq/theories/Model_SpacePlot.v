(** ds-plot-taylor-space: src/disc_solver/solve/taylor_space.py lines 56-82 with the samples drawn, and 143-190.

    numpy.random.uniform is an argument: [uniform k low high size] is what its k-th call gives.  What spaceplot draws is not
    modelled: the figure is what is handed to it.  Decimal literals are the reals they denote. *)
From Coq Require Import Reals List Bool Arith String ZArith.
From Verif Require Import Lib_Py Model_Index Model_Deriv Model_Midplane Model_Space.
Import ListNotations.
Open Scope R_scope.

(** taylor_space.py:44-53. *)
Record TaylorSpace := mk_space {
  γ_arr : list R; v_rin_on_c_s_arr : list R; v_a_on_c_s_arr : list R; c_s_on_v_k_arr : list R; taylor_orders : list (list vec) }.

(** taylor_space.py:56-82. *)
Definition sampled_taylor_space (uniform : nat -> R -> R -> nat -> list R)
  (γ v_rin_on_c_s v_a_on_c_s c_s_on_v_k : R * R) (η_O η_A η_H : R) (num_samples : nat) : res TaylorSpace :=
  let γ_arr := uniform 0%nat (fst γ) (snd γ) num_samples in
  let v_rin_on_c_s_arr := uniform 1%nat (fst v_rin_on_c_s) (snd v_rin_on_c_s) num_samples in
  let v_a_on_c_s_arr := uniform 2%nat (fst v_a_on_c_s) (snd v_a_on_c_s) num_samples in
  let c_s_on_v_k_arr := uniform 3%nat (fst c_s_on_v_k) (snd c_s_on_v_k) num_samples in
  let! orders := compute_taylor_space γ_arr v_rin_on_c_s_arr v_a_on_c_s_arr c_s_on_v_k_arr η_O η_A η_H in
  Ok (mk_space γ_arr v_rin_on_c_s_arr v_a_on_c_s_arr c_s_on_v_k_arr orders).

(** taylor_space.py:33-41, the names in order. *)
Definition Parameters_names : list string := ["γ"; "v_rin_on_c_s"; "v_a_on_c_s"; "c_s_on_v_k"]%string.
(** utils.py:55-71, iterated: an alias (E_r) is not visited. *)
Definition ODEIndex_names : list string :=
  ["B_r"; "B_φ"; "B_θ"; "v_r"; "v_φ"; "v_θ"; "ρ"; "B_φ_prime"; "η_O"; "η_A"; "η_H"]%string.

(** What is printed and what spaceplots is given.  A limit is (low, high), None: open. *)
Record figure := mk_figure {
  f_printed : list R; f_xs : list (list R); f_ys : list vec; f_input_names : list string; f_output_names : list string;
  f_limits : list (option R * option R) }.

(** Python's min of a list. *)
Definition py_min (l : list R) : res R :=
  match l with [] => Raise ValueError | x :: t => Ok (fold_left Rmin t x) end.
(** taylor_space.py:149-154, np.array([a, b, c, d]).T: one row per sample. *)
Definition transpose4 (a b c d : list R) : list (list R) :=
  map (fun i => [nth i a 0; nth i b 0; nth i c 0; nth i d 0]) (seq 0 (List.length a)).
(** taylor_space.py:143-171.  Lines 156-158: with no sample zip(...) is empty and cannot be unpacked. *)
Definition plot_taylor_space (t : TaylorSpace) (limits : list (option R * option R)) : res figure :=
  let xs := transpose4 (γ_arr t) (v_rin_on_c_s_arr t) (v_a_on_c_s_arr t) (c_s_on_v_k_arr t) in
  match taylor_orders t with
  | [] => Raise ValueError
  | _ =>
      let ys := map (fun orders => nth 2 orders zeros) (taylor_orders t) in
      let! least_v_r := py_min (map (fun y : vec => y iv_r) ys) in
      let! least_v_φ := py_min (map (fun y : vec => y iv_φ) ys) in
      Ok (mk_figure [least_v_r; least_v_φ] xs ys Parameters_names ODEIndex_names limits)
  end.

(** taylor_space.py:184-186. *)
Definition plot_limits : list (option R * option R) :=
  map (fun i => if (i =? 3)%nat then (Some (-100), Some 0) else if (i =? 4)%nat then (Some (-100), Some 0) else (Some 0, None))
    (seq 0 11).
(** taylor_space.py:174-190. *)
Definition plot_taylor_space_main (uniform : nat -> R -> R -> nat -> list R) : res figure :=
  let! t := sampled_taylor_space uniform
    (* γ= *) (1 / 100000, 1 / 100) (* v_rin_on_c_s= *) (1 / 10, 1) (* v_a_on_c_s= *) (1 / 10, 1)
    (* c_s_on_v_k= *) (5 / 100, 3 / 100) (* η_O= *) (5 / 1000) (* η_A= *) (1 / 1000) (* η_H= *) (8 / 1000)
    (Z.to_nat 10000) in
  plot_taylor_space t plot_limits.
