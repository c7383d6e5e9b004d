(** The Taylor space scan: src/disc_solver/solve/taylor_space.py:56-140.

    The random samples (numpy.random.uniform) are arguments.  Of a SolutionInput only the fields that define_conditions reads
    (Model_Midplane.v) are kept; the remaining ones are constants (taylor_space.py:121-132) or defaults. *)
From Coq Require Import Reals List Bool Arith.
From Verif Require Import Lib_Py Model_Index Model_Deriv Model_Midplane.
Import ListNotations.
Open Scope R_scope.

(** taylor_space.py:119-140: start=0, stop=0, num_angles=0, use_E_r by default False. *)
Definition scan_input (γ v_rin v_a c_s η_O η_A η_H : R) : cond_input :=
  mk_cond_input v_rin v_a c_s γ η_O (* η_A= *) η_H (* η_H= *) η_A false 0 0 0.
(** taylor_space.py:106-140. *)
Definition solution_input_generator (γ v_rin v_a c_s : list R) (η_O η_A η_H : R) : res (list cond_input) :=
  let num_samples := length γ in
  if negb (num_samples =? length v_rin)%nat then Raise RuntimeError
  else if negb (num_samples =? length v_a)%nat then Raise RuntimeError
  else if negb (num_samples =? length c_s)%nat then Raise RuntimeError
  else Ok (map (fun i => scan_input (nth i γ 0) (nth i v_rin 0) (nth i v_a 0) (nth i c_s 0) η_O η_A η_H) (seq 0 num_samples)).
(** taylor_space.py:85-103. *)
Definition compute_taylor_values (inp : cond_input) : res (list vec) :=
  let use_E_r := in_use_E_r inp in
  match define_conditions inp with
  | None => Raise SolverError
  | Some cs =>
      let init_con := c_init_con cs in
      let γ := c_γ cs in
      let a_0 := c_a_0 cs in
      Ok [init_con; get_taylor_first_order init_con γ a_0; get_taylor_second_order init_con γ a_0 false use_E_r;
          get_taylor_third_order init_con γ a_0 false use_E_r]
  end.
Fixpoint all_values (l : list cond_input) : res (list (list vec)) :=
  match l with
  | [] => Ok []
  | inp :: t => let! v := compute_taylor_values inp in let! vs := all_values t in Ok (v :: vs)
  end.
(** taylor_space.py:56-82: the field taylor_orders; the sample arrays are returned as they are. *)
Definition compute_taylor_space (γ v_rin v_a c_s : list R) (η_O η_A η_H : R) : res (list (list vec)) :=
  let! inputs := solution_input_generator γ v_rin v_a c_s η_O η_A η_H in all_values inputs.
