(** What solving with segments should do: what is asked of the integrator, which options conflict, how segments join. *)
From Coq Require Import String List Bool ZArith Reals Sorting.
From Verif Require Import Lib_Py Model_Index Model_Ode Model_Solution.
Import ListNotations.
Open Scope R_scope. Open Scope list_scope.

(** What is assumed of the integrator: it returns one state per angle; the angles are the first ones of the grid it was
    given, starting with the initial state; none is beyond a stop angle unless the grid starts there. *)
Record keeps_grid (I : integrator) : Prop := {
  kg_states : forall c, List.length (cr_y (I c)) = List.length (cr_t (I c));
  kg_grid : forall c, exists n, cr_t (I c) = firstn (S n) (sc_angles c);
  kg_stop : forall c s a rest x, sc_tstop c = Some s -> sc_angles c = a :: rest -> a <= s -> In x (cr_t (I c)) -> x <= s }.
Definition increasing (l : list R) : Prop := StronglySorted Rlt l.
Definition nondecreasing (l : list R) : Prop := StronglySorted Rle l.

(** The angles and states that a single Taylor step off the midplane adds: two angles, no integration. *)
Definition taylor_step_only (inp : soln_options) (co : call_options) : bool := co_with_taylor co && so_use_taylor_jump inp.
(** The angles (in radians) and states that a list of integrations returned, one after the other. *)
Definition returned_angles (I : integrator) (scale : R) (tr : list solve_call) : list R := flat_map (fun c => map (fun x => x * scale) (cr_t (I c))) tr.
Definition returned_states (I : integrator) (tr : list solve_call) : list vec := flat_map (fun c => cr_y (I c)) tr.

(** Conflicting options. *)
Definition conflicting (o : main_options) : Prop :=
  (mo_sonic_interp_size o <> None /\ mo_root_func o <> None) \/
  (mo_sonic_interp_size o <> None /\ mo_jump_before_sonic o <> None) \/
  (mo_jump_before_sonic o <> None /\ mo_root_func o <> None) \/
  (mo_sonic_interp_size o <> None /\ mo_store_internal o = false) \/
  (mo_jump_before_sonic o <> None /\ mo_onroot_func o <> None) \/
  (mo_root_func o <> None /\ mo_root_func_args o = None).
(** The function whose root the integration should stop at: one minus the distance from the sonic point, or the caller's. *)
Definition asked_root (o : main_options) (f : option root_fn) : Prop :=
  match mo_sonic_interp_size o, mo_jump_before_sonic o with
  | Some s, _ => exists g, f = Some g /\ forall x y, g x y = (1 - s) - y iv_θ
  | None, Some j => exists g, f = Some g /\ forall x y, g x y = (1 - j) - y iv_θ
  | None, None => f = mo_root_func o
  end.
(** Integrations other than that of the Taylor start. *)
Definition is_main (c : solve_call) : bool := negb (oa_with_taylor (sc_system c)).
