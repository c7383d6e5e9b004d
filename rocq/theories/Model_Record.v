(** What a call of the right-hand side leaves in the internal data (solve/solution.py:78-91, 134-145, 283-292). *)
From Coq Require Import String List Bool ZArith Reals.
From Verif Require Import Lib_Py Model_Index Model_Ode Model_Containers.
Import ListNotations.
Open Scope string_scope. Open Scope list_scope.

(** The array behind a state of len(ODEIndex) components. *)
Definition to_row (v : vec) : row := map v (seq 0 ODE_LEN).
(** One call [rhs_equation(x, params, derivs)].  [str] is str() of an angle, the key of the problem log.  Without
    store_internal there is no internal data (None). *)
Definition record_call (str : R -> string) (o : ode_args) (i : option internal_data) (call : R * vec) : option internal_data :=
  match i with
  | None => None
  | Some i =>
      match rhs_equation o (fst call) (snd call) with
      | Rhs_negative_density θ => Some (if oa_store_internal o then id_problem (KOther (str θ)) "negative density" i else i)
      | Rhs_negative_velocity θ => Some (if oa_store_internal o then id_problem (KOther (str θ)) "negative velocity" i else i)
      | Rhs_ok _ (Some e) =>
          Some (id_record (mk_rec (ie_angle e) (to_row (ie_params e)) (to_row (ie_derivs e)) (ie_v_r_normal e) (ie_v_φ_normal e)
                                  (ie_ρ_normal e) (ie_v_r_taylor e) (ie_v_φ_taylor e) (ie_ρ_taylor e)) i)
      | Rhs_ok _ None => Some i
      end
  end.
(** The internal data of a system after a sequence of calls. *)
Definition after_calls (str : R -> string) (o : ode_args) (calls : list (R * vec)) : option internal_data :=
  fold_left (record_call str o) calls (if oa_store_internal o then Some id_new else None).
