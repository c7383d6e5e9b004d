(** What the container properties mean. *)
From Coq Require Import String List Bool ZArith Reals.
From Verif Require Import Lib_Py Model_Format Model_Containers.
Import ListNotations.
Open Scope string_scope. Open Scope list_scope.

(** What a caller can do with a problem log. *)
Inductive pop :=
| Record1 (k : pkey) (s : string)          (* log[k] = "s" *)
| RecordMany (k : pkey) (l : list string)  (* log[k] = [..] *)
| Append (k : pkey) (s : string)           (* log[k].append("s") *)
| Look (k : pkey) | Member (k : pkey) | Get (k : pkey).
Definition do_pop (p : problems) (o : pop) : problems :=
  match o with
  | Record1 k s => p_setitem k (PStr s) p
  | RecordMany k l => p_setitem k (PList l) p
  | Append k s => p_append k s p
  | Look k => snd (p_getitem k p)
  | Member k => snd (p_contains k p)
  | Get k => snd (p_get k p)
  end.
(** The entries of a log under a key. *)
Definition entries (k : string) (p : problems) : list string := match dget k p with Some l => l | None => [] end.
(** The problems an operation records under a key. *)
Definition recorded (k : string) (o : pop) : list string :=
  match o with
  | Record1 k' s | Append k' s => if String.eqb (key_str k') k then [s] else []
  | RecordMany k' l => if String.eqb (key_str k') k then l else []
  | _ => []
  end.

(** Well-shaped data: 11 components per state, an 11 x 11 Jacobian. *)
Definition shaped_jd (j : jacobian_data) : Prop :=
  Forall (fun r => length r = 11) (jd_derivs j) /\ Forall (fun r => length r = 11) (jd_params j) /\
  Forall (fun m => m_dim m = (11, 11)) (jd_jacobians j).
Definition shaped (i : internal_data) : Prop :=
  Forall (fun r => length r = 11) (id_derivs i) /\ Forall (fun r => length r = 11) (id_params i) /\
  shaped_jd (id_jacobian_data i).
(** One entry of each list per angle. *)
Definition aligned_jd (j : jacobian_data) : Prop :=
  length (jd_derivs j) = length (jd_angles j) /\ length (jd_params j) = length (jd_angles j) /\
  length (jd_jacobians j) = length (jd_angles j).
Definition aligned (i : internal_data) : Prop :=
  length (id_derivs i) = length (id_angles i) /\ length (id_params i) = length (id_angles i) /\
  length (id_v_r_normal i) = length (id_angles i) /\ length (id_v_φ_normal i) = length (id_angles i) /\
  length (id_ρ_normal i) = length (id_angles i) /\ length (id_v_r_taylor i) = length (id_angles i) /\
  length (id_v_φ_taylor i) = length (id_angles i) /\ length (id_ρ_taylor i) = length (id_angles i) /\
  aligned_jd (id_jacobian_data i).
(** Everything but the problem log is the same. *)
Definition same_arrays (a b : internal_data) : Prop :=
  id_derivs a = id_derivs b /\ id_params a = id_params b /\ id_angles a = id_angles b /\
  id_jacobian_data a = id_jacobian_data b /\ id_v_r_normal a = id_v_r_normal b /\
  id_v_φ_normal a = id_v_φ_normal b /\ id_ρ_normal a = id_ρ_normal b /\ id_v_r_taylor a = id_v_r_taylor b /\
  id_v_φ_taylor a = id_v_φ_taylor b /\ id_ρ_taylor a = id_ρ_taylor b.
(** What is recorded at each angle, together. *)
Definition samples (i : internal_data) : list (R * (row * row)) := combine (id_angles i) (combine (id_params i) (id_derivs i)).
Definition jac_samples (j : jacobian_data) : list (R * (row * (row * mat))) :=
  combine (jd_angles j) (combine (jd_params j) (combine (jd_derivs j) (jd_jacobians j))).

(** The states of internal data that a run of the integrator and the joins can produce. *)
Inductive built : internal_data -> Prop :=
| b_new : built id_new
| b_record : forall c i, built i -> length (rc_params c) = 11 -> length (rc_derivs c) = 11 -> built (id_record c i)
| b_jac : forall θ p d m i, built i -> length p = 11 -> length d = 11 -> m_dim m = (11, 11) -> built (id_record_jacobian θ p d m i)
| b_problem : forall θ s i, built i -> built (id_problem θ s i)
| b_add : forall a b i, built a -> built b -> id_add a b = Ok i -> built i
| b_flip : forall a i, built a -> id_flip a = Ok i -> built i.

(** The diffusivities held beside a start vector are the vector's components (and are numbers). *)
Definition consistent (v : val) : Prop :=
  exists data n, getattr "init_con" v = Ok (VArr [n] data) /\
    forall name i, In (name, i) [("η_O", 8); ("η_A", 9); ("η_H", 10)] ->
      exists x η, nth_error data i = Some (Some x) /\ getattr name v = Ok η /\ as_num η = Some (Some x).
