(** The containers for problems, internal data and initial conditions
    (src/disc_solver/file_format/_containers.py:348-506, 653-709). *)
From Coq Require Import String List Bool ZArith Reals.
From Verif Require Import Lib_Py Model_FormatTables Model_Format.
Import ListNotations.
Open Scope string_scope. Open Scope list_scope.

(** ** Problems (_containers.py:348-378), a MutableMapping over a defaultdict(list) *)
(** A key given by the caller: text, or something else together with its str(). *)
Inductive pkey := KText (s : string) | KOther (str : string).
Definition key_str (k : pkey) : string := match k with KText s => s | KOther s => s end.
Definition problems := dict (list string).
(** _containers.py:356-357.  The defaultdict makes and keeps an empty list for a missing key. *)
Definition p_getitem (k : pkey) (p : problems) : list string * problems :=
  match dget (key_str k) p with
  | Some l => (l, p)
  | None => ([], dset (key_str k) [] p)
  end.
(** _containers.py:359-363. *)
Inductive pval := PStr (s : string) | PList (l : list string).
Definition p_setitem (k : pkey) (v : pval) (p : problems) : problems :=
  let (l, p) := p_getitem k p in
  match v with
  | PStr s => dset (key_str k) (l ++ [s]) p
  | PList l' => dset (key_str k) (l ++ l') p
  end.
(** problems[key].append(s), as in solve/solution.py:138,143. *)
Definition p_append (k : pkey) (s : string) (p : problems) : problems :=
  let (l, p) := p_getitem k p in dset (key_str k) (l ++ [s]) p.
(** _containers.py:365-366: the key is not converted, and only text keys are ever present. *)
Definition p_delitem (k : pkey) (p : problems) : res problems :=
  match k with KText s => ddel s p | KOther _ => Raise KeyError end.
(** Mapping.__contains__ and Mapping.get: try self[key]; there is no KeyError. *)
Definition p_contains (k : pkey) (p : problems) : bool * problems := (true, snd (p_getitem k p)).
Definition p_get (k : pkey) (p : problems) : list string * problems := p_getitem k p.
Definition p_len (p : problems) : nat := length p.
(** MutableMapping.update with a mapping. *)
Definition p_update (other : problems) (p : problems) : problems :=
  fold_left (fun acc e => p_setitem (KText (fst e)) (PList (snd e)) acc) other p.
(** _containers.py:352-354. *)
Definition p_init (kw : problems) : problems := p_update kw [].

(** ** JacobianData and InternalData (_containers.py:381-506)
    A field is a Python list of rows until _finalise turns it into an array of the same rows.  The model keeps
    the rows; [size] 0 gives an array of no rows and the standard row shape.  Rows of unequal shape cannot be
    made an array (ValueError). *)
Definition NCOMP : nat := 11.  (* len(ODEIndex) *)
Definition row := list R.
Definition width (a : list row) : nat := match a with [] => NCOMP | r :: _ => length r end.
Definition uniform (a : list row) : bool := forallb (fun r => Nat.eqb (length r) (width a)) a.
Definition finalise_rows (a : list row) : res (list row) :=
  if forallb (fun r => Nat.eqb (length r) 0) a then Ok [] else if uniform a then Ok a else Raise ValueError.
Definition concat_rows (a b : list row) : res (list row) :=
  if Nat.eqb (width a) (width b) then Ok (a ++ b) else Raise ValueError.
(** A Jacobian: its two dimensions and its entries. *)
Record mat := mk_mat { m_dim : nat * nat; m_data : list R }.
Definition mat_size (m : mat) : nat := (fst (m_dim m) * snd (m_dim m))%nat.
Definition dim_eqb (a b : nat * nat) : bool := Nat.eqb (fst a) (fst b) && Nat.eqb (snd a) (snd b).
Definition mdim (a : list mat) : nat * nat := match a with [] => (NCOMP, NCOMP) | m :: _ => m_dim m end.
Definition finalise_mats (a : list mat) : res (list mat) :=
  if forallb (fun m => Nat.eqb (mat_size m) 0) a then Ok []
  else if forallb (fun m => dim_eqb (m_dim m) (mdim a)) a then Ok a else Raise ValueError.
Definition concat_mats (a b : list mat) : res (list mat) :=
  if dim_eqb (mdim a) (mdim b) then Ok (a ++ b) else Raise ValueError.

Record jacobian_data := mk_jd { jd_jacobians : list mat; jd_derivs : list row; jd_params : list row; jd_angles : list R }.
(** _containers.py:390-407. *)
Definition jd_finalise (j : jacobian_data) : res jacobian_data :=
  let! d := finalise_rows (jd_derivs j) in
  let! p := finalise_rows (jd_params j) in
  let! m := finalise_mats (jd_jacobians j) in
  Ok (mk_jd m d p (jd_angles j)).
(** _containers.py:409-419.  The operands are finalised in place, which keeps their rows. *)
Definition jd_add (a b : jacobian_data) : res jacobian_data :=
  let! a := jd_finalise a in
  let! b := jd_finalise b in
  let! d := concat_rows (jd_derivs a) (jd_derivs b) in
  let! p := concat_rows (jd_params a) (jd_params b) in
  let! m := concat_mats (jd_jacobians a) (jd_jacobians b) in
  Ok (mk_jd m d p (jd_angles a ++ jd_angles b)).
(** _containers.py:421-429: in place, returning the object itself. *)
Definition jd_flip (j : jacobian_data) : jacobian_data :=
  mk_jd (rev (jd_jacobians j)) (rev (jd_derivs j)) (rev (jd_params j)) (rev (jd_angles j)).

Record internal_data := mk_id {
  id_derivs : list row; id_params : list row; id_angles : list R; id_jacobian_data : jacobian_data;
  id_v_r_normal : list R; id_v_φ_normal : list R; id_ρ_normal : list R;
  id_v_r_taylor : list R; id_v_φ_taylor : list R; id_ρ_taylor : list R; id_problems : problems }.
(** _containers.py:450-470. *)
Definition id_finalise (i : internal_data) : res internal_data :=
  let! d := finalise_rows (id_derivs i) in
  let! p := finalise_rows (id_params i) in
  let! j := jd_finalise (id_jacobian_data i) in
  Ok (mk_id d p (id_angles i) j (id_v_r_normal i) (id_v_φ_normal i) (id_ρ_normal i)
            (id_v_r_taylor i) (id_v_φ_taylor i) (id_ρ_taylor i) (id_problems i)).
(** _containers.py:472-489. *)
Definition id_add (a b : internal_data) : res internal_data :=
  let! a := id_finalise a in
  let! b := id_finalise b in
  let problems := p_update (id_problems b) (p_init (id_problems a)) in
  let! d := concat_rows (id_derivs a) (id_derivs b) in
  let! p := concat_rows (id_params a) (id_params b) in
  let! j := jd_add (id_jacobian_data a) (id_jacobian_data b) in
  Ok (mk_id d p (id_angles a ++ id_angles b) j
    (id_v_r_normal a ++ id_v_r_normal b) (id_v_φ_normal a ++ id_v_φ_normal b) (id_ρ_normal a ++ id_ρ_normal b)
    (id_v_r_taylor a ++ id_v_r_taylor b) (id_v_φ_taylor a ++ id_v_φ_taylor b) (id_ρ_taylor a ++ id_ρ_taylor b) problems).
(** _containers.py:491-506: in place, returning the object itself. *)
Definition id_flip (i : internal_data) : res internal_data :=
  let! i := id_finalise i in
  Ok (mk_id (rev (id_derivs i)) (rev (id_params i)) (rev (id_angles i)) (jd_flip (id_jacobian_data i))
    (rev (id_v_r_normal i)) (rev (id_v_φ_normal i)) (rev (id_ρ_normal i))
    (rev (id_v_r_taylor i)) (rev (id_v_φ_taylor i)) (rev (id_ρ_taylor i)) (id_problems i)).
(** The two closures that fill it: solve/solution.py:285-294 (each completed call of the right-hand side) and
    316-329 (each call of the Jacobian viewer), and the problems recorded by solution.py:136-147. *)
Record rhs_record := mk_rec { rc_θ : R; rc_params : row; rc_derivs : row; rc_v_r_normal : R; rc_v_φ_normal : R; rc_ρ_normal : R;
  rc_v_r_taylor : R; rc_v_φ_taylor : R; rc_ρ_taylor : R }.
Definition id_record (c : rhs_record) (i : internal_data) : internal_data :=
  mk_id (id_derivs i ++ [rc_derivs c]) (id_params i ++ [rc_params c]) (id_angles i ++ [rc_θ c]) (id_jacobian_data i)
    (id_v_r_normal i ++ [rc_v_r_normal c]) (id_v_φ_normal i ++ [rc_v_φ_normal c]) (id_ρ_normal i ++ [rc_ρ_normal c])
    (id_v_r_taylor i ++ [rc_v_r_taylor c]) (id_v_φ_taylor i ++ [rc_v_φ_taylor c]) (id_ρ_taylor i ++ [rc_ρ_taylor c]) (id_problems i).
Definition id_problem (θ : pkey) (s : string) (i : internal_data) : internal_data :=
  mk_id (id_derivs i) (id_params i) (id_angles i) (id_jacobian_data i)
    (id_v_r_normal i) (id_v_φ_normal i) (id_ρ_normal i) (id_v_r_taylor i) (id_v_φ_taylor i) (id_ρ_taylor i)
    (p_append θ s (id_problems i)).
Definition id_record_jacobian (θ : R) (params derivs : row) (jac : mat) (i : internal_data) : internal_data :=
  let j := id_jacobian_data i in
  mk_id (id_derivs i) (id_params i) (id_angles i)
    (mk_jd (jd_jacobians j ++ [jac]) (jd_derivs j ++ [derivs]) (jd_params j ++ [params]) (jd_angles j ++ [θ]))
    (id_v_r_normal i) (id_v_φ_normal i) (id_ρ_normal i) (id_v_r_taylor i) (id_v_φ_taylor i) (id_ρ_taylor i) (id_problems i).
Definition id_new : internal_data := mk_id [] [] [] (mk_jd [] [] [] []) [] [] [] [] [] [] [].

(** ** InitialConditions.create_modified (_containers.py:698-709); the constructor is [init_conditions]. *)
Definition evolve (changes : dict val) (fs : dict val) : dict val := dupdate fs changes.
Definition create_modified (init_con angles : val) (self : val) : res val :=
  match self with
  | VObj c fs =>
      if String.eqb c "InitialConditions"
      then init_conditions (evolve [("init_con", init_con); ("angles", angles); ("η_O", VNone); ("η_A", VNone); ("η_H", VNone)] fs)
      else Raise AttributeError
  | _ => Raise AttributeError
  end.
