(** Values, text converters, constructors and the HDF5 representation of the containers.

    Models src/disc_solver/file_format/_containers.py (text converters, attrs constructors, InitialConditions),
    _utils.py, _dumpers.py and _loaders.py.  The tables of Model_FormatTables.v are generated from those files.

    h5preserve and h5py are not part of the repository; their behaviour is read as follows (trusted):
    - an attribute of a group comes back with the value it was given; None, objects and lists of text cannot be
      attributes (h5py raises TypeError);
    - an item that is None, a bool, an int or a str comes back as itself; a NumPy number or array comes back
      inside a DatasetContainer, whose "data" entry is the number or array;
    - an item of a registered class is written by its dumper and read by the loader registered for the class
      label and version stored with it;
    - the entries of a group are iterated in an order that need not be the order of insertion ([e_order]).
    Integers and booleans written as attributes come back as NumPy scalars of equal value; the model does not
    distinguish these from the Python ones. *)
From Coq Require Import String List Bool ZArith Arith Ascii Reals.
From Verif Require Import Lib_Py Model_FormatTables.
Import ListNotations.
Open Scope string_scope. Open Scope list_scope.

Inductive val :=
| VNone | VBool (b : bool) | VInt (z : Z) | VText (s : string)
| VNum (x : option R)                                    (* a NumPy float; None is NaN *)
| VArr (shape : list nat) (data : list (option R))       (* a NumPy array *)
| VTexts (l : list string)                               (* a list of str (the values of Problems) *)
| VBoxed (v : val)                                       (* h5preserve's DatasetContainer *)
| VObj (c : string) (fs : list (string * val)).          (* an instance of a class of _containers.py, or a slice *)

(** A node of the file. *)
Inductive h5 :=
| HNone | HBool (b : bool) | HInt (z : Z) | HText (s : string) | HData (v : val) | HTexts (l : list string)
| HGroup (c : string) (version : nat) (attrs : list (string * val)) (items : list (string * h5)).

(** What the model leaves open: Python's eval, the text of a Fraction difference (_utils.py:14-18), str of a value
    that is not a bool, None, int or str, the iteration order of a group, and whether Solutions caches the values
    it reads (_containers.py:518-527: false when the environment variable NO_CACHE is set). *)
Record env := mk_env {
  e_eval : string -> res val; e_str_β_to_γ : val -> res val; e_str : val -> string;
  e_order : list (string * res val) -> list (string * res val); e_cache : bool }.

(** s.split(c) for a one-character separator. *)
Fixpoint split_on (c : ascii) (s : string) : list string :=
  match s with
  | EmptyString => [""]
  | String a t => if Ascii.eqb a c then "" :: split_on c t
                  else match split_on c t with w :: ws => String a w :: ws | [] => [String a ""] end
  end.
Fixpoint str_in (s : string) (l : list string) : bool :=
  match l with [] => false | x :: t => String.eqb s x || str_in s t end.
Definition mcmc_obj (r a k : val) : val := VObj "MCMCVars" [("with_v_r", r); ("with_v_a", a); ("with_v_k", k)].
Definition slice_obj (a b s : val) : val := VObj "slice" [("start", a); ("stop", b); ("step", s)].

(** _containers.py:21-34. *)
Definition mcmc_vars_str_to_obj (v : val) : res val :=
  match v with
  | VNone => Ok VNone
  | VText s =>
      if String.eqb s "None" then Ok VNone else
      let split_str := split_on "," (strip s) in
      Ok (mcmc_obj (VBool (str_in "v_r" split_str)) (VBool (str_in "v_a" split_str)) (VBool (str_in "v_k" split_str)))
  | VObj c _ => if String.eqb c "MCMCVars" then Ok v else Raise AttributeError
  | _ => Raise AttributeError
  end.
(** The comprehension [int(i) for i in ...]. *)
Fixpoint ints_of (l : list string) : res (list Z) :=
  match l with
  | [] => Ok []
  | s :: t => match py_int s with
              | None => Raise ValueError
              | Some z => let! r := ints_of t in Ok (z :: r)
              end
  end.
(** slice( *args ): one argument is the stop. *)
Definition slice_of_args (l : list val) : res val :=
  match l with
  | [b] => Ok (slice_obj VNone b VNone)
  | [a; b] => Ok (slice_obj a b VNone)
  | [a; b; s] => Ok (slice_obj a b s)
  | _ => Raise TypeError
  end.
(** _containers.py:37-47. *)
Definition str_to_slice (E : env) (v : val) : res val :=
  match v with
  | VNone => Ok VNone
  | VText s =>
      if String.eqb s "None" then Ok VNone
      else if String.prefix "slice(" s then e_eval E s
      else let! l := ints_of (split_on "," (strip s)) in slice_of_args (map VInt l)
  | VObj c _ => if String.eqb c "slice" then Ok v else Raise AttributeError
  | _ => Raise AttributeError
  end.
(** _containers.py:60-66. *)
Definition replace_empty_string (v : val) : val :=
  match v with VText s => if String.eqb s "" then VText "None" else v | _ => v end.

Definition convert (E : env) (c : conv) (v : val) : res val :=
  match c with
  | CId => Ok v
  | CEmptyToNone => Ok (replace_empty_string v)
  | CMcmcVars => mcmc_vars_str_to_obj v
  | CSlice => str_to_slice E v
  end.
Definition empty_arr : val := VArr [0] [].
Definition default_value (d : dflt) : res val :=
  match d with
  | DRequired => Raise TypeError
  | DNone => Ok VNone
  | DBool b => Ok (VBool b)
  | DInt z => Ok (VInt z)
  | DText s => Ok (VText s)
  | DSlice a b => Ok (slice_obj (VInt a) (VInt b) VNone)
  | DFactory f =>
      if String.eqb f "list" then Ok empty_arr
      else if String.eqb f "JacobianData" then
        Ok (VObj "JacobianData" [("jacobians", empty_arr); ("derivs", empty_arr); ("params", empty_arr); ("angles", empty_arr)])
      else Ok (VObj f [])
  end.

(** Keyword arguments that no field takes: TypeError. *)
Fixpoint known_kwargs (names : list string) (kw : dict val) : bool :=
  match kw with [] => true | (k, _) :: t => str_in k names && known_kwargs names t end.
Fixpoint init_fields (E : env) (fs : list (string * dflt * conv)) (kw : dict val) : res (dict val) :=
  match fs with
  | [] => Ok []
  | (f, d, c) :: t =>
      let! raw := match dget f kw with Some v => Ok v | None => default_value d end in
      let! v := convert E c raw in
      let! rest := init_fields E t kw in
      Ok ((f, v) :: rest)
  end.

(** _containers.py:653-698, InitialConditions.__init__. *)
Definition ic_fields : list string := ["norm_kepler_sq"; "η_O"; "η_A"; "η_H"; "γ"; "init_con"; "angles"; "a_0"].
Definition required (k : string) (kw : dict val) : res val :=
  match dget k kw with Some v => Ok v | None => Raise TypeError end.
Definition optional (k : string) (kw : dict val) : val := match dget k kw with Some v => v | None => VNone end.
(** The number in a value, for comparison or storing in a float array (None becomes NaN). *)
Definition as_num (v : val) : option (option R) :=
  match v with VNum x => Some x | VInt z => Some (Some (IZR z)) | VNone => Some None | _ => None end.
Definition py_ne (v : val) (x : option R) : bool :=
  match v, as_num v, x with
  | VNone, _, _ => true
  | _, Some (Some a), Some b => if Req_EM_T a b then false else true
  | _, _, _ => true
  end.
Definition item_of (data : list (option R)) (i : nat) : res (option R) :=
  match nth_error data i with Some x => Ok x | None => Raise IndexError end.
Definition check_η (η : val) (data : list (option R)) (i : nat) : res val :=
  let! x := item_of data i in
  match η with
  | VNone => Ok (VNum x)
  | _ => if py_ne η x then Raise RuntimeError else Ok η
  end.
Definition slot (v : val) : res (option R) := match as_num v with Some x => Ok x | None => Raise TypeError end.
Definition init_conditions (kw : dict val) : res val :=
  if negb (known_kwargs ic_fields kw) then Raise TypeError else
  let! norm_kepler_sq := required "norm_kepler_sq" kw in
  let! γ := required "γ" kw in
  let! init_con := required "init_con" kw in
  let! angles := required "angles" kw in
  let! a_0 := required "a_0" kw in
  let η_O := optional "η_O" kw in let η_A := optional "η_A" kw in let η_H := optional "η_H" kw in
  match init_con with
  | VArr [n] data =>
      let! parts :=
        if Nat.eqb n 8 then
          let! o := slot η_O in let! a := slot η_A in let! h := slot η_H in
          Ok (VArr [11] (data ++ [o; a; h]), (η_O, η_A, η_H))
        else
          let! o := check_η η_O data 8 in let! a := check_η η_A data 9 in let! h := check_η η_H data 10 in
          Ok (init_con, (o, a, h)) in
      let '(ic, (o, a, h)) := parts in
      Ok (VObj "InitialConditions"
        [("norm_kepler_sq", norm_kepler_sq); ("η_O", o); ("η_A", a); ("η_H", h); ("γ", γ); ("init_con", ic);
         ("angles", angles); ("a_0", a_0)])
  | _ => Raise TypeError
  end.

(** Calling a class with keyword arguments. *)
Definition construct (E : env) (c : string) (kw : dict val) : res val :=
  if String.eqb c "InitialConditions" then init_conditions kw else
  match class_fields c with
  | None => Raise OtherError
  | Some fs =>
      if known_kwargs (map (fun f => fst (fst f)) fs) kw
      then let! l := init_fields E fs kw in Ok (VObj c l) else Raise TypeError
  end.

(** ** Reading *)
(** v["data"]: only a DatasetContainer has it. *)
Definition unbox (v : val) : res val := match v with VBoxed w => Ok w | _ => Raise TypeError end.
(** _utils.py:28-35. *)
Definition ensure_fully_loaded (v : val) : val := match v with VBoxed w => w | _ => v end.
Definition get_item (k : string) (items : list (string * res val)) : res val :=
  match dget k items with Some r => r | None => Raise KeyError end.
Definition β_to_γ (v : val) : res val :=
  match v with
  | VNum (Some b) => Ok (VNum (Some (5/4 - b)%R))
  | VNum None => Ok (VNum None)
  | VInt z => Ok (VNum (Some (5/4 - IZR z)%R))
  | _ => Raise TypeError
  end.
(** None if v is None else v["data"] (respectively ensure_fully_loaded(v)), as in _loaders.py:1114-1133. *)
Definition none_or_data (v : val) : res val := match v with VNone => Ok VNone | _ => unbox v end.
Definition none_or_full (v : val) : res val := match v with VNone => Ok VNone | _ => Ok (ensure_fully_loaded v) end.
Definition eval_lexpr (E : env) (attrs : dict val) (items : list (string * res val)) (e : lexpr) : res val :=
  match e with
  | LAttr k => dgetitem k attrs
  | LItem k => get_item k items
  | LData k => let! v := get_item k items in unbox v
  | LFull k => let! v := get_item k items in Ok (ensure_fully_loaded v)
  | LOpt k => let! v := get_item k items in none_or_data v
  | LOptFull k => let! v := get_item k items in none_or_full v
  | LNone => Ok VNone
  | LText s => Ok (VText s)
  | LNan => Ok (VNum None)
  | LβNum k => let! v := dgetitem k attrs in β_to_γ v
  | LβText k => let! v := dgetitem k attrs in e_str_β_to_γ E v
  end.
Fixpoint eval_kwargs (E : env) (attrs : dict val) (items : list (string * res val)) (t : list (string * lexpr)) : res (dict val) :=
  match t with
  | [] => Ok []
  | (k, e) :: t' =>
      let! v := eval_lexpr E attrs items e in
      let! r := eval_kwargs E attrs items t' in
      Ok ((k, v) :: r)
  end.

Definition getattr (f : string) (v : val) : res val :=
  match v with VObj _ fs => match dget f fs with Some x => Ok x | None => Raise AttributeError end | _ => Raise AttributeError end.
Definition setattr (f : string) (x : val) (v : val) : res val :=
  match v with VObj c fs => Ok (VObj c (dset f x fs)) | _ => Raise AttributeError end.
Definition py_str (E : env) (v : val) : string :=
  match v with
  | VNone => "None" | VBool true => "True" | VBool false => "False" | VText s => s | _ => e_str E v
  end.
(** if soln.solution_input.use_E_r is None: soln.solution_input.use_E_r = use_E_r (_loaders.py:1264-1266). *)
Definition fill_solution (use_E_r : val) (soln : val) : res val :=
  let! si := getattr "solution_input" soln in
  let! u := getattr "use_E_r" si in
  match u with
  | VNone => let! si' := setattr "use_E_r" use_E_r si in setattr "solution_input" si' soln
  | _ => Ok soln
  end.
Fixpoint fill_all (use_E_r : val) (d : dict val) : res (dict val) :=
  match d with
  | [] => Ok []
  | (k, s) :: t => let! s' := fill_solution use_E_r s in let! t' := fill_all use_E_r t in Ok ((k, s') :: t')
  end.
(** _loaders.py:1223-1240 and 1255-1272, before the constructor call.  The loop reads each solution with
    Solutions.__getitem__; what it assigns stays only if that caches the value. *)
Definition run_prologue (E : env) (items : list (string * res val)) : res (list (string * res val)) :=
  let! use_E_r := get_item "use_E_r" items in
  let! config_input := get_item "config_input" items in
  let! cu := getattr "use_E_r" config_input in
  let! config_input' :=
    match cu with VNone => setattr "use_E_r" (VText (py_str E use_E_r)) config_input | _ => Ok config_input end in
  let! solutions := get_item "solutions" items in
  let! solutions' :=
    match solutions with
    | VObj c d => if String.eqb c "Solutions"
                  then let! d' := fill_all use_E_r d in Ok (VObj c (if e_cache E then d' else d))
                  else Raise AttributeError
    | _ => Raise AttributeError
    end in
  let! final_solution := get_item "final_solution" items in
  let! final_solution' := match final_solution with VNone => Ok VNone | _ => fill_solution use_E_r final_solution end in
  Ok (dset "final_solution" (Ok final_solution') (dset "solutions" (Ok solutions')
        (dset "config_input" (Ok config_input') items))).

(** _containers.py:359-363 with a list: problems[key].extend(val). *)
Definition problems_extend (k : string) (l : list string) (d : dict val) : dict val :=
  match dget k d with
  | Some (VTexts l0) => dset k (VTexts (l0 ++ l)) d
  | _ => dset k (VTexts l) d
  end.
(** _loaders.py:1292-1299. *)
Fixpoint load_problems (acc : dict val) (items : list (string * res val)) : res (dict val) :=
  match items with
  | [] => Ok acc
  | (k, r) :: t =>
      let! v := r in let! w := unbox v in
      match w with VTexts l => load_problems (problems_extend k l acc) t | _ => Raise TypeError end
  end.
(** _loaders.py:1312-1314: Solutions( **group ).  A failing solution is reported here; the code reports it when the
    solution is first read. *)
Fixpoint load_solutions (acc : dict val) (items : list (string * res val)) : res (dict val) :=
  match items with
  | [] => Ok acc
  | (k, r) :: t => let! v := r in load_solutions (dset k v acc) t
  end.
Definition load_group (E : env) (c : string) (version : nat) (attrs : dict val) (items : list (string * res val)) : res val :=
  if String.eqb c "Problems" then
    if Nat.eqb version 1 then let! d := load_problems [] (e_order E items) in Ok (VObj c d) else Raise OtherError
  else if String.eqb c "Solutions" then
    if Nat.eqb version 1 then let! d := load_solutions [] (e_order E items) in Ok (VObj c d) else Raise OtherError
  else
  match loader c version with
  | None => Raise OtherError
  | Some t =>
      let! items' := if String.eqb c "Run" && (5 <=? version)%nat then run_prologue E items else Ok items in
      let! kw := eval_kwargs E attrs items' t in
      construct E c kw
  end.
Fixpoint load (E : env) (h : h5) : res val :=
  match h with
  | HNone => Ok VNone | HBool b => Ok (VBool b) | HInt z => Ok (VInt z) | HText s => Ok (VText s)
  | HData v => Ok (VBoxed v)
  | HTexts l => Ok (VBoxed (VTexts l))
  | HGroup c version attrs items =>
      load_group E c version attrs
        ((fix go (l : list (string * h5)) : list (string * res val) :=
            match l with [] => [] | (k, x) :: t => (k, load E x) :: go t end) items)
  end.

(** ** Writing *)
Definition attr_storable (v : val) : bool :=
  match v with VBool _ | VInt _ | VText _ | VNum _ | VArr _ _ => true | _ => false end.
Fixpoint dump_attrs (t : list (string * string)) (fs : dict val) : res (dict val) :=
  match t with
  | [] => Ok []
  | (k, f) :: t' =>
      match dget f fs with
      | None => Raise AttributeError
      | Some v => if attr_storable v then let! r := dump_attrs t' fs in Ok ((k, v) :: r) else Raise TypeError
      end
  end.
Fixpoint dump_items (t : list (string * string)) (stored : list (string * res h5)) : res (list (string * h5)) :=
  match t with
  | [] => Ok []
  | (k, f) :: t' =>
      match dget f stored with
      | None => Raise AttributeError
      | Some r => let! h := r in let! rest := dump_items t' stored in Ok ((k, h) :: rest)
      end
  end.
Fixpoint all_items (stored : list (string * res h5)) : res (list (string * h5)) :=
  match stored with
  | [] => Ok []
  | (k, r) :: t => let! h := r in let! rest := all_items t in Ok ((k, h) :: rest)
  end.
(** _dumpers.py; Problems and Solutions (168-175, 191-193) store each entry under its key.  _finalise turns the lists of InternalData and JacobianData into arrays: here they are arrays. *)
Definition store_group (c : string) (fs : dict val) (stored : list (string * res h5)) : res h5 :=
  if String.eqb c "Problems" || String.eqb c "Solutions" then
    let! items := all_items stored in Ok (HGroup c (dump_version c) [] items)
  else
  match dumper c with
  | None => Raise OtherError
  | Some t =>
      let! attrs := dump_attrs (fst t) fs in
      let! items := dump_items (snd t) stored in
      Ok (HGroup c (dump_version c) attrs items)
  end.
Fixpoint store (v : val) : res h5 :=
  match v with
  | VNone => Ok HNone | VBool b => Ok (HBool b) | VInt z => Ok (HInt z) | VText s => Ok (HText s)
  | VNum _ | VArr _ _ => Ok (HData v)
  | VTexts l => Ok (HTexts l)
  | VBoxed w => Ok (HData w)
  | VObj c fs =>
      store_group c fs
        ((fix go (l : list (string * val)) : list (string * res h5) :=
            match l with [] => [] | (k, x) :: t => (k, store x) :: go t end) fs)
  end.
(** Writing an object and reading it back. *)
Definition save_and_load (E : env) (v : val) : res val := let! h := store v in load E h.
