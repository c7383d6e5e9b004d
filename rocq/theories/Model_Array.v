(** Array helpers.

    Models src/disc_solver/utils.py lines 397-463, src/disc_solver/solve/utils.py lines 35-51
    ([validate_solution]) and src/disc_solver/solve/stepper.py lines 48-65 ([is_solution_best]).

    A floating point number is a real or NaN ([None]); infinities and rounding are not modelled.  Every comparison
    with NaN is false, arithmetic with NaN gives NaN. *)
From Coq Require Import Reals List Bool Arith.
Import ListNotations.
Open Scope R_scope.

Definition num := option R.
Definition Rltb (x y : R) : bool := if Rlt_dec x y then true else false.
Definition Rleb (x y : R) : bool := if Rle_dec x y then true else false.
Definition Reqb (x y : R) : bool := if Req_EM_T x y then true else false.
Definition cmp (f : R -> R -> bool) (x y : num) : bool :=
  match x, y with Some a, Some b => f a b | _, _ => false end.
Definition nlt := cmp Rltb.          (* x < y *)
Definition nle := cmp Rleb.          (* x <= y *)
Definition neq := cmp Reqb.          (* x == y *)
Definition nsub (x y : num) : num := match x, y with Some a, Some b => Some (a - b) | _, _ => None end.
Definition is_nan (x : num) : bool := match x with None => true | Some _ => false end.

(** numpy.diff (first difference), applied twice for n=2. *)
Fixpoint diff (l : list num) : list num :=
  match l with
  | a :: ((b :: _) as t) => nsub b a :: diff t
  | _ => []
  end.

(** Python results of these helpers. *)
Inductive py (A : Type) := Ret (a : A) | ValueError | IndexError | Unmodelled.
Arguments Ret {A}. Arguments ValueError {A}. Arguments IndexError {A}. Arguments Unmodelled {A}.

(** solve/utils.py:35-51.  The flag is compared with StatusEnum.SUCCESS = 0; v_θ and ρ are the two columns of the solution
    array that are read.  The returned solution is the argument, so only the flag is modelled. *)
Definition validate_solution (flag : Z) (v_θ ρ : list num) : bool :=
  if negb (Z.eqb flag 0) then false
  else if existsb (fun v => nlt v (Some 0)) v_θ then false
  else if existsb (fun d => nlt d (Some 0)) (diff v_θ) then false
  else if existsb (fun r => nlt r (Some 0)) ρ then false
  else true.

(** stepper.py:20: DEFAULT_SPLITTER_CUTOFF. *)
Definition DEFAULT_SPLITTER_CUTOFF : R := 9 / 10.
(** stepper.py:58: the mask [v_θ > cutoff & v_θ < 1]. *)
Definition near_sonic (cutoff : R) (v : num) : bool := nlt (Some cutoff) v && nlt v (Some 1).
(** stepper.py:48-65. *)
Definition is_solution_best (flag : Z) (v_θ ρ : list num) : bool :=
  if negb (validate_solution flag v_θ ρ) then false
  else if negb (existsb (near_sonic DEFAULT_SPLITTER_CUTOFF) v_θ) then false
  else if existsb (fun d => nlt (Some 0) d) (diff (diff (filter (near_sonic DEFAULT_SPLITTER_CUTOFF) v_θ)))
  then false else true.

(** utils.py:397-401. *)
Definition is_monotonically_increasing (l : list num) : bool := forallb (fun d => nle (Some 0) d) (diff l).

(** First index satisfying a predicate: [mask.argmax()] of a mask with some True, [isnan(a).argmin()] of one with
    some False. *)
Fixpoint find_index {A} (f : A -> bool) (l : list A) : option nat :=
  match l with
  | [] => None
  | x :: t => if f x then Some 0%nat else option_map S (find_index f t)
  end.
(** argmin of a boolean array: the first False, or 0 if all are True; ValueError on an empty array. *)
Definition argmin_isnan (l : list num) : py nat :=
  match l with
  | [] => ValueError
  | _ => Ret (match find_index (fun x => negb (is_nan x)) l with Some i => i | None => 0%nat end)
  end.

(** utils.py:404-426. *)
Definition first_closest_index (a : list num) (val : num) : py (option nat) :=
  match argmin_isnan a with
  | Ret first_nan_free_index =>
      let x := nth first_nan_free_index a None in
      if nlt x val then
        let mask := fun y => nle val y in
        if existsb mask a then Ret (find_index mask a) else Ret None
      else if nlt val x then
        let mask := fun y => nle y val in
        if existsb mask a then Ret (find_index mask a) else Ret None
      else if neq x val then Ret (Some first_nan_free_index)
      else Ret None
  | ValueError => ValueError | IndexError => IndexError | Unmodelled => Unmodelled
  end.

(** scipy.interpolate.interp1d(x, y)(x_new) with the default arguments (kind linear, bounds_error): the points are
    stably sorted by abscissa, a point outside their range raises ValueError, otherwise the bracketing interval is
    found by searchsorted (left) clipped to [1, n-1].  Fewer than two points, or NaN among them: not
    modelled. *)
Fixpoint insert_pt (p : R * R) (l : list (R * R)) : list (R * R) :=
  match l with
  | [] => [p]
  | q :: t => if Rltb (fst p) (fst q) then p :: q :: t else q :: insert_pt p t
  end.
Definition sort_pts (l : list (R * R)) : list (R * R) := fold_left (fun acc p => insert_pt p acc) l [].
(** numpy.searchsorted(xs, x) (side left): number of leading elements < x (for sorted xs: first index with xs[i] ≥ x). *)
Fixpoint searchsorted (xs : list R) (x : R) : nat :=
  match xs with
  | [] => 0%nat
  | a :: t => if Rltb a x then S (searchsorted t x) else 0%nat
  end.
Definition interp1d (pts : list (R * R)) (x_new : R) : py R :=
  let s := sort_pts pts in
  let xs := map fst s in
  let n := length s in
  if (n <? 2)%nat then Unmodelled else
  if Rltb x_new (nth 0 xs 0) then ValueError else
  if Rltb (nth (n - 1) xs 0) x_new then ValueError else
  let i := Nat.min (Nat.max (searchsorted xs x_new) 1) (n - 1) in
  let '(x_lo, y_lo) := nth (i - 1) s (0, 0) in
  let '(x_hi, y_hi) := nth i s (0, 0) in
  Ret ((y_hi - y_lo) / (x_hi - x_lo) * (x_new - x_lo) + y_lo).

(** [l[a:b]]. *)
Definition pyslice {A} (l : list A) (a b : nat) : list A := firstn (b - a) (skipn a l).
(** All numbers, or None if some are NaN. *)
Fixpoint all_nums (l : list num) : option (list R) :=
  match l with
  | [] => Some []
  | Some x :: t => option_map (cons x) (all_nums t)
  | None :: _ => None
  end.

(** utils.py:429-441. xs are the abscissae (angles), assumed NaN free and as long as ys. *)
Definition interp_for_value (xs : list R) (ys : list num) (y : R) : py (option R) :=
  match first_closest_index ys (Some y) with
  | Ret None => Ret None
  | Ret (Some initial_index) =>
      if neq (nth initial_index ys None) (Some y) then Ret (Some (nth initial_index xs 0))
      else
        let min_index := (initial_index - 1)%nat in
        match all_nums (pyslice ys min_index (initial_index + 2)) with
        | None => Unmodelled
        | Some yy =>
            match interp1d (combine yy (pyslice xs min_index (initial_index + 2))) y with
            | Ret v => Ret (Some v)
            | ValueError => ValueError | IndexError => IndexError | Unmodelled => Unmodelled
            end
        end
  | ValueError => ValueError | IndexError => IndexError | Unmodelled => Unmodelled
  end.

(** utils.py:444-454: the points handed to interp1d.  The defaultdict is an association list in insertion order. *)
Fixpoint dict_append (k v : R) (d : list (R * list R)) : list (R * list R) :=
  match d with
  | [] => [(k, [v])]
  | (k', l) :: t => if Reqb k k' then (k', l ++ [v]) :: t else (k', l) :: dict_append k v t
  end.
Fixpoint list_max (l : list R) : R :=
  match l with [] => 0 | [a] => a | a :: t => Rmax a (list_max t) end.
Definition dedup_points (x y : list R) : py (list (R * R)) :=
  let d := fold_left (fun d p => dict_append (fst p) (snd p) d) (combine x y) [] in
  match map (fun p => (fst p, list_max (snd p))) d with
  | [] => ValueError     (* zip( *[]) cannot be unpacked *)
  | l => Ret l
  end.

(** utils.py:457-463. *)
Definition get_closest_value_sorted (xs ys : list R) (x : R) : py R :=
  match nth_error ys (searchsorted xs x) with Some v => Ret v | None => IndexError end.
