(** The version that every run records.

    Models src/disc_solver/_version_.py:152-419, 604-683 for the configuration of lines 47-58 (style pep440, tag prefix "v") and
    src/disc_solver/_version.py, on which Run(disc_solver_version=...) in solve/__init__.py, solve/resolve.py and solve/hdf5runner.py
    depends.  git is an argument: what each of its commands answers.  Not modelled: the date, the branch (the style does not use
    it, only whether git can name it), verbose output, the other styles (lines 422-601), git_get_keywords (used by setup.py only),
    an installation without __file__.  Strings are ASCII. *)
From Coq Require Import String List Bool ZArith Arith Ascii.
From Verif Require Import Lib_Py.
Import ListNotations.
Open Scope string_scope. Open Scope list_scope.

(** s.startswith(p) is [prefix p s]; s.endswith(p): *)
Definition endswith (s p : string) : bool :=
  (String.length p <=? String.length s)%nat && String.eqb (substring (String.length s - String.length p) (String.length p) s) p.
(** c in s *)
Fixpoint contains (c : ascii) (s : string) : bool := match s with EmptyString => false | String x t => Ascii.eqb x c || contains c t end.
(** s.split(c) for one character c. *)
Fixpoint split (c : ascii) (s : string) : list string :=
  match s with
  | EmptyString => [EmptyString]
  | String x t => if Ascii.eqb x c then EmptyString :: split c t
                  else match split c t with [] => [String x EmptyString] | h :: r => String x h :: r end
  end.
(** s.strip("()") *)
Definition is_paren (c : ascii) : bool := Ascii.eqb c "(" || Ascii.eqb c ")".
Fixpoint lstrip_parens (s : string) : string :=
  match s with String c t => if is_paren c then lstrip_parens t else s | EmptyString => EmptyString end.
Fixpoint rstrip_parens (s : string) : string :=
  match s with
  | EmptyString => EmptyString
  | String c t => match rstrip_parens t with
                  | EmptyString => if is_paren c then EmptyString else String c EmptyString
                  | t' => String c t'
                  end
  end.
Definition strip_parens (s : string) : string := rstrip_parens (lstrip_parens s).
(** s[n:] *)
Definition drop (n : nat) (s : string) : string := substring n (String.length s - n) s.
(** [0-9a-f] *)
Definition is_hex (c : ascii) : bool := is_digit c || ((97 <=? nat_of_ascii c)%nat && (nat_of_ascii c <=? 102)%nat).
Fixpoint all_hex (s : string) : bool := match s with EmptyString => true | String c t => is_hex c && all_hex t end.
(** The longest start of s that is made of digits, and the rest. *)
Fixpoint span_digits (s : string) : string * string :=
  match s with
  | String c t => if is_digit c then let '(a, b) := span_digits t in (String c a, b) else (EmptyString, s)
  | EmptyString => (EmptyString, EmptyString)
  end.
Definition nonempty (s : string) : bool := match s with EmptyString => false | _ => true end.

(** _version_.py:356, the part -(\d+)-g([0-9a-f]+)$ of the pattern at the start of s. *)
Definition match_tail (s : string) : option (string * string) :=
  match s with
  | String c t =>
      if Ascii.eqb c "-" then
        let '(n, r) := span_digits t in
        if nonempty n && prefix "-g" r && nonempty (drop 2 r) && all_hex (drop 2 r) then Some (n, drop 2 r) else None
      else None
  | EmptyString => None
  end.
(** _version_.py:356, re.search(r'^(.+)-(\d+)-g([0-9a-f]+)$', s): the first group is greedy, so the last place is tried first.
    (A tag has no line break.) *)
Fixpoint search_describe (group1 s : string) : option (string * string * string) :=
  match s with
  | EmptyString => None
  | String c t =>
      match search_describe (group1 ++ String c EmptyString) t with
      | Some r => Some r
      | None => if nonempty group1 then match match_tail s with Some (n, h) => Some (group1, n, h) | None => None end else None
      end
  end.

(** What git answers in the source tree; None is a failure. *)
Record git_answers := mk_git {
  g_git_dir : bool;             (* rev-parse --git-dir *)
  g_describe : option string;   (* describe --tags --dirty --always --long --match v[[:digit:]]* *)
  g_head : option string;       (* rev-parse HEAD *)
  g_branch : bool;              (* rev-parse --abbrev-ref HEAD, and branch --contains if that is HEAD *)
  g_commits : nat }.            (* number of lines of rev-list HEAD --left-right *)

(** _version_.py:312-387, the dictionary [pieces]: its error, or what it says. *)
Inductive pieces := P_error | P_ok (closest_tag : option string) (distance : nat) (short : string) (dirty : bool).

(** _version_.py:252-387; None is NotThisMethod. *)
Definition git_pieces_from_vcs (tag_prefix : string) (g : git_answers) : option pieces :=
  if negb (g_git_dir g) then None else
  match g_describe g, g_head g with
  | Some describe_out, Some full_out =>
      let describe_out := strip describe_out in
      let full_out := strip full_out in
      if negb (g_branch g) then None else
      let dirty := endswith describe_out "-dirty" in
      (* the last "-dirty" of a string that ends so is its end *)
      let git_describe := if dirty then substring 0 (String.length describe_out - 6) describe_out else describe_out in
      if contains "-" git_describe then
        match search_describe "" git_describe with
        | None => Some P_error
        | Some (full_tag, n, h) =>
            if negb (prefix tag_prefix full_tag) then Some P_error else
            Some (P_ok (Some (drop (String.length tag_prefix) full_tag))
                    (match py_int n with Some z => Z.to_nat z | None => 0%nat end) h dirty)
        end
      else Some (P_ok None (g_commits g) (substring 0 7 full_out) dirty)
  | _, _ => None
  end.

(** _version_.py:390-394. *)
Definition plus_or_dot (closest_tag : string) : string := if contains "+" closest_tag then "." else "+".

(** _version_.py:397-419. *)
Definition render_pep440 (closest_tag : option string) (distance : nat) (short : string) (dirty : bool) : string :=
  match closest_tag with
  | Some (String c t) =>
      let rendered := String c t in
      if negb (distance =? 0)%nat || dirty then
        let rendered := (rendered ++ plus_or_dot (String c t))%string in
        let rendered := (rendered ++ (str_of_nat distance ++ ".g" ++ short))%string in
        if dirty then (rendered ++ ".dirty")%string else rendered
      else rendered
  | _ =>
      let rendered := ("0+untagged." ++ str_of_nat distance ++ ".g" ++ short)%string in
      if dirty then (rendered ++ ".dirty")%string else rendered
  end.

(** _version_.py:604-637 for the style pep440: the version. *)
Definition render (p : pieces) : string :=
  match p with P_error => "unknown" | P_ok closest_tag distance short dirty => render_pep440 closest_tag distance short dirty end.

(** sorted() of strings: by code points. *)
Fixpoint insert (x : string) (l : list string) : list string :=
  match l with [] => [x] | y :: t => if String.leb x y then x :: l else y :: insert x t end.
Definition sorted (l : list string) : list string := fold_right insert [] l.
Definition starts_with_digit (s : string) : bool := match s with String c _ => is_digit c | EmptyString => false end.
Fixpoint has_digit (s : string) : bool := match s with EmptyString => false | String c t => is_digit c || has_digit t end.

(** _version_.py:229-244, the loop over the sorted tags. *)
Fixpoint pick (tag_prefix : string) (tags : list string) : option string :=
  match tags with
  | [] => None
  | ref :: rest =>
      if prefix tag_prefix ref then
        let r := drop (String.length tag_prefix) ref in
        if negb (starts_with_digit r) then pick tag_prefix rest else Some r
      else pick tag_prefix rest
  end.

(** _version_.py:184-249: the version; None is NotThisMethod.  The sets of lines 208-224 are lists here: repetitions do not
    change what the loop picks. *)
Definition git_versions_from_keywords (refnames tag_prefix : string) : option string :=
  let refnames := strip refnames in
  if prefix "$Format" refnames then None else
  let refs := map strip (split "," (strip_parens refnames)) in
  let TAG := "tag: " in
  let tags := map (drop (String.length TAG)) (filter (prefix TAG) refs) in
  let tags := match tags with [] => filter has_digit refs | _ => tags end in
  match pick tag_prefix (sorted tags) with Some r => Some r | None => Some "0+unknown" end.

(** _version_.py:128-153: the names of the root and of the directories above it. *)
Definition versions_from_parentdir (parentdir_prefix : string) (names : list string) : option string :=
  match filter (prefix parentdir_prefix) (firstn 3 names) with
  | dirname :: _ => Some (drop (String.length parentdir_prefix) dirname)
  | [] => None
  end.

(** A source tree: the value of git_refnames in its _version_.py, what git answers in it, the names of its directory and of those above. *)
Record source_tree := mk_tree { t_refnames : string; t_git : git_answers; t_names : list string }.

(** _version_.py:640-683 and _version.py:4-5. *)
Definition version (t : source_tree) : string :=
  match git_versions_from_keywords (t_refnames t) "v" with
  | Some v => v
  | None =>
      match git_pieces_from_vcs "v" (t_git t) with
      | Some p => render p
      | None => match versions_from_parentdir "None" (t_names t) with Some v => v | None => "0+unknown" end
      end
  end.
