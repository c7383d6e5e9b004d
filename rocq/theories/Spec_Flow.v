(** What saved and drawn trajectories should be. *)
From Coq Require Import String Ascii List Bool Reals.
From Verif Require Import Lib_Py Model_Index Model_Trajectory Spec_Trajectory Model_Flow.
Import ListNotations.
Open Scope R_scope. Open Scope string_scope. Open Scope list_scope.

(** The angle of a position above the midplane. *)
Definition polar (p : pt) : R := arctan2 (snd p) (fst p).
(** A position is inside a solution when the solution reaches its angle. *)
Definition inside (s : fsoln) (p : pt) : Prop := exists a, In a (fl_angles s) /\ polar p <= a.
(** The row of the solution used at a position: that of the first angle not below. *)
Definition sampled (s : fsoln) (p : pt) (row : vec) : Prop :=
  exists before a after, fl_angles s = before ++ a :: after /\ Forall (fun b => b < polar p) before /\ polar p <= a /\
    nth_error (fl_rows s) (List.length before) = Some row.
(** [l] is the line of the field with components [r] and [θ] from [start]: directions and positions, in order.  Every position is inside
    and comes with the direction of the field there, a unit vector; the first is [start]; neighbours are one step apart (Spec_Trajectory);
    and there are [n] positions unless a step and a hundredth of it lead outside. *)
Definition is_line (s : fsoln) (r θ : nat) (start : pt) (n : nat) (step : R) (l : list (pt * pt)) : Prop :=
  (List.length l <= n)%nat /\
  (forall v p, In (v, p) l -> exists row, sampled s p row /\ fst v ^ 2 + snd v ^ 2 = 1 /\
      (p <> (0, 0) -> (row r <> 0 \/ row θ <> 0) -> v = direction p (row r) (row θ))) /\
  ((0 < n)%nat -> exists v t, l = (v, start) :: t /\ steps step (v, start) t) /\
  ((List.length l < n)%nat -> exists front v p k, l = front ++ [(v, p)] /\
      ~ inside s (move p (step / 100 ^ k) v) /\ ~ inside s (move p (step / 100 ^ S k) v)).

(** ** Files *)
Definition newline_text : string := String (ascii_of_nat 10) "".
Definition quote_text : string := String (ascii_of_nat 34) "".
(** A row: every entry in quotes, commas between. *)
Fixpoint entries (l : list string) : string :=
  match l with
  | [] => ""
  | [x] => (quote_text ++ x ++ quote_text)%string
  | x :: t => (quote_text ++ x ++ quote_text ++ "," ++ entries t)%string
  end.
Fixpoint lines_text (rows : list (list string)) : string :=
  match rows with [] => "" | r :: t => (entries r ++ newline_text ++ lines_text t)%string end.
(** A saved table: where it comes from, then the rows, the first of them names. *)
Definition table (filename range : string) (rows : list (list string)) : string :=
  ("#filename=" ++ filename ++ newline_text ++ "#soln_range=" ++ range ++ newline_text ++ lines_text rows)%string.
Definition range_text (soln_range : option string) : string := match soln_range with Some r => r | None => "None" end.
(** Texts without quotation marks. *)
Fixpoint unquoted (s : string) : Prop :=
  match s with EmptyString => True | String c t => c <> ascii_of_nat 34 /\ unquoted t end.
Definition point_entries (text : R -> string) (vp : pt * pt) : list string :=
  [text (fst (fst vp)); text (snd (fst vp)); text (fst (snd vp)); text (snd (snd vp))].
Definition maybe (text : R -> string) (o : option R) : string := match o with Some x => text x | None => "" end.
(** The greatest of some numbers. *)
Definition greatest (m : R) (l : list R) : Prop := In m l /\ forall x, In x l -> x <= m.
