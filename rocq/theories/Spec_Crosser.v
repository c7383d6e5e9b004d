(** What the crosser has done after any history of outcomes: the state it is in and the velocity it asks for next. *)
From Coq Require Import Reals.
From Verif Require Import Lib_Py Model_Array Model_Crosser.
Local Open Scope R_scope.
(** [asks step v0 st v]: starting at v0 some history of qualities leads to the state st in which v is to be tried next. *)
Inductive asks (step v0 : R) : cstate -> R -> Prop :=
| asks_start : asks step v0 c_new v0
| asks_next : forall st v q st' v', asks step v0 st v -> cross step st v q = (st', Ok v') -> asks step v0 st' v'.
(** The bisection from state [st0]: n evaluations later. *)
Inductive later (step : R) (st0 : cstate) (v0 : R) : nat -> cstate -> R -> Prop :=
| later_0 : later step st0 v0 0 st0 v0
| later_S : forall n st v q st' v', later step st0 v0 n st v -> cross step st v q = (st', Ok v') -> later step st0 v0 (S n) st' v'.
Definition inside (st : cstate) (v : R) : Prop := c_min st <= v <= c_max st.
Definition width (st : cstate) : R := c_max st - c_min st.
