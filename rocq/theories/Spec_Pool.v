(** What a batch means without workers: the tasks one after another, and the results handled in the order of the inputs. *)
From Coq Require Import List.
From Verif Require Import Lib_Py.
Import ListNotations.

Section Batch.
Context {W A E : Type}.
(** Handling the results in order: what is written, and the first exception, of a task or of the handling, which ends it. *)
Fixpoint handled (body : A -> list E * option exn) (results : list (res A)) : list E * option exn :=
  match results with
  | [] => ([], None)
  | Raise e :: _ => ([], Some e)
  | Ok a :: t =>
      match body a with
      | (es, Some e) => (es, Some e)
      | (es, None) => (es ++ fst (handled body t), snd (handled body t))
      end
  end.
(** Doing the tasks in this order. *)
Fixpoint done_in (task : nat -> W -> W * res A) (order : list nat) (w : W) : W * list (nat * res A) :=
  match order with
  | [] => (w, [])
  | i :: t => let (w1, r) := task i w in let (w2, l) := done_in task t w1 in (w2, (i, r) :: l)
  end.
End Batch.
(** [l] begins with [p]. *)
Definition begins_with {E : Type} (p l : list E) : Prop := exists rest, l = p ++ rest.
