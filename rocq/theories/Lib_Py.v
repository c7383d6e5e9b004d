(** Python values used by several models: exceptions as results, insertion-ordered dictionaries with string keys,
    [str] of a natural number and [int] of a string.

    This file models the parts of the Python 3 language used by the code (no line of /repo): it is part of the
    trusted reading of the source. *)
From Coq Require Import String List Bool ZArith Arith Ascii Lia.
From Coq Require Import Decimal DecimalString DecimalNat DecimalFacts.
Import ListNotations.
Open Scope string_scope. Open Scope list_scope.

(** Exception classes that the modelled code raises or lets through. [OtherError] stands for any other class. *)
Inductive exn :=
| KeyError | ValueError | IndexError | RuntimeError | TypeError | AttributeError | NameError | FileExistsError
| DiscSolverError | SolverError | StepperError | StepperStop | OtherError
| NonTermination.   (* not an exception: the call does not return; no handler catches it *)

(** Result of a call: a value or an exception. *)
Inductive res (A : Type) := Ok (a : A) | Raise (e : exn).
Arguments Ok {A}. Arguments Raise {A}.
Definition rbind {A B} (r : res A) (f : A -> res B) : res B :=
  match r with Ok a => f a | Raise e => Raise e end.
Notation "'let!' x := r 'in' f" := (rbind r (fun x => f)) (at level 200, x pattern, right associativity).

(** A dict with string keys, in insertion order. *)
Definition dict (V : Type) := list (string * V).
Section Dict.
Context {V : Type}.
(** d[k] *)
Fixpoint dget (k : string) (d : dict V) : option V :=
  match d with
  | [] => None
  | (k', v) :: t => if String.eqb k k' then Some v else dget k t
  end.
Definition dgetitem (k : string) (d : dict V) : res V :=
  match dget k d with Some v => Ok v | None => Raise KeyError end.
(** k in d *)
Definition dmem (k : string) (d : dict V) : bool := match dget k d with Some _ => true | None => false end.
(** d[k] = v: an existing key keeps its position *)
Fixpoint dset (k : string) (v : V) (d : dict V) : dict V :=
  match d with
  | [] => [(k, v)]
  | (k', v') :: t => if String.eqb k k' then (k', v) :: t else (k', v') :: dset k v t
  end.
(** del d[k] *)
Fixpoint dremove (k : string) (d : dict V) : dict V :=
  match d with
  | [] => []
  | (k', v') :: t => if String.eqb k k' then t else (k', v') :: dremove k t
  end.
Definition ddel (k : string) (d : dict V) : res (dict V) :=
  if dmem k d then Ok (dremove k d) else Raise KeyError.
(** list(d) *)
Definition dkeys (d : dict V) : list string := map fst d.
(** d.update(e) *)
Definition dupdate (d e : dict V) : dict V := fold_left (fun acc p => dset (fst p) (snd p) acc) e d.
End Dict.

(** str(n) for n ≥ 0. *)
Definition str_of_nat (n : nat) : string := NilZero.string_of_uint (Nat.to_uint n).

(** int(s): surrounding ASCII white space, an optional sign, then decimal digits with single underscores between
    them.  (Non-ASCII digits and spaces are not modelled.)  None is ValueError. *)
Definition is_space (c : ascii) : bool :=
  let n := nat_of_ascii c in ((9 <=? n) && (n <=? 13) || (n =? 32) || ((28 <=? n) && (n <=? 31)))%nat.
Fixpoint lstrip (s : string) : string :=
  match s with String c t => if is_space c then lstrip t else s | EmptyString => EmptyString end.
Fixpoint rstrip (s : string) : string :=
  match s with
  | EmptyString => EmptyString
  | String c t => match rstrip t with
                  | EmptyString => if is_space c then EmptyString else String c EmptyString
                  | t' => String c t'
                  end
  end.
Definition strip (s : string) : string := rstrip (lstrip s).
Definition is_digit (c : ascii) : bool := (48 <=? nat_of_ascii c)%nat && (nat_of_ascii c <=? 57)%nat.
Fixpoint digits_val (after_digit : bool) (acc : Z) (s : string) : option Z :=
  match s with
  | EmptyString => if after_digit then Some acc else None
  | String c t =>
      if is_digit c then digits_val true (acc * 10 + (Z.of_nat (nat_of_ascii c) - 48))%Z t
      else if Ascii.eqb c "_" && after_digit then digits_val false acc t else None
  end.
Definition py_int (s : string) : option Z :=
  match strip s with
  | String c t =>
      if Ascii.eqb c "-" then option_map Z.opp (digits_val false 0 t)
      else if Ascii.eqb c "+" then digits_val false 0 t
      else digits_val false 0 (String c t)
  | EmptyString => None
  end.

(** ** Facts *)
Section DictFacts.
Context {V : Type}.
Implicit Types (d : dict V).
Lemma dget_dset_same : forall k v d, dget k (dset k v d) = Some v.
Proof.
  intros k v d; induction d as [|[k' v'] t IH]; simpl; [rewrite String.eqb_refl; reflexivity|].
  destruct (String.eqb k k') eqn:E; simpl; rewrite E; [reflexivity | exact IH].
Qed.
Lemma dget_dset_other : forall k k2 v d, k <> k2 -> dget k2 (dset k v d) = dget k2 d.
Proof.
  intros k k2 v d H; induction d as [|[k' v'] t IH]; simpl.
  - destruct (String.eqb_spec k2 k); [congruence | reflexivity].
  - destruct (String.eqb_spec k k') as [->|N]; simpl; destruct (String.eqb_spec k2 k'); try congruence; exact IH.
Qed.
Lemma dset_new : forall k v d, dget k d = None -> dset k v d = (d ++ [(k, v)])%list.
Proof.
  intros k v d; induction d as [|[k' v'] t IH]; simpl; [reflexivity|].
  destruct (String.eqb k k'); [discriminate|]. intro H. rewrite IH by exact H. reflexivity.
Qed.
Lemma dget_In : forall k v d, dget k d = Some v -> In (k, v) d.
Proof.
  intros k v d; induction d as [|[k' v'] t IH]; simpl; [discriminate|].
  destruct (String.eqb_spec k k') as [->|N]; [intros [= ->]; left; reflexivity | intro H; right; auto].
Qed.
Lemma dget_None_keys : forall k d, dget k d = None <-> ~ In k (dkeys d).
Proof.
  intros k d; induction d as [|[k' v'] t IH]; simpl; [tauto|].
  destruct (String.eqb_spec k k') as [->|N].
  - split; [discriminate | intro H; exfalso; apply H; left; reflexivity].
  - rewrite IH. split; [intros H [E|E]; [congruence | auto] | intros H E; apply H; right; exact E].
Qed.
Lemma dmem_iff : forall k d, dmem k d = true <-> In k (dkeys d).
Proof.
  intros k d. unfold dmem. destruct (dget k d) eqn:E.
  - split; [intros _ | reflexivity]. apply dget_In in E. apply (in_map fst) in E. exact E.
  - split; [discriminate|]. intro H. apply dget_None_keys in E. contradiction.
Qed.
Lemma dget_app : forall k d e, dget k (d ++ e) = match dget k d with Some v => Some v | None => dget k e end.
Proof.
  intros k d e; induction d as [|[k' v'] t IH]; simpl; [reflexivity|].
  destruct (String.eqb k k'); [reflexivity | exact IH].
Qed.
Lemma dkeys_dset : forall k v d, dkeys (dset k v d) = if dmem k d then dkeys d else (dkeys d ++ [k])%list.
Proof.
  intros k v d; unfold dmem; induction d as [|[k' v'] t IH]; simpl; [reflexivity|].
  destruct (String.eqb_spec k k') as [->|N]; simpl; [reflexivity|]. rewrite IH.
  destruct (dget k t); reflexivity.
Qed.
Lemma NoDup_dset : forall k v d, NoDup (dkeys d) -> NoDup (dkeys (dset k v d)).
Proof.
  intros k v d H. rewrite dkeys_dset. destruct (dmem k d) eqn:E; [exact H|].
  rewrite <- (rev_involutive (dkeys d ++ [k])). apply NoDup_rev. rewrite rev_app_distr. simpl.
  constructor; [|apply NoDup_rev, H]. rewrite <- in_rev. intro HI. apply dmem_iff in HI. congruence.
Qed.
Lemma In_dget : forall k v d, NoDup (dkeys d) -> In (k, v) d -> dget k d = Some v.
Proof.
  intros k v d; induction d as [|[k' v'] t IH]; simpl; [tauto|]. intros ND [H|H].
  - injection H as -> ->. rewrite String.eqb_refl. reflexivity.
  - inversion ND as [|? ? N ND']; subst. destruct (String.eqb_spec k k') as [->|_]; [|auto].
    exfalso. apply N. apply (in_map fst) in H. exact H.
Qed.
End DictFacts.

(** str and int on natural numbers. *)
Fixpoint all_digits (s : string) : bool :=
  match s with EmptyString => true | String c t => is_digit c && all_digits t end.
Lemma digits_of_uint : forall d, all_digits (NilEmpty.string_of_uint d) = true.
Proof. induction d; simpl; auto. Qed.
Lemma str_of_nat_nonempty : forall n, str_of_nat n <> "".
Proof. intro n. unfold str_of_nat. destruct (Nat.to_uint n); discriminate. Qed.
Lemma str_of_nat_digits : forall n, all_digits (str_of_nat n) = true.
Proof. intro n. unfold str_of_nat. destruct (Nat.to_uint n) eqn:E; [reflexivity|..]; rewrite <- (digits_of_uint (Nat.to_uint n)), E; reflexivity. Qed.
Lemma digit_not_space : forall c, is_digit c = true -> is_space c = false.
Proof. intros [[] [] [] [] [] [] [] []]; vm_compute; congruence. Qed.
Lemma digit_not_sign : forall c, is_digit c = true -> Ascii.eqb c "-" = false /\ Ascii.eqb c "+" = false.
Proof. intros [[] [] [] [] [] [] [] []]; vm_compute; split; congruence. Qed.
Lemma rstrip_digits : forall s, all_digits s = true -> rstrip s = s.
Proof.
  induction s as [|c t IH]; simpl; [reflexivity|]. intro H. apply andb_true_iff in H as [H1 H2].
  rewrite (IH H2). destruct t; [rewrite (digit_not_space _ H1)|]; reflexivity.
Qed.
Lemma strip_digits : forall s, all_digits s = true -> strip s = s.
Proof.
  intros s H. unfold strip. replace (lstrip s) with s; [apply rstrip_digits, H|].
  destruct s as [|c t]; [reflexivity|]. simpl in *. apply andb_true_iff in H as [H1 H2].
  rewrite (digit_not_space _ H1). reflexivity.
Qed.
Lemma digits_val_uint : forall d acc,
  digits_val true (Z.of_nat acc) (NilEmpty.string_of_uint d) = Some (Z.of_nat (Nat.of_uint_acc d acc)).
Proof.
  assert (T : forall a, Nat.tail_mul 10 a = (10 * a)%nat) by (intro; apply Nat.tail_mul_spec).
  assert (S : forall a k, (Z.of_nat a * 10 + Z.of_nat k)%Z = Z.of_nat (k + 10 * a)) by (intros; lia).
  induction d as [|d IH|d IH|d IH|d IH|d IH|d IH|d IH|d IH|d IH|d IH]; intro acc; [reflexivity|..];
    cbn [NilEmpty.string_of_uint digits_val]; change (is_digit _) with true; cbv iota;
    cbn [Nat.of_uint_acc]; rewrite T, <- IH; f_equal; [..];
    match goal with |- context [nat_of_ascii ?c] => let k := eval vm_compute in (nat_of_ascii c) in change (nat_of_ascii c) with k end; lia.
Qed.
Lemma py_int_str : forall n, py_int (str_of_nat n) = Some (Z.of_nat n).
Proof.
  intro n. unfold py_int. rewrite strip_digits by apply str_of_nat_digits.
  pose proof (str_of_nat_digits n) as HD.
  assert (HV : digits_val false 0 (str_of_nat n) = Some (Z.of_nat n)).
  { pose proof (Unsigned.of_to n) as HU. unfold Nat.of_uint in HU. unfold str_of_nat.
    rewrite <- HU at 2.
    pose proof (digits_val_uint (Nat.to_uint n) 0) as H.
    destruct (Nat.to_uint n) eqn:E; [exact H|..]; rewrite <- H; reflexivity. }
  destruct (str_of_nat n) as [|c t]; [discriminate HV|].
  cbn [all_digits] in HD. apply andb_true_iff in HD as [HD _].
  destruct (digit_not_sign c HD) as [-> ->]. exact HV.
Qed.
Lemma str_of_nat_inj : forall a b, str_of_nat a = str_of_nat b -> a = b.
Proof.
  intros a b H. pose proof (py_int_str a) as Ha. rewrite H, py_int_str in Ha. injection Ha as Ha. lia.
Qed.
