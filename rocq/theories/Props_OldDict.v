(** C121: plain dictionaries are read back as they were written. *)
From Coq Require Import String List Bool Permutation.
From Verif Require Import Lib_Py Model_OldDict Proofs_Options.
Import ListNotations.
Open Scope string_scope. Open Scope list_scope.

Section S.
Context {V : Type}.
Variables (mapping : V -> option (dict V)) (from_mapping : dict V -> V).
(** What the file does between writing and reading: it may list the items in another order. *)
Definition kept (g g' : group V) : Prop := g_attrs g' = g_attrs g /\ Permutation (g_items g) (g_items g').

Lemma dget_perm : forall (a b : dict V), Permutation a b -> NoDup (dkeys a) -> forall k, dget k a = dget k b.
Proof.
  intros a b P; induction P as [|[j v] a b P IH|[j v] [i w] a|a b c P1 IH1 P2 IH2]; intros ND k; [reflexivity| | |].
  - cbn [dget]. inversion ND; subst. rewrite IH by assumption. reflexivity.
  - cbn [dget]. inversion ND as [|? ? N _]; subst. cbn in N. destruct (String.eqb_spec k i) as [->|]; [|reflexivity].
    destruct (String.eqb_spec i j) as [->|]; [exfalso; apply N; left; reflexivity | reflexivity].
  - rewrite IH1 by exact ND. apply IH2. apply (Permutation_NoDup (Permutation_map fst P1)), ND.
Qed.
Lemma dget_built : forall (a acc : dict V) k, NoDup (dkeys a) -> dget k (fold_left (fun acc p => dset (fst p) (snd p) acc) a acc) =
  match dget k a with Some v => Some v | None => dget k acc end.
Proof.
  induction a as [|[j v] a IH]; intros acc k ND; [reflexivity|]. cbn [fold_left fst snd dget]. inversion ND as [|? ? N ND']; subst.
  rewrite IH by exact ND'. rewrite dget_dset. destruct (String.eqb_spec k j) as [->|]; [|reflexivity].
  assert (dget j a = None) as -> by (apply dget_None_keys, N). reflexivity.
Qed.
Lemma dget_without : forall (d : dict V) k j, dget k (filter (fun kv => negb (String.eqb (fst kv) j)) d) = if String.eqb k j then None else dget k d.
Proof.
  induction d as [|[i v] d IH]; intros k j; [destruct (String.eqb k j); reflexivity|]. cbn [filter fst dget]. destruct (String.eqb_spec i j) as [->|N]; cbn [negb].
  - rewrite IH. destruct (String.eqb k j); reflexivity.
  - cbn [dget]. rewrite IH. destruct (String.eqb_spec k i) as [->|]; [|reflexivity]. destruct (String.eqb_spec i j); [contradiction | reflexivity].
Qed.
Lemma keys_without : forall (d : dict V) j, NoDup (dkeys d) -> NoDup (dkeys (filter (fun kv => negb (String.eqb (fst kv) j)) d)).
Proof.
  unfold dkeys. induction d as [|[i v] d IH]; intros j ND; [exact ND|]. cbn [filter fst]. inversion ND as [|? ? N ND']; subst. destruct (negb (String.eqb i j)); [|apply IH, ND'].
  cbn [map fst]. constructor; [|apply IH, ND']. intro H. apply N. apply in_map_iff in H as (p & <- & Hp). apply filter_In in Hp as [Hp _]. apply in_map, Hp.
Qed.
(** Every key comes back with its value and no other key appears, unless "attrs" is an empty dictionary. *)
Theorem C121_round_trip_partial : forall d g g', NoDup (dkeys d) -> (forall v a, mapping v = Some a -> from_mapping a = v) ->
  (forall v, dget "attrs" d = Some v -> mapping v <> Some []) -> dict_dumper mapping d = Ok g -> kept g g' ->
  forall k, dget k (dict_loader from_mapping g') = dget k d.
Proof.
  intros d g g' ND MV NE D (KA & KP) k. unfold dict_dumper in D.
  assert (I : g_items g = filter (fun kv => negb (String.eqb (fst kv) "attrs")) d /\
    match dget "attrs" d with None => g_attrs g = [] | Some v => mapping v = Some (g_attrs g) end).
  { destruct (dget "attrs" d) as [v|]; [destruct (mapping v) as [a|]; [|discriminate]|]; injection D as <-; split; reflexivity. }
  destruct I as [I1 I2]. assert (B : forall j, dget j (dupdate [] (g_items g')) = if String.eqb j "attrs" then None else dget j d).
  { intro j. unfold dupdate. pose proof (keys_without d "attrs" ND) as KN. rewrite <- I1 in KN. rewrite dget_built by (apply (Permutation_NoDup (Permutation_map fst KP)), KN).
    rewrite <- (dget_perm _ _ KP KN), I1, dget_without. destruct (String.eqb j "attrs"); [reflexivity|]. destruct (dget j d); reflexivity. }
  unfold dict_loader. rewrite KA.
  destruct (dget "attrs" d) as [v|] eqn:A.
  - specialize (NE v eq_refl). rewrite I2 in NE. destruct (g_attrs g) as [|p a] eqn:GA; [exfalso; exact (NE eq_refl)|]. rewrite dget_dset, B.
    destruct (String.eqb_spec k "attrs") as [->|]; [|reflexivity]. rewrite (MV _ _ I2). symmetry. exact A.
  - rewrite I2, B. destruct (String.eqb_spec k "attrs") as [->|]; [symmetry; exact A | reflexivity].
Qed.
(** An empty dictionary under "attrs" is lost. *)
Theorem C121_empty_attrs_refuted : forall d v g g', dget "attrs" d = Some v -> mapping v = Some [] -> NoDup (dkeys d) ->
  dict_dumper mapping d = Ok g -> kept g g' -> dget "attrs" (dict_loader from_mapping g') = None.
Proof.
  intros d v g g' A M ND D (KA & KP). unfold dict_dumper in D. rewrite A, M in D. injection D as <-. cbn [g_attrs g_items] in *. unfold dict_loader. rewrite KA.
  pose proof (keys_without d "attrs" ND) as KN. unfold dupdate. rewrite dget_built by (apply (Permutation_NoDup (Permutation_map fst KP)), KN).
  rewrite <- (dget_perm _ _ KP KN), dget_without. reflexivity.
Qed.
(** The only dictionaries that cannot be written are those whose "attrs" is not a dictionary. *)
Theorem C121_written : forall d, (exists g, dict_dumper mapping d = Ok g) <-> (forall v, dget "attrs" d = Some v -> mapping v <> None).
Proof.
  intro d. unfold dict_dumper. destruct (dget "attrs" d) as [v|]; [|split; [congruence | eauto]].
  destruct (mapping v) as [a|] eqn:M; (split; [intros (g & H) w [= <-] | intro H; eauto]); try congruence. exfalso. apply (H v eq_refl M).
Qed.
End S.
(** Trees: a leaf or a dictionary. *)
Inductive tree := Leaf (n : nat) | Node (d : list (string * tree)).
Definition tree_mapping (t : tree) : option (dict tree) := match t with Node d => Some d | _ => None end.
Example C121_nonvacuous :
  let d := [("b", Leaf 1); ("attrs", Node [("unit", Leaf 3)]); ("a", Leaf 2)] in
  NoDup (dkeys d) /\ (forall v a, tree_mapping v = Some a -> Node a = v) /\ (forall v, dget "attrs" d = Some v -> tree_mapping v <> Some []) /\
  dict_dumper tree_mapping d = Ok (mk_group [("unit", Leaf 3)] [("b", Leaf 1); ("a", Leaf 2)]) /\
  kept (mk_group [("unit", Leaf 3)] [("b", Leaf 1); ("a", Leaf 2)]) (mk_group [("unit", Leaf 3)] [("a", Leaf 2); ("b", Leaf 1)]) /\
  dict_loader Node (mk_group [("unit", Leaf 3)] [("a", Leaf 2); ("b", Leaf 1)]) = [("a", Leaf 2); ("b", Leaf 1); ("attrs", Node [("unit", Leaf 3)])].
Proof.
  cbn zeta. split; [cbn; repeat constructor; cbn; intuition discriminate|]. split; [intros [n|d] a H; [discriminate | injection H as <-; reflexivity]|].
  split; [intros v [= <-]; discriminate|]. split; [reflexivity|]. split; [split; [reflexivity | apply perm_swap] | reflexivity].
Qed.
Example C121_lost : dict_dumper tree_mapping [("attrs", Node []); ("a", Leaf 2)] = Ok (mk_group [] [("a", Leaf 2)]) /\ dict_loader Node (mk_group [] [("a", Leaf 2)]) = [("a", Leaf 2)].
Proof. split; reflexivity. Qed.
