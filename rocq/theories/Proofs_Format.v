(** Lemmas for the file-format theorems. *)
From Coq Require Import String List Bool ZArith Reals Permutation Lra Lia.
From Verif Require Import Lib_Py Model_FormatTables Model_Format Spec_Format.
Import ListNotations.
Open Scope string_scope. Open Scope list_scope.

Lemma plain_storable : forall v, plain v -> attr_storable v = true.
Proof. destruct v; simpl; tauto. Qed.
Lemma typed_plain : forall v, typed TPlain v -> attr_storable v = true.
Proof. intros v H; inversion H; subst; apply plain_storable; assumption. Qed.
Lemma typed_arr : forall v, typed TArr v -> exists s d, v = VArr s d.
Proof. intros v H; inversion H; subst; eauto. Qed.
Lemma typed_bool : forall v, typed TBool v -> exists b, v = VBool b.
Proof. intros v H; inversion H; subst; eauto. Qed.
Lemma typed_optnumpy : forall E v, typed TOptNumPy v ->
  exists h w, store v = Ok h /\ load E h = Ok w /\ none_or_data w = Ok v.
Proof.
  intros E v H; inversion H as [| | | | | | |? H0| | | | | | | | | |]; subst.
  - exists HNone, VNone. repeat split.
  - destruct v; try contradiction; [exists (HData (VNum x)), (VBoxed (VNum x)) | exists (HData (VArr shape data)), (VBoxed (VArr shape data))];
      repeat split.
Qed.
Lemma typed_optint : forall E v, typed TOptInt v ->
  exists h w, store v = Ok h /\ load E h = Ok w /\ none_or_full w = Ok v /\ ensure_fully_loaded w = v.
Proof.
  intros E v H; inversion H; subst.
  - exists HNone, VNone. repeat split.
  - exists (HInt z), (VInt z). repeat split.
  - exists (HData (VNum x)), (VBoxed (VNum x)). repeat split.
Qed.
Lemma typed_opttext : forall E v, typed TOptText v ->
  exists h, store v = Ok h /\ load E h = Ok v /\ ensure_fully_loaded v = v /\ replace_empty_string v = v.
Proof.
  intros E v H; inversion H; subst.
  - exists HNone. repeat split.
  - exists (HText s). repeat split. simpl. destruct (String.eqb_spec s ""); [contradiction | reflexivity].
Qed.
Lemma typed_text : forall v, typed TText v -> exists s, v = VText s.
Proof. intros v H; inversion H; subst; eauto. Qed.

(** An object is written as a group and comes back as an object of its class. *)
Definition rt (E : env) (v v' : val) : Prop := exists h, store v = Ok h /\ load E h = Ok v'.

(** Destruct a list of typed fields against a literal schema. *)
Ltac fields :=
  unfold solution_input_fields, config_input_fields in *;
  repeat match goal with
  | H : Forall2 _ (_ :: _) _ |- _ =>
      let k := fresh "k" in let v := fresh "v" in let Ha := fresh "Ha" in let Hb := fresh "Hb" in let Ht := fresh "Ht" in
      inversion H as [|? [k v] ? ? [Ha Hb] Ht]; subst; clear H; cbn [fst snd] in Ha, Hb; subst
  | H : Forall2 _ [] _ |- _ => inversion H; subst; clear H
  end.
Ltac prep E :=
  repeat match goal with
  | H : typed TPlain ?v |- _ => apply typed_plain in H
  | H : typed TArr ?v |- _ => let s := fresh "s" in let d := fresh "d" in apply typed_arr in H as (s & d & ->)
  | H : typed TBool ?v |- _ => let b := fresh "b" in apply typed_bool in H as (b & ->)
  | H : typed TText ?v |- _ => let b := fresh "s" in apply typed_text in H as (b & ->)
  | H : typed TNone ?v |- _ => inversion H; subst; clear H
  | H : typed TOptNumPy ?v |- _ =>
      let h := fresh "h" in let w := fresh "w" in let a := fresh "Hs" in let b := fresh "Hl" in let c := fresh "Ho" in
      destruct (typed_optnumpy E v H) as (h & w & a & b & c); clear H
  | H : typed TOptInt ?v |- _ =>
      let h := fresh "h" in let w := fresh "w" in let a := fresh "Hs" in let b := fresh "Hl" in let c := fresh "Ho" in let d := fresh "Hf" in
      destruct (typed_optint E v H) as (h & w & a & b & c & d); clear H
  | H : typed TOptText ?v |- _ =>
      let h := fresh "h" in let a := fresh "Hs" in let b := fresh "Hl" in let c := fresh "Hf" in let d := fresh "Hr" in
      destruct (typed_opttext E v H) as (h & a & b & c & d); clear H
  end.
(** Run the writer on an object whose fields are known. *)
Ltac redtab :=
  cbn [store_group dumper dump_version fst snd dump_attrs dump_items dget String.eqb Ascii.eqb Bool.eqb orb andb
       attr_storable rbind
       dump_SolutionInput dump_ConfigInput dump_MCMCVars dump_slice dump_JacobianData dump_InternalData dump_Solution
       dump_Run dump_InitialConditions
       load_group loader eval_kwargs eval_lexpr get_item dgetitem unbox construct class_fields known_kwargs init_fields
       str_in map convert default_value negb Nat.eqb Nat.leb
       load_SolutionInput_14 load_ConfigInput_14 load_MCMCVars_1 load_slice_1 load_JacobianData_1 load_InternalData_3
       load_Solution_4 load_Run_6 load_InitialConditions_3
       fields_SolutionInput fields_ConfigInput fields_MCMCVars fields_slice fields_JacobianData fields_InternalData
       fields_Solution fields_Run].
Ltac known := repeat first
  [ match goal with H : attr_storable ?v = true |- context [attr_storable ?v] => rewrite H end
  | match goal with H : store ?v = Ok _ |- context [store ?v] => rewrite H end
  | match goal with H : load ?E ?h = Ok _ |- context [load ?E ?h] => rewrite H end
  | match goal with H : none_or_data ?w = Ok _ |- context [none_or_data ?w] => rewrite H end
  | match goal with H : none_or_full ?w = Ok _ |- context [none_or_full ?w] => rewrite H end
  | match goal with H : ensure_fully_loaded ?w = _ |- context [ensure_fully_loaded ?w] => rewrite H end
  | match goal with H : replace_empty_string ?w = _ |- context [replace_empty_string ?w] => rewrite H end ].

Lemma rt_mcmc : forall E v, typed (TObj "MCMCVars") v -> rt E v v /\ mcmc_vars_str_to_obj v = Ok v.
Proof.
  intros E v H. inversion H as [| | | | | | | | | | | | | |? ? ? Hs Hf| | |]; subst. injection Hs as <-. fields. prep E.
  split; [|reflexivity]. eexists. split; reflexivity.
Qed.
Lemma rt_slice : forall E v, typed (TObj "slice") v -> rt E v v /\ str_to_slice E v = Ok v.
Proof.
  intros E v H. inversion H as [| | | | | | | | | | | | | |? ? ? Hs Hf| | |]; subst. injection Hs as <-. fields. prep E.
  split; [|reflexivity]. eexists. split.
  - cbn [store]. redtab. known. redtab. known. redtab. known. redtab. reflexivity.
  - cbn [load]. redtab. known. redtab. known. redtab. known. redtab. known. redtab. reflexivity.
Qed.
Lemma rt_solution_input : forall E v, typed (TObj "SolutionInput") v -> rt E v v.
Proof.
  intros E v H. inversion H as [| | | | | | | | | | | | | |? ? ? Hs Hf| | |]; subst. injection Hs as <-. fields. prep E.
  match goal with H : typed (TOptObj "MCMCVars") ?v |- _ =>
    assert (Hm : rt E v v /\ mcmc_vars_str_to_obj v = Ok v)
      by (inversion H; subst; [split; [eexists; split; reflexivity | reflexivity] | apply rt_mcmc; assumption]) end.
  match goal with H : typed (TOptObj "slice") ?v |- _ =>
    assert (Hsl : rt E v v /\ str_to_slice E v = Ok v)
      by (inversion H; subst; [split; [eexists; split; reflexivity | reflexivity] | apply rt_slice; assumption]) end.
  destruct Hm as [(hm & Hm1 & Hm2) Hm3], Hsl as [(hs & Hq1 & Hq2) Hq3].
  eexists. split.
  - cbn [store]. redtab. repeat (known; redtab). reflexivity.
  - cbn [load]. redtab. repeat (known; redtab). rewrite Hm3. redtab. rewrite Hq3. redtab. reflexivity.
Qed.
Lemma rt_config_input : forall E v, typed (TObj "ConfigInput") v -> rt E v v.
Proof.
  intros E v H. inversion H as [| | | | | | | | | | | | | |? ? ? Hs Hf| | |]; subst. injection Hs as <-. fields. prep E.
  eexists. split.
  - cbn [store]. redtab. repeat (known; redtab). reflexivity.
  - cbn [load]. redtab. repeat (known; redtab). reflexivity.
Qed.
Lemma rt_jacobian : forall E v, typed (TObj "JacobianData") v -> rt E v v.
Proof.
  intros E v H. inversion H as [| | | | | | | | | | | | | |? ? ? Hs Hf| | |]; subst. injection Hs as <-. fields. prep E.
  eexists. split; reflexivity.
Qed.
Lemma agrees_check : forall η data i, agrees η (nth_error data i) -> check_η η data i = Ok η /\ attr_storable η = true.
Proof.
  intros η data i (r & Hn & Hη). unfold check_η, item_of. rewrite Hn. cbn [rbind].
  destruct Hη as [-> | (z & -> & ->)]; unfold py_ne; simpl;
    match goal with |- context [Req_EM_T ?a ?a] => destruct (Req_EM_T a a) as [_|N]; [split; reflexivity | exfalso; apply N; reflexivity] end.
Qed.
Lemma rt_initial : forall E v, typed (TObj "InitialConditions") v -> rt E v v.
Proof.
  intros E v H. inversion H as [| | | | | | | | | | | | | |? ? ? Hs Hf| | |? ? ? ? ? ? ? ? ? P1 P2 P3 P4 P5 P6 A1 A2 A3]; subst; [discriminate Hs|].
  apply plain_storable in P1, P2, P3. prep E.
  apply agrees_check in A1 as [A1 B1], A2 as [A2 B2], A3 as [A3 B3].
  eexists. split.
  - cbn [store]. redtab. repeat (known; redtab). reflexivity.
  - cbn [load]. redtab. repeat (known; redtab).
    unfold init_conditions, ic_fields, required, optional. redtab.
    apply Nat.eqb_neq in P6. rewrite P6, A1, A2, A3. reflexivity.
Qed.

(** Mappings. *)
Definition stored_list (l : list (string * val)) : list (string * res h5) := map (fun kv => (fst kv, store (snd kv))) l.
Definition loaded_list (E : env) (l : list (string * h5)) : list (string * res val) := map (fun kv => (fst kv, load E (snd kv))) l.
Lemma store_obj : forall c fs, store (VObj c fs) = store_group c fs (stored_list fs).
Proof.
  intros c fs. cbn [store]. f_equal.
  induction fs as [|[k x] t IH]; simpl; [reflexivity|]. rewrite IH. reflexivity.
Qed.
Lemma load_hgroup : forall E c v a items, load E (HGroup c v a items) = load_group E c v a (loaded_list E items).
Proof.
  intros E c v a items. cbn [load]. f_equal.
  induction items as [|[k x] t IH]; simpl; [reflexivity|]. rewrite IH. reflexivity.
Qed.
Lemma all_items_rt : forall (E : env) d d', Forall2 (fun a b => fst a = fst b /\ rt E (snd a) (snd b)) d d' ->
  exists items, all_items (stored_list d) = Ok items /\
    loaded_list E items = map (fun kv => (fst kv, Ok (snd kv))) d'.
Proof.
  intros E d d' H. induction H as [|[k x] [k' x'] t t' [Hk (h & Hs & Hl)] _ IH]; cbn [fst snd] in *.
  - exists []. split; reflexivity.
  - subst k'. destruct IH as (items & I1 & I2). exists ((k, h) :: items). cbn. rewrite Hs. cbn.
    unfold stored_list in I1. rewrite I1. cbn. rewrite Hl. unfold loaded_list in I2. rewrite I2. split; reflexivity.
Qed.
Lemma load_solutions_ok : forall (d : dict val) acc, NoDup (map fst acc ++ map fst d) ->
  load_solutions acc (map (fun kv => (fst kv, Ok (snd kv))) d) = Ok (acc ++ d).
Proof.
  induction d as [|[k x] t IH]; intros acc HN; simpl; [rewrite app_nil_r; reflexivity|].
  rewrite dset_new.
  - rewrite IH, <- app_assoc; [reflexivity|]. rewrite map_app, <- app_assoc. exact HN.
  - apply dget_None_keys. simpl in HN. apply NoDup_remove_2 in HN. rewrite in_app_iff in HN. tauto.
Qed.
Lemma load_problems_ok : forall (d : dict (list string)) acc, NoDup (map fst acc ++ map fst d) ->
  load_problems acc (map (fun kv => (fst kv, Ok (VBoxed (VTexts (snd kv))))) d)
  = Ok (acc ++ map (fun kv => (fst kv, VTexts (snd kv))) d).
Proof.
  induction d as [|[k x] t IH]; intros acc HN; simpl; [rewrite app_nil_r; reflexivity|].
  unfold problems_extend.
  assert (Hn : dget k acc = None).
  { apply dget_None_keys. simpl in HN. apply NoDup_remove_2 in HN. rewrite in_app_iff in HN. tauto. }
  rewrite Hn, dset_new by exact Hn.
  rewrite IH, <- app_assoc; [reflexivity|]. rewrite map_app, <- app_assoc. exact HN.
Qed.
Lemma perm_map_ok : forall (A : Type) (f : string * A -> string * res val) (d : dict A) l,
  Permutation l (map f d) -> exists d', l = map f d' /\ Permutation d' d.
Proof. intros A f d l H. destruct (Permutation_map_inv f d H) as (d' & -> & P). exists d'. split; [reflexivity | symmetry; exact P]. Qed.

Lemma problems_texts : forall d, Forall (fun kv => exists l, snd kv = VTexts l) d ->
  exists e : dict (list string), d = map (fun kv => (fst kv, VTexts (snd kv))) e.
Proof.
  induction d as [|[k x] t IH]; intro H; [exists []; reflexivity|].
  inversion H as [|? ? [l Hl] Ht]; subst. destruct (IH Ht) as (e & ->). cbn in Hl. subst x. exists ((k, l) :: e). reflexivity.
Qed.
Lemma Forall2_same_refl : forall l : list (string * val), Forall2 (fun a b => fst a = fst b /\ same (snd a) (snd b)) l l.
Proof. induction l; constructor; [split; [reflexivity | apply same_refl] | assumption]. Qed.
Lemma rt_problems : forall E v, lists_entries E -> typed (TObj "Problems") v ->
  exists v', rt E v v' /\ same v v' /\ exists d, v' = VObj "Problems" d.
Proof.
  intros E v HE H. inversion H as [| | | | | | | | | | | | | |? ? ? Hs Hf|d ND Hd| |]; subst; [discriminate Hs|].
  destruct (problems_texts d Hd) as (e & ->).
  assert (ND' : NoDup (map fst e)) by (rewrite map_map in ND; exact ND).
  set (f := fun kv : string * list string => (fst kv, @Ok val (VBoxed (VTexts (snd kv))))).
  assert (Hst : exists items, all_items (stored_list (map (fun kv => (fst kv, VTexts (snd kv))) e)) = Ok items
    /\ loaded_list E items = map f e).
  { clear. induction e as [|[k l] t (items & I1 & I2)]; [exists []; split; reflexivity|].
    exists ((k, HTexts l) :: items). cbn. unfold stored_list in I1. rewrite I1. unfold loaded_list in I2. cbn. rewrite I2. split; reflexivity. }
  destruct Hst as (items & I1 & I2).
  destruct (perm_map_ok _ f e (e_order E (map f e)) (HE _)) as (e' & He & P).
  exists (VObj "Problems" (map (fun kv => (fst kv, VTexts (snd kv))) e')). split; [|split].
  - exists (HGroup "Problems" 1 [] items). split.
    + rewrite store_obj. unfold store_group. cbn -[all_items stored_list]. rewrite I1. reflexivity.
    + rewrite load_hgroup, I2. unfold load_group. cbn -[e_order load_problems]. rewrite He.
      unfold f. rewrite (load_problems_ok e' []); [reflexivity|].
      simpl. apply (Permutation_NoDup (l := map fst e)); [apply Permutation_map; symmetry; exact P | exact ND'].
  - eapply same_map; [left; reflexivity | apply Forall2_same_refl|]. apply Permutation_map. symmetry. exact P.
  - eexists; reflexivity.
Qed.
Lemma rt_internal : forall E v, lists_entries E -> typed (TObj "InternalData") v ->
  exists v', rt E v v' /\ same v v' /\ exists d, v' = VObj "InternalData" d.
Proof.
  intros E v HE H. inversion H as [| | | | | | | | | | | | | |? ? ? Hs Hf| | |]; subst. injection Hs as <-. fields. prep E.
  match goal with H : typed (TObj "JacobianData") ?x |- _ => destruct (rt_jacobian E x H) as (hj & J1 & J2) end.
  match goal with H : typed (TObj "Problems") ?x |- _ => destruct (rt_problems E x HE H) as (p' & (hp & P1 & P2) & P3 & _) end.
  eexists. split; [|split].
  - eexists. split.
    + cbn [store]. redtab. repeat (known; redtab). reflexivity.
    + cbn [load]. redtab. repeat (known; redtab). reflexivity.
  - apply same_obj. repeat (apply Forall2_cons; [split; [reflexivity | first [apply same_refl | exact P3]]|]). constructor.
  - eexists; reflexivity.
Qed.
Definition has_use_E_r (s : val) : Prop :=
  exists si, getattr "solution_input" s = Ok si /\ exists u, getattr "use_E_r" si = Ok u /\ u <> VNone.
Lemma solution_input_use_E_r : forall x, typed (TObj "SolutionInput") x -> exists u, getattr "use_E_r" x = Ok u /\ u <> VNone.
Proof.
  intros x H. inversion H as [| | | | | | | | | | | | | |? ? ? Hs Hf| | |]; subst; injection Hs as <-; fields.
  eexists. split; [reflexivity|].
  match goal with H : typed TPlain ?v |- ?v <> VNone => inversion H; subst; intros ->; assumption end.
Qed.
Lemma config_input_use_E_r : forall x, typed (TObj "ConfigInput") x -> exists u, getattr "use_E_r" x = Ok u /\ u <> VNone.
Proof.
  intros x H. inversion H as [| | | | | | | | | | | | | |? ? ? Hs Hf| | |]; subst; injection Hs as <-; fields.
  eexists. split; [reflexivity|].
  match goal with H : typed TPlain ?v |- ?v <> VNone => inversion H; subst; intros ->; assumption end.
Qed.
Lemma rt_solution : forall E v, lists_entries E -> typed (TObj "Solution") v ->
  exists v', rt E v v' /\ same v v' /\ has_use_E_r v'.
Proof.
  intros E v HE H. inversion H as [| | | | | | | | | | | | | |? ? ? Hs Hf| | |]; subst. injection Hs as <-. fields. prep E.
  match goal with H : typed (TObj "SolutionInput") ?x |- _ =>
    destruct (rt_solution_input E x H) as (hi & I1 & I2); pose proof (solution_input_use_E_r x H) as Hu end.
  match goal with H : typed (TObj "InitialConditions") ?x |- _ => destruct (rt_initial E x H) as (hc & C1 & C2) end.
  match goal with H : typed (TOptObj "InternalData") ?x |- _ =>
    assert (Hd : exists x', rt E x x' /\ same x x' /\ (x' = VNone \/ exists d, x' = VObj "InternalData" d))
      by (inversion H; subst;
          [exists VNone; split; [exists HNone; split; reflexivity | split; [apply same_refl | left; reflexivity]]
          | edestruct rt_internal as (x' & X1 & X2 & X3); [exact HE | eassumption | exists x'; auto]]) end.
  destruct Hd as (i' & (hd & D1 & D2) & D3 & _).
  eexists. split; [|split].
  - eexists. split.
    + cbn [store]. redtab. repeat (known; redtab). reflexivity.
    + cbn [load]. redtab. repeat (known; redtab). reflexivity.
  - apply same_obj. repeat (apply Forall2_cons; [split; [reflexivity | first [apply same_refl | exact D3]]|]). constructor.
  - eexists. split; [reflexivity | exact Hu].
Qed.
Lemma Forall_rt_solutions : forall E (d : dict val), lists_entries E -> Forall (fun kv => typed (TObj "Solution") (snd kv)) d ->
  exists d' : dict val, Forall2 (fun a b => fst a = fst b /\ rt E (snd a) (snd b)) d d' /\
    Forall2 (fun a b => fst a = fst b /\ same (snd a) (snd b)) d d' /\
    Forall (fun b => has_use_E_r (snd b)) d'.
Proof.
  intros E d HE H. induction H as [|[k x] t Hx _ (t' & T1 & T2 & T3)].
  - exists []. repeat split; constructor.
  - destruct (rt_solution E x HE Hx) as (x' & X1 & X2 & X3). exists ((k, x') :: t').
    split; [|split]; constructor; auto.
Qed.
Lemma rt_solutions : forall E v, lists_entries E -> typed (TObj "Solutions") v ->
  exists d', rt E v (VObj "Solutions" d') /\ same v (VObj "Solutions" d') /\ Forall (fun b => has_use_E_r (snd b)) d'.
Proof.
  intros E v HE H. inversion H as [| | | | | | | | | | | | | |? ? ? Hs Hf| |d ND Hd|]; subst; [discriminate Hs|].
  destruct (Forall_rt_solutions E d HE Hd) as (g & G1 & G2 & G3).
  destruct (all_items_rt E d g G1) as (items & I1 & I2).
  set (f := fun kv : string * val => (fst kv, @Ok val (snd kv))) in *.
  destruct (perm_map_ok _ f g (e_order E (map f g)) (HE _)) as (g' & He & P).
  assert (Hk : map fst d = map fst g).
  { clear - G1. induction G1 as [|a b l l' [Hab _] _ IH]; [reflexivity|]. simpl. rewrite Hab, IH. reflexivity. }
  exists g'. split; [|split].
  - exists (HGroup "Solutions" 1 [] items). split.
    + rewrite store_obj. unfold store_group. cbn -[all_items stored_list]. rewrite I1. reflexivity.
    + rewrite load_hgroup, I2. unfold load_group. cbn -[e_order load_solutions]. rewrite He.
      unfold f. rewrite (load_solutions_ok g' []); [reflexivity|].
      simpl. rewrite Hk in ND. apply (Permutation_NoDup (l := map fst g)); [apply Permutation_map; symmetry; exact P | exact ND].
  - eapply same_map; [right; reflexivity | exact G2|]. symmetry. exact P.
  - apply (Permutation_Forall (Permutation_sym P)). exact G3.
Qed.
Lemma fill_solution_id : forall u s, has_use_E_r s -> fill_solution u s = Ok s.
Proof.
  intros u s (si & H1 & x & H2 & H3). unfold fill_solution. rewrite H1. cbn [rbind]. rewrite H2. cbn [rbind].
  destruct x; try reflexivity. contradiction.
Qed.
Lemma fill_all_id : forall u (d : dict val), Forall (fun b => has_use_E_r (snd b)) d -> fill_all u d = Ok d.
Proof.
  intros u d H. induction H as [|[k s] t Hs _ IH]; [reflexivity|]. cbn [fill_all]. cbn [snd] in Hs.
  rewrite (fill_solution_id u s Hs). cbn [rbind]. rewrite IH. reflexivity.
Qed.
Lemma rt_run : forall E v, lists_entries E -> typed (TObj "Run") v -> exists v', rt E v v' /\ same v v'.
Proof.
  intros E v HE H. inversion H as [| | | | | | | | | | | | | |? ? ? Hs Hf| | |]; subst. injection Hs as <-. fields. prep E.
  match goal with H : typed (TObj "ConfigInput") ?x |- _ =>
    destruct (rt_config_input E x H) as (hc & C1 & C2); pose proof (config_input_use_E_r x H) as (u & U1 & U2) end.
  match goal with H : typed (TObj "Solutions") ?x |- _ => destruct (rt_solutions E x HE H) as (d' & (hd & D1 & D2) & D3 & D4) end.
  match goal with H : typed (TOptObj "Solution") ?x |- _ =>
    assert (Hd : exists x', rt E x x' /\ same x x' /\ (match x' with VNone => Ok VNone | _ => fill_solution (VBool b) x' end) = Ok x')
      by (inversion H; subst;
          [exists VNone; split; [exists HNone; split; reflexivity | split; [apply same_refl | reflexivity]]
          | edestruct rt_solution as (x' & X1 & X2 & X3); [exact HE | eassumption | exists x'; split; [exact X1 | split; [exact X2|]]];
            rewrite (fill_solution_id _ _ X3); destruct x'; reflexivity]) end.
  destruct Hd as (i' & (hf & F1 & F2) & F3 & F4).
  eexists. split.
  - eexists. split.
    + cbn [store]. redtab. repeat (known; redtab). reflexivity.
    + cbn [load]. redtab. unfold run_prologue. redtab. repeat (known; redtab). rewrite U1. redtab.
      assert (Hu : forall X Y : res val, match u with VNone => X | _ => Y end = Y) by (destruct u; try reflexivity; contradiction).
      rewrite Hu. redtab. known. redtab. rewrite (fill_all_id _ _ D4). redtab.
      replace (if e_cache E then d' else d') with d' by (destruct (e_cache E); reflexivity).
      known. redtab. rewrite F4. redtab. cbn [dset String.eqb Ascii.eqb Bool.eqb]. redtab. repeat (known; redtab). reflexivity.
  - apply same_obj. repeat (apply Forall2_cons; [split; [reflexivity | first [apply same_refl | exact D3 | exact F3]]|]). constructor.
Qed.
