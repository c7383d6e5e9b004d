(** Lemmas for the theorems on files of older versions. *)
From Coq Require Import String List Bool ZArith Reals Permutation Lra Lia.
From Verif Require Import Lib_Py Model_FormatTables Model_Format Spec_Format Proofs_Format.
Import ListNotations.
Open Scope string_scope. Open Scope list_scope.

(** ** Older versions *)
Lemma eval_kwargs_ok : forall E attrs items (y : string -> val) t,
  Forall (fun ke => eval_lexpr E attrs items (snd ke) = Ok (y (fst ke))) t ->
  eval_kwargs E attrs items t = Ok (map (fun ke => (fst ke, y (fst ke))) t).
Proof.
  intros E attrs items y t H. induction H as [|[k e] t He _ IH]; [reflexivity|].
  cbn [eval_kwargs]. cbn [fst snd] in He. rewrite He. cbn [rbind]. rewrite IH. reflexivity.
Qed.
Lemma eval_kwargs_keys : forall E attrs items t kw, eval_kwargs E attrs items t = Ok kw -> map fst kw = map fst t.
Proof.
  intros E attrs items t. induction t as [|[k e] t IH]; intros kw H; cbn [eval_kwargs] in H; [injection H as <-; reflexivity|].
  destruct (eval_lexpr E attrs items e); [|discriminate]. cbn [rbind] in H.
  destruct (eval_kwargs E attrs items t) as [r|]; [|discriminate]. injection H as <-. simpl. rewrite (IH r eq_refl). reflexivity.
Qed.
Lemma known_kwargs_keys : forall names kw, known_kwargs names kw = forallb (fun k => str_in k names) (map fst kw).
Proof. intros names kw. induction kw as [|[k v] t IH]; simpl; [reflexivity | rewrite IH; reflexivity]. Qed.
Lemma init_fields_missing : forall E fs kw f c, In (f, DRequired, c) fs -> dget f kw = None ->
  exists e, init_fields E fs kw = Raise e.
Proof.
  intros E fs kw f c. induction fs as [|[[f0 d] c0] t IH]; [contradiction|]. intros H Hn. cbn [init_fields].
  destruct H as [H|H].
  - injection H as -> -> ->. rewrite Hn. cbn. eexists; reflexivity.
  - destruct (match dget f0 kw with Some v => Ok v | None => default_value d end); [|eexists; reflexivity]. cbn [rbind].
    destruct (convert E c0 a); [|eexists; reflexivity]. cbn [rbind].
    destruct (IH H Hn) as (e & ->). eexists; reflexivity.
Qed.
(** A loader that leaves a required field out, or passes a keyword the class does not have, never succeeds. *)
Definition loader_broken (c : string) (t : list (string * lexpr)) (fs : list (string * dflt * conv)) : bool :=
  negb (forallb (fun k => str_in k (map (fun f => fst (fst f)) fs)) (map fst t))
  || existsb (fun f => match snd (fst f) with DRequired => negb (str_in (fst (fst f)) (map fst t)) | _ => false end) fs.
Lemma str_in_In : forall s l, str_in s l = true <-> In s l.
Proof.
  intros s l. induction l as [|x t IH]; simpl; [split; [discriminate | contradiction]|].
  rewrite orb_true_iff, String.eqb_eq, IH. split; intros [H|H]; auto.
Qed.
Lemma broken_raises : forall E c v attrs items t fs,
  String.eqb c "Problems" = false -> String.eqb c "Solutions" = false -> String.eqb c "InitialConditions" = false ->
  String.eqb c "Run" = false ->
  loader c v = Some t -> class_fields c = Some fs -> loader_broken c t fs = true ->
  exists e, load E (HGroup c v attrs items) = Raise e.
Proof.
  intros E c v attrs items t fs N1 N2 N3 N4 HL HF HB. rewrite load_hgroup. unfold load_group. rewrite N1, N2, N4, HL.
  cbn [andb rbind]. destruct (eval_kwargs E attrs (loaded_list E items) t) as [kw|e] eqn:Hk; [|eexists; reflexivity].
  cbn [rbind]. apply eval_kwargs_keys in Hk. unfold construct. rewrite N3, HF, known_kwargs_keys, Hk.
  unfold loader_broken in HB. destruct (forallb _ (map fst t)); [|eexists; reflexivity]. cbn [negb orb] in HB.
  apply existsb_exists in HB as ([[f d] cv] & Hin & Hd). cbn [fst snd] in Hd. destruct d; try discriminate.
  destruct (init_fields_missing E fs kw f cv Hin) as (e & ->); [|eexists; reflexivity].
  apply dget_None_keys. unfold dkeys. rewrite Hk. intro HI. apply str_in_In in HI. rewrite HI in Hd. discriminate.
Qed.
Lemma loaded_get : forall E k items h, dget k items = Some h -> get_item k (loaded_list E items) = load E h.
Proof.
  intros E k items h. unfold get_item, loaded_list. induction items as [|[k' x] t IH]; simpl; [discriminate|].
  destruct (String.eqb k k'); [intros [= ->]; reflexivity | exact IH].
Qed.
Lemma typed_opt_mcmc : forall E x, typed (TOptObj "MCMCVars") x -> rt E x x /\ mcmc_vars_str_to_obj x = Ok x.
Proof. intros E x H. inversion H; subst; [split; [exists HNone; split; reflexivity | reflexivity] | apply rt_mcmc; assumption]. Qed.
Lemma typed_opt_slice : forall E x, typed (TOptObj "slice") x -> rt E x x /\ str_to_slice E x = Ok x.
Proof. intros E x H. inversion H; subst; [split; [exists HNone; split; reflexivity | reflexivity] | apply rt_slice; assumption]. Qed.
(** What the loader expressions give for a field kept as an item. *)
Lemma item_optd : forall E f items x, (exists h, dget f items = Some h /\ store (x f) = Ok h) -> typed TOptNumPy (x f) ->
  (let! v := get_item f (loaded_list E items) in none_or_data v) = Ok (x f).
Proof.
  intros E f items x (h & Hg & Hs) Ht. rewrite (loaded_get E f items h Hg).
  destruct (typed_optnumpy E _ Ht) as (h' & w & A & B & C). rewrite A in Hs. injection Hs as <-. rewrite B. exact C.
Qed.
Lemma item_optf : forall E f items x, (exists h, dget f items = Some h /\ store (x f) = Ok h) -> typed TOptInt (x f) ->
  (let! v := get_item f (loaded_list E items) in none_or_full v) = Ok (x f).
Proof.
  intros E f items x (h & Hg & Hs) Ht. rewrite (loaded_get E f items h Hg).
  destruct (typed_optint E _ Ht) as (h' & w & A & B & C & D). rewrite A in Hs. injection Hs as <-. rewrite B. exact C.
Qed.
Lemma item_text : forall E f items x, (exists h, dget f items = Some h /\ store (x f) = Ok h) -> typed TOptText (x f) ->
  get_item f (loaded_list E items) = Ok (x f) /\
  (let! v := get_item f (loaded_list E items) in Ok (ensure_fully_loaded v)) = Ok (x f).
Proof.
  intros E f items x (h & Hg & Hs) Ht. rewrite (loaded_get E f items h Hg).
  destruct (typed_opttext E _ Ht) as (h' & A & B & C & D). rewrite A in Hs. injection Hs as <-. rewrite B.
  split; [reflexivity | cbn; rewrite C; reflexivity].
Qed.
Lemma item_rt : forall E f items x, (exists h, dget f items = Some h /\ store (x f) = Ok h) -> rt E (x f) (x f) ->
  get_item f (loaded_list E items) = Ok (x f).
Proof.
  intros E f items x (h & Hg & Hs) (h' & A & B). rewrite (loaded_get E f items h Hg).
  rewrite A in Hs. injection Hs as <-. exact B.
Qed.
Definition soln_value (v : nat) (x : string -> val) (f : string) : val := if (since f <=? v)%nat then x f else older_default_soln f.
Definition conf_value (v : nat) (x : string -> val) (f : string) : val := if (since f <=? v)%nat then x f else older_default_conf v f.

Ltac known_field W f :=
  match type of W with written_by _ ?sch _ _ _ =>
    let H := fresh "Hw" in
    pose proof (W f _ (dget_In f _ sch eq_refl) ltac:(vm_compute; lia)) as H;
    cbn [kept_as_item str_in String.eqb Ascii.eqb Bool.eqb orb andb Nat.leb] in H; destruct H as [? H]
  end.
Ltac solve_field W :=
  match goal with
  | |- dgetitem ?f ?attrs = Ok (?x ?f) =>
      known_field W f; unfold dgetitem; match goal with H : dget f attrs = _ |- _ => rewrite H; reflexivity end
  | |- (let! v := get_item ?f _ in none_or_data v) = Ok (?x ?f) => known_field W f; apply item_optd; assumption
  | |- (let! v := get_item ?f _ in none_or_full v) = Ok (?x ?f) => known_field W f; apply item_optf; assumption
  | |- (let! v := get_item ?f _ in Ok (ensure_fully_loaded v)) = Ok (?x ?f) => known_field W f; apply item_text; assumption
  | |- get_item ?f _ = Ok (?x ?f) =>
      known_field W f; first [apply item_text; assumption
        | apply item_rt; [assumption | first [apply typed_opt_mcmc; assumption | apply typed_opt_slice; assumption]]]
  | |- Ok ?a = Ok ?b => reflexivity
  end.
Ltac one_version W val_of :=
  unfold load_group; cbn [String.eqb Ascii.eqb Bool.eqb loader andb rbind];
  match goal with |- context [eval_kwargs ?E ?attrs ?it ?t] =>
    match type of W with written_by ?v _ ?x _ _ =>
      rewrite (eval_kwargs_ok E attrs it (val_of v x) t);
      [|unfold t; repeat (apply Forall_cons; [cbn [fst snd eval_lexpr]; unfold val_of; cbn [since String.eqb Ascii.eqb Bool.eqb Nat.leb];
          solve_field W|]); apply Forall_nil]
    end end;
  lazy -[mcmc_vars_str_to_obj str_to_slice replace_empty_string slice_obj].
Ltac conv_rewrites Hmc Hsl :=
  try (match goal with |- context [mcmc_vars_str_to_obj (?x "mcmc_vars")] => rewrite Hmc by lia end);
  cbn [mcmc_vars_str_to_obj rbind];
  try (match goal with |- context [str_to_slice ?E (?x "interp_slice")] => rewrite Hsl by lia end);
  cbn [str_to_slice slice_obj String.eqb Ascii.eqb Bool.eqb rbind].
Lemma solution_input_older : forall E v attrs items x,
  In v [4; 6; 7; 8; 9; 10; 11; 12; 13; 14]%nat -> written_by v solution_input_fields x attrs items ->
  load E (HGroup "SolutionInput" v attrs items)
  = Ok (VObj "SolutionInput" (map (fun ft => (fst ft, soln_value v x (fst ft))) solution_input_fields)).
Proof.
  intros E v attrs items x Hv W. rewrite load_hgroup.
  assert (Hmc : (9 <= v)%nat -> mcmc_vars_str_to_obj (x "mcmc_vars") = Ok (x "mcmc_vars")).
  { intros Hn. apply (typed_opt_mcmc E). apply (W "mcmc_vars" (TOptObj "MCMCVars")); [apply dget_In; reflexivity | exact Hn]. }
  assert (Hsl : (13 <= v)%nat -> str_to_slice E (x "interp_slice") = Ok (x "interp_slice")).
  { intros Hn. apply (typed_opt_slice E). apply (W "interp_slice" (TOptObj "slice")); [apply dget_In; reflexivity | exact Hn]. }
  simpl in Hv.
  repeat (destruct Hv as [<-|Hv]; [one_version W soln_value; conv_rewrites Hmc Hsl; reflexivity |]).
  contradiction.
Qed.
Lemma config_input_older : forall E v attrs items x,
  In v [4; 6; 7; 8; 9; 10; 11; 12; 13; 14]%nat -> written_by v config_input_fields x attrs items ->
  load E (HGroup "ConfigInput" v attrs items)
  = Ok (VObj "ConfigInput" (map (fun ft => (fst ft, conf_value v x (fst ft))) config_input_fields)).
Proof.
  intros E v attrs items x Hv W. rewrite load_hgroup.
  assert (HR : forall f, (since f <= v)%nat -> In (f, TOptText) config_input_fields -> replace_empty_string (x f) = x f).
  { intros f Hn Hin. destruct (W f TOptText Hin Hn) as [Ht _]. apply (typed_opttext E) in Ht as (? & _ & _ & _ & H). exact H. }
  simpl in Hv.
  repeat (destruct Hv as [<-|Hv]; [one_version W conf_value; repeat rewrite HR by (first [vm_compute; lia | apply dget_In; reflexivity]); reflexivity |]).
  contradiction.
Qed.
