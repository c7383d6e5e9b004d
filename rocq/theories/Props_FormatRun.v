(** Properties C48 and C75: the use_E_r flag of a loaded run; writing again what was loaded from an older file. *)
From Coq Require Import String List Bool ZArith Reals Permutation Lra Lia.
From Verif Require Import Lib_Py Model_FormatTables Model_Format Spec_Format Proofs_Format Proofs_FormatOld Props_Format.
Import ListNotations.
Open Scope string_scope. Open Scope list_scope.

(** ** C48 *)
Lemma fill_input : forall u si x, getattr "use_E_r" si = Ok x ->
  match x with VNone => setattr "use_E_r" u si | _ => Ok si end = Ok si \/ x = VNone ->
  exists si', match x with VNone => setattr "use_E_r" u si | _ => Ok si end = Ok si' /\ filled u si si'.
Proof.
  intros u si x H _. destruct si as [| | | | | | | |c fs]; try discriminate. unfold getattr in H.
  destruct (dget "use_E_r" fs) as [y|] eqn:D; [|discriminate]. injection H as ->.
  destruct x; try (eexists; split; [reflexivity|]; exists c, fs, fs; eexists; (split; [reflexivity|]); (split; [reflexivity|]);
    (split; [exact D|]); (split; [exact D|]); intros; reflexivity).
  eexists. split; [reflexivity|]. exists c, fs, (dset "use_E_r" u fs), VNone. split; [reflexivity|]. split; [reflexivity|].
  split; [exact D|]. split; [apply dget_dset_same|]. intros f N. apply dget_dset_other. congruence.
Qed.
Lemma filled_refl_not_none : forall u si x, getattr "use_E_r" si = Ok x -> x <> VNone -> filled u si si.
Proof.
  intros u si x H N. destruct (fill_input u si x H) as (si' & A & B); [destruct x; try (left; reflexivity); right; reflexivity|].
  destruct x; try (injection A as <-; exact B). congruence.
Qed.
Lemma fill_solution_spec : forall u s s', fill_solution u s = Ok s' -> soln_filled u s s'.
Proof.
  intros u s s' H. unfold fill_solution in H.
  destruct s as [| | | | | | | |c fs]; try discriminate. unfold getattr in H at 1.
  destruct (dget "solution_input" fs) as [si|] eqn:D; [|discriminate]. cbn [rbind] in H.
  destruct (getattr "use_E_r" si) as [x|] eqn:G; [|discriminate]. cbn [rbind] in H.
  destruct (fill_input u si x G) as (si' & A & B); [destruct x; try (left; reflexivity); right; reflexivity|].
  destruct x; try (injection H as <-; injection A as <-; exists c, fs, fs, si, si; intuition reflexivity).
  rewrite A in H. cbn [rbind setattr] in H. injection H as <-.
  exists c, fs, (dset "solution_input" si' fs), si, si'. split; [reflexivity|]. split; [reflexivity|].
  split; [exact D|]. split; [apply dget_dset_same|]. split; [exact B|]. intros f N. apply dget_dset_other. congruence.
Qed.
Lemma fill_all_spec : forall u (d d' : dict val), fill_all u d = Ok d' ->
  Forall2 (fun a b => fst a = fst b /\ soln_filled u (snd a) (snd b)) d d'.
Proof.
  intros u d. induction d as [|[k s] t IH]; intros d' H; cbn [fill_all] in H; [injection H as <-; constructor|].
  destruct (fill_solution u s) as [s'|] eqn:F; [|discriminate]. cbn [rbind] in H.
  destruct (fill_all u t) as [t'|]; [|discriminate]. injection H as <-.
  constructor; [split; [reflexivity | apply fill_solution_spec, F] | apply IH; reflexivity].
Qed.

(** Loading a run of version 5 or 6 whose own flag is [b], through h5preserve's caching of the objects it has
    read: the configuration and every solution without a flag gets it, one with a flag keeps it, and nothing
    else of them changes. *)
Theorem C48_filled_partial : forall E v attrs items b ci d fin hc hs hf r,
  e_cache E = true -> In v [5; 6]%nat ->
  dget "use_E_r" items = Some (HBool b) ->
  dget "config_input" items = Some hc -> load E hc = Ok ci ->
  dget "solutions" items = Some hs -> load E hs = Ok (VObj "Solutions" d) ->
  dget "final_solution" items = Some hf -> load E hf = Ok fin ->
  load E (HGroup "Run" v attrs items) = Ok r ->
  exists ci' d' fin',
    getattr "config_input" r = Ok ci' /\ getattr "solutions" r = Ok (VObj "Solutions" d') /\
    getattr "final_solution" r = Ok fin' /\ getattr "use_E_r" r = Ok (VBool b) /\
    filled (VText (if b then "True" else "False")) ci ci' /\
    Forall2 (fun a b' => fst a = fst b' /\ soln_filled (VBool b) (snd a) (snd b')) d d' /\
    (fin = VNone /\ fin' = VNone \/ soln_filled (VBool b) fin fin').
Proof.
  intros E v attrs items b ci d fin hc hs hf r HC Hv U C1 C2 S1 S2 F1 F2 HL.
  apply (loaded_get E) in U, C1, S1, F1. rewrite C2 in C1. rewrite S2 in S1. rewrite F2 in F1. cbn [load] in U.
  rewrite load_hgroup in HL. unfold load_group in HL. cbn [String.eqb Ascii.eqb Bool.eqb] in HL.
  assert (P : exists ci' d' fin', run_prologue E (loaded_list E items) =
      Ok (dset "final_solution" (Ok fin') (dset "solutions" (Ok (VObj "Solutions" d')) (dset "config_input" (Ok ci') (loaded_list E items)))) /\
    filled (VText (if b then "True" else "False")) ci ci' /\
    Forall2 (fun a b' => fst a = fst b' /\ soln_filled (VBool b) (snd a) (snd b')) d d' /\
    (fin = VNone /\ fin' = VNone \/ soln_filled (VBool b) fin fin')).
  { assert (HP : exists y, run_prologue E (loaded_list E items) = Ok y).
    { simpl in Hv. destruct Hv as [<-|[<-|[]]]; cbn [loader String.eqb Ascii.eqb Bool.eqb andb Nat.leb] in HL;
        (destruct (run_prologue E (loaded_list E items)) as [y|]; [eexists; reflexivity | discriminate]). }
    destruct HP as (y & HP). rewrite HP. unfold run_prologue in HP. rewrite U in HP. cbn [rbind] in HP. rewrite C1 in HP. cbn [rbind] in HP.
    destruct (getattr "use_E_r" ci) as [x|] eqn:G; [|discriminate]. cbn [rbind] in HP.
    destruct (fill_input (VText (py_str E (VBool b))) ci x G) as (ci' & A & B); [destruct x; try (left; reflexivity); right; reflexivity|].
    rewrite A in HP. cbn [rbind] in HP. rewrite S1 in HP. cbn [rbind] in HP. change (String.eqb "Solutions" "Solutions") with true in HP. cbv iota in HP.
    destruct (fill_all (VBool b) d) as [d'|] eqn:FA; [|discriminate]. cbn [rbind] in HP. rewrite HC in HP. rewrite F1 in HP. cbn [rbind] in HP.
    assert (Hp : VText (py_str E (VBool b)) = VText (if b then "True" else "False")) by (destruct b; reflexivity). rewrite Hp in B.
    destruct (match fin with VNone => Ok VNone | _ => fill_solution (VBool b) fin end) as [fin'|] eqn:FF; [|discriminate]. cbn [rbind] in HP.
    exists ci', d', fin'. split; [symmetry; exact HP|]. split; [exact B|]. split; [apply fill_all_spec, FA|].
    destruct fin; try (right; apply fill_solution_spec, FF). left. injection FF as <-. split; reflexivity. }
  destruct P as (ci' & d' & fin' & P1 & P2 & P3 & P4).
  exists ci', d', fin'.
  assert (G1 : forall k it, k <> "config_input" -> k <> "solutions" -> k <> "final_solution" ->
     get_item k (dset "final_solution" (Ok fin') (dset "solutions" (Ok (VObj "Solutions" d')) (dset "config_input" (Ok ci') it))) = get_item k it).
  { intros k it N1 N2 N3. unfold get_item. rewrite !dget_dset_other by congruence. reflexivity. }
  assert (G2 : forall it, get_item "final_solution" (dset "final_solution" (Ok fin') (dset "solutions" (Ok (VObj "Solutions" d')) (dset "config_input" (Ok ci') it))) = Ok fin').
  { intro it. unfold get_item. rewrite dget_dset_same. reflexivity. }
  assert (G3 : forall it, get_item "solutions" (dset "final_solution" (Ok fin') (dset "solutions" (Ok (VObj "Solutions" d')) (dset "config_input" (Ok ci') it))) = Ok (VObj "Solutions" d')).
  { intro it. unfold get_item. rewrite dget_dset_other by congruence. rewrite dget_dset_same. reflexivity. }
  assert (G4 : forall it, get_item "config_input" (dset "final_solution" (Ok fin') (dset "solutions" (Ok (VObj "Solutions" d')) (dset "config_input" (Ok ci') it))) = Ok ci').
  { intro it. unfold get_item. rewrite !dget_dset_other by congruence. rewrite dget_dset_same. reflexivity. }
  assert (Q : getattr "config_input" r = Ok ci' /\ getattr "solutions" r = Ok (VObj "Solutions" d') /\
    getattr "final_solution" r = Ok fin' /\ getattr "use_E_r" r = Ok (VBool b)); [|intuition].
  simpl in Hv. destruct Hv as [<-|[<-|[]]]; cbn [loader String.eqb Ascii.eqb Bool.eqb andb Nat.leb] in HL;
    rewrite P1 in HL; cbn [rbind load_Run_5 load_Run_6 eval_kwargs eval_lexpr] in HL;
    rewrite G4 in HL; cbn [rbind] in HL; rewrite G2, G3 in HL; rewrite !G1 in HL by discriminate; rewrite U in HL;
    set (its := loaded_list E items) in *;
    unfold dgetitem in HL;
    repeat (match type of HL with
            | context [get_item ?k its] => destruct (get_item k its); [|cbn [rbind] in HL; discriminate HL]
            | context [dget "is_post_shock_only" attrs] => destruct (dget "is_post_shock_only" attrs); [|cbn [rbind] in HL; discriminate HL]
            end; cbn [rbind] in HL);
    lazy in HL; injection HL as <-; repeat split.
Qed.

(** Objects for the examples: solutions as they are in a version 5 file (their input is of version 13). *)
Definition cut {A} (l : list (string * A)) : list (string * A) := filter (fun p => negb (String.eqb (fst p) "use_E_r")) l.
Definition older (h : h5) : h5 := match h with HGroup c _ a i => HGroup c 13 (cut a) i | _ => h end.
Definition obj_file (v : val) : h5 := match store v with Ok h => h | Raise _ => HNone end.
Definition older_initial : h5 := HGroup "InitialConditions" 3
  [("norm_kepler_sq", q 1000); ("a_0", q 1); ("η_O", q 0); ("η_A", q 0); ("η_H", q 0); ("γ", q 0); ("init_con", VArr [8] (repeat (Some 0%R) 8))]
  [("angles", HData (VArr [1] [Some 0%R]))].
Definition older_soln : h5 :=
  match obj_file (ex_solution (VBool true) VNone) with
  | HGroup c n a i => HGroup c n a (map (fun p => if String.eqb (fst p) "solution_input" then (fst p, older (snd p))
      else if String.eqb (fst p) "initial_conditions" then (fst p, older_initial) else p) i)
  | h => h end.
Definition ex_run_file (config : h5) (soln : h5) : h5 := HGroup "Run" 5 []
  [("config_input", config); ("config_filename", HText "a.cfg"); ("time", HNone); ("final_solution", soln);
   ("solutions", HGroup "Solutions" 1 [] [("0", soln); ("1", soln)]); ("disc_solver_version", HText "0.2");
   ("float_type", HText "float128"); ("sonic_method", HText "step"); ("use_E_r", HBool true)].
Definition solution_flags (r : res val) : res (list val) :=
  let! v := r in let! s := getattr "solutions" v in
  match s with
  | VObj _ d => (fix go (l : list (string * val)) : res (list val) := match l with [] => Ok [] | (_, x) :: t =>
      let! si := getattr "solution_input" x in let! u := getattr "use_E_r" si in let! r := go t in Ok (u :: r) end) d
  | _ => Raise OtherError end.
Definition input_flag (f : string) (r : res val) : res val := let! v := r in let! c := getattr f v in getattr "use_E_r" c.
Example C48_nonvacuous :
  let r := load (E0 true) (ex_run_file (older (obj_file (ex_config_input (VText "x")))) older_soln) in
  solution_flags r = Ok [VBool true; VBool true] /\ input_flag "config_input" r = Ok (VText "True").
Proof. split; vm_compute; reflexivity. Qed.
(** Read without that cache (each access to a solution reads the file again), the solutions keep no flag. *)
Theorem C48_uncached_refuted : exists E h, lists_entries E /\
  exists r, load E h = Ok r /\ getattr "use_E_r" r = Ok (VBool true) /\ solution_flags (Ok r) = Ok [VNone; VNone].
Proof.
  exists (E0 false), (ex_run_file (older (obj_file (ex_config_input (VText "x")))) older_soln). split; [apply E0_lists|].
  eexists. split; [vm_compute; reflexivity|]. split; vm_compute; reflexivity.
Qed.
(** Runs of versions 1 to 4 hold inputs without the flag and leave it None, and report use_E_r = False themselves. *)
Theorem C48_old_runs_refuted : forall E v hc ci fn tm hf fin hs sols ver ft sm attrs items fnv tmv,
  In v [1; 2; 3; 4]%nat ->
  dget "config_input" items = Some hc -> load E hc = Ok ci -> dget "config_filename" items = Some fn ->
  dget "time" items = Some tm -> dget "final_solution" items = Some hf -> load E hf = Ok fin ->
  dget "solutions" items = Some hs -> load E hs = Ok sols ->
  dget "disc_solver_version" items = Some (HText ver) -> dget "float_type" items = Some (HText ft) ->
  dget "sonic_method" items = Some (HText sm) -> load E fn = Ok fnv -> load E tm = Ok tmv ->
  getattr "use_E_r" ci = Ok VNone ->
  exists r, load E (HGroup "Run" v attrs items) = Ok r /\ getattr "use_E_r" r = Ok (VBool false) /\
    input_flag "config_input" (Ok r) = Ok VNone.
Proof.
  intros E v hc ci fn tm hf fin hs sols ver ft sm attrs items fnv tmv Hv C1 C2 F1 T1 L1 L2 S1 S2 D1 D2 D3 F2 T2 HN.
  eexists. split.
  - eapply (C47_run E v hc ci fn tm hf fin hs sols ver ft sm attrs items Hv C1 C2 F1 T1 L1 L2 S1 S2); eauto.
  - split; [reflexivity|]. exact HN.
Qed.

(** ** C75 *)
Lemma dump_attrs_none : forall t (fs : dict val) k f, In (k, f) t -> dget f fs = Some VNone ->
  (forall k' f', In (k', f') t -> dget f' fs <> None) -> dump_attrs t fs = Raise TypeError.
Proof.
  intros t fs k f. induction t as [|[k0 f0] t IH]; [contradiction|]. intros Hin Hn Ha. cbn [dump_attrs].
  destruct (dget f0 fs) as [x|] eqn:D; [|destruct (Ha k0 f0 (or_introl eq_refl) D)].
  destruct (attr_storable x) eqn:S; [|reflexivity].
  destruct Hin as [H|H]; [injection H as -> ->; rewrite Hn in D; injection D as <-; discriminate|].
  rewrite IH; [reflexivity | exact H | exact Hn | intros k' f' H'; apply (Ha k' f'); right; exact H'].
Qed.
(** Any input with a None flag cannot be written. *)
Lemma none_flag_unstorable : forall c fs, In c ["SolutionInput"; "ConfigInput"] ->
  (forall f t, In (f, t) (if String.eqb c "SolutionInput" then solution_input_fields else config_input_fields) -> dget f fs <> None) ->
  dget "use_E_r" fs = Some VNone -> store (VObj c fs) = Raise TypeError.
Proof.
  intros c fs Hc Ha Hn. rewrite store_obj. unfold store_group. simpl in Hc.
  destruct Hc as [<-|[<-|[]]]; cbn [dumper String.eqb Ascii.eqb Bool.eqb orb] in *;
    unfold dump_SolutionInput, dump_ConfigInput; cbn [fst snd];
    rewrite (dump_attrs_none _ fs "use_E_r" "use_E_r"); try reflexivity; try exact Hn; try (simpl; tauto);
    intros k' f' Hin; simpl in Hin;
    repeat (destruct Hin as [Hin|Hin]; [injection Hin as <- <-; eapply Ha; simpl; tauto|]); contradiction.
Qed.
(** What was loaded from an input written before version 14 cannot be written again. *)
Theorem C75_inputs_refuted : forall E c v attrs items x,
  In c ["SolutionInput"; "ConfigInput"] -> In v [4; 6; 7; 8; 9; 10; 11; 12; 13]%nat ->
  written_by v (if String.eqb c "SolutionInput" then solution_input_fields else config_input_fields) x attrs items ->
  exists o, load E (HGroup c v attrs items) = Ok o /\ store o = Raise TypeError.
Proof.
  intros E c v attrs items x Hc Hv W.
  assert (Hv' : In v [4; 6; 7; 8; 9; 10; 11; 12; 13; 14]%nat) by (simpl in Hv |- *; tauto).
  assert (Hlt : (14 <=? v)%nat = false) by (simpl in Hv; intuition; subst; reflexivity).
  assert (L : forall (f : string -> val) (sch : list (string * ty)) g t, In (g, t) sch -> dget g (map (fun ft => (fst ft, f (fst ft))) sch) <> None).
  { intros f sch g t. induction sch as [|[a b] s IH]; [contradiction|]. simpl. destruct (String.eqb_spec g a) as [->|N]; [discriminate|].
    intros [H|H]; [injection H as <- <-; congruence | exact (IH H)]. }
  simpl in Hc. destruct Hc as [<-|[<-|[]]]; cbn [String.eqb Ascii.eqb Bool.eqb] in W.
  - eexists. split; [apply (solution_input_older E v attrs items x Hv' W)|].
    apply none_flag_unstorable; [simpl; tauto | cbn [String.eqb Ascii.eqb Bool.eqb]; intros f t; apply L|].
    unfold solution_input_fields. cbn [map fst dget String.eqb Ascii.eqb Bool.eqb]. unfold soln_value. cbn [since String.eqb Ascii.eqb Bool.eqb].
    rewrite Hlt. reflexivity.
  - eexists. split; [apply (config_input_older E v attrs items x Hv' W)|].
    apply none_flag_unstorable; [simpl; tauto | cbn [String.eqb Ascii.eqb Bool.eqb]; intros f t; apply L|].
    unfold config_input_fields. cbn [map fst dget String.eqb Ascii.eqb Bool.eqb]. unfold conf_value. cbn [since String.eqb Ascii.eqb Bool.eqb].
    rewrite Hlt. reflexivity.
Qed.
(** Once the flag has been filled in (as loading a run of version 5 or 6 does), inputs of versions 6 to 13 can be
    written, and are then read back exactly. *)
Theorem C75_filled_inputs : forall E c v attrs items x o o' u,
  In c ["SolutionInput"; "ConfigInput"] -> In v [6; 7; 8; 9; 10; 11; 12; 13]%nat -> plain u -> 
  written_by v (if String.eqb c "SolutionInput" then solution_input_fields else config_input_fields) x attrs items ->
  load E (HGroup c v attrs items) = Ok o -> setattr "use_E_r" u o = Ok o' ->
  save_and_load E o' = Ok o'.
Proof.
  intros E c v attrs items x o o' u Hc Hv Hu W HL HS.
  assert (Hv' : In v [4; 6; 7; 8; 9; 10; 11; 12; 13; 14]%nat) by (simpl in Hv |- *; tauto).
  apply (C46_inputs_exact E c o'); [simpl in Hc |- *; tauto|].
  simpl in Hc. destruct Hc as [<-|[<-|[]]]; cbn [String.eqb Ascii.eqb Bool.eqb] in W.
  - rewrite (solution_input_older E v attrs items x Hv' W) in HL. injection HL as <-. injection HS as <-. schema_obj.
    unfold solution_input_fields at 1. unfold solution_input_fields. cbn [map fst dset String.eqb Ascii.eqb Bool.eqb].
    repeat (apply Forall2_cons; [split; [reflexivity|]|]); [..|apply Forall2_nil]; cbn [fst snd];
      try (apply t_plain; exact Hu); unfold soln_value;
      match goal with |- typed ?t (if (since ?f <=? v)%nat then _ else _) =>
        destruct (Nat.leb_spec (since f) v) as [L|L];
          [ apply (W f t); [apply dget_In; reflexivity | exact L]
          | cbn [older_default_soln String.eqb Ascii.eqb Bool.eqb];
            try (exfalso; simpl in Hv; cbn in L; lia) ] end; try (ty_auto; schema_obj; ty_auto); ty_auto.
  - rewrite (config_input_older E v attrs items x Hv' W) in HL. injection HL as <-. injection HS as <-. schema_obj.
    unfold config_input_fields at 1. unfold config_input_fields. cbn [map fst dset String.eqb Ascii.eqb Bool.eqb].
    repeat (apply Forall2_cons; [split; [reflexivity|]|]); [..|apply Forall2_nil]; cbn [fst snd];
      try (apply t_plain; exact Hu); unfold conf_value;
      match goal with |- typed ?t (if (since ?f <=? v)%nat then _ else _) =>
        destruct (Nat.leb_spec (since f) v) as [L|L];
          [ apply (W f t); [apply dget_In; reflexivity | exact L]
          | cbn [older_default_conf String.eqb Ascii.eqb Bool.eqb];
            try (exfalso; simpl in Hv; cbn in L; lia) ] end; ty_auto.
    all: destruct (Nat.eqb_spec v 4) as [->|]; [simpl in Hv; lia | ty_auto].
Qed.
(** A whole run whose configuration is of before version 14, loaded from a file of run version 1 to 4, cannot
    be written. *)
Theorem C75_run_refuted : forall r fs cfs, r = VObj "Run" fs -> dget "config_input" fs = Some (VObj "ConfigInput" cfs) ->
  (forall f t, In (f, t) config_input_fields -> dget f cfs <> None) -> dget "use_E_r" cfs = Some VNone ->
  exists e, store r = Raise e.
Proof.
  intros r fs cfs -> Hc Ha Hn.
  assert (S : store (VObj "ConfigInput" cfs) = Raise TypeError) by (apply none_flag_unstorable; [simpl; tauto | exact Ha | exact Hn]).
  rewrite store_obj. unfold store_group. cbn [dumper String.eqb Ascii.eqb Bool.eqb orb]. unfold dump_Run. cbn [fst snd].
  destruct (dump_attrs [("is_post_shock_only", "is_post_shock_only")] fs) as [a|e]; [|eexists; reflexivity]. cbn [rbind].
  assert (D : dget "config_input" (stored_list fs) = Some (Raise TypeError)).
  { clear - Hc S. unfold stored_list. induction fs as [|[k x] t IH]; [discriminate|]. cbn [map fst snd dget] in *.
    destruct (String.eqb "config_input" k); [injection Hc as ->; rewrite S; reflexivity | exact (IH Hc)]. }
  cbn [dump_items].
  destruct (dget "time" (stored_list fs)) as [[?|?]|]; try (eexists; reflexivity). cbn [rbind].
  destruct (dget "config_filename" (stored_list fs)) as [[?|?]|]; try (eexists; reflexivity). cbn [rbind].
  rewrite D. eexists; reflexivity.
Qed.
Example C75_nonvacuous : exists o, load (E0 true) (older (obj_file (ex_config_input (VText "x")))) = Ok o /\
  store o = Raise TypeError /\ (exists o', setattr "use_E_r" (VText "True") o = Ok o' /\ save_and_load (E0 true) o' = Ok o').
Proof.
  eexists. split; [vm_compute; reflexivity|]. split; [vm_compute; reflexivity|]. eexists. split; vm_compute; reflexivity.
Qed.
(** Put together: a run of version 1 to 4 loads, and what was loaded cannot be written. *)
Theorem C75_old_runs_refuted : forall E v hc ci fn tm hf fin hs sols ver ft sm attrs items fnv tmv cv cattrs citems x,
  In v [1; 2; 3; 4]%nat -> hc = HGroup "ConfigInput" cv cattrs citems -> In cv [4; 6; 7; 8; 9; 10; 11; 12; 13]%nat ->
  written_by cv config_input_fields x cattrs citems ->
  dget "config_input" items = Some hc -> load E hc = Ok ci -> dget "config_filename" items = Some fn ->
  dget "time" items = Some tm -> dget "final_solution" items = Some hf -> load E hf = Ok fin ->
  dget "solutions" items = Some hs -> load E hs = Ok sols ->
  dget "disc_solver_version" items = Some (HText ver) -> dget "float_type" items = Some (HText ft) ->
  dget "sonic_method" items = Some (HText sm) -> load E fn = Ok fnv -> load E tm = Ok tmv ->
  exists r e, load E (HGroup "Run" v attrs items) = Ok r /\ store r = Raise e.
Proof.
  intros E v hc ci fn tm hf fin hs sols ver ft sm attrs items fnv tmv cv cattrs citems x Hv -> Hcv W C1 C2 F1 T1 L1 L2 S1 S2 D1 D2 D3 F2 T2.
  assert (Hv' : In cv [4; 6; 7; 8; 9; 10; 11; 12; 13; 14]%nat) by (simpl in Hcv |- *; tauto).
  assert (Hlt : (14 <=? cv)%nat = false) by (simpl in Hcv; intuition; subst; reflexivity).
  pose proof (config_input_older E cv cattrs citems x Hv' W) as HC. rewrite HC in C2. injection C2 as <-.
  pose proof (C47_run E v _ _ fn tm hf fin hs sols ver ft sm attrs items Hv C1 HC F1 T1 L1 L2 S1 S2 (fun _ => D1) (fun _ => D2) (fun _ => D3) fnv tmv F2 T2) as HR.
  edestruct C75_run_refuted as (e & He); [reflexivity | | | | eexists; exists e; split; [exact HR | exact He]].
  - reflexivity.
  - intros f t Hin. unfold config_input_fields in *. simpl in Hin.
    repeat (destruct Hin as [Hin|Hin]; [injection Hin as <- <-; discriminate|]). contradiction.
  - unfold config_input_fields. cbn [map fst dget String.eqb Ascii.eqb Bool.eqb]. unfold conf_value. cbn [since String.eqb Ascii.eqb Bool.eqb].
    rewrite Hlt. reflexivity.
Qed.
