(** Properties C41, C42, C43, C71, C72: inputs as text, configuration files, overrides and re-solving. *)
From Coq Require Import String List Bool ZArith Ascii Reals Lia.
From Verif Require Import Lib_Py Model_FormatTables Model_Format Model_Run Model_Inputs Spec_Inputs Proofs_Inputs.
Import ListNotations.
Open Scope string_scope. Open Scope list_scope.

(** C41. A slice is recovered from its text exactly when the text can express it. *)
Lemma slice_text : forall E a b s, slice_to_str E (slice_obj (oint a) (oint b) (oint s)) =
  Ok (String.concat "," (map str_of_Z (match a with Some z => [z] | None => [] end ++ match b with Some z => [z] | None => [] end ++
                                       match s with Some z => [z] | None => [] end))).
Proof. intros E [a|] [b|] [s|]; reflexivity. Qed.
Theorem C41_slice_exact : forall E a b s,
  (exists t, slice_to_str E (slice_obj (oint a) (oint b) (oint s)) = Ok t /\
             str_to_slice E (VText t) = Ok (slice_obj (oint a) (oint b) (oint s)))
  <-> slice_expressible a b s.
Proof.
  intros E a b s. rewrite slice_text. unfold slice_expressible. split.
  - intros (t & H1 & H2). apply (f_equal (fun r => match r with Ok x => x | Raise _ => "" end)) in H1. cbn in H1. subst t.
    destruct a as [a|], b as [b|], s as [s|]; cbn [app] in H2;
      try (rewrite slice_of_list in H2 by discriminate; cbn in H2); try discriminate H2; split; congruence.
  - intros [H1 H2]. eexists. split; [reflexivity|].
    destruct b as [b|]; [|congruence]. destruct a as [a|].
    + destruct s as [s|]; cbn [app]; rewrite slice_of_list by discriminate; reflexivity.
    + rewrite (H2 eq_refl). cbn [app]. rewrite slice_of_list by discriminate. reflexivity.
Qed.
Theorem C41_slice_partial : forall E a b s, slice_expressible a b s ->
  exists t, slice_to_str E (slice_obj (oint a) (oint b) (oint s)) = Ok t /\
            str_to_slice E (VText t) = Ok (slice_obj (oint a) (oint b) (oint s)).
Proof. intros E a b s H. apply C41_slice_exact, H. Qed.
(** "From 5 on" silently becomes "up to 5", and "everything" cannot be read. *)
Theorem C41_slice_refuted : forall E,
  slice_to_str E (slice_obj (VInt 5) VNone VNone) = Ok "5" /\ str_to_slice E (VText "5") = Ok (slice_obj VNone (VInt 5) VNone) /\
  slice_to_str E (slice_obj VNone VNone VNone) = Ok "" /\ str_to_slice E (VText "") = Raise ValueError.
Proof. intro E. repeat split. Qed.
(** Every selection of MCMC variables is recovered from its text. *)
Theorem C41_mcmc : forall E r a k, let m := mcmc_obj (VBool r) (VBool a) (VBool k) in
  mcmc_vars_str_to_obj (VText (text_of E m)) = Ok m.
Proof. intros E [] [] []; reflexivity. Qed.
(** Inside a configuration the empty selection turns into "None", which selects everything. *)
Theorem C41_mcmc_config_refuted : forall E, let m := mcmc_obj (VBool false) (VBool false) (VBool false) in
  exists v, convert E CEmptyToNone (VText (text_of E m)) = Ok v /\ mcmc_vars_str_to_obj v = Ok VNone.
Proof. intro E. exists (VText "None"). split; reflexivity. Qed.
Example C41_nonvacuous : slice_expressible (Some (-1000)%Z) (Some (-100)%Z) None /\ slice_expressible None (Some 5%Z) None /\
  slice_expressible (Some 1%Z) (Some 100%Z) (Some 2%Z).
Proof. repeat split; congruence. Qed.

(** ** C72 *)
Definition config_value (E : env) (label : val) (x : string -> val) (f : string) : val :=
  if String.eqb f "label" then label
  else if String.eqb f "split_method" then x f
  else if String.eqb f "interp_slice" then match slice_to_str E (x f) with Ok s => VText s | Raise _ => VNone end
  else VText (text_of E (x f)).
Lemma mcmc_text_some : forall E r a k, (r || a || k) = true ->
  let t := text_of E (mcmc_obj (VBool r) (VBool a) (VBool k)) in t <> "" /\ t <> "None" /\
  mcmc_vars_str_to_obj (VText t) = Ok (mcmc_obj (VBool r) (VBool a) (VBool k)).
Proof. intros E [] [] [] H; try discriminate H; repeat split; discriminate. Qed.
Lemma not_empty_text : forall s, s <> "" -> replace_empty_string (VText s) = VText s.
Proof. intros s H. simpl. destruct (String.eqb_spec s ""); [contradiction | reflexivity]. Qed.
Lemma str_of_Z_not_None : forall z, str_of_Z z <> "None".
Proof. intro z. apply (list_text_not _ (int_list_chars _ (str_of_Z_chars z))). Qed.

Section C72.
Variables (E : env) (T : text_tools) (x : string -> val) (label : val).
Hypothesis P : printable E T x.
Let w := config_value E label x.
Lemma opt_float_ok : forall v, v = VNone \/ (exists r, v = VNum r /\ float_reads E T r) ->
  replace_empty_string (VText (text_of E v)) = VText (text_of E v) /\ convert_in E T IOptFloat (VText (text_of E v)) = Ok v.
Proof.
  intros v [->|(r & -> & R1 & R2 & R3)]; [split; reflexivity|]. cbn [text_of]. split; [apply not_empty_text, R2|].
  cbn [convert_in says_none]. destruct (String.eqb_spec (e_str E (VNum r)) "None"); [contradiction|]. cbn [on_text]. rewrite R1. reflexivity.
Qed.
Lemma opt_int_ok : forall v, v = VNone \/ (exists z, v = VInt z /\ int_reads T z) ->
  replace_empty_string (VText (text_of E v)) = VText (text_of E v) /\ convert_in E T IOptInt (VText (text_of E v)) = Ok v.
Proof.
  intros v [->|(z & -> & R1)]; [split; reflexivity|]. cbn [text_of]. split; [apply not_empty_text, str_of_Z_nonempty|].
  cbn [convert_in says_none]. destruct (String.eqb_spec (str_of_Z z) "None") as [Q|]; [destruct (str_of_Z_not_None z Q)|]. cbn [on_text]. rewrite R1. reflexivity.
Qed.
Lemma float_ok : forall v, (exists r, v = VNum r /\ float_reads E T r) -> convert_in E T IFloat (VText (text_of E v)) = Ok v.
Proof. intros v (r & -> & R1 & _). cbn [text_of convert_in on_text]. rewrite R1. reflexivity. Qed.
Lemma int_ok : forall v, (exists z, v = VInt z /\ int_reads T z) -> convert_in E T IInt (VText (text_of E v)) = Ok v.
Proof. intros v (z & -> & R1). cbn [text_of convert_in on_text]. rewrite R1. reflexivity. Qed.
Lemma bool_ok : bools_read T -> forall v, (exists b, v = VBool b) -> convert_in E T IBool (VText (text_of E v)) = Ok v.
Proof. intros [B1 B2] v ([] & ->); cbn [text_of convert_in on_text]; [rewrite B1 | rewrite B2]; reflexivity. Qed.
Lemma mcmc_ok : forall v, (v = VNone \/ exists r a k, v = mcmc_obj (VBool r) (VBool a) (VBool k) /\ (r || a || k) = true) ->
  replace_empty_string (VText (text_of E v)) = VText (text_of E v) /\ convert_in E T IMcmc (VText (text_of E v)) = Ok v /\
  mcmc_vars_str_to_obj v = Ok v.
Proof.
  intros v [->|(r & a & k & -> & H)]; [repeat split|]. destruct (mcmc_text_some E r a k H) as (N1 & _ & N3).
  split; [apply not_empty_text, N1 | split; [exact N3 | reflexivity]].
Qed.
Lemma slice_ok : forall v, (exists a b s, v = slice_obj (oint a) (oint b) (oint s) /\ slice_expressible a b s) ->
  exists t, slice_to_str E v = Ok t /\ t <> "" /\ convert_in E T ISlice (VText t) = Ok v /\ str_to_slice E v = Ok v.
Proof.
  intros v (a & b & s & -> & H). destruct (C41_slice_partial E a b s H) as (t & H1 & H2). exists t. repeat split; try assumption.
  intros ->. cbn in H2. discriminate H2.
Qed.
End C72.
Ltac inl := solve [apply str_in_iff; vm_compute; reflexivity].
Ltac field_forall := repeat (apply Forall_cons; [cbn [fst snd fld]|]); [..|apply Forall_nil].

(** C72. A printable solver input survives being turned into configuration text and back. *)
Lemma to_config_ok : forall E T x label, printable E T x ->
  to_config_input E label (soln_object x) = Ok (conf_object (config_value E label x)).
Proof.
  intros E T x label [PF PI PBs PB PO PR PS PL PM].
  destruct (slice_ok E T _ PL) as (t & L1 & L2 & L3 & _). destruct PS as (sm & PS).
  unfold to_config_input. rewrite (convert_out_all_fields E (soln_object x) x (config_value E label x)).
  2: { unfold to_config_table. field_forall; (split; [apply getattr_object; inl | try reflexivity]).
       unfold config_value. cbn [String.eqb Ascii.eqb Bool.eqb]. cbn [convert_out]. rewrite L1. reflexivity. }
  cbn [rbind]. unfold conf_object, CONFIG_FIELDS.
  apply (construct_fields E "ConfigInput" fields_ConfigInput _ (config_value E label x)).
  - reflexivity.
  - discriminate.
  - intros k Hk. apply str_in_iff. repeat (destruct Hk as [<-|Hk]; [reflexivity|]). destruct Hk.
  - unfold fields_ConfigInput. field_forall; (split; [reflexivity|]); cbn [convert]; try reflexivity; f_equal.
    all: first [ apply (opt_float_ok E T), PO; inl | apply (mcmc_ok E T), PM | apply (opt_int_ok E T), PR | idtac ].
    unfold config_value. cbn [String.eqb Ascii.eqb Bool.eqb]. rewrite L1. apply not_empty_text, L2.
Qed.
Lemma conf_to_soln_ok : forall E T x label, printable E T x ->
  to_soln_input E T (conf_object (config_value E label x)) = Ok (soln_object x).
Proof.
  intros E T x label [PF PI PBs PB PO PR PS PL PM].
  destruct (slice_ok E T _ PL) as (t & L1 & L2 & L3 & L4).
  unfold to_soln_input. rewrite (convert_all_fields E T (conf_object (config_value E label x)) (config_value E label x) x).
  2: { unfold to_soln_table. field_forall; (split; [apply getattr_object; inl | ]).
       all: first [ apply (float_ok E T), PF; inl | apply (int_ok E T), PI; inl | apply (bool_ok E T PBs), PB; inl
                  | apply (opt_float_ok E T), PO; inl | apply (opt_int_ok E T), PR | apply (mcmc_ok E T), PM | idtac ].
       - unfold config_value. cbn [String.eqb Ascii.eqb Bool.eqb]. rewrite L1. exact L3.
       - reflexivity. }
  cbn [rbind]. unfold soln_object, SOLUTION_INPUT_FIELDS.
  apply (construct_fields E "SolutionInput" fields_SolutionInput _ x).
  - reflexivity.
  - discriminate.
  - intros k Hk. apply str_in_iff. repeat (destruct Hk as [<-|Hk]; [reflexivity|]). destruct Hk.
  - unfold fields_SolutionInput. field_forall; (split; [reflexivity|]); cbn [convert]; try reflexivity.
    + apply (mcmc_ok E T), PM.
    + exact L4.
Qed.
Theorem C72_round_trip_partial : forall E T x label, printable E T x ->
  exists c, to_config_input E label (soln_object x) = Ok c /\ getattr "label" c = Ok label /\ to_soln_input E T c = Ok (soln_object x).
Proof.
  intros E T x label P. exists (conf_object (config_value E label x)). split; [eapply to_config_ok, P|]. split; [|apply conf_to_soln_ok, P].
  unfold conf_object. rewrite getattr_object by inl. reflexivity.
Qed.
(** Without an interpolation slice there is no configuration text at all; that is what the input of every shock
    solution is (solve/shock.py:175). *)
Theorem C72_no_slice_refuted : forall E x label, x "interp_slice" = VNone ->
  exists e, to_config_input E label (soln_object x) = Raise e.
Proof.
  intros E x label H. exists AttributeError. unfold to_config_input, to_config_table, soln_object.
  cbn [convert_out_all fst snd]. repeat (rewrite getattr_object by inl; cbn [rbind convert_out]).
  rewrite H. reflexivity.
Qed.
Lemma dget_dupdate_map : forall (names : list string) (x : string -> val) ch f, (forall k, In k (map fst ch) -> In k names) -> NoDup (map fst ch) ->
  In f names ->
  dget f (dupdate (map (fun g => (g, x g)) names) ch) = Some (match dget f ch with Some v => v | None => x f end).
Proof.
  intros names x ch f HK ND Hf. unfold dupdate.
  assert (G : forall (ch d : dict val) v, NoDup (map fst ch) -> dget f d = Some v -> dget f (fold_left (fun acc p => dset (fst p) (snd p) acc) ch d) =
    Some (match dget f ch with Some u => u | None => v end)).
  { clear. induction ch as [|[k u] t IH]; intros d v ND Hd; [exact Hd|]. cbn [fold_left fst snd dget]. inversion ND as [|? ? N ND']; subst.
    destruct (String.eqb_spec f k) as [->|Nk].
    - rewrite (IH _ u ND') by apply dget_dset_same. apply dget_None_keys in N. fold (dkeys t) in N. rewrite N. reflexivity.
    - apply IH; [exact ND'|]. rewrite dget_dset_other by congruence. exact Hd. }
  rewrite (G ch _ (x f) ND) by (apply dget_map, Hf). reflexivity.
Qed.
Lemma dkeys_dupdate : forall (d ch : dict val) k, In k (map fst (dupdate d ch)) -> In k (map fst d) \/ In k (map fst ch).
Proof.
  intros d ch; unfold dupdate; revert d; induction ch as [|[c u] t IH]; intros d k H; [left; exact H|]. cbn [fold_left fst snd] in H.
  destruct (IH _ _ H) as [H'|H']; [|right; right; exact H']. change (map fst (dset c u d)) with (dkeys (dset c u d)) in H'. rewrite dkeys_dset in H'.
  destruct (dmem c d); [left; exact H'|]. apply in_app_iff in H' as [H'|[<-|[]]]; [left; exact H' | right; left; reflexivity].
Qed.
Theorem C72_after_shock_refuted : forall E T x, printable E T x ->
  exists s, new_without_sonic_taylor E (soln_object x) = Ok s /\ forall label, exists e, to_config_input E label s = Raise e.
Proof.
  intros E T x [PF PI PBs PB PO PR PS PL PM].
  set (ch := [("use_taylor_jump", VBool false); ("jump_before_sonic", VNone); ("v_θ_sonic_crit", VNone); ("after_sonic", VNone);
              ("interp_range", VNone); ("interp_slice", VNone); ("sonic_interp_size", VNone)] : dict val).
  set (y := fun f => match dget f ch with Some v => v | None => x f end).
  assert (NDch : NoDup (map fst ch)) by (subst ch; cbn [map fst]; repeat constructor; cbn; intuition discriminate).
  exists (soln_object y). split.
  - unfold new_without_sonic_taylor, evolve, soln_object, object. fold ch.
    apply (construct_fields E "SolutionInput" fields_SolutionInput _ y); [reflexivity | discriminate | |].
    + intros k Hk. apply dkeys_dupdate in Hk as [Hk|Hk]; [rewrite map_map, map_id in Hk; exact Hk|].
      apply str_in_iff. repeat (destruct Hk as [<-|Hk]; [reflexivity|]). destruct Hk.
    + unfold fields_SolutionInput. field_forall; (split; [apply dget_dupdate_map; [| |inl] | cbn [convert]; try reflexivity]).
      all: try (intros k Hk; apply str_in_iff; repeat (destruct Hk as [<-|Hk]; [reflexivity|]); destruct Hk).
      all: try exact NDch.
      apply (mcmc_ok E T), PM.
  - intro label. apply C72_no_slice_refuted. reflexivity.
Qed.
(** A selection of no MCMC variables comes back as None, which solve/mcmc.py:33-37 reads as all of them. *)
Theorem C72_no_mcmc_refuted : forall E T x label, printable E T x ->
  let y := fun f => if String.eqb f "mcmc_vars" then mcmc_obj (VBool false) (VBool false) (VBool false) else x f in
  exists c s, to_config_input E label (soln_object y) = Ok c /\ to_soln_input E T c = Ok s /\ getattr "mcmc_vars" s = Ok VNone.
Proof.
  intros E T x label P y.
  set (x' := fun f => if String.eqb f "mcmc_vars" then VNone else x f).
  assert (P' : printable E T x').
  { destruct P as [PF PI PBs PB PO PR PS PL PM]. constructor; try assumption.
    - intros f Hf. assert (Q : x' f = x f) by (repeat (destruct Hf as [<-|Hf]; [reflexivity|]); destruct Hf). rewrite Q. apply PF, Hf.
    - intros f Hf. assert (Q : x' f = x f) by (repeat (destruct Hf as [<-|Hf]; [reflexivity|]); destruct Hf). rewrite Q. apply PI, Hf.
    - intros f Hf. assert (Q : x' f = x f) by (repeat (destruct Hf as [<-|Hf]; [reflexivity|]); destruct Hf). rewrite Q. apply PB, Hf.
    - intros f Hf. assert (Q : x' f = x f) by (repeat (destruct Hf as [<-|Hf]; [reflexivity|]); destruct Hf). rewrite Q. apply PO, Hf.
    - left. reflexivity. }
  exists (conf_object (config_value E label x')), (soln_object x').
  split; [|split; [apply conf_to_soln_ok, P' | unfold soln_object; apply getattr_object; inl]].
  destruct P' as [PF PI PBs PB PO PR PS PL PM].
  destruct (slice_ok E T _ PL) as (t & L1 & L2 & L3 & _).
  unfold to_config_input. rewrite (convert_out_all_fields E (soln_object y) y (config_value E label y)).
  2: { unfold to_config_table. field_forall; (split; [apply getattr_object; inl | try reflexivity]).
       unfold config_value. cbn [String.eqb Ascii.eqb Bool.eqb]. cbn [convert_out]. change (y "interp_slice") with (x' "interp_slice"). rewrite L1. reflexivity. }
  cbn [rbind]. unfold conf_object, CONFIG_FIELDS.
  apply (construct_fields E "ConfigInput" fields_ConfigInput _ (config_value E label y)).
  - reflexivity.
  - discriminate.
  - intros k Hk. apply str_in_iff. repeat (destruct Hk as [<-|Hk]; [reflexivity|]). destruct Hk.
  - unfold fields_ConfigInput. field_forall; (split; [reflexivity|]); cbn [convert]; try reflexivity; f_equal.
    all: try first [ exact (proj1 (opt_float_ok E T _ (PO "jump_before_sonic" ltac:(inl)))) | exact (proj1 (opt_float_ok E T _ (PO "v_θ_sonic_crit" ltac:(inl))))
      | exact (proj1 (opt_float_ok E T _ (PO "after_sonic" ltac:(inl)))) | exact (proj1 (opt_float_ok E T _ (PO "sonic_interp_size" ltac:(inl))))
      | exact (proj1 (opt_int_ok E T _ PR)) ].
    change (config_value E label y "interp_slice") with (config_value E label x' "interp_slice").
    replace (config_value E label x' "interp_slice") with (VText t); [apply not_empty_text, L2|].
    change (VText t = match slice_to_str E (x' "interp_slice") with Ok s => VText s | Raise _ => VNone end). rewrite L1. reflexivity.
Qed.
