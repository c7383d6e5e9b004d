(** Property C43: which input a re-solve uses. *)
From Coq Require Import String List Bool ZArith Ascii Reals Lia Lra.
From Verif Require Import Lib_Py Model_FormatTables Model_Format Model_Run Model_Inputs Spec_Inputs Proofs_Inputs Props_Inputs Props_InputsFile.
Import ListNotations.
Open Scope string_scope. Open Scope list_scope.

Lemma shape_of_keys : forall names (fs : dict val), map fst fs = names -> NoDup names ->
  fs = map (fun f => (f, match dget f fs with Some v => v | None => VNone end)) names.
Proof.
  intros names fs <- ND. rewrite map_map. transitivity (map (fun p : string * val => p) fs); [rewrite map_id; reflexivity|].
  apply map_ext_in. intros [k v] Hin. cbn [fst]. rewrite (In_dget k v fs ND Hin). reflexivity.
Qed.
Lemma soln_names_nodup : NoDup SOLUTION_INPUT_FIELDS.
Proof. unfold SOLUTION_INPUT_FIELDS, fields_SolutionInput. cbn [map fst]. repeat (constructor; [intro H; apply str_in_iff in H; discriminate H|]). constructor. Qed.

(** Reading one field. *)
Definition in_kind_of (f : string) : in_kind := match find (fun e => String.eqb (fst e) f) to_soln_table with Some e => snd e | None => IText end.
Definition conv_of (f : string) : conv := match find (fun e => String.eqb (fld e) f) fields_SolutionInput with Some e => snd e | None => CId end.
Definition field_value (E : env) (T : text_tools) (f : string) (v : val) : res val :=
  let! r := convert_in E T (in_kind_of f) v in convert E (conv_of f) r.
Lemma convert_all_inv : forall E T x t kw, Forall (fun e => In (fst e) CONFIG_FIELDS) t -> convert_all E T t (conf_object x) = Ok kw ->
  map fst kw = map fst t /\ Forall2 (fun e kv => convert_in E T (snd e) (x (fst e)) = Ok (snd kv)) t kw.
Proof.
  intros E T x; induction t as [|[f k] t IH]; intros kw HF H; [injection H as <-; split; constructor|].
  inversion HF as [|? ? F1 F2]; subst. cbn [fst snd] in *. cbn [convert_all] in H. unfold conf_object in H at 1. rewrite getattr_object in H by exact F1. cbn [rbind] in H.
  destruct (convert_in E T k (x f)) as [v|] eqn:Q; [|discriminate H]. cbn [rbind] in H.
  destruct (convert_all E T t (conf_object x)) as [r|] eqn:Q2; [|discriminate H]. injection H as <-.
  destruct (IH r F2 eq_refl) as [I1 I2]. split; [cbn; rewrite I1; reflexivity | constructor; [exact Q | exact I2]].
Qed.
Lemma init_fields_inv : forall E kw fs l, init_fields E fs kw = Ok l ->
  map fst l = map fld fs /\ Forall2 (fun e kv => forall v, dget (fld e) kw = Some v -> convert E (snd e) v = Ok (snd kv)) fs l.
Proof.
  intros E kw; induction fs as [|[[f d] c] t IH]; intros l H; [injection H as <-; split; constructor|]. cbn [init_fields] in H.
  destruct (match dget f kw with Some v => Ok v | None => default_value d end) as [raw|] eqn:Q; [|discriminate H]. cbn [rbind] in H.
  destruct (convert E c raw) as [v|] eqn:Q2; [|discriminate H]. cbn [rbind] in H.
  destruct (init_fields E t kw) as [r|] eqn:Q3; [|discriminate H]. injection H as <-.
  destruct (IH r eq_refl) as [I1 I2]. split; [cbn; rewrite I1; reflexivity|]. constructor; [|exact I2].
  cbn [fld fst snd]. intros u Hu. rewrite Hu in Q. injection Q as <-. exact Q2.
Qed.
Lemma forall2_dget : forall (A : Type) (P : string -> A -> val -> Prop) (t : list A) (key : A -> string) (l : dict val),
  map fst l = map key t -> NoDup (map key t) -> Forall2 (fun e kv => P (key e) e (snd kv)) t l ->
  forall e, In e t -> exists v, dget (key e) l = Some v /\ P (key e) e v.
Proof.
  intros A P t key l HK ND HF; induction HF as [|e [k v] t l H HF IH]; intros e' Hin; [destruct Hin|].
  cbn [map fst] in HK. injection HK as HK1 HK2. inversion ND as [|? ? N1 N2]; subst k. destruct Hin as [<-|Hin].
  - exists v. cbn [dget]. rewrite String.eqb_refl. split; [reflexivity | exact H].
  - destruct (IH HK2 N2 e' Hin) as (u & U1 & U2). exists u. split; [|exact U2]. cbn [dget].
    destruct (String.eqb_spec (key e') (key e)) as [Q|_]; [|exact U1]. exfalso. apply N1. rewrite <- Q. apply (in_map key), Hin.
Qed.
Lemma to_soln_inv : forall E T x s, to_soln_input E T (conf_object x) = Ok s ->
  exists u, s = soln_object u /\ forall f, In f SOLUTION_INPUT_FIELDS -> field_value E T f (x f) = Ok (u f).
Proof.
  intros E T x s H. unfold to_soln_input in H. destruct (convert_all E T to_soln_table (conf_object x)) as [kw|] eqn:Q; [|discriminate H]. cbn [rbind] in H.
  apply convert_all_inv in Q as [K1 K2]; [|unfold to_soln_table; repeat (apply Forall_cons; [cbn [fst]; inl|]); apply Forall_nil].
  unfold construct in H. change (String.eqb "SolutionInput" "InitialConditions") with false in H. cbv iota in H.
  change (class_fields "SolutionInput") with (Some fields_SolutionInput) in H. cbv iota in H.
  destruct (known_kwargs (map (fun f => fst (fst f)) fields_SolutionInput) kw); [|discriminate H].
  destruct (init_fields E fields_SolutionInput kw) as [l|] eqn:Q2; [|discriminate H]. injection H as <-.
  apply init_fields_inv in Q2 as [I1 I2].
  exists (fun f => match dget f l with Some v => v | None => VNone end). split.
  - unfold soln_object, object. f_equal. apply shape_of_keys; [exact I1 | exact soln_names_nodup].
  - assert (ND1 : NoDup (map fst to_soln_table)).
    { unfold to_soln_table. cbn [map fst]. repeat (constructor; [intro H; apply str_in_iff in H; discriminate H|]). constructor. }
    pose proof (forall2_dget _ (fun f e v => convert_in E T (snd e) (x f) = Ok v) to_soln_table fst kw K1 ND1 K2) as G1.
    pose proof (forall2_dget _ (fun f e u => forall v, dget f kw = Some v -> convert E (snd e) v = Ok u) fields_SolutionInput fld l I1 soln_names_nodup I2) as G2.
    intros f Hf. unfold field_value.
    assert (S1 : exists e, In e to_soln_table /\ fst e = f /\ snd e = in_kind_of f).
    { unfold in_kind_of. destruct (find (fun e => String.eqb (fst e) f) to_soln_table) as [e|] eqn:Q.
      - exists e. apply find_some in Q as [Q1 Q2]. apply String.eqb_eq in Q2. auto.
      - exfalso. repeat (destruct Hf as [<-|Hf]; [discriminate Q|]). destruct Hf. }
    assert (S2 : exists e, In e fields_SolutionInput /\ fld e = f /\ snd e = conv_of f).
    { unfold conv_of. destruct (find (fun e => String.eqb (fld e) f) fields_SolutionInput) as [e|] eqn:Q.
      - exists e. apply find_some in Q as [Q1 Q2]. apply String.eqb_eq in Q2. auto.
      - exfalso. repeat (destruct Hf as [<-|Hf]; [discriminate Q|]). destruct Hf. }
    destruct S1 as (e & E1' & <- & E3). destruct (G1 e E1') as (r & R1 & R2). rewrite <- E3, R2. cbn [rbind].
    destruct S2 as (e2 & F1 & F2 & F3). destruct (G2 e2 F1) as (u & U1 & U2). rewrite F2 in *. rewrite U1, <- F3. apply U2, R1.
Qed.

(** Python equality means the same value. *)
Lemma num_of_number : forall v r, num_of v = Some (Some r) -> the_number v r.
Proof.
  intros [] r H; try discriminate H; cbn in H.
  - injection H as <-. right; right. exists b. split; [reflexivity | destruct b; reflexivity].
  - injection H as <-. right; left. exists z. split; reflexivity.
  - injection H as ->. left. reflexivity.
Qed.
Lemma py_eq_flat_same : forall v w, py_eq_flat v w = true -> same_value v w.
Proof.
  intros v w H. unfold py_eq_flat in H. destruct (num_of v) as [a|] eqn:A, (num_of w) as [b|] eqn:B; try discriminate H.
  - unfold opt_eqb in H. destruct a as [a|], b as [b|]; try discriminate H. destruct (Req_EM_T a b) as [->|]; [|discriminate H].
    apply sv_number with b; apply num_of_number; assumption.
  - destruct v, w; try discriminate H; [apply sv_refl|]. destruct (String.eqb_spec s s0) as [->|]; [apply sv_refl | discriminate H].
Qed.
Lemma py_eq_same : forall v w, py_eq v w = true -> same_value v w.
Proof.
  intros v w H. destruct v as [|?|?|?|?|? ?|?|?|c fs]; try (apply py_eq_flat_same; exact H).
  destruct w as [|?|?|?|?|? ?|?|?|c' fs']; try (apply py_eq_flat_same; exact H).
  cbn [py_eq] in H. apply andb_true_iff in H as [H1 H2]. apply andb_true_iff in H1 as [C1 C2].
  apply String.eqb_eq in C1, C2. subst c c'.
  destruct (dget "start" fs) as [a|] eqn:A, (dget "start" fs') as [a'|] eqn:A'; try discriminate H2;
  destruct (dget "stop" fs) as [b|] eqn:B, (dget "stop" fs') as [b'|] eqn:B'; try discriminate H2;
  destruct (dget "step" fs) as [s|] eqn:S, (dget "step" fs') as [s'|] eqn:S'; try discriminate H2.
  apply andb_true_iff in H2 as [H2 H3]. apply andb_true_iff in H2 as [H1 H2].
  apply sv_slice. intros f Hf. destruct Hf as [<-|[<-|[<-|[]]]]; do 2 eexists; (split; [eassumption | split; [eassumption | apply py_eq_flat_same; assumption]]).
Qed.
Lemma same_value_sym : forall v w, same_value v w -> same_value w v.
Proof.
  fix IH 3. intros v w [u | a b r Ha Hb | fs fs' H]; [apply sv_refl | apply sv_number with r; assumption | apply sv_slice].
  intros f Hf. destruct (H f Hf) as (a & b & A & B & S). exists b, a. split; [exact B | split; [exact A | apply IH, S]].
Qed.

(** The merge. *)
Lemma use_soln_keys_ok : forall v y (o : dict val) names, (forall f, In f names -> In f SOLUTION_INPUT_FIELDS) ->
  exists keys, use_soln_keys (map (fun f => (f, v f)) names) (map (fun f => (f, y f)) SOLUTION_INPUT_FIELDS) o = Ok keys /\
    forall f, In f keys <-> In f names /\ dmem f o = false /\ py_eq (v f) (y f) = false.
Proof.
  intros v y o; induction names as [|n t IH]; intros HN; [exists []; split; [reflexivity | cbn; tauto]|].
  destruct (IH (fun f Hf => HN f (or_intror Hf))) as (keys & K1 & K2). cbn [map use_soln_keys].
  destruct (dmem n o) eqn:M.
  - exists keys. split; [exact K1|]. intro f. rewrite K2. cbn [In]. split; [tauto|]. intros ([<-|H] & H2 & H3); [congruence | tauto].
  - unfold dgetitem. rewrite dget_map by (apply HN; left; reflexivity). cbn [rbind]. rewrite K1. cbn [rbind]. eexists. split; [reflexivity|].
    intro f. destruct (py_eq (v n) (y n)) eqn:P.
    + rewrite K2. cbn [In]. split; [tauto|]. intros ([<-|H] & H2 & H3); [congruence | tauto].
    + cbn [In]. rewrite K2. split; [intros [<-|H]; tauto|]. intros ([<-|H] & H2 & H3); tauto.
Qed.
Lemma set_keys_ok : forall y u keys, (forall f, In f keys -> In f SOLUTION_INPUT_FIELDS) ->
  set_keys keys (map (fun f => (f, y f)) SOLUTION_INPUT_FIELDS) (map (fun f => (f, u f)) SOLUTION_INPUT_FIELDS) =
  map (fun f => (f, if str_in f keys then y f else u f)) SOLUTION_INPUT_FIELDS.
Proof.
  intros y u keys; revert u; induction keys as [|k t IH]; intros u HK; [apply map_ext; reflexivity|]. cbn [set_keys].
  rewrite dget_map by (apply HK; left; reflexivity).
  set (u' := fun f => if String.eqb f k then y f else u f).
  assert (S : forall names, NoDup names -> In k names -> dset k (y k) (map (fun f => (f, u f)) names) = map (fun f => (f, u' f)) names).
  { induction names as [|n names IHn]; intros ND Hk; [destruct Hk|]. cbn [map dset]. inversion ND as [|? ? N1 N2]; subst. subst u'. cbn beta.
    rewrite (String.eqb_sym n k).
    destruct (String.eqb_spec k n) as [<-|Nk].
    - f_equal. apply map_ext_in. intros f Hf. cbn. destruct (String.eqb_spec f k) as [->|]; [contradiction | reflexivity].
    - f_equal. apply IHn; [exact N2|]. destruct Hk as [->|Hk]; [congruence | exact Hk]. }
  rewrite S by (first [apply soln_names_nodup | apply HK; left; reflexivity]).
  rewrite IH by (intros f Hf; apply HK; right; exact Hf). apply map_ext. intro f. subst u'. cbn [str_in].
  destruct (String.eqb_spec f k) as [->|N]; cbn [orb]; [destruct (str_in k t)|]; reflexivity.
Qed.

(** C43.  [v]: the stored configuration as solver input; [u]: the overridden configuration as solver input; [y]: the
    stored solver input.  The result [z] has the override for each overridden field, and the stored solver input's
    value for every other field (when the configuration agrees with it, the configuration's equal value). *)
Theorem C43_merge : forall E T x y o cs ns0,
  (forall f, In f CONFIG_FIELDS -> given f (x f) = x f) -> NoDup (dkeys o) -> (forall k, In k (dkeys o) -> In k CONFIG_FIELDS) ->
  to_soln_input E T (conf_object x) = Ok cs -> to_soln_input E T (conf_object (changed o x)) = Ok ns0 ->
  exists u v z, cs = soln_object v /\ ns0 = soln_object u /\
    new_inputs_with_overrides E T (conf_object x) (soln_object y) (Some o) = Ok (conf_object (changed o x), soln_object z) /\
    forall f, In f SOLUTION_INPUT_FIELDS ->
      (In f (dkeys o) -> z f = u f) /\
      (~ In f (dkeys o) -> u f = v f /\ (z f = y f \/ (z f = v f /\ same_value (v f) (y f)))).
Proof.
  intros E T x y o cs ns0 HG ND HK HC HN.
  destruct (to_soln_inv E T x cs HC) as (v & -> & V). destruct (to_soln_inv E T (changed o x) ns0 HN) as (u & -> & U).
  assert (UV : forall f, In f SOLUTION_INPUT_FIELDS -> ~ In f (dkeys o) -> u f = v f).
  { intros f Hf No. apply dget_None_keys in No. pose proof (U f Hf) as U1. pose proof (V f Hf) as V1. unfold changed in U1. rewrite No in U1. congruence. }
  unfold new_inputs_with_overrides. cbn [add_overrides]. rewrite (evolve_config E x o HG ND HK). cbn [rbind]. rewrite HN. cbn [rbind]. rewrite HC. cbn [rbind].
  unfold soln_object, object, fields_of. cbn [rbind].
  destruct (input_eq _ _) eqn:I.
  - exists u, v, u. split; [reflexivity|]. split; [reflexivity|]. split; [reflexivity|]. intros f Hf. split; [reflexivity|]. intro No.
    split; [apply UV; assumption|]. right. split; [apply UV; assumption|]. apply same_value_sym, py_eq_same.
    unfold input_eq in I. rewrite forallb_forall in I.
    specialize (I (f, y f) (in_map (fun g => (g, y g)) _ _ Hf)). cbn [fst snd] in I. rewrite dget_map in I by exact Hf. exact I.
  - destruct (use_soln_keys_ok v y o SOLUTION_INPUT_FIELDS (fun f Hf => Hf)) as (keys & K1 & K2). rewrite K1. cbn [rbind].
    rewrite set_keys_ok by (intros f Hf; apply K2 in Hf; tauto).
    exists u, v, (fun f => if str_in f keys then y f else u f). split; [reflexivity|]. split; [reflexivity|]. split; [reflexivity|].
    intros f Hf. split.
    + intro Ho. destruct (str_in f keys) eqn:Q; [|reflexivity]. apply str_in_iff, K2 in Q as (_ & Q & _). apply dmem_iff in Ho. congruence.
    + intro No. split; [apply UV; assumption|]. destruct (str_in f keys) eqn:Q; [left; reflexivity|]. right. split; [apply UV; assumption|].
      apply py_eq_same. destruct (py_eq (v f) (y f)) eqn:P; [reflexivity|]. exfalso.
      assert (B : In f keys) by (apply K2; repeat split; [exact Hf | destruct (dmem f o) eqn:D; [apply dmem_iff in D; contradiction | reflexivity] | exact P]).
      apply str_in_iff in B. congruence.
Qed.
(** Without overrides, every value is the stored solver input's, whatever the configuration says. *)
Theorem C43_no_overrides : forall E T x y cs,
  (forall f, In f CONFIG_FIELDS -> given f (x f) = x f) -> to_soln_input E T (conf_object x) = Ok cs ->
  exists z, new_inputs_with_overrides E T (conf_object x) (soln_object y) None = Ok (conf_object x, soln_object z) /\
    forall f, In f SOLUTION_INPUT_FIELDS -> same_value (z f) (y f).
Proof.
  intros E T x y cs HG HC.
  assert (X : conf_object (changed [] x) = conf_object x) by reflexivity.
  destruct (C43_merge E T x y [] cs cs HG (NoDup_nil _) ltac:(intros k []) HC ltac:(rewrite X; exact HC)) as (u & v & z & _ & _ & H1 & H2).
  exists z. split; [exact H1|]. intros f Hf. destruct (proj2 (H2 f Hf) ltac:(intros [])) as [_ [->|[-> S]]]; [apply sv_refl | exact S].
Qed.
Example C43_nonvacuous : exists x o cs ns0, (forall f, In f CONFIG_FIELDS -> given f (x f) = x f) /\ NoDup (dkeys o) /\
  (forall k, In k (dkeys o) -> In k CONFIG_FIELDS) /\ dkeys o = ["max_steps"; "label"] /\
  to_soln_input E1 T1 (conf_object x) = Ok cs /\ to_soln_input E1 T1 (conf_object (changed o x)) = Ok ns0 /\ cs <> ns0.
Proof.
  pose proof (proj1 C72_nonvacuous) as P.
  exists (config_value E1 (VText "run 1") x1), [("max_steps", VText "34"); ("label", VText "again")].
  set (x2 := fun f => if String.eqb f "max_steps" then VInt 34 else x1 f).
  exists (soln_object x1), (soln_object x2).
  assert (P2 : printable E1 T1 x2).
  { destruct P as [PF PI PBs PB PO PR PS PL PM]. constructor; try assumption.
    - intros f Hf. assert (Q : x2 f = x1 f) by (repeat (destruct Hf as [<-|Hf]; [reflexivity|]); destruct Hf). rewrite Q. apply PF, Hf.
    - intros f Hf. unfold x2. destruct (String.eqb f "max_steps"); [exists 34%Z; split; reflexivity | apply PI, Hf].
    - intros f Hf. assert (Q : x2 f = x1 f) by (repeat (destruct Hf as [<-|Hf]; [reflexivity|]); destruct Hf). rewrite Q. apply PB, Hf.
    - intros f Hf. assert (Q : x2 f = x1 f) by (repeat (destruct Hf as [<-|Hf]; [reflexivity|]); destruct Hf). rewrite Q. apply PO, Hf. }
  assert (C : conf_object (changed [("max_steps", VText "34"); ("label", VText "again")] (config_value E1 (VText "run 1") x1)) = conf_object (config_value E1 (VText "again") x2)) by reflexivity.
  split; [|split; [|split; [|split; [reflexivity | split; [apply conf_to_soln_ok, P | split; [rewrite C; apply conf_to_soln_ok, P2|]]]]]].
  - intros f Hf. assert (Q : str_in f optional_fields = false \/ In f optional_fields) by (destruct (str_in f optional_fields) eqn:Q; [right; apply str_in_iff, Q | left; reflexivity]).
    destruct Q as [Q|Q].
    + unfold given. rewrite Q. destruct (config_value E1 (VText "run 1") x1 f); try reflexivity. rewrite andb_false_r. reflexivity.
    + repeat (destruct Q as [<-|Q]; [first [reflexivity | cbn; destruct (Req_EM_T (1/2) 1); reflexivity]|]). destruct Q.
  - cbn. repeat constructor; cbn; intuition discriminate.
  - intros k Hk. repeat (destruct Hk as [<-|Hk]; [inl|]). destruct Hk.
  - intro Q. apply (f_equal (fun v => match v with VObj _ fs => dget "max_steps" fs | _ => None end)) in Q. discriminate Q.
Qed.
