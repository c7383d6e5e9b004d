(** C49, C50: the MCMC method keeps the best solution; the parameter vector and the input. *)
From Coq Require Import String List Bool ZArith Reals Lra Lia.
From Verif Require Import Lib_Py Model_FormatTables Model_Format Model_Inputs Model_Run Model_Mcmc Spec_Inputs Spec_Run Spec_Mcmc
  Proofs_Inputs Proofs_Run Props_Inputs Props_Run.
Import ListNotations.
Open Scope string_scope. Open Scope list_scope.

(** C50. Which parameters are varied: γ, then the selected ones, all of them if there is no selection. *)
Definition chosen (x : string -> val) (names : list string) : Prop :=
  (x "mcmc_vars" = VNone /\ names = ["γ"; "v_rin_on_c_s"; "v_a_on_c_s"; "c_s_on_v_k"]) \/
  exists r a k, x "mcmc_vars" = mcmc_obj (VBool r) (VBool a) (VBool k) /\
    names = ["γ"] ++ (if r then ["v_rin_on_c_s"] else []) ++ (if a then ["v_a_on_c_s"] else []) ++ (if k then ["c_s_on_v_k"] else []).
Definition parameters := ["γ"; "v_rin_on_c_s"; "v_a_on_c_s"; "c_s_on_v_k"].
Theorem C50_selection : forall x names, chosen x names -> generate_sysvars_enum (soln_object x) = Ok names.
Proof.
  intros x names H. unfold generate_sysvars_enum, soln_object. rewrite getattr_object by inl.
  destruct H as [[-> ->]|(r & a & k & -> & ->)]; [reflexivity|]. unfold mcmc_obj. cbn [getattr dget String.eqb Ascii.eqb Bool.eqb rbind is_true app]. reflexivity.
Qed.
Lemma chosen_fields : forall x names, chosen x names -> forall f, In f names -> In f parameters.
Proof.
  intros x names H f Hf. destruct H as [[_ ->]|(r & a & k & _ & ->)]; [exact Hf|].
  destruct r, a, k; cbn in *; intuition (subst; cbn; tauto).
Qed.
Lemma parameters_fields : forall f, In f parameters -> In f SOLUTION_INPUT_FIELDS.
Proof. intros f Hf. repeat (destruct Hf as [<-|Hf]; [inl|]). destruct Hf. Qed.
Lemma encode_ok : forall x names, (forall f, In f names -> In f SOLUTION_INPUT_FIELDS) ->
  solution_input_to_sys_vars (soln_object x) names = Ok (map x names).
Proof.
  intros x names H. induction names as [|f t IH]; [reflexivity|]. cbn [solution_input_to_sys_vars map].
  unfold soln_object. rewrite getattr_object by (apply H; left; reflexivity). cbn [rbind]. fold soln_object.
  rewrite IH by (intros g Hg; apply H; right; exact Hg). reflexivity.
Qed.
Lemma dset_map : forall (names : list string) x f (v : val), In f names ->
  NoDup names -> dset f v (map (fun g => (g, x g)) names) = map (fun g => (g, if String.eqb g f then v else x g)) names.
Proof.
  induction names as [|g t IH]; intros x f v Hf ND; [destruct Hf|]. inversion ND as [|? ? N1 N2]; subst. cbn [map dset].
  destruct (String.eqb_spec f g) as [->|Ne].
  - rewrite String.eqb_refl. f_equal. apply map_ext_in. intros h Hh. destruct (String.eqb_spec h g) as [->|]; [contradiction | reflexivity].
  - destruct (String.eqb_spec g f); [congruence|]. destruct Hf as [Hf|Hf]; [congruence|]. rewrite IH by assumption. reflexivity.
Qed.
Lemma fields_nodup : NoDup SOLUTION_INPUT_FIELDS.
Proof.
  assert (G : forall l, (fix nd (l : list string) := match l with [] => true | a :: t => negb (str_in a t) && nd t end) l = true -> NoDup l).
  { induction l as [|a t IH]; intro H; [constructor|]. apply andb_true_iff in H. destruct H as [H1 H2]. constructor; [|apply IH, H2].
    intro Hin. apply str_in_iff in Hin. rewrite Hin in H1. discriminate. }
  apply G. vm_compute. reflexivity.
Qed.
Lemma setattr_object : forall x f v, In f SOLUTION_INPUT_FIELDS -> setattr f v (soln_object x) = Ok (soln_object (fun g => if String.eqb g f then v else x g)).
Proof. intros. unfold setattr, soln_object, object. rewrite dset_map by (auto using fields_nodup). reflexivity. Qed.
Lemma set_ok : forall names values x, (forall f, In f names -> In f SOLUTION_INPUT_FIELDS) -> (length names <= length values)%nat ->
  set_sys_vars names values (soln_object x) = Ok (soln_object (replaced names values x)).
Proof.
  induction names as [|f t IH]; intros values x H L; [destruct values; reflexivity|]. destruct values as [|v l]; [cbn in L; lia|]. cbn [set_sys_vars replaced].
  rewrite setattr_object by (apply H; left; reflexivity). cbn [rbind]. apply IH; [intros g Hg; apply H; right; exact Hg | cbn in L; lia].
Qed.
(** An input whose selection and slice are of the kinds the class accepts. *)
Definition well_formed (x : string -> val) : Prop :=
  (x "mcmc_vars" = VNone \/ exists r a k, x "mcmc_vars" = mcmc_obj r a k) /\ (x "interp_slice" = VNone \/ exists fs, x "interp_slice" = VObj "slice" fs).
Lemma rebuild : forall E x, well_formed x -> construct E "SolutionInput" (map (fun f => (f, x f)) SOLUTION_INPUT_FIELDS) = Ok (soln_object x).
Proof.
  intros E x [M S0]. assert (S : str_to_slice E (x "interp_slice") = Ok (x "interp_slice")) by (destruct S0 as [->|[fs ->]]; reflexivity). unfold soln_object, SOLUTION_INPUT_FIELDS.
  apply (construct_fields E "SolutionInput" fields_SolutionInput _ x x); [reflexivity | discriminate | intros k Hk; rewrite map_map, map_id in Hk; exact Hk |].
  apply Forall_forall. intros e He. split; [apply dget_map; apply (in_map fld _ _ He)|].
  unfold fields_SolutionInput in He.
  repeat (destruct He as [<-|He]; [cbn [fld fst snd convert]; first [reflexivity | exact S | destruct M as [->|(r & a & k & ->)]; reflexivity]|]). destruct He.
Qed.
(** Decoding a vector changes the selected parameters, to the components of the vector in order, and nothing else. *)
Theorem C50_decode : forall E x names values, well_formed x -> chosen x names -> (length names <= length values)%nat ->
  sys_vars_to_solution_input E values (soln_object x) names = Ok (soln_object (replaced names values x)) /\
  (forall f, ~ In f names -> replaced names values x f = x f) /\
  forall i f v, nth_error names i = Some f -> nth_error values i = Some v -> replaced names values x f = v.
Proof.
  intros E x names values W C L. split; [|split].
  - unfold sys_vars_to_solution_input. cbn [soln_object object fields_of rbind]. rewrite (rebuild E x W). cbn [rbind]. apply set_ok; [|exact L].
    intros f Hf. apply parameters_fields, (chosen_fields x names C f Hf).
  - intros f. revert values x W C L. intros values x _ _ _. revert values x. induction names as [|g t IH]; intros values x N; [destruct values; reflexivity|].
    destruct values as [|v l]; [reflexivity|]. cbn [replaced]. rewrite IH by (intro; apply N; right; assumption).
    destruct (String.eqb_spec f g) as [->|]; [destruct N; left; reflexivity | reflexivity].
  - assert (ND : NoDup names).
    { destruct C as [[_ ->]|(r & a & k & _ & ->)]; [|destruct r, a, k]; cbn; repeat constructor; cbn; intuition discriminate. }
    assert (Keep : forall (t : list string) l y f, ~ In f t -> replaced t l y f = y f).
    { clear. induction t as [|g t IH]; intros l y f N; [destruct l; reflexivity|]. destruct l as [|v l]; [reflexivity|]. cbn [replaced]. rewrite IH by (intro; apply N; right; assumption).
      destruct (String.eqb_spec f g) as [->|]; [destruct N; left; reflexivity | reflexivity]. }
    clear W C L. revert values x. induction ND as [|g t N1 ND IH]; intros values x [|i] f v Hf Hv; try discriminate; destruct values as [|w l]; try discriminate; cbn [nth_error] in *.
    + injection Hf as <-. injection Hv as <-. cbn [replaced]. rewrite (Keep t l _ g N1), String.eqb_refl. reflexivity.
    + cbn [replaced]. apply (IH l _ i f v); assumption.
Qed.
(** Encoding and decoding gives the input back. *)
Theorem C50_round_trip : forall E x names, well_formed x -> chosen x names ->
  exists values, solution_input_to_sys_vars (soln_object x) names = Ok values /\ length values = length names /\
  sys_vars_to_solution_input E values (soln_object x) names = Ok (soln_object x).
Proof.
  intros E x names W C. exists (map x names).
  assert (F : forall f, In f names -> In f SOLUTION_INPUT_FIELDS) by (intros f Hf; apply parameters_fields, (chosen_fields x names C f Hf)).
  split; [apply encode_ok, F|]. split; [apply map_length|].
  destruct (C50_decode E x names (map x names) W C) as [-> _]; [rewrite map_length; lia|]. f_equal. unfold soln_object, object. f_equal.
  apply map_ext_in. intros f _. f_equal.
  assert (G : forall t y, (forall g, y g = x g) -> replaced t (map x t) y f = x f).
  { induction t as [|g t IH]; intros y Hy; [apply Hy|]. cbn [map replaced]. apply IH. intros h. destruct (String.eqb_spec h g) as [->|]; auto. }
  apply G. reflexivity.
Qed.
Example C50_nonvacuous : let x := fun f => if String.eqb f "mcmc_vars" then mcmc_obj (VBool false) (VBool true) (VBool false) else VNone in
  well_formed x /\ chosen x ["γ"; "v_a_on_c_s"].
Proof. split; [split; [right; repeat eexists | left; reflexivity] | right; exists false, true, false; split; reflexivity]. Qed.

(** C49. Inputs are tried exactly if all four parameters are positive. *)
Theorem C49_valid : forall x a b c d, x "v_rin_on_c_s" = VNum (Some a) -> x "γ" = VNum (Some b) -> x "v_a_on_c_s" = VNum (Some c) -> x "c_s_on_v_k" = VNum (Some d) ->
  exists ok, solution_input_valid (soln_object x) = Ok ok /\ (ok = true <-> (0 < a /\ 0 < b /\ 0 < c /\ 0 < d)%R).
Proof.
  intros x a b c d Ha Hb Hc Hd. unfold solution_input_valid. cbn [none_le_zero]. unfold soln_object.
  rewrite !getattr_object by inl. cbn [rbind]. rewrite Ha, Hb, Hc, Hd. cbn [le_zero num_of rbind].
  destruct (Rle_dec a 0); [eexists; split; [reflexivity|]; split; [discriminate | lra]|]. cbn [rbind].
  destruct (Rle_dec b 0); [eexists; split; [reflexivity|]; split; [discriminate | lra]|]. cbn [rbind].
  destruct (Rle_dec c 0); [eexists; split; [reflexivity|]; split; [discriminate | lra]|]. cbn [rbind].
  destruct (Rle_dec d 0); [eexists; split; [reflexivity|]; split; [discriminate | lra]|]. cbn [rbind].
  eexists. split; [reflexivity|]. split; [lra | reflexivity].
Qed.

Section Best.
Context {Sol Cond I : Type}.
Variables (E : env) (define_conditions : val -> res Cond) (solution : val -> Cond -> res Sol) (logprob : Sol -> option R).
(** The solution a point has, if it has one with a finite log probability. *)
Definition scored (inp : val) (enum : list string) (p : list val) : list (Sol * R) :=
  match sys_vars_to_solution_input E p inp enum with
  | Ok i => match solution_input_valid i, define_conditions i with
            | Ok true, Ok c => match solution i c with
                               | Ok s => match logprob s with Some l => [(s, l)] | None => [] end
                               | Raise _ => []
                               end
            | _, _ => []
            end
  | Raise _ => []
  end.
Definition keeps (found : list (Sol * R)) (st : logprob_state (Sol := Sol) (I := I)) : Prop :=
  r_solutions (lg_run st) = numbered 0 (map fst found) /\
  match lg_index st, lg_best st with
  | None, None => found = []
  | Some k, Some x => exists pre s post, found = pre ++ (s, x) :: post /\ k = str_of_nat (length pre) /\
      (forall b y, In (b, y) pre -> (y < x)%R) /\ (forall b y, In (b, y) post -> (y <= x)%R)
  | _, _ => False
  end.
Lemma call_keeps : forall inp enum p st found st' r, keeps found st -> logprob_call E define_conditions solution logprob inp enum st p = (st', Ok r) ->
  keeps (found ++ scored inp enum p) st' /\ r_final (lg_run st') = r_final (lg_run st) /\
  r = match scored inp enum p with [] => None | (_, l) :: _ => Some l end.
Proof.
  intros inp enum p st found st' r K H. unfold logprob_call in H. unfold scored.
  destruct (sys_vars_to_solution_input E p inp enum) as [i|e]; [|discriminate].
  destruct (solution_input_valid i) as [[|]|e]; try discriminate.
  2:{ injection H as <- <-. rewrite app_nil_r. auto. }
  destruct (define_conditions i) as [c|[]]; try discriminate; try (injection H as <- <-; rewrite app_nil_r; auto).
  destruct (solution i c) as [s|[]]; try discriminate; try (injection H as <- <-; rewrite app_nil_r; auto).
  destruct (logprob s) as [l|]; [|injection H as <- <-; rewrite app_nil_r; auto].
  destruct K as [K1 K2]. rewrite K1, add_numbered in H. injection H as <- <-. split; [|split; [destruct (exceeds l (lg_best st)); reflexivity | reflexivity]].
  unfold keeps. rewrite map_app. cbn [map fst].
  destruct (lg_best st) as [b|] eqn:B; destruct (lg_index st) as [k|] eqn:Ki; try contradiction; cbn [exceeds].
  - destruct K2 as (pre & s0 & post & -> & -> & P1 & P2). destruct (Rlt_dec b l) as [Lt|Ge]; cbn [lg_run lg_best lg_index with_solutions r_solutions]; (split; [reflexivity|]).
    + exists (pre ++ (s0, b) :: post), s, []. split; [rewrite app_nil_r || reflexivity; reflexivity|]. split; [rewrite map_length; reflexivity|]. split; [|intros ? ? []].
      intros b' y Hy. apply in_app_or in Hy. destruct Hy as [Hy|[Hy|Hy]]; [apply P1 in Hy; lra | injection Hy as <- <-; exact Lt | apply P2 in Hy; lra].
    + exists pre, s0, (post ++ [(s, l)]). split; [rewrite <- app_assoc; reflexivity|]. split; [reflexivity|]. split; [exact P1|].
      intros b' y Hy. apply in_app_or in Hy. destruct Hy as [Hy|[Hy|[]]]; [apply P2 in Hy; exact Hy | injection Hy as <- <-; lra].
  - subst found. cbn [lg_run lg_best lg_index with_solutions r_solutions]. split; [reflexivity|]. exists [], s, []. repeat split; intros ? ? [].
Qed.
Lemma evaluations_keep : forall inp enum points st found st' out, keeps found st -> evaluations E define_conditions solution logprob inp enum st points = (st', out) ->
  exists done, keeps (found ++ flat_map (scored inp enum) done) st' /\ r_final (lg_run st') = r_final (lg_run st) /\ (exists rest, points = done ++ rest) /\ (out = Ok tt -> done = points).
Proof.
  induction points as [|p t IH]; intros st found st' out K H; cbn [evaluations] in H.
  - injection H as <- <-. exists []. cbn [flat_map]. rewrite app_nil_r. split; [exact K|]. split; [reflexivity|]. split; [exists []; reflexivity | reflexivity].
  - destruct (logprob_call _ _ _ _ _ _ _ _) as [st1 [r|e]] eqn:C.
    + destruct (call_keeps _ _ _ _ _ _ _ K C) as (K1 & F1 & _). destruct (IH _ _ _ _ K1 H) as (done & D1 & D2 & (rest & D3) & D4).
      exists (p :: done). cbn [flat_map]. rewrite app_assoc. split; [exact D1|]. split; [congruence|]. split; [exists rest; rewrite D3; reflexivity|].
      intro O. rewrite (D4 O). reflexivity.
    + injection H as <- <-. exists []. cbn [flat_map]. rewrite app_nil_r.
      assert (st1 = st).
      { clear - C. unfold logprob_call in C. repeat match type of C with (match ?t with _ => _ end = _) => destruct t as [] eqn:?; try discriminate end;
          try (injection C as <-; reflexivity). all: destruct (exceeds _ _); discriminate. }
      subst. split; [exact K|]. split; [reflexivity|]. split; [exists (p :: t); reflexivity | discriminate].
Qed.
(** After any evaluations the run holds every solution with a finite log probability once, in order, and the best one is the
    first of those with the largest; there is none if and only if no evaluation had one. *)
Theorem C49_best : forall inp enum points (r : run Sol I) st, r_solutions r = [] ->
  evaluations E define_conditions solution logprob inp enum (lg_new r) points = (st, Ok tt) ->
  let found := flat_map (scored inp enum) points in
  map snd (r_solutions (lg_run st)) = map fst found /\ dkeys (r_solutions (lg_run st)) = map str_of_nat (seq 0 (length found)) /\
  exists b, best_solution st = Ok b /\ match b with None => found = [] | Some s => first_best found s end.
Proof.
  intros inp enum points r st Hr H found.
  assert (K0 : keeps [] (lg_new r)) by (split; [exact Hr | reflexivity]).
  destruct (evaluations_keep _ _ _ _ _ _ _ K0 H) as (done & K & _ & _ & D). rewrite (D eq_refl) in K. cbn [app] in K. fold found in K. clear D.
  destruct K as [K1 K2]. rewrite K1. split; [|split].
  - unfold numbered. rewrite map_map || idtac. clear. generalize (map fst found). intro l. generalize 0%nat. induction l as [|a l IH]; intro n; [reflexivity|]. cbn. rewrite IH. reflexivity.
  - rewrite numbered_keys, map_length. reflexivity.
  - unfold best_solution. rewrite K1. destruct (lg_index st) as [k|], (lg_best st) as [x|]; try contradiction; [|exists None; auto].
    destruct K2 as (pre & s & post & E1 & -> & P1 & P2). exists (Some s). split; [|exists pre, x, post; auto].
    unfold dgetitem. rewrite E1, map_app. cbn [map fst].
    assert (G : forall (l : list Sol) m n a, dget (str_of_nat (n + length l)) (numbered n (l ++ a :: m)) = Some a).
    { clear. induction l as [|b l IH]; intros m n a; unfold numbered; cbn.
      - rewrite Nat.add_0_r, String.eqb_refl. reflexivity.
      - destruct (String.eqb_spec (str_of_nat (n + S (length l))) (str_of_nat n)) as [Q|_]; [apply str_of_nat_inj in Q; lia|].
        specialize (IH m (S n) a). unfold numbered in IH. replace (n + S (length l))%nat with (S n + length l)%nat by lia. exact IH. }
    specialize (G (map fst pre) (map fst post) 0%nat s). rewrite map_length in G. cbn [Nat.add] in G. rewrite G. reflexivity.
Qed.
(** The evaluations up to a failure are kept. *)
Theorem C49_crash : forall inp enum points (r : run Sol I) st e, r_solutions r = [] ->
  evaluations E define_conditions solution logprob inp enum (lg_new r) points = (st, Raise e) ->
  exists done rest, points = done ++ rest /\ map snd (r_solutions (lg_run st)) = map fst (flat_map (scored inp enum) done).
Proof.
  intros inp enum points r st e Hr H. assert (K0 : keeps [] (lg_new r)) by (split; [exact Hr | reflexivity]).
  destruct (evaluations_keep _ _ _ _ _ _ _ K0 H) as (done & [K _] & _ & (rest & D) & _). exists done, rest. split; [exact D|]. rewrite K. cbn [app].
  generalize (map fst (flat_map (scored inp enum) done)). intro l. unfold numbered. generalize 0%nat. induction l as [|a l IH]; intro n; [reflexivity|]. cbn. rewrite IH. reflexivity.
Qed.
(** The run's final solution is the best one; success is reported in every case. *)
Theorem C49_final : forall inp names points (r r' : run Sol I) ok, r_solutions r = [] -> r_final r = Unset -> generate_sysvars_enum inp = Ok names ->
  mcmc_solver E define_conditions solution logprob inp r points = (r', Ok ok) ->
  ok = true /\ match r_final r' with
               | Unset => False
               | FinalNone => flat_map (scored inp names) points = []
               | Final s => first_best (flat_map (scored inp names) points) s
               end.
Proof.
  intros inp names points r r' ok Hr Hu G H. unfold mcmc_solver in H. rewrite G in H.
  destruct (evaluations E define_conditions solution logprob inp names (lg_new r) points) as [st [[]|e]] eqn:Ev; [|discriminate].
  destruct (C49_best inp names points r st Hr Ev) as (_ & _ & b & B1 & B2). rewrite B1 in H. unfold set_final in H.
  assert (K0 : keeps [] (lg_new r)) by (split; [exact Hr | reflexivity]).
  destruct (evaluations_keep _ _ _ _ _ _ _ K0 Ev) as (_ & _ & F & _). rewrite F in H. cbn [lg_new lg_run] in H. rewrite Hu in H. injection H as <- <-.
  split; [reflexivity|]. destruct b as [s|]; exact B2.
Qed.
End Best.
(** Three points, of which the second is the best. *)
Definition ex_x : string -> val := fun f => if String.eqb f "mcmc_vars" then mcmc_obj (VBool false) (VBool false) (VBool false) else if String.eqb f "interp_slice" then VNone else VNum (Some 1%R).
Definition ex_solution (i : val) (_ : unit) : res R := match getattr "γ" i with Ok (VNum (Some y)) => Ok y | _ => Raise SolverError end.
Example C49_nonvacuous : forall E (info : unit), exists st,
  evaluations E (fun _ => Ok tt) ex_solution (fun s => Some s) (soln_object ex_x) ["γ"] (lg_new (new_run info)) [[VNum (Some 1%R)]; [VNum (Some 3%R)]; [VNum (Some 2%R)]] = (st, Ok tt) /\
  best_solution st = Ok (Some 3%R) /\ map snd (r_solutions (lg_run st)) = [1%R; 3%R; 2%R].
Proof.
  intros E info.
  assert (W : well_formed ex_x) by (split; [right; repeat eexists | left; reflexivity]).
  assert (C : chosen ex_x ["γ"]) by (right; exists false, false, false; split; reflexivity).
  assert (Call : forall st y, (0 < y)%R -> logprob_call E (fun _ => Ok tt) ex_solution (fun s => Some s) (soln_object ex_x) ["γ"] st [VNum (Some y)] =
    match add_solution y (r_solutions (lg_run (I := unit) st)) with
    | Raise e => (st, Raise e)
    | Ok (k, d) => let r := with_solutions (lg_run st) d in (if exceeds y (lg_best st) then mk_lg r (Some y) (Some k) else mk_lg r (lg_best st) (lg_index st), Ok (Some y))
    end).
  { intros st y Hy. unfold logprob_call. destruct (C50_decode E ex_x ["γ"] [VNum (Some y)] W C) as [-> _]; [cbn; lia|].
    destruct (C49_valid (replaced ["γ"] [VNum (Some y)] ex_x) 1%R y 1%R 1%R eq_refl eq_refl eq_refl eq_refl) as (ok & -> & Hok). rewrite (proj2 Hok) by lra.
    unfold ex_solution, soln_object. rewrite getattr_object by inl. reflexivity. }
  unfold evaluations. rewrite Call by lra. cbn -[exceeds Rlt_dec logprob_call soln_object]. cbn [exceeds]. rewrite Call by lra. cbn -[exceeds Rlt_dec logprob_call soln_object]. cbn [exceeds]. destruct (Rlt_dec 1 3); [|lra].
  rewrite Call by lra. cbn -[exceeds Rlt_dec logprob_call soln_object]. cbn [exceeds]. destruct (Rlt_dec 3 2); [lra|]. eexists. split; [reflexivity|]. split; reflexivity.
Qed.
Print Assumptions C49_best. Print Assumptions C49_final. Print Assumptions C50_decode.
