(** C52, C85: the sonic root method. *)
From Coq Require Import String List Bool Reals ZArith Lra Lia.
From Verif Require Import Lib_Py Model_Index Model_Array Model_SonicRoot.
Import ListNotations.
Open Scope list_scope. Open Scope R_scope.

Section Props.
Context {Call : Type}.
Variables (solve : nvec -> nvec -> list num -> res (soln Call)) (ERR_FLOAT : R).
Notation root_func := (root_func solve). Notation wrapped := (wrapped solve ERR_FLOAT).
Notation evaluations := (evaluations solve ERR_FLOAT). Notation solver := (solver solve ERR_FLOAT).

(** The conditions hold the state a guess stands for: sonic speed, the guessed fields, velocities and density. *)
Definition holds_guess (g con : nvec) : Prop :=
  con iv_θ = Some 1 /\ con iv_φ = g tv_φ /\ con iv_r = g tv_r /\ con iB_θ = g tB_θ /\ con iB_r = g tB_r /\ con iB_φ = g tB_φ /\
  con iB_φ_prime = g tB_φ_prime /\ con iρ = option_map exp (g tlog_ρ).
Lemma mod_cons_holds : forall con n g stop, holds_guess g (fst (total_vars_to_mod_cons con n g stop)) /\
  forall i, In i [iη_O; iη_A; iη_H] -> fst (total_vars_to_mod_cons con n g stop) i = con i.
Proof. intros. split; [repeat split|]. intros i [<-|[<-|[<-|[]]]]; reflexivity. Qed.
Lemma root_func_con : forall n initial stop con stored g,
  fst (fst (root_func n initial stop (con, stored) g)) = fst (total_vars_to_mod_cons con n g stop).
Proof.
  intros. unfold Model_SonicRoot.root_func. destruct (total_vars_to_mod_cons con n g stop) as [con' [angles|e]]; [|reflexivity].
  destruct (solve con' con' angles); [|reflexivity]. destruct (write_solution initial a); reflexivity.
Qed.
Lemma wrapped_con : forall n initial stop con stored g,
  fst (fst (wrapped n initial stop (con, stored) g)) = fst (total_vars_to_mod_cons con n g stop).
Proof.
  intros. rewrite <- (root_func_con n initial stop con stored g). unfold Model_SonicRoot.wrapped.
  destruct (root_func n initial stop (con, stored) g) as [st [a|[]]]; reflexivity.
Qed.

(** C52, what happens instead: whatever the outcome of an evaluation, the midplane conditions hold the guess afterwards, apart from the diffusivities. *)
Theorem C52_exact : forall n initial stop con stored g,
  let con' := fst (fst (wrapped n initial stop (con, stored) g)) in
  holds_guess g con' /\ forall i, In i [iη_O; iη_A; iη_H] -> con' i = con i.
Proof. intros. unfold con'. rewrite wrapped_con. apply mod_cons_holds. Qed.
(** C52, refuted: every evaluation changes conditions whose polar velocity is not one; at the midplane it is zero. *)
Theorem C52_refuted : forall n initial stop con stored g, con iv_θ = Some 0 ->
  fst (fst (wrapped n initial stop (con, stored) g)) iv_θ <> con iv_θ.
Proof.
  intros n initial stop con stored g H. rewrite H. pose proof (proj1 (proj1 (C52_exact n initial stop con stored g))) as E. cbv zeta in E.
  intro E'. assert (X : Some 1 = Some 0) by (rewrite <- E; exact E'). injection X as X. lra.
Qed.
Lemma evaluations_stored : forall gs n initial stop (con : nvec) (stored : list (soln Call * nvec)),
  (forall s c, In (s, c) (tl stored) -> c iv_θ = Some 1 /\ (s_flag s < 0)%Z) -> stored <> [] ->
  let st := fst (evaluations n initial stop (con, stored) gs) in
  (exists more, snd st = stored ++ more) /\ forall s c, In (s, c) (tl (snd st)) -> c iv_θ = Some 1 /\ (s_flag s < 0)%Z.
Proof.
  induction gs as [|g gs IH]; intros n initial stop con stored H N; cbn [Model_SonicRoot.evaluations]; [split; [exists []; rewrite app_nil_r; reflexivity | exact H]|].
  assert (W : exists more, snd (fst (wrapped n initial stop (con, stored) g)) = stored ++ more /\ forall s c, In (s, c) more -> c iv_θ = Some 1 /\ (s_flag s < 0)%Z).
  { assert (W : exists more, snd (fst (root_func n initial stop (con, stored) g)) = stored ++ more /\ forall s c, In (s, c) more -> c iv_θ = Some 1 /\ (s_flag s < 0)%Z).
    { unfold Model_SonicRoot.root_func. pose proof (mod_cons_holds con n g stop) as M. destruct (total_vars_to_mod_cons con n g stop) as [con' [angles|e]].
      2:{ exists []. split; [cbn; rewrite app_nil_r; reflexivity | intros ? ? []]. }
      destruct (solve con' con' angles) as [sonic|]; [|exists []; split; [cbn; rewrite app_nil_r; reflexivity | intros ? ? []]].
      unfold write_solution. destruct (s_flag sonic <? 0)%Z eqn:F; cbn [negb]; [|exists []; split; [cbn; rewrite app_nil_r; reflexivity | intros ? ? []]].
      eexists. split; [reflexivity|]. intros s c [E|[]]. injection E as <- <-. split; [apply M | cbn; apply Z.ltb_lt, F]. }
    unfold Model_SonicRoot.wrapped. destruct (root_func n initial stop (con, stored) g) as [st [a|[]]]; exact W. }
  destruct W as (more & W1 & W2). destruct (wrapped n initial stop (con, stored) g) as [[con1 stored1] [a|e]]; cbn [fst snd] in *; subst stored1.
  - assert (T : forall l, tl (stored ++ l) = tl stored ++ l) by (intro l; destruct stored; [congruence | reflexivity]).
    destruct (IH n initial stop con1 (stored ++ more)) as ((m2 & E2) & F2).
    + intros s c I. rewrite T in I. apply in_app_or in I. destruct I; [apply H | apply W2]; assumption.
    + destruct stored; [congruence | discriminate].
    + split; [exists (more ++ m2); rewrite app_assoc; exact E2 | exact F2].
  - split; [eauto|]. intros s c I. destruct stored; [congruence|]. cbn [tl app] in *. apply in_app_or in I. destruct I; [apply H | apply W2]; assumption.
Qed.
Lemma evaluations_stored_from : forall gs n initial stop (con : nvec) st r, evaluations n initial stop (con, [(initial, con)]) gs = (st, r) ->
  (exists more, snd st = (initial, con) :: more) /\ forall s c, In (s, c) (tl (snd st)) -> c iv_θ = Some 1 /\ (s_flag s < 0)%Z.
Proof.
  intros gs n initial stop con st r E. pose proof (evaluations_stored gs n initial stop con [(initial, con)] (fun _ _ F => match F with end) ltac:(discriminate)) as H.
  cbv zeta in H. rewrite E in H. exact H.
Qed.
(** C52, refuted in the files: after the midplane solution, every stored solution names conditions that are not at the midplane but at the sonic point. *)
Theorem C52_recorded_refuted : forall (con : nvec) n first gs success, con iv_θ = Some 0 ->
  forall s c, In (s, c) (tl (snd (fst (solver con n first gs success)))) -> c iv_θ = Some 1.
Proof.
  intros con n first gs success _ s c H. unfold Model_SonicRoot.solver in H. destruct first as [initial|e]; [|destruct H].
  destruct (last_num (s_angles initial)) as [stop|]; [|destruct (guess_root_vals initial); destruct H]. destruct (guess_root_vals initial) as [g|]; [|destruct H].
  match type of H with context [let (_, _) := ?x in _] => destruct x as [st r] eqn:E end. apply evaluations_stored_from in E. destruct r; apply (proj2 E _ _ H).
Qed.

(** C85, refuted: an evaluation whose integration from the sonic point ends normally raises AttributeError, which nothing catches. *)
Theorem C85_normal_end_refuted : forall n initial stop con stored g sonic,
  (let con' := fst (total_vars_to_mod_cons con n g stop) in
   (forall i, (i < ODE_LEN)%nat -> con' i <> None) /\ solve con' con' (nlinspace (g tθ_sonic) stop n) = Ok sonic /\ (0 <= s_flag sonic)%Z) ->
  snd (wrapped n initial stop (con, stored) g) = Raise AttributeError /\ snd (fst (wrapped n initial stop (con, stored) g)) = stored.
Proof.
  intros n initial stop con stored g sonic. cbv zeta. intros (NN & S & F). unfold Model_SonicRoot.wrapped, Model_SonicRoot.root_func.
  assert (T : total_vars_to_mod_cons con n g stop = (fst (total_vars_to_mod_cons con n g stop), Ok (nlinspace (g tθ_sonic) stop n))).
  { unfold total_vars_to_mod_cons in *. cbn [fst] in *. f_equal. match goal with |- (if ?b then _ else _) = _ => replace b with false; [reflexivity|] end.
    symmetry. apply not_true_is_false. intro E. apply existsb_exists in E. destruct E as (i & I & E). apply in_seq in I. apply (NN i); [lia|].
    match type of E with is_nan ?x = true => destruct x; [discriminate | reflexivity] end. }
  rewrite T. rewrite S. unfold write_solution. destruct (s_flag sonic <? 0)%Z eqn:L; [apply Z.ltb_lt in L; lia|]. split; reflexivity.
Qed.
(** C85, refuted: so when the method returns, each solution it stored after the midplane one comes from an integration that failed; its final solution too, unless it is
    the midplane solution. *)
Theorem C85_only_failures_refuted : forall (con : nvec) n first gs success s b,
  snd (solver con n first gs success) = Ok (s, b) ->
  first = Ok s \/ (s_flag s < 0)%Z.
Proof.
  intros con n first gs success s b H. unfold Model_SonicRoot.solver in H. destruct first as [initial|e]; [|discriminate].
  destruct (last_num (s_angles initial)) as [stop|]; [|destruct (guess_root_vals initial); discriminate]. destruct (guess_root_vals initial) as [g|]; [|discriminate].
  match type of H with context [let (_, _) := ?x in _] => destruct x as [st r] eqn:E end. apply evaluations_stored_from in E. destruct r; [|discriminate]. cbn [snd] in H.
  injection H as <- _. destruct E as ((more & E1) & E2). rewrite E1 in *. cbn [tl app] in E2.
  destruct more as [|p more] using rev_ind; [left; reflexivity|]. right.
  rewrite (last_last ((initial, con) :: more) p (initial, con) : last ((initial, con) :: more ++ [p]) _ = p).
  destruct p as [s c]. apply (E2 s c). apply in_or_app. right. left. reflexivity.
Qed.

(** C85: the integration from the sonic point is asked for equally spaced angles, from the guessed sonic point to the end of the midplane solution. *)
Theorem C85_angles : forall con n g stop angles x y, snd (total_vars_to_mod_cons con n g stop) = Ok angles -> (1 <= n)%nat -> g tθ_sonic = Some x -> stop = Some y ->
  length angles = n /\ nth 0 angles None = Some x /\ ((2 <= n)%nat -> nth (n - 1) angles None = Some y) /\
  exists step, forall k, (S k < n)%nat -> exists a, nth k angles None = Some a /\ nth (S k) angles None = Some (a + step).
Proof.
  intros con n g stop angles x y H Hn Gx ->. unfold total_vars_to_mod_cons in H. cbn [snd] in H. destruct (existsb _ _); [discriminate|]. injection H as <-. rewrite Gx.
  split; [unfold nlinspace; rewrite map_length, seq_length; reflexivity|].
  destruct (Nat.eq_dec n 1) as [-> |N1].
  { split; [cbn; f_equal; ring|]. split; [lia|]. exists 0. intros k Hk. lia. }
  assert (Pn : INR (n - 1) <> 0) by (apply not_0_INR; lia).
  assert (N : forall k, (k < n)%nat -> nth k (nlinspace (Some x) (Some y) n) None = Some (x + INR k * ((y - x) / INR (n - 1)))).
  { intros k Hk. unfold nlinspace. rewrite (proj2 (Nat.eqb_neq n 1) N1). set (f := fun k => nadd _ _). rewrite (nth_indep _ None (f 0%nat)) by (rewrite map_length, seq_length; exact Hk).
    rewrite (map_nth f), seq_nth by exact Hk. unfold f. cbn. destruct (Req_EM_T (INR (n - 1)) 0) as [Z|_]; [contradiction|]. reflexivity. }
  rewrite !N by lia. split; [f_equal; cbn [INR]; ring|]. split; [intros _; f_equal; field; exact Pn|].
  exists ((y - x) / INR (n - 1)). intros k Hk. exists (x + INR k * ((y - x) / INR (n - 1))). rewrite !N by lia. split; [reflexivity|]. f_equal. rewrite S_INR. ring.
Qed.
(** C85: a joined solution is the midplane solution followed by the one from the sonic point, reversed. *)
Theorem C85_joined : forall initial sonic joined, write_solution (Call := Call) initial sonic = Ok joined ->
  s_angles joined = s_angles initial ++ rev (s_angles sonic) /\ s_rows joined = s_rows initial ++ rev (s_rows sonic) /\ s_flag joined = s_flag sonic /\
  let calls s := match s_internal s with Some l => l | None => [] end in
  calls joined = calls initial ++ rev (calls sonic) /\ (s_internal joined = None <-> s_internal initial = None /\ s_internal sonic = None).
Proof.
  intros initial sonic joined H. unfold write_solution in H. destruct (negb _); [discriminate|]. injection H as <-. cbn [s_angles s_rows s_flag s_internal].
  repeat split; destruct (s_internal initial), (s_internal sonic); try reflexivity; try discriminate; try (intros [? ?]; discriminate); rewrite ?app_nil_r; reflexivity.
Qed.
(** C85: whatever the guess, the function given to the root finder returns one number for each of its eight variables (or raises). *)
Theorem C85_length : forall n initial stop st g st' l, wrapped n initial stop st g = (st', Ok l) -> length l = 8%nat.
Proof.
  assert (L : forall a b l, get_root_results (Call := Call) a b = Ok l -> length l = 8%nat).
  { intros a b l H. unfold get_root_results in H. destruct (s_rows a); [discriminate|].
    repeat (destruct (last_row _) as [?|]; [|discriminate]; cbn [rbind] in H). repeat (destruct (last_num _) as [?|]; [|discriminate]; cbn [rbind] in H).
    injection H as <-. reflexivity. }
  intros n initial stop [con stored] g st' l H. unfold Model_SonicRoot.wrapped, Model_SonicRoot.root_func in H.
  destruct (total_vars_to_mod_cons con n g stop) as [con' [angles|e]]; [|destruct e; try discriminate H; injection H as _ <-; reflexivity].
  destruct (solve con' con' angles) as [sonic|e]; [|destruct e; try discriminate H; injection H as _ <-; reflexivity].
  destruct (write_solution initial sonic) as [j|e]; [|destruct e; try discriminate H; injection H as _ <-; reflexivity].
  destruct (get_root_results sonic initial) as [l0|e] eqn:G; [injection H as _ <-; eapply L, G | destruct e; try discriminate H; injection H as _ <-; reflexivity].
Qed.
(** C85: the result has one entry per variable and vanishes exactly if the two solutions end at the same angle with the same velocity, field and density. *)
Theorem C85_root : forall sonic midplane l, get_root_results (Call := Call) sonic midplane = Ok l ->
  length l = 8%nat /\
  (Forall (eq (Some 0)) l <->
   exists a b s m, last_num (s_angles sonic) = Ok a /\ last_num (s_angles midplane) = Ok b /\ last_row (s_rows sonic) = Ok s /\ last_row (s_rows midplane) = Ok m /\
   (exists x, a = Some x /\ b = Some x) /\ (exists x, x <> 0 /\ s iρ = Some x /\ m iρ = Some x) /\
   forall i, In i [iv_r; iv_θ; iv_φ; iB_r; iB_θ; iB_φ] -> exists x, s i = Some x /\ m i = Some x).
Proof.
  intros sonic midplane l H. unfold get_root_results in H. destruct (s_rows sonic) as [|r0 rs] eqn:R; [discriminate|]. rewrite <- R in H.
  destruct (last_row (s_rows sonic)) as [s|] eqn:S; cbn [rbind] in H; [|discriminate].
  destruct (last_row (s_rows midplane)) as [m|] eqn:M; cbn [rbind] in H; [|discriminate].
  destruct (last_num (s_angles sonic)) as [a|] eqn:A; cbn [rbind] in H; [|discriminate].
  destruct (last_num (s_angles midplane)) as [b|] eqn:B; cbn [rbind] in H; [|discriminate].
  injection H as <-. split; [reflexivity|].
  assert (Z : forall x y, Some 0 = nsub x y <-> exists v, x = Some v /\ y = Some v).
  { intros [x|] [y|]; cbn; split; try discriminate; try (intros (v & E1 & E2); congruence).
    - intro E. injection E as E. exists x. split; [reflexivity|]. f_equal. lra.
    - intros (v & E1 & E2). injection E1 as ->. injection E2 as ->. f_equal. lra. }
  assert (L : forall x y, Some 0 = nlog (ndiv x y) <-> exists v, v <> 0 /\ x = Some v /\ y = Some v).
  { intros [x|] [y|]; cbn; try (split; [discriminate | intros (v & _ & E1 & E2); congruence]).
    destruct (Req_EM_T y 0) as [Y|Y]; cbn [nlog]; [split; [discriminate | intros (v & V & E1 & E2); congruence]|].
    destruct (Rlt_dec 0 (x / y)) as [P|P]; split.
    - intro E. injection E as E. assert (x / y = 1) by (apply ln_inv; [exact P | lra | rewrite ln_1; symmetry; exact E]).
      assert (x = y) by (replace x with (x / y * y) by (field; exact Y); rewrite H; ring). subst x. exists y. repeat split. exact Y.
    - intros (v & V & E1 & E2). injection E1 as ->. injection E2 as ->. replace (v / v) with 1 by (field; exact Y). rewrite ln_1. reflexivity.
    - discriminate.
    - intros (v & V & E1 & E2). injection E1 as ->. injection E2 as ->. exfalso. apply P. replace (v / v) with 1 by (field; exact Y). lra. }
  cbn [COMPARING_INDICES map app]. split.
  - intro F. exists a, b, s, m. rewrite Forall_forall in F.
    assert (S' : last_row (r0 :: rs) = Ok s) by (rewrite <- R; exact S).
    refine (conj eq_refl (conj eq_refl (conj S' (conj eq_refl (conj _ (conj _ _)))))).

    + apply Z, F. cbn. auto 10.
    + apply L, F. cbn. auto 10.
    + intros i I. apply Z, F. cbn in I. cbn. intuition (subst; auto 10).
  - intros (a' & b' & s' & m' & E1 & E2 & E3 & E4 & Ha & Hρ & Hi). rewrite <- R, S in E3. injection E1 as <-. injection E2 as <-. injection E3 as <-. injection E4 as <-.
    repeat constructor; try (apply Z; apply Hi; cbn; auto 10); [apply L, Hρ | apply Z, Ha].
Qed.
(** C85: the first guess is the value at sonic speed of the straight line through the last two points. *)
Theorem C85_guess : forall (initial : soln Call) rows p q a g, s_rows initial = rows ++ [p; q] -> last_num (s_angles initial) = Ok (Some a) ->
  forall u v, p iv_θ = Some u -> q iv_θ = Some v -> u <> v -> guess_root_vals initial = Ok g ->
  g tθ_sonic = Some (a / (9 / 10)) /\
  (forall t i α β, In (t, i) [(tv_φ, iv_φ); (tv_r, iv_r); (tB_θ, iB_θ); (tB_r, iB_r); (tB_φ, iB_φ); (tB_φ_prime, iB_φ_prime)] ->
     p i = Some (α + β * u) -> q i = Some (α + β * v) -> g t = Some (α + β * 1)) /\
  (forall α β, p iρ = Some (exp (α + β * u)) -> q iρ = Some (exp (α + β * v)) -> g tlog_ρ = Some (α + β * 1)).
Proof.
  intros initial rows p q a g ER EA u v Pu Qv Huv G.
  assert (LR : last_row (s_rows initial) = Ok q).
  { rewrite ER. replace (rows ++ [p; q]) with ((rows ++ [p]) ++ [q]) by (rewrite <- app_assoc; reflexivity). unfold last_row.
    destruct ((rows ++ [p]) ++ [q]) eqn:E; [destruct (rows ++ [p]); discriminate|]. rewrite <- E, last_last. reflexivity. }
  assert (RV : rev (s_rows initial) = q :: p :: rev rows) by (rewrite ER, rev_app_distr; reflexivity).
  unfold guess_root_vals, sonic_value, sonic_log_ρ, last_diff in G. rewrite EA, LR, RV in G. cbn [rbind] in G. injection G as <-.
  rewrite Pu, Qv. cbn [nsub].
  assert (NZ : v - u <> 0) by lra.
  split; [|split].
  - cbn. destruct (Req_EM_T (9 / 10) 0); [lra | reflexivity].
  - intros t i α β I Ep Eq.
    assert (E : nadd (q i) (nmul (ndiv (nsub (q i) (p i)) (Some (v - u))) (Some (1 - v))) = Some (α + β * 1)).
    { rewrite Ep, Eq. cbn. destruct (Req_EM_T (v - u) 0); [contradiction|]. cbn. f_equal. field. exact NZ. }
    cbn in I. destruct I as [I|[I|[I|[I|[I|[I|[]]]]]]]; injection I as <- <-; exact E.
  - intros α β Ep Eq. cbn [nth tlog_ρ]. rewrite Ep, Eq. cbn [ndiv nlog].
    destruct (Req_EM_T (exp (α + β * u)) 0) as [Z|Z]; [pose proof (exp_pos (α + β * u)); lra|]. cbn [nlog].
    destruct (Rlt_dec 0 (exp (α + β * v))) as [P1|P1]; [|exfalso; apply P1, exp_pos].
    assert (ED : exp (α + β * v) / exp (α + β * u) = exp (β * (v - u))).
    { replace (α + β * v) with (β * (v - u) + (α + β * u)) by ring. rewrite exp_plus. field. exact Z. }
    rewrite ED. destruct (Rlt_dec 0 (exp (β * (v - u)))) as [P2|P2]; [|exfalso; apply P2, exp_pos]. rewrite !ln_exp. cbn.
    destruct (Req_EM_T (v - u) 0); [contradiction|]. cbn. f_equal. field. exact NZ.
Qed.
End Props.

(** A run of the method: the midplane integration gives two rows, the one from the sonic point fails with one row. *)
Definition row0 : nvec := fun i => if Nat.eqb i iρ then Some (exp 1) else if Nat.eqb i iv_θ then Some 0 else Some 1.
Definition row1 : nvec := fun i => if Nat.eqb i iρ then Some (exp 0) else if Nat.eqb i iv_θ then Some (1 / 2) else Some 1.
Definition mid_soln : soln unit := mk_soln [Some 0; Some 1] [row0; row1] 2 None.
Definition bad_solve (_ _ : nvec) (_ : list num) : res (soln unit) := Ok (mk_soln [Some 3] [row1] (-4) None).
Definition good_solve (_ _ : nvec) (_ : list num) : res (soln unit) := Ok (mk_soln [Some 3] [row1] 0 None).
Lemma mid_guess : exists g, guess_root_vals mid_soln = Ok g /\ forall t, (t < 8)%nat -> g t <> None.
Proof.
  destruct (guess_root_vals mid_soln) as [g|] eqn:G; [|discriminate]. exists g. split; [reflexivity|].
  destruct (C85_guess mid_soln [] row0 row1 1 g eq_refl eq_refl 0 (1 / 2) eq_refl eq_refl ltac:(lra) G) as (A & B & C).
  assert (B' : forall t i, In (t, i) [(tv_φ, iv_φ); (tv_r, iv_r); (tB_θ, iB_θ); (tB_r, iB_r); (tB_φ, iB_φ); (tB_φ_prime, iB_φ_prime)] -> g t <> None).
  { intros t i I. rewrite (B t i 1 0 I); [discriminate|..]; cbn in I; destruct I as [I|[I|[I|[I|[I|[I|[]]]]]]]; injection I as <- <-; cbn; f_equal; ring. }
  intros t Ht. destruct t as [|[|[|[|[|[|[|[|t]]]]]]]]; [rewrite (A : g 0%nat = _); discriminate|..|lia].
  1: apply (B' 1%nat iv_φ). 2: apply (B' 2%nat iv_r). 3: apply (B' 3%nat iB_θ). 4: apply (B' 4%nat iB_r). 5: apply (B' 5%nat iB_φ). 7: apply (B' 7%nat iB_φ_prime).
  all: try (cbn; auto 10; fail).
  change (g tlog_ρ <> None). rewrite (C 1 (-2)); [discriminate | |]; cbn; repeat f_equal; lra.
Qed.
Example C85_nonvacuous :
  (exists s b, snd (solver bad_solve 0 row0 2 (Ok mid_soln) [] true) = Ok (s, b) /\ s_flag s = (-4)%Z) /\
  snd (solver good_solve 0 row0 2 (Ok mid_soln) [] true) = Raise AttributeError.
Proof.
  destruct mid_guess as (g & G & NG). unfold solver. cbn [last_num mid_soln s_angles]. rewrite G. change (last [Some 0; Some 1] None) with (Some 1 : num).
  assert (T : total_vars_to_mod_cons row0 2 g (Some 1) = (fst (total_vars_to_mod_cons row0 2 g (Some 1)), Ok (nlinspace (g tθ_sonic) (Some 1) 2))).
  { unfold total_vars_to_mod_cons. cbn [fst]. f_equal. match goal with |- (if ?b then _ else _) = _ => replace b with false; [reflexivity|] end.
    pose proof (NG 1%nat ltac:(lia)). pose proof (NG 2%nat ltac:(lia)). pose proof (NG 3%nat ltac:(lia)). pose proof (NG 4%nat ltac:(lia)).
    pose proof (NG 5%nat ltac:(lia)). pose proof (NG 6%nat ltac:(lia)). pose proof (NG 7%nat ltac:(lia)).
    cbn. unfold nexp, tv_φ, tv_r, tB_θ, tB_r, tB_φ, tlog_ρ, tB_φ_prime.
    destruct (g 1%nat), (g 2%nat), (g 3%nat), (g 4%nat), (g 5%nat), (g 6%nat), (g 7%nat); try congruence; reflexivity. }
  split.
  - cbn [evaluations]. unfold wrapped, root_func. rewrite T. cbn [bad_solve write_solution s_flag Z.ltb Z.compare negb s_internal get_root_results s_rows]. eexists. eexists. split; reflexivity.
  - cbn [evaluations]. unfold wrapped, root_func. rewrite T. reflexivity.
Qed.
