(** C112: a whole MCMC run: starting positions, scores, and what ends it. *)
From Coq Require Import String List Bool ZArith Reals Lra Lia.
From Verif Require Import Lib_Py Model_FormatTables Model_Format Model_Inputs Model_Run Model_Mcmc Model_McmcRun Spec_Inputs Spec_Run Spec_Mcmc Spec_McmcRun
  Proofs_Inputs Proofs_Run Props_Inputs Props_Run Props_Mcmc.
Import ListNotations.
Open Scope string_scope. Open Scope list_scope.

(** ** Starting positions *)

Lemma moved_all_ok : forall (xs : list (option R)) noise j, moved_all (map VNum xs) noise j =
  Ok (map (fun p => VNum (op1 (fun r => (r * (INITIAL_SPREAD * noise (fst p) + 1))%R) (snd p))) (combine (seq j (length xs)) xs)).
Proof.
  induction xs as [|x t IH]; intros noise j; [reflexivity|]. cbn [map moved_all]. unfold moved. cbn [num_of rbind]. rewrite IH. reflexivity.
Qed.
Lemma rows_ok : forall (xs : list (option R)) noise n i, exists l, rows (map VNum xs) noise i n = Ok l /\ length l = n /\
  forall w p, nth_error l w = Some p -> p = map (fun q => VNum (op1 (fun r => (r * (INITIAL_SPREAD * noise (i + w)%nat (fst q) + 1))%R) (snd q))) (combine (seq 0 (length xs)) xs).
Proof.
  induction n as [|n IH]; intro i; cbn [rows]; [exists []; repeat split; intros [|]; discriminate|]. rewrite moved_all_ok. cbn [rbind].
  destruct (IH (S i)) as (l & -> & L & H). cbn [rbind]. eexists. split; [reflexivity|]. split; [cbn; lia|].
  intros [|w] p Hp; cbn [nth_error] in Hp; [injection Hp as <-; rewrite Nat.add_0_r; reflexivity|]. rewrite (H w p Hp). replace (i + S w)%nat with (S i + w)%nat by lia. reflexivity.
Qed.
(** Every walker starts with the parameters of the input, each changed by a tenth of its value times the number drawn for it. *)
Theorem C112_positions : forall noise x names y z, chosen x names -> (forall f, In f names -> x f = VNum (Some (y f))) -> x "nwalkers" = VInt z -> (0 <= z)%Z ->
  exists positions, generate_initial_positions noise (soln_object x) names = Ok positions /\ Z.of_nat (length positions) = z /\
  forall w p, nth_error positions w = Some p -> length p = length names /\
    forall j f, nth_error names j = Some f -> nth_error p j = Some (VNum (Some (y f + y f * noise w j / 10))%R).
Proof.
  intros noise x names y z C Hy Hz Pz. unfold generate_initial_positions.
  rewrite encode_ok by (intros f Hf; apply parameters_fields, (chosen_fields x names C f Hf)). cbn [rbind]. unfold soln_object. rewrite getattr_object by inl. cbn [rbind]. rewrite Hz.
  destruct (Z.ltb_spec z 0); [lia|].
  replace (map x names) with (map VNum (map (fun f => Some (y f)) names)) by (rewrite map_map; apply map_ext_in; intros f Hf; symmetry; apply Hy, Hf).
  destruct (rows_ok (map (fun f => Some (y f)) names) noise (Z.to_nat z) 0) as (l & -> & L & H1). exists l. split; [reflexivity|]. split; [lia|].
  intros w p Hp. rewrite (H1 w p Hp). replace (length (map (fun f => Some (y f)) names)) with (length names) by (symmetry; apply map_length).
  split; [rewrite map_length, combine_length, seq_length, map_length; lia|].
  assert (G : forall (t : list string) k j f, nth_error t j = Some f ->
    nth_error (map (fun q => VNum (op1 (fun r => (r * (INITIAL_SPREAD * noise (0 + w)%nat (fst q) + 1))%R) (snd q))) (combine (seq k (length t)) (map (fun f => Some (y f)) t))) j =
    Some (VNum (Some (y f + y f * noise w (k + j)%nat / 10))%R)).
  { induction t as [|g t IH]; intros k [|j] f Hf; try discriminate; cbn [nth_error length seq map combine] in *.
    - injection Hf as <-. cbn [fst snd op1]. rewrite !Nat.add_0_r. cbn [Nat.add]. do 3 f_equal. unfold INITIAL_SPREAD. field.
    - rewrite (IH (S k) j f Hf). replace (S k + j)%nat with (k + S j)%nat by lia. reflexivity. }
  intros j f Hf. apply (G names 0%nat j f Hf).
Qed.
(** A walker starts at a value that will be tried exactly if the number drawn is above minus ten. *)
Theorem C112_start_sign : forall y n : R, (0 < y)%R -> ((0 < y + y * n / 10)%R <-> (-10 < n)%R).
Proof.
  intros y n Hy. replace (y + y * n / 10)%R with (y * ((n + 10) / 10))%R by field. split; intro H.
  - assert (0 < (n + 10) / 10)%R by (apply (Rmult_lt_reg_l y); [exact Hy | lra]). lra.
  - apply Rmult_lt_0_compat; lra.
Qed.

(** ** The score of a solution *)

Lemma fold_max : forall (l : list R) m, exists m', fold_left (fun m y => if greater y m then y else m) (map Some l) (Some m) = Some m' /\ is_max (m :: l) m'.
Proof.
  induction l as [|a l IH]; intro m; [exists m; split; [reflexivity|]; split; [left; reflexivity | intros y [<-|[]]; lra]|].
  cbn [map fold_left greater]. destruct (Rlt_dec m a) as [Lt|Ge].
  - destruct (IH a) as (m' & H1 & H2 & H3). exists m'. split; [exact H1|]. split; [right; exact H2|]. intros y [<-|Hy]; [|apply H3, Hy].
    apply Rle_trans with a; [lra | apply H3; left; reflexivity].
  - destruct (IH m) as (m' & H1 & H2 & H3). exists m'. split; [exact H1|]. split; [destruct H2 as [->|H2]; [left; reflexivity | right; right; exact H2]|].
    intros y [<-|[<-|Hy]]; [apply H3; left; reflexivity | apply Rle_trans with m; [lra | apply H3; left; reflexivity] | apply H3; right; exact Hy].
Qed.
Lemma fold_nan : forall l, fold_left (fun m y => if greater y m then y else m) l None = None.
Proof. induction l as [|[a|] l IH]; [reflexivity | exact IH | exact IH]. Qed.
Lemma fold_number : forall l m, exists m', fold_left (fun m y => if greater y m then y else m) l (Some m) = Some m'.
Proof.
  induction l as [|[a|] l IH]; intro m; cbn [fold_left greater]; [eauto | destruct (Rlt_dec m a); apply IH | apply IH].
Qed.
Fixpoint rdiff (l : list R) : list R := match l with a :: (b :: _) as t => (b - a)%R :: rdiff t | _ => [] end.
Lemma diff_numbers : forall l, diff (map Some l) = map Some (rdiff l).
Proof. induction l as [|a [|b l] IH]; try reflexivity. change (diff (map Some (a :: b :: l))) with (op2 Rminus (Some b) (Some a) :: diff (map Some (b :: l))). rewrite IH. reflexivity. Qed.
Lemma squares_numbers : forall l, squares (map Some l) = map Some (map (fun x => x * x)%R l).
Proof. intro l. unfold squares. rewrite !map_map. reflexivity. Qed.
Lemma sum_numbers : forall l a, fold_left (op2 Rplus) (map Some l) (Some a) = Some (a + fold_right Rplus 0 l)%R.
Proof. induction l as [|x l IH]; intro a; cbn; [f_equal; lra|]. rewrite IH. f_equal. lra. Qed.
Lemma rdiff_as : forall l d, rdiff l = map (fun i => (nth (S i) l d - nth i l d)%R) (seq 0 (length l - 1)).
Proof.
  intro l. induction l as [|a [|b l] IH]; intro d; try reflexivity. change (rdiff (a :: b :: l)) with ((b - a)%R :: rdiff (b :: l)). rewrite (IH d).
  replace (length (a :: b :: l) - 1)%nat with (S (length (b :: l) - 1)) by (cbn; lia). cbn [seq map]. f_equal. rewrite <- seq_shift, map_map. reflexivity.
Qed.
Lemma unevenness_as : forall l, fold_right Rplus 0%R (map (fun x => x * x)%R (rdiff (map (fun x => x * x)%R (rdiff l)))) = unevenness l.
Proof.
  intro l. unfold unevenness. rewrite (rdiff_as (map _ _) 0%R), map_map, map_length. rewrite (rdiff_as l 0%R), map_map, map_length, seq_length.
  replace (length l - 1 - 1)%nat with (length l - 2)%nat by lia. f_equal. apply map_ext_in. intros i Hi. apply in_seq in Hi.
  assert (G : forall k, (k < length l - 1)%nat -> nth k (map (fun x => ((nth (S x) l 0 - nth x l 0) * (nth (S x) l 0 - nth x l 0))%R) (seq 0 (length l - 1))) 0%R = (step l k)²%R).
  { intros k Hk. set (g := fun x : nat => ((nth (S x) l 0 - nth x l 0) * (nth (S x) l 0 - nth x l 0))%R).
    rewrite (nth_indep _ _ (g 0%nat)) by (rewrite map_length, seq_length; exact Hk). rewrite (map_nth g), seq_nth by exact Hk. reflexivity. }
  rewrite !G by lia. reflexivity.
Qed.
(** The score of a solution without NaN: minus ten times the exponential of minus the largest v_θ, less the unevenness of v_θ. *)
Theorem C112_score : forall c l, all_numbers c l -> l <> [] -> exists m, is_max l m /\ get_logprob_of_soln c = Ok (Some (score l m)) /\ (score l m < 0)%R.
Proof.
  intros c l -> Hl. destruct l as [|a l]; [contradiction|]. destruct (fold_max l a) as (m & H1 & H2). exists m. split; [exact H2|]. split.
  - unfold get_logprob_of_soln, py_max. cbn [map]. rewrite H1. cbn [rbind op1]. unfold get_outflow_rate_probability.
    change (Some a :: map Some l) with (map Some (a :: l)). rewrite diff_numbers, squares_numbers, diff_numbers, squares_numbers. unfold py_sum. rewrite sum_numbers, unevenness_as.
    cbn [op1 op2]. do 2 f_equal. unfold score, TARGETED_PROB_WEIGHTING, OUTFLOW_RATE_PROB_WEIGHTING. lra.
  - unfold score. assert (0 <= unevenness (a :: l))%R.
    { unfold unevenness. generalize (seq 0 (length (a :: l) - 2)). intro s. induction s as [|i s IH]; cbn [map fold_right]; [lra|].
      assert (P := Rle_0_sqr ((step (a :: l) (S i))² - (step (a :: l) i)²)%R). lra. }
    assert (P := exp_pos (- m)). lra.
Qed.
(** Of two solutions that are equally uneven the one that gets faster scores more. *)
Theorem C112_faster : forall l l' m m', is_max l m -> is_max l' m' -> unevenness l = unevenness l' -> ((score l m < score l' m')%R <-> (m < m')%R).
Proof.
  intros l l' m m' _ _ H. unfold score. rewrite H. split; intro L.
  - apply Rnot_le_lt. intro N. assert (exp (- m) <= exp (- m'))%R by (destruct (Rle_lt_or_eq_dec _ _ N) as [N1|N1]; [left; apply exp_increasing; lra | subst; lra]). lra.
  - assert (exp (- m') < exp (- m))%R by (apply exp_increasing; lra). lra.
Qed.
Lemma sum_nan : forall l a, In None l -> fold_left (op2 Rplus) l a = None.
Proof.
  assert (N : forall l, fold_left (op2 Rplus) l None = None) by (induction l as [|x l IH]; [reflexivity | exact IH]).
  induction l as [|x l IH]; intros a H; [destruct H|]. destruct H as [->|H]; cbn [fold_left]; [destruct a; apply N | apply IH, H].
Qed.
Lemma diff_nan : forall l, (2 <= length l)%nat -> In None l -> In None (diff l).
Proof.
  induction l as [|a [|b l] IH]; intros L H; cbn [length] in L; try lia.
  change (diff (a :: b :: l)) with (op2 Rminus b a :: diff (b :: l)). destruct H as [->|[->|H]]; [left; destruct b; reflexivity | left; reflexivity|].
  destruct l as [|c l]; [destruct H|]. right. apply IH; [cbn; lia | right; exact H].
Qed.
Lemma diff_length : forall l, length (diff l) = (length l - 1)%nat.
Proof. induction l as [|a [|b l] IH]; try reflexivity. change (diff (a :: b :: l)) with (op2 Rminus b a :: diff (b :: l)). cbn [length] in *. rewrite IH. lia. Qed.
Lemma squares_nan : forall l, In None l -> In None (squares l).
Proof. intros l H. unfold squares. apply in_map_iff. exists None. auto. Qed.
(** When the score is NaN, and when there is none at all. *)
Theorem C112_unscored : forall c,
  (get_logprob_of_soln c = Ok None <-> hd_error c = Some None \/ ((3 <= length c)%nat /\ In None c)) /\
  (get_logprob_of_soln c = Raise ValueError <-> c = []).
Proof.
  intro c. destruct c as [|a c]; [cbn; split; [split; [discriminate | intros [|[]]; [discriminate | lia]] | split; reflexivity]|].
  split; [|split; [cbn; discriminate | discriminate]]. unfold get_logprob_of_soln, py_max. cbn [rbind].
  split.
  - intro H. destruct a as [a|]; [|left; reflexivity]. right. destruct (fold_number c a) as (m & M). rewrite M in H. cbn [op1 op2] in H.
    destruct (le_lt_dec 3 (length (Some a :: c))) as [L|L].
    + split; [exact L|]. destruct (in_dec (fun x y : option R => ltac:(decide equality; apply Req_EM_T)) None (Some a :: c)) as [i|n]; [exact i|]. exfalso.
      assert (Nm : exists l, Some a :: c = map Some l).
      { clear - n. revert n. generalize (Some a :: c). intro k. induction k as [|x k IH]; intro n; [exists []; reflexivity|].
        destruct IH as (l & ->); [intro; apply n; right; assumption|]. destruct x as [x|]; [exists (x :: l); reflexivity | destruct n; left; reflexivity]. }
      destruct Nm as (l & Nm). unfold get_outflow_rate_probability in H. rewrite Nm in H. rewrite diff_numbers, squares_numbers, diff_numbers, squares_numbers in H. unfold py_sum in H. rewrite sum_numbers in H. discriminate.
    + exfalso. destruct c as [|b [|d c]]; cbn in H, L; try discriminate; lia.
  - intros [[= ->]|[L H]]; [rewrite fold_nan; reflexivity|]. unfold get_outflow_rate_probability, py_sum.
    rewrite sum_nan; [destruct (op1 _ (op1 _ _)); reflexivity|]. apply squares_nan, diff_nan; [unfold squares; rewrite map_length, diff_length; lia|].
    apply squares_nan, diff_nan; [lia | exact H].
Qed.
Example C112_score_nonvacuous : all_numbers [Some 0; Some 1; Some 3; Some 2]%R [0; 1; 3; 2]%R /\ is_max [0; 1; 3; 2]%R 3 /\ unevenness [0; 1; 3; 2]%R = 18%R.
Proof. split; [reflexivity|]. split; [split; [cbn; tauto | intros y [<-|[<-|[<-|[<-|[]]]]]; lra]|]. unfold unevenness, step. cbn. unfold Rsqr. lra. Qed.

(** ** The run *)
Section Whole.
Context {Sol Cond I : Type}.
Variables (E : env) (define_conditions : val -> res Cond) (solution : val -> Cond -> res Sol) (column : Sol -> list (option R)).
Definition finite_score (s : Sol) : option R := match get_logprob_of_soln (column s) with Ok x => x | Raise _ => None end.
(** What a point is worth, apart from any run: minus infinity if its parameters are not all positive or it cannot be solved,
    otherwise the score of its solution. *)
Definition value_at (inp : val) (enum : list string) (p : list val) : res logp :=
  let! i := sys_vars_to_solution_input E p inp enum in
  let! ok := solution_input_valid i in
  if ok then
    match define_conditions i with
    | Raise SolverError => Ok Minus_infinity
    | Raise e => Raise e
    | Ok c => match solution i c with
              | Raise SolverError => Ok Minus_infinity
              | Raise e => Raise e
              | Ok s => let! x := get_logprob_of_soln (column s) in Ok (match x with Some x => Finite x | None => Not_a_number end)
              end
    end
  else Ok Minus_infinity.
Definition worth (inp : val) (enum : list string) (p : list val) (v : logp) : Prop := value_at inp enum p = Ok v /\ v <> Not_a_number.
Local Notation found_at inp enum := (scored E define_conditions solution finite_score inp enum).
Local Notation state := (logprob_state (Sol := Sol) (I := I)).

Lemma of_value : forall inp enum p (st st' : state) found v, keeps found st -> logprob_of E define_conditions solution column inp enum st p = (st', v) ->
  v = value_at inp enum p /\ keeps (found ++ found_at inp enum p) st' /\ r_final (lg_run st') = r_final (lg_run st).
Proof.
  intros inp enum p st st' found v K H.
  assert (C : match v with
              | Ok x => logprob_call E define_conditions solution finite_score inp enum st p = (st', Ok match x with Finite x => Some x | _ => None end)
              | Raise _ => st' = st /\ found_at inp enum p = [] end /\ v = value_at inp enum p).
  { unfold logprob_of in H. unfold logprob_call, scored, finite_score, value_at.
    destruct (sys_vars_to_solution_input E p inp enum) as [i|e]; cbn [rbind]; [|injection H as <- <-; auto].
    destruct (solution_input_valid i) as [[|]|e]; cbn [rbind]; [|injection H as <- <-; auto | injection H as <- <-; auto].
    destruct (define_conditions i) as [c|e]; [|destruct e; injection H as <- <-; auto].
    destruct (solution i c) as [s|e]; [|destruct e; injection H as <- <-; auto].
    destruct (get_logprob_of_soln (column s)) as [[x|]|e]; cbn [rbind]; [|injection H as <- <-; auto | injection H as <- <-; auto].
    destruct K as [K1 _]. rewrite K1, add_numbered in H |- *. destruct (exceeds x (lg_best st)); injection H as <- <-; auto. }
  destruct C as [C V]. split; [exact V|]. destruct v as [x|e].
  - destruct (call_keeps E define_conditions solution finite_score inp enum p st found st' _ K C) as (K1 & F & _). auto.
  - destruct C as [-> ->]. rewrite app_nil_r. auto.
Qed.
Lemma of_values : forall inp enum points (st st' : state) found out, keeps found st -> values_of E define_conditions solution column inp enum st points = (st', out) ->
  r_final (lg_run st') = r_final (lg_run st) /\
  (exists done rest, points = done ++ rest /\ keeps (found ++ flat_map (found_at inp enum) done) st' /\ match out with Ok _ => rest = [] | Raise e => exists p, In p done /\ value_at inp enum p = Raise e end) /\
  match out with Ok l => Forall2 (fun p v => value_at inp enum p = Ok v) points l | Raise e => True end.
Proof.
  intros inp enum points. induction points as [|p t IH]; intros st st' found out K H; cbn [values_of] in H.
  - injection H as <- <-. split; [reflexivity|]. split; [|constructor]. exists [], []. cbn [flat_map]. rewrite (app_nil_r found). auto.
  - destruct (logprob_of E define_conditions solution column inp enum st p) as [st1 v] eqn:C. destruct (of_value _ _ _ _ _ _ _ K C) as (V & K1 & F1). destruct v as [v|e].
    + destruct (values_of E define_conditions solution column inp enum st1 t) as [st2 w] eqn:D. destruct (IH _ _ _ _ K1 D) as (F2 & (done & rest & D1 & D2 & D3) & D4).
      destruct w as [l|e]; injection H as <- <-; (split; [congruence|]); (split; [exists (p :: done), rest; split; [rewrite D1; reflexivity|]; split; [cbn [flat_map]; rewrite app_assoc; exact D2|]|]).
      * exact D3.
      * constructor; [symmetry; exact V | exact D4].
      * destruct D3 as (q & Q1 & Q2). exists q. split; [right; exact Q1 | exact Q2].
      * exact Logic.I.
    + injection H as <- <-. split; [exact F1|]. split; [|exact Logic.I]. exists [p], t. split; [reflexivity|]. split; [cbn [flat_map]; rewrite app_nil_r; exact K1|].
      exists p. split; [left; reflexivity | symmetry; exact V].
Qed.
Lemma values_total : forall inp enum points (st : state) found, keeps found st -> (forall p, In p points -> exists v, value_at inp enum p = Ok v) ->
  exists st' l, values_of E define_conditions solution column inp enum st points = (st', Ok l).
Proof.
  intros inp enum points st found K H. destruct (values_of E define_conditions solution column inp enum st points) as [st' [l|e]] eqn:D; [eauto|].
  destruct (of_values _ _ _ _ _ _ _ K D) as (_ & (done & rest & D1 & _ & p & P1 & P2) & _). destruct (H p) as [v Hv]; [rewrite D1; apply in_or_app; left; exact P1|]. congruence.
Qed.
(** One group. *)
Lemma one_group : forall inp enum points (st st' : state) found out, keeps found st -> compute_log_prob E define_conditions solution column inp enum st points = (st', out) ->
  r_final (lg_run st') = r_final (lg_run st) /\
  (exists done rest, points = done ++ rest /\ keeps (found ++ flat_map (found_at inp enum) done) st' /\
     match out with Ok _ => rest = [] | Raise e => exists p, In p done /\ (value_at inp enum p = Raise e \/ (value_at inp enum p = Ok Not_a_number /\ e = ValueError)) end) /\
  match out with Ok l => Forall2 (worth inp enum) points l | Raise e => True end.
Proof.
  intros inp enum points st st' found out K H. unfold compute_log_prob in H. destruct (values_of E define_conditions solution column inp enum st points) as [st1 w] eqn:D.
  destruct (of_values _ _ _ _ _ _ _ K D) as (F & (done & rest & D1 & D2 & D3) & D4). destruct w as [l|e].
  - destruct (existsb is_nan l) eqn:N; injection H as <- <-; (split; [exact F|]).
    + split; [|exact Logic.I]. exists done, rest. split; [exact D1|]. split; [exact D2|]. subst rest. rewrite app_nil_r in D1. subst done.
      apply existsb_exists in N. destruct N as (v & Hv & Nv). destruct v; try discriminate.
      clear - Hv D4. induction D4 as [|p v t l P _ IH]; [destruct Hv|]. destruct Hv as [->|Hv]; [exists p; split; [left; reflexivity | right; auto]|].
      destruct (IH Hv) as (q & Q1 & Q2). exists q. split; [right; exact Q1 | exact Q2].
    + split; [exists done, rest; auto|]. clear - D4 N. induction D4 as [|p v t l P _ IH]; [constructor|]. cbn [existsb] in N. apply orb_false_iff in N. destruct N as [N1 N2].
      constructor; [split; [exact P | intros ->; discriminate] | apply IH, N2].
  - injection H as <- <-. split; [exact F|]. split; [|exact Logic.I]. destruct D3 as (p & P1 & P2). exists done, rest. split; [exact D1|]. split; [exact D2|]. exists p. split; [exact P1 | left; exact P2].
Qed.
Lemma group_of : forall inp enum points vs (st : state) found, keeps found st -> Forall2 (worth inp enum) points vs ->
  exists st', compute_log_prob E define_conditions solution column inp enum st points = (st', Ok vs) /\ keeps (found ++ flat_map (found_at inp enum) points) st' /\ r_final (lg_run st') = r_final (lg_run st).
Proof.
  intros inp enum points vs st found K W. destruct (compute_log_prob E define_conditions solution column inp enum st points) as [st' out] eqn:C.
  destruct (one_group _ _ _ _ _ _ _ K C) as (F & (done & rest & D1 & D2 & D3) & D4). exists st'. destruct out as [l|e].
  - subst rest. rewrite app_nil_r in D1. subst done. split; [|auto]. f_equal. f_equal. clear - D4 W. revert vs W. induction D4 as [|p v t l [P _] _ IH]; intros vs W; inversion W as [|? v' ? ? [P' _]]; subst; [reflexivity|].
    f_equal; [congruence | apply IH; assumption].
  - exfalso. destruct D3 as (p & P1 & P2). assert (Ip : In p points) by (rewrite D1; apply in_or_app; left; exact P1). clear - W Ip P2.
    induction W as [|q v t l [Q Q'] _ IH]; [destruct Ip|]. destruct Ip as [->|Ip]; [|apply IH, Ip]. destruct P2 as [P2|[P2 _]]; congruence.
Qed.
Lemma groups_ok : forall propose inp enum first n past (st st' : state) out found, keeps found st -> sampled (worth inp enum) propose first past ->
  groups E define_conditions solution column propose inp enum n past st = (st', out) ->
  r_final (lg_run st') = r_final (lg_run st) /\
  match out with
  | Ok past' => exists new, past' = past ++ new /\ length new = n /\ sampled (worth inp enum) propose first past' /\ keeps (found ++ flat_map (found_at inp enum) (points_of new)) st'
  | Raise e => exists done, keeps (found ++ flat_map (found_at inp enum) done) st' /\ exists p, In p done /\ (value_at inp enum p = Raise e \/ (value_at inp enum p = Ok Not_a_number /\ e = ValueError))
  end.
Proof.
  intros propose inp enum first n. induction n as [|n IH]; intros past st st' out found K S H; cbn [groups] in H.
  - injection H as <- <-. split; [reflexivity|]. exists []. cbn [points_of flat_map]. rewrite !app_nil_r. auto.
  - destruct (compute_log_prob E define_conditions solution column inp enum st (propose past)) as [st1 w] eqn:C.
    destruct (one_group _ _ _ _ _ _ _ K C) as (F & (done & rest & D1 & D2 & D3) & D4). destruct w as [l|e].
    + subst rest. rewrite app_nil_r in D1. subst done. destruct (IH _ _ _ _ _ D2 (sampled_next _ _ _ _ _ S D4) H) as (F2 & G). split; [congruence|]. destruct out as [past'|e].
      * destruct G as (new & -> & L & S' & K'). exists ((propose past, l) :: new). split; [rewrite <- app_assoc; reflexivity|]. split; [cbn; lia|]. split; [exact S'|].
        cbn [points_of flat_map fst]. rewrite flat_map_app, app_assoc. exact K'.
      * destruct G as (done & K' & p & P1 & P2). exists (propose past ++ done). rewrite flat_map_app, app_assoc. split; [exact K'|]. exists p. split; [apply in_or_app; right; exact P1 | exact P2].
    + injection H as <- <-. split; [exact F|]. exists done. split; [exact D2|]. exact D3.
Qed.
Lemma groups_app : forall propose inp enum n m past (st : state), groups E define_conditions solution column propose inp enum (n + m) past st =
  match groups E define_conditions solution column propose inp enum n past st with (st', Ok past') => groups E define_conditions solution column propose inp enum m past' st' | (st', Raise e) => (st', Raise e) end.
Proof.
  intros propose inp enum n. induction n as [|n IH]; intros m past st; [reflexivity|]. cbn [Nat.add groups].
  destruct (compute_log_prob E define_conditions solution column inp enum st (propose past)) as [st1 [l|e]]; [apply IH | reflexivity].
Qed.
(** A run reaches every sequence of groups that can be sampled. *)
Lemma sampled_reached : forall propose inp enum first tried (r : run Sol I), r_solutions r = [] -> sampled (worth inp enum) propose first tried ->
  exists k vs st0 st, length tried = S k /\ compute_log_prob E define_conditions solution column inp enum (lg_new r) first = (st0, Ok vs) /\
  groups E define_conditions solution column propose inp enum k [(first, vs)] st0 = (st, Ok tried) /\
  keeps (flat_map (found_at inp enum) (points_of tried)) st /\ r_final (lg_run st) = r_final r.
Proof.
  intros propose inp enum first tried r Hr Sm. assert (K0 : keeps [] (lg_new r)) by (split; [exact Hr | reflexivity]).
  induction Sm as [vs W|past vs Sm IH W].
  - destruct (group_of _ _ _ _ _ _ K0 W) as (st & C & K & F). exists 0%nat, vs, st, st. split; [reflexivity|]. split; [exact C|]. split; [reflexivity|]. split; [|exact F].
    cbn [points_of flat_map fst]. rewrite app_nil_r. exact K.
  - destruct IH as (k & vs0 & st0 & st & L & C & G & K & F). destruct (group_of _ _ _ _ _ _ K W) as (st' & C' & K' & F').
    exists (S k), vs0, st0, st'. split; [rewrite app_length, L; cbn; lia|]. split; [exact C|]. split; [|split; [|congruence]].
    + replace (S k) with (k + 1)%nat by lia. rewrite groups_app, G. cbn [groups]. rewrite C'. reflexivity.
    + unfold points_of. rewrite flat_map_app, flat_map_app. cbn [flat_map fst]. rewrite app_nil_r. exact K'.
Qed.
(** How a run begins: the parameters it varies, where its walkers start, how many iterations it does. *)
Definition begins (check : list (list val) -> res unit) (noise : nat -> nat -> R) (inp : val) (names : list string) (positions : list (list val)) (n : nat) : Prop :=
  generate_sysvars_enum inp = Ok names /\ generate_initial_positions noise inp names = Ok positions /\ (exists z, getattr "iterations" inp = Ok (VInt z) /\ n = Z.to_nat z) /\ check positions = Ok tt.
Lemma solver_begins : forall check propose noise inp names positions n (r : run Sol I), begins check noise inp names positions n ->
  solver E define_conditions solution column check propose noise inp r =
  match compute_log_prob E define_conditions solution column inp names (lg_new r) positions with
  | (st, Raise e) => (lg_run st, Raise e)
  | (st, Ok l) => match groups E define_conditions solution column propose inp names (n + n) [(positions, l)] st with
                  | (st, Raise e) => (lg_run st, Raise e)
                  | (st, Ok _) => match best_solution st with
                                  | Raise e => (lg_run st, Raise e)
                                  | Ok b => match set_final (lg_run st) b with Raise e => (lg_run st, Raise e) | Ok r => (r, Ok true) end
                                  end
                  end
  end.
Proof. intros check propose noise inp names positions n r (B1 & B2 & (z & B3 & ->) & B4). unfold solver. rewrite B1. cbn [rbind]. rewrite B2. cbn [rbind]. rewrite B3. cbn [rbind]. rewrite B4. reflexivity. Qed.
Lemma solver_begun : forall check propose noise inp (r r' : run Sol I) out, solver E define_conditions solution column check propose noise inp r = (r', out) ->
  (exists names positions n, begins check noise inp names positions n) \/ (r' = r /\ exists e, out = Raise e).
Proof.
  intros check propose noise inp r r' out H. unfold solver in H.
  destruct (generate_sysvars_enum inp) as [names|e] eqn:B1; cbn [rbind] in H; [|injection H as <- <-; eauto].
  destruct (generate_initial_positions noise inp names) as [positions|e] eqn:B2; cbn [rbind] in H; [|injection H as <- <-; eauto].
  destruct (getattr "iterations" inp) as [v|e] eqn:B3; cbn [rbind] in H; [|injection H as <- <-; eauto].
  destruct v; cbn [rbind] in H; try (injection H as <- <-; eauto; fail).
  destruct (check positions) as [[]|e] eqn:B4; cbn [rbind] in H; [|injection H as <- <-; eauto].
  left. exists names, positions, (Z.to_nat z). repeat split; eauto.
Qed.
Lemma best_of : forall found (st : state), keeps found st -> exists b, best_solution st = Ok b /\ match b with None => found = [] | Some s => first_best found s end.
Proof.
  intros found st [K1 K2]. unfold best_solution. rewrite K1. destruct (lg_index st) as [k|], (lg_best st) as [x|]; try contradiction; [|exists None; auto].
  destruct K2 as (pre & s & post & -> & -> & P1 & P2). exists (Some s). split; [|exists pre, x, post; auto].
  unfold dgetitem. rewrite map_app. cbn [map fst].
  assert (G : forall (l : list Sol) m n a, dget (str_of_nat (n + length l)) (numbered n (l ++ a :: m)) = Some a).
  { clear. induction l as [|b l IH]; intros m n a; unfold numbered; cbn.
    - rewrite Nat.add_0_r, String.eqb_refl. reflexivity.
    - destruct (String.eqb_spec (str_of_nat (n + S (length l))) (str_of_nat n)) as [Q|_]; [apply str_of_nat_inj in Q; lia|].
      specialize (IH m (S n) a). unfold numbered in IH. replace (n + S (length l))%nat with (S n + length l)%nat by lia. exact IH. }
  specialize (G (map fst pre) (map fst post) 0%nat s). rewrite map_length in G. cbn [Nat.add] in G. rewrite G. reflexivity.
Qed.
Lemma stored_of : forall found (st : state), keeps found st -> map snd (r_solutions (lg_run st)) = map fst found.
Proof.
  intros found st [K _]. rewrite K. generalize (map fst found). intro l. unfold numbered. generalize 0%nat. induction l as [|a l IH]; intro n; [reflexivity|]. cbn. rewrite IH. reflexivity.
Qed.
(** A run that returns has tried the starting positions and twice as many groups as there are iterations, has met no NaN,
    holds every solution with a score in the order in which they were found, and ends with the first of the best. *)
Theorem C112_run : forall check propose noise inp (r r' : run Sol I) ok, r_solutions r = [] -> r_final r = Unset ->
  solver E define_conditions solution column check propose noise inp r = (r', Ok ok) ->
  ok = true /\ exists names positions n tried, begins check noise inp names positions n /\ sampled (worth inp names) propose positions tried /\ length tried = (1 + 2 * n)%nat /\
  let found := flat_map (found_at inp names) (points_of tried) in
  map snd (r_solutions r') = map fst found /\
  match r_final r' with Unset => False | FinalNone => found = [] | Final s => first_best found s end.
Proof.
  intros check propose noise inp r r' ok Hr Hu H. destruct (solver_begun _ _ _ _ _ _ _ H) as [(names & positions & n & B)|[_ [e Q]]]; [|discriminate].
  rewrite (solver_begins _ _ _ _ _ _ _ _ B) in H. assert (K0 : keeps [] (lg_new r)) by (split; [exact Hr | reflexivity]).
  destruct (compute_log_prob E define_conditions solution column inp names (lg_new r) positions) as [st [l|e]] eqn:C; [|discriminate].
  destruct (one_group _ _ _ _ _ _ _ K0 C) as (F & (done & rest & D1 & K1 & D3) & W). subst rest. rewrite app_nil_r in D1. subst done.
  destruct (groups E define_conditions solution column propose inp names (n + n) [(positions, l)] st) as [st' [tried|e]] eqn:G; [|discriminate].
  destruct (groups_ok _ _ _ _ _ _ _ _ _ _ K1 (sampled_first _ _ _ _ W) G) as (F2 & new & -> & L & S & K2). cbn [app] in K2.
  destruct (best_of _ _ K2) as (b & B1 & B2). rewrite B1 in H. unfold set_final in H. rewrite F2, F in H. cbn [lg_new lg_run] in H. rewrite Hu in H. injection H as <- <-.
  split; [reflexivity|]. exists names, positions, n, ([(positions, l)] ++ new). split; [exact B|]. split; [exact S|]. split; [cbn [app length]; lia|]. cbn [app points_of flat_map fst]. fold (points_of new). rewrite flat_map_app.
  split; [cbn [with_final r_solutions]; apply stored_of, K2|]. destruct b as [s|]; exact B2.
Qed.
(** If every point is worth something other than NaN the run returns. *)
Theorem C112_returns : forall check propose noise inp names positions n (r : run Sol I), r_solutions r = [] -> r_final r = Unset -> begins check noise inp names positions n ->
  (forall p, exists v, worth inp names p v) -> exists r', solver E define_conditions solution column check propose noise inp r = (r', Ok true).
Proof.
  intros check propose noise inp names positions n r Hr Hu B All. rewrite (solver_begins _ _ _ _ _ _ _ _ B). assert (K0 : keeps [] (lg_new r)) by (split; [exact Hr | reflexivity]).
  destruct (compute_log_prob E define_conditions solution column inp names (lg_new r) positions) as [st [l|e]] eqn:C;
    destruct (one_group _ _ _ _ _ _ _ K0 C) as (F & (done & rest & D1 & K1 & D3) & W).
  2:{ exfalso. destruct D3 as (p & _ & P). destruct (All p) as (v & V1 & V2). destruct P as [P|[P _]]; congruence. }
  subst rest. rewrite app_nil_r in D1. subst done.
  destruct (groups E define_conditions solution column propose inp names (n + n) [(positions, l)] st) as [st' [tried|e]] eqn:G;
    destruct (groups_ok _ _ _ _ _ _ _ _ _ _ K1 (sampled_first _ _ _ _ W) G) as (F2 & X).
  2:{ exfalso. destruct X as (d & _ & p & _ & P). destruct (All p) as (v & V1 & V2). destruct P as [P|[P _]]; congruence. }
  destruct X as (new & -> & L & S & K2). destruct (best_of _ _ K2) as (b & -> & _). unfold set_final. rewrite F2, F. cbn [lg_new lg_run]. rewrite Hu. eauto.
Qed.
(** A run that fails has no final solution, holds the solutions of the points it tried, and, if it began, failed at one of
    these: with the error of its solve, or with ValueError because it was worth NaN. *)
Theorem C112_failed : forall check propose noise inp (r r' : run Sol I) e, r_solutions r = [] -> r_final r = Unset ->
  solver E define_conditions solution column check propose noise inp r = (r', Raise e) ->
  r_final r' = Unset /\
  (r' = r \/ exists names positions n done p, begins check noise inp names positions n /\ map snd (r_solutions r') = map fst (flat_map (found_at inp names) done) /\
     In p done /\ (value_at inp names p = Raise e \/ (value_at inp names p = Ok Not_a_number /\ e = ValueError))).
Proof.
  intros check propose noise inp r r' e Hr Hu H. destruct (solver_begun _ _ _ _ _ _ _ H) as [(names & positions & n & B)|[-> _]]; [|auto].
  rewrite (solver_begins _ _ _ _ _ _ _ _ B) in H. assert (K0 : keeps [] (lg_new r)) by (split; [exact Hr | reflexivity]).
  destruct (compute_log_prob E define_conditions solution column inp names (lg_new r) positions) as [st [l|e1]] eqn:C;
    destruct (one_group _ _ _ _ _ _ _ K0 C) as (F & (done & rest & D1 & K1 & D3) & W).
  2:{ injection H as <- <-. split; [rewrite F; exact Hu|]. right. destruct D3 as (p & P1 & P2). exists names, positions, n, done, p. split; [exact B|]. split; [apply (stored_of _ _ K1) | auto]. }
  subst rest. rewrite app_nil_r in D1. subst done.
  destruct (groups E define_conditions solution column propose inp names (n + n) [(positions, l)] st) as [st' [tried|e1]] eqn:G;
    destruct (groups_ok _ _ _ _ _ _ _ _ _ _ K1 (sampled_first _ _ _ _ W) G) as (F2 & X).
  - exfalso. destruct X as (new & -> & L & S & K2). destruct (best_of _ _ K2) as (b & Q & _). rewrite Q in H. unfold set_final in H. rewrite F2, F in H. cbn [lg_new lg_run] in H. rewrite Hu in H. discriminate.
  - injection H as <- <-. split; [rewrite F2, F; exact Hu|]. right. destruct X as (d & K2 & p & P1 & P2). exists names, positions, n, (positions ++ d), p.
    split; [exact B|]. split; [rewrite flat_map_app; apply (stored_of _ _ K2)|]. split; [apply in_or_app; right; exact P1 | exact P2].
Qed.
(** So one solution with a NaN ends the search: the groups before it were fine, the run still fails with ValueError, and no
    final solution is chosen from those it found. *)
Theorem C112_nan_refuted : forall check propose noise inp names positions n tried p (r : run Sol I), r_solutions r = [] -> r_final r = Unset -> begins check noise inp names positions n ->
  sampled (worth inp names) propose positions tried -> (length tried <= 2 * n)%nat ->
  (forall q, In q (propose tried) -> exists v, value_at inp names q = Ok v) -> In p (propose tried) -> value_at inp names p = Ok Not_a_number ->
  exists r', solver E define_conditions solution column check propose noise inp r = (r', Raise ValueError) /\ r_final r' = Unset /\
  map snd (r_solutions r') = map fst (flat_map (found_at inp names) (points_of tried ++ propose tried)).
Proof.
  intros check propose noise inp names positions n tried p r Hr Hu B Sm L V Hp N. rewrite (solver_begins _ _ _ _ _ _ _ _ B).
  destruct (sampled_reached propose inp names positions tried r Hr Sm) as (k & vs & st0 & st & Lk & C & G & K & F). rewrite C.
  replace (n + n)%nat with (k + S (n + n - S k))%nat by lia. rewrite groups_app, G. cbn [groups].
  destruct (values_total _ _ _ _ _ K V) as (st' & l & D). unfold compute_log_prob. rewrite D. destruct (of_values _ _ _ _ _ _ _ K D) as (F' & (done & rest & D1 & D2 & D3) & D4).
  subst rest. rewrite app_nil_r in D1. subst done.
  assert (Nan : existsb is_nan l = true).
  { apply existsb_exists. exists Not_a_number. split; [|reflexivity]. clear - D4 Hp N. induction D4 as [|q v t l Q _ IH]; [destruct Hp|]. destruct Hp as [->|Hp]; [left; congruence | right; apply IH, Hp]. }
  rewrite Nan. exists (lg_run st'). split; [reflexivity|]. split; [congruence|]. rewrite flat_map_app. apply (stored_of _ _ D2).
Qed.
(** The same for the starting positions. *)
Theorem C112_nan_start_refuted : forall check propose noise inp names positions n p (r : run Sol I), r_solutions r = [] -> r_final r = Unset -> begins check noise inp names positions n ->
  (forall q, In q positions -> exists v, value_at inp names q = Ok v) -> In p positions -> value_at inp names p = Ok Not_a_number ->
  exists r', solver E define_conditions solution column check propose noise inp r = (r', Raise ValueError) /\ r_final r' = Unset /\
  map snd (r_solutions r') = map fst (flat_map (found_at inp names) positions).
Proof.
  intros check propose noise inp names positions n p r Hr Hu B V Hp N. rewrite (solver_begins _ _ _ _ _ _ _ _ B). assert (K0 : keeps [] (lg_new r)) by (split; [exact Hr | reflexivity]).
  destruct (values_total _ _ _ _ _ K0 V) as (st' & l & D). unfold compute_log_prob. rewrite D. destruct (of_values _ _ _ _ _ _ _ K0 D) as (F' & (done & rest & D1 & D2 & D3) & D4).
  subst rest. rewrite app_nil_r in D1. subst done.
  assert (Nan : existsb is_nan l = true).
  { apply existsb_exists. exists Not_a_number. split; [|reflexivity]. clear - D4 Hp N. induction D4 as [|q v t l Q _ IH]; [destruct Hp|]. destruct Hp as [->|Hp]; [left; congruence | right; apply IH, Hp]. }
  rewrite Nan. exists (lg_run st'). split; [reflexivity|]. split; [rewrite F'; exact Hu|]. apply (stored_of _ _ D2).
Qed.
(** What a point is worth: minus infinity exactly if a parameter is not positive or its midplane or solve fails with the
    solver's own error; otherwise the score of its solution. *)
Theorem C112_worth : forall x names p, well_formed x -> chosen x names -> (length names <= length p)%nat ->
  forall a b c d, let y := replaced names p x in
  y "v_rin_on_c_s" = VNum (Some a) -> y "γ" = VNum (Some b) -> y "v_a_on_c_s" = VNum (Some c) -> y "c_s_on_v_k" = VNum (Some d) ->
  (~ (0 < a /\ 0 < b /\ 0 < c /\ 0 < d)%R -> value_at (soln_object x) names p = Ok Minus_infinity) /\
  ((0 < a /\ 0 < b /\ 0 < c /\ 0 < d)%R ->
    (define_conditions (soln_object y) = Raise SolverError -> value_at (soln_object x) names p = Ok Minus_infinity) /\
    forall co, define_conditions (soln_object y) = Ok co ->
      (solution (soln_object y) co = Raise SolverError -> value_at (soln_object x) names p = Ok Minus_infinity) /\
      forall s, solution (soln_object y) co = Ok s ->
        (forall l, all_numbers (column s) l -> l <> [] -> exists m, is_max l m /\ value_at (soln_object x) names p = Ok (Finite (score l m))) /\
        ((3 <= length (column s))%nat -> In None (column s) -> value_at (soln_object x) names p = Ok Not_a_number)).
Proof.
  intros x names p W C L a b c d y Ha Hb Hc Hd. unfold value_at. destruct (C50_decode E x names p W C L) as [-> _]. cbn [rbind]. fold y.
  destruct (C49_valid y a b c d Ha Hb Hc Hd) as (ok & -> & Hok). cbn [rbind]. split.
  - intro N. destruct ok; [destruct N; apply Hok; reflexivity | reflexivity].
  - intro P. rewrite (proj2 Hok P). split; [intros ->; reflexivity|]. intros co ->. split; [intros ->; reflexivity|]. intros s ->. split.
    + intros l A Nl. destruct (C112_score _ _ A Nl) as (m & M & -> & _). exists m. split; [exact M | reflexivity].
    + intros L3 In3. rewrite (proj2 (proj1 (C112_unscored (column s)))) by (right; auto). reflexivity.
Qed.
End Whole.
(** A run of one iteration with four walkers, one parameter, one of whose proposals has a NaN. *)
Definition mc_x : string -> val := fun f =>
  if String.eqb f "mcmc_vars" then mcmc_obj (VBool false) (VBool false) (VBool false) else if String.eqb f "interp_slice" then VNone
  else if String.eqb f "nwalkers" then VInt 4 else if String.eqb f "iterations" then VInt 1 else VNum (Some 1%R).
Definition mc_solution (i : val) (_ : unit) : res (list (option R)) := match getattr "γ" i with Ok (VNum (Some y)) => Ok (if Rlt_dec 5 y then [Some y; None; Some y] else [Some y; Some y]) | _ => Raise SolverError end.
Definition mc_propose (past : list (list (list val) * list logp)) : list (list val) := match past with [_] => [[VNum (Some 2%R)]; [VNum (Some 6%R)]] | _ => [[VNum (Some 1%R)]; [VNum (Some 1%R)]] end.
Example C112_nonvacuous : forall E, exists positions r',
  begins (fun _ => Ok tt) (fun _ _ => 0%R) (soln_object mc_x) ["γ"] positions 1 /\ length positions = 4%nat /\
  solver E (fun _ => Ok tt) mc_solution (fun s => s) (fun _ => Ok tt) mc_propose (fun _ _ => 0%R) (soln_object mc_x) (new_run tt) = (r', Raise ValueError) /\ length (r_solutions r') = 5%nat.
Proof.
  intro E. set (x := mc_x).
  assert (W : well_formed x) by (split; [right; repeat eexists | left; reflexivity]).
  assert (C : chosen x ["γ"]) by (right; exists false, false, false; split; reflexivity).
  destruct (C112_positions (fun _ _ => 0%R) x ["γ"] (fun _ => 1%R) 4 C) as (positions & P1 & P2 & P3); [intros f [<-|[]]; reflexivity | reflexivity | lia|].
  assert (B : begins (fun _ => Ok tt) (fun _ _ => 0%R) (soln_object x) ["γ"] positions 1).
  { split; [apply C50_selection, C|]. split; [exact P1|]. split; [exists 1%Z; split; reflexivity | reflexivity]. }
  assert (Pos : positions = repeat [VNum (Some 1%R)] 4).
  { assert (G : forall p, In p positions -> p = [VNum (Some 1%R)]).
    { intros p Hp. apply In_nth_error in Hp. destruct Hp as (w & Hw). destruct (P3 w p Hw) as (L & Q). destruct p as [|v [|]]; try discriminate. specialize (Q 0%nat "γ" eq_refl). cbn in Q. injection Q as ->.
      do 3 f_equal. lra. }
    assert (L : length positions = 4%nat) by lia. destruct positions as [|a [|b [|c [|d [|]]]]]; try discriminate. rewrite (G a), (G b), (G c), (G d) by (cbn; tauto). reflexivity. }
  assert (V : forall y, (0 < y)%R -> value_at E (fun _ => Ok tt) mc_solution (fun s => s) (soln_object x) ["γ"] [VNum (Some y)] = Ok (if Rlt_dec 5 y then Not_a_number else Finite (score [y; y] y))).
  { intros y Hy. destruct (C112_worth E (fun _ => Ok tt) mc_solution (fun s => s) x ["γ"] [VNum (Some y)] W C (le_n 1) 1 y 1 1 eq_refl eq_refl eq_refl eq_refl) as [_ V].
    destruct V as [_ V]; [lra|]. destruct (V tt eq_refl) as [_ V']. clear V.
    assert (S : mc_solution (soln_object (replaced ["γ"] [VNum (Some y)] x)) tt = Ok (if Rlt_dec 5 y then [Some y; None; Some y] else [Some y; Some y])) by (unfold mc_solution, soln_object; rewrite getattr_object by inl; reflexivity).
    destruct (V' _ S) as [V1 V2]. destruct (Rlt_dec 5 y).
    - apply V2; [cbn; lia | cbn; tauto].
    - destruct (V1 [y; y] eq_refl) as (m & [M _] & ->); [discriminate|]. assert (m = y) as -> by (destruct M as [<-|[<-|[]]]; reflexivity). reflexivity. }
  assert (V1 := V 1%R Rlt_0_1). destruct (Rlt_dec 5 1) as [?|_]; [lra|].
  assert (V2 := V 2%R ltac:(lra)). destruct (Rlt_dec 5 2) as [?|_]; [lra|].
  assert (V6 := V 6%R ltac:(lra)). destruct (Rlt_dec 5 6) as [_|?]; [|lra].
  exists positions.
  destruct (C112_nan_refuted E (fun _ => Ok tt) mc_solution (fun s => s) (fun _ => Ok tt) mc_propose (fun _ _ => 0%R) (soln_object x) ["γ"] positions 1
    [(positions, repeat (Finite (score [1; 1]%R 1)) 4)] [VNum (Some 6%R)] (new_run tt) eq_refl eq_refl B) as (r' & R1 & R2 & R3).
  - apply sampled_first. rewrite Pos. repeat constructor; try exact V1; discriminate.
  - cbn. lia.
  - intros q [<-|[<-|[]]]; eauto.
  - right. left. reflexivity.
  - exact V6.
  - exists r'. split; [exact B|]. split; [lia|]. split; [exact R1|]. apply (f_equal (@length _)) in R3. rewrite !map_length in R3. rewrite R3. rewrite Pos.
    assert (F : forall y, (0 < y)%R -> length (scored E (fun _ => Ok tt) mc_solution (finite_score (fun s => s)) (soln_object x) ["γ"] [VNum (Some y)]) = if Rlt_dec 5 y then 0%nat else 1%nat).
    { intros y Hy. unfold scored. destruct (C50_decode E x ["γ"] [VNum (Some y)] W C (le_n 1)) as [-> _].
      destruct (C49_valid (replaced ["γ"] [VNum (Some y)] x) 1 y 1 1 eq_refl eq_refl eq_refl eq_refl) as (ok & -> & Hok). rewrite (proj2 Hok) by lra.
      assert (S : mc_solution (soln_object (replaced ["γ"] [VNum (Some y)] x)) tt = Ok (if Rlt_dec 5 y then [Some y; None; Some y] else [Some y; Some y])) by (unfold mc_solution, soln_object; rewrite getattr_object by inl; reflexivity).
      rewrite S. unfold finite_score. destruct (Rlt_dec 5 y); [rewrite (proj2 (proj1 (C112_unscored _))) by (right; cbn; split; [lia | tauto]); reflexivity|].
      destruct (C112_score [Some y; Some y] [y; y] eq_refl) as (m & _ & -> & _); [discriminate | reflexivity]. }
    assert (F1 := F 1%R Rlt_0_1). destruct (Rlt_dec 5 1) as [?|_]; [lra|]. assert (F2 := F 2%R ltac:(lra)). destruct (Rlt_dec 5 2) as [?|_]; [lra|]. assert (F6 := F 6%R ltac:(lra)). destruct (Rlt_dec 5 6) as [_|?]; [|lra].
    cbn [points_of flat_map fst repeat app mc_propose]. rewrite !app_length, F1, F2, F6. reflexivity.
Qed.
Print Assumptions C112_run. Print Assumptions C112_nan_refuted. Print Assumptions C112_worth. Print Assumptions C112_score.
