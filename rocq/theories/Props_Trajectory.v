(** C57: following a trajectory. *)
From Coq Require Import List Reals Lra Lia.
From Verif Require Import Model_Array Model_Trajectory Spec_Trajectory.
Import ListNotations.
Local Open Scope R_scope.

Lemma arctan2_spec : forall x y, 0 < x ^ 2 + y ^ 2 -> cos (arctan2 y x) = x / sqrt (x ^ 2 + y ^ 2) /\ sin (arctan2 y x) = y / sqrt (x ^ 2 + y ^ 2).
Proof.
  intros x y H. unfold arctan2.
  assert (N : x <> 0 -> sqrt (1 + (y / x)²) = sqrt (x ^ 2 + y ^ 2) / Rabs x).
  { intro X. replace (1 + (y / x)²) with ((x ^ 2 + y ^ 2) / (Rabs x) ^ 2).
    - rewrite sqrt_div_alt by (apply pow_lt, Rabs_pos_lt, X). f_equal. rewrite sqrt_pow2; [reflexivity | apply Rabs_pos].
    - rewrite pow2_abs. unfold Rsqr. field. exact X. }
  assert (S : 0 < sqrt (x ^ 2 + y ^ 2)) by (apply sqrt_lt_R0, H).
  destruct (Rlt_dec 0 x) as [P|P].
  - rewrite cos_atan, sin_atan, N by lra. rewrite Rabs_pos_eq by lra. split; field; split; lra.
  - destruct (Rlt_dec x 0) as [Q|Q].
    + assert (A := N ltac:(lra)). rewrite Rabs_left in A by lra.
      destruct (Rle_dec 0 y).
      * rewrite neg_cos, neg_sin, cos_atan, sin_atan, A. split; field; split; lra.
      * unfold Rminus. replace (atan (y / x) + - PI) with (- (- atan (y / x) + PI)) by ring. rewrite cos_neg, sin_neg, neg_cos, neg_sin, cos_neg, sin_neg, cos_atan, sin_atan, A. split; field; split; lra.
    + assert (x = 0) by lra. subst x. replace (0 ^ 2 + y ^ 2) with (y ^ 2) in * by ring. 
      destruct (Rlt_dec 0 y) as [Y|Y]; [|destruct (Rlt_dec y 0) as [Z|Z]].
      * rewrite cos_PI2, sin_PI2, sqrt_pow2 by lra. split; field; lra.
      * replace (y ^ 2) with ((- y) ^ 2) by ring. rewrite cos_neg, sin_neg, cos_PI2, sin_PI2, sqrt_pow2 by lra. split; field; lra.
      * exfalso. assert (y = 0) by lra. subst y. cbn in H. lra.
Qed.
Lemma arctan2_scale : forall k x y, 0 < k -> arctan2 (k * y) (k * x) = arctan2 y x.
Proof.
  intros k x y K. unfold arctan2. assert (D : x <> 0 -> k * y / (k * x) = y / x) by (intro; field; split; lra).
  destruct (Rlt_dec 0 (k * x)), (Rlt_dec 0 x); try (exfalso; nra); [rewrite D by lra; reflexivity|].
  destruct (Rlt_dec (k * x) 0), (Rlt_dec x 0); try (exfalso; nra).
  - rewrite D by lra. destruct (Rle_dec 0 (k * y)), (Rle_dec 0 y); try (exfalso; nra); reflexivity.
  - destruct (Rlt_dec 0 (k * y)), (Rlt_dec 0 y); try (exfalso; nra); [reflexivity|]. destruct (Rlt_dec (k * y) 0), (Rlt_dec y 0); try (exfalso; nra); reflexivity.
Qed.
(** C57. The direction at a position is that of the tabulated vector there, turned to Cartesian axes; the power of the radius does
    not matter. *)
Theorem C57_direction : forall x y angles rs θs power r θ, 0 < x ^ 2 + y ^ 2 -> 0 < r ^ 2 + θ ^ 2 ->
  value_at angles rs (arctan2 y x) = Ret r -> value_at angles θs (arctan2 y x) = Ret θ ->
  compute_values x y angles rs θs power = Ret (direction (x, y) r θ).
Proof.
  intros x y angles rs θs power r θ P V Hr Hθ. unfold compute_values. cbn zeta. rewrite Hr, Hθ.
  assert (K : 0 < Rpower (x ^ 2 + y ^ 2) power) by (unfold Rpower; apply exp_pos). rewrite arctan2_scale by exact K.
  rewrite cos_plus, sin_plus. destruct (arctan2_spec x y P) as [-> ->]. destruct (arctan2_spec r θ V) as [-> ->].
  unfold direction. assert (0 < sqrt (x ^ 2 + y ^ 2)) by (apply sqrt_lt_R0, P). assert (0 < sqrt (r ^ 2 + θ ^ 2)) by (apply sqrt_lt_R0, V).
  f_equal. f_equal; field; split; lra.
Qed.
(** It always has unit length, and is the same for every power. *)
Theorem C57_unit : forall x y angles rs θs power v, compute_values x y angles rs θs power = Ret v ->
  fst v ^ 2 + snd v ^ 2 = 1 /\ forall power', compute_values x y angles rs θs power' = Ret v.
Proof.
  intros x y angles rs θs power v H. unfold compute_values in *. cbn zeta in *.
  destruct (value_at angles rs (arctan2 y x)) as [r| | |]; try discriminate. destruct (value_at angles θs (arctan2 y x)) as [θ| | |]; try discriminate.
  injection H as <-. split.
  - cbn [fst snd]. match goal with |- cos ?a ^ 2 + sin ?a ^ 2 = 1 => generalize (sin2_cos2 a); unfold Rsqr; intro; lra end.
  - intro power'. rewrite !arctan2_scale by (unfold Rpower; apply exp_pos). reflexivity.
Qed.
(** At most max_steps points; each with the direction found there; each reached from the one before by a step along its direction,
    of the given length or a hundredth of it (cut once or more), except that the point after a cut appears twice. *)
Lemma follow_steps : forall values todo s v p l e, values p = Ret v -> follow values todo s (Some (v, p)) (move p s v) = (l, e) -> steps s (v, p) l.
Proof.
  intros values. assert (G : forall n todo, (todo <= n)%nat -> forall s v p l e, values p = Ret v -> follow values todo s (Some (v, p)) (move p s v) = (l, e) -> steps s (v, p) l).
  2:{ intros todo s v p l e. apply (G todo todo). lia. }
  induction n as [|n IH]; intros todo L s v p l e V H; (destruct todo as [|todo]; [injection H as <- <-; constructor|]); [lia|].
  cbn [follow] in H. destruct (values (move p s v)) as [v'| | |] eqn:V'; try (injection H as <- <-; constructor).
  - destruct (follow values todo s _ _) as [l' e'] eqn:F. injection H as <- <-. constructor. apply (IH todo ltac:(lia) _ _ _ _ _ V' F).
  - replace (s * (1 / 100)) with (s / 100) in H by lra. destruct (values (move p (s / 100) v)) as [w| | |] eqn:W; try (injection H as <- <-; constructor).
    destruct todo as [|todo]; [injection H as <- <-; constructor|]. cbn [follow] in H. rewrite W in H.
    destruct (follow values todo (s / 100) _ _) as [l' e'] eqn:F. injection H as <- <-. constructor. apply (IH todo ltac:(lia) _ _ _ _ _ W F).
Qed.
Lemma follow_facts : forall values todo s prev p l e, follow values todo s prev p = (l, e) ->
  (length l <= todo)%nat /\ forall v q, In (v, q) l -> values q = Ret v.
Proof.
  intros values todo. induction todo as [|todo IH]; intros s prev p l e H; cbn [follow] in H; [injection H as <- <-; split; [cbn; lia | intros ? ? []]|].
  destruct (values p) as [v| | |] eqn:V; try (injection H as <- <-; split; [cbn; lia | intros ? ? []]).
  - destruct (follow values todo s _ _) as [l' e'] eqn:F. injection H as <- <-. destruct (IH _ _ _ _ _ F) as [A B]. split; [cbn; lia|].
    intros w q [[= <- <-]|I]; [exact V | exact (B _ _ I)].
  - destruct prev as [[pv pp]|]; [|injection H as <- <-; split; [cbn; lia | intros ? ? []]].
    destruct (values (move pp (s * (1 / 100)) pv)) as [w| | |] eqn:W; try (injection H as <- <-; split; [cbn; lia | intros ? ? []]).
    destruct (follow values todo _ _ _) as [l' e'] eqn:F. injection H as <- <-. destruct (IH _ _ _ _ _ F) as [A B]. split; [cbn; lia|].
    intros w' q [[= <- <-]|I]; [exact W | exact (B _ _ I)].
Qed.
Theorem C57_points : forall start angles rs θs power n s l e, follow_trajectory start angles rs θs power n s = (l, e) ->
  (length l <= n)%nat /\
  (forall v p, In (v, p) l -> compute_values (fst p) (snd p) angles rs θs power = Ret v /\ fst v ^ 2 + snd v ^ 2 = 1) /\
  match l with [] => True | (v, p) :: t => p = start /\ steps s (v, p) t end.
Proof.
  intros start angles rs θs power n s l e H. unfold follow_trajectory in H.
  set (values := fun p : pt => compute_values (fst p) (snd p) angles rs θs power) in H.
  destruct (follow_facts _ _ _ _ _ _ _ H) as [A B]. split; [exact A|]. split.
  { intros v p I. specialize (B _ _ I). split; [exact B | apply (C57_unit _ _ _ _ _ _ _ B)]. }
  destruct n as [|n]; [injection H as <- <-; exact Logic.I|]. cbn [follow] in H. destruct (values start) as [v| | |] eqn:V; try (injection H as <- <-; exact Logic.I).
  destruct (follow values n s _ _) as [l' e'] eqn:F. injection H as <- <-. split; [reflexivity|]. exact (follow_steps _ _ _ _ _ _ _ V F).
Qed.
(** What the steps give for the distance between neighbours. *)
Lemma distance_move : forall p s v, 0 <= s -> fst v ^ 2 + snd v ^ 2 = 1 -> distance p (move p s v) = s.
Proof.
  intros [a b] s [c d] S U. unfold distance, move. cbn [fst snd] in *. replace ((a + s * c - a) ^ 2 + (b + s * d - b) ^ 2) with (s ^ 2) by (transitivity (s ^ 2 * (c ^ 2 + d ^ 2)); [rewrite U; ring | ring]).
  apply sqrt_pow2, S.
Qed.
Theorem C57_spacing_partial : forall s a l, 0 < s -> (forall v p, In (v, p) (a :: l) -> fst v ^ 2 + snd v ^ 2 = 1) -> steps s a l ->
  forall l1 x y l2, a :: l = l1 ++ x :: y :: l2 -> x = y \/ exists k, distance (snd x) (snd y) = s / 100 ^ k.
Proof.
  intros s a l S U H. revert S U. induction H as [s a|s v p v' l H IH|s v p v'|s v p v' l H IH]; intros S0 U l1 x y l2 E.
  - destruct l1 as [|b [|c l1]]; discriminate.
  - destruct l1 as [|b l1].
    + injection E as <- <- <-. right. exists 0%nat. cbn [snd]. rewrite distance_move; [cbn; field | lra | apply (U v p); left; reflexivity].
    + injection E as <- E. apply (IH S0) with (l1 := l1) (l2 := l2); [|exact E]. intros w q I. apply (U w q). right. exact I.
  - destruct l1 as [|b [|c l1]]; [|discriminate E|destruct l1; discriminate E]. injection E as <- <- <-.
    right. exists 1%nat. cbn [snd]. rewrite distance_move; [cbn; field | lra | apply (U v p); left; reflexivity].
  - destruct l1 as [|b [|c l1]].
    + injection E as <- <- <-. right. exists 1%nat. cbn [snd]. rewrite distance_move; [cbn; field | lra | apply (U v p); left; reflexivity].
    + injection E as <- <- <- <-. left. reflexivity.
    + injection E as <- <- E. destruct (IH ltac:(lra) ltac:(intros w q I; apply (U w q); right; right; exact I) l1 x y l2 E) as [X|(k & K)]; [left; exact X|].
      right. exists (S k). rewrite K. cbn [pow]. field. apply pow_nonzero. lra.
Qed.
(** A cut always repeats a point (unless it is the last one allowed). *)
Theorem C57_repeated_exact : forall values s v p w n, values p = Ret v -> values (move p s v) = IndexError -> values (move p (s / 100) v) = Ret w -> exists l e,
  follow values (S (S n)) s (Some (v, p)) (move p s v) = ((w, move p (s / 100) v) :: (w, move p (s / 100) v) :: l, e).
Proof.
  intros values s v p w n V V' W. cbn [follow]. rewrite V'. replace (s * (1 / 100)) with (s / 100) by lra. rewrite W.
  destruct (follow values n (s / 100) _ _) as [l e]. eauto.
Qed.
Lemma follow_first : forall values n s prev p v l e, values p = Ret v -> follow values n s (Some (v, p)) (move p s v) = (l, e) -> follow values (S n) s prev p = ((v, p) :: l, e).
Proof. intros values n s prev p v l e V F. cbn [follow]. rewrite V, F. reflexivity. Qed.
Theorem C57_repeated_refuted : exists angles rs θs power s a b l e,
  follow_trajectory (1, 0) angles rs θs power 3 s = (a :: b :: b :: l, e) /\ length rs = length angles /\ length θs = length angles.
Proof.
  exists [0; atan (1/10)], [0; 0], [1; 1], 0, 1.
  assert (T : forall y, arctan2 y 1 = atan y) by (intro y; unfold arctan2; destruct (Rlt_dec 0 1); [|lra]; f_equal; field).
  assert (A0 : 0 < atan (1/100)) by (rewrite <- atan_0; apply atan_increasing; lra).
  assert (A1 : atan (1/100) < atan (1/10)) by (apply atan_increasing; lra). assert (A2 : atan (1/10) < atan 1) by (apply atan_increasing; lra).
  assert (V0 : compute_values 1 0 [0; atan (1/10)] [0; 0] [1; 1] 0 = Ret (0, 1)).
  { rewrite (C57_direction _ _ _ _ _ _ 0 1); [|lra|lra| |]; [|rewrite T, atan_0; unfold value_at, get_closest_value_sorted, searchsorted, Rltb; destruct (Rlt_dec 0 0); [lra | reflexivity]..].
    unfold direction. replace (1 ^ 2 + 0 ^ 2) with 1 by ring. replace (0 ^ 2 + 1 ^ 2) with 1 by ring. rewrite sqrt_1. f_equal. f_equal; field. }
  assert (V1 : compute_values 1 1 [0; atan (1/10)] [0; 0] [1; 1] 0 = IndexError).
  { unfold compute_values. rewrite T. unfold value_at, get_closest_value_sorted, searchsorted, Rltb. destruct (Rlt_dec 0 (atan 1)); [|lra]. destruct (Rlt_dec (atan (1/10)) (atan 1)); [reflexivity | lra]. }
  assert (V2 : exists w, compute_values 1 (1/100) [0; atan (1/10)] [0; 0] [1; 1] 0 = Ret w).
  { unfold compute_values. rewrite T. unfold value_at, get_closest_value_sorted, searchsorted, Rltb. destruct (Rlt_dec 0 (atan (1/100))); [|lra]. destruct (Rlt_dec (atan (1/10)) (atan (1/100))); [lra|]. cbn. eauto. }
  destruct V2 as [w V2].
  unfold follow_trajectory. set (values := fun p : pt => compute_values (fst p) (snd p) [0; atan (1/10)] [0; 0] [1; 1] 0).
  assert (M1 : move (1, 0) 1 (0, 1) = (1, 1)) by (unfold move; cbn [fst snd]; f_equal; ring).
  assert (M2 : move (1, 0) (1/100) (0, 1) = (1, 1/100)) by (unfold move; cbn [fst snd]; f_equal; field).
  destruct (C57_repeated_exact values 1 (0, 1) (1, 0) w 0 V0) as (l & e & F); [rewrite M1; exact V1 | rewrite M2; exact V2|].
  exists ((0, 1), (1, 0)). eexists. exists l, e. split; [|split; reflexivity].
  exact (follow_first values 2 1 None (1, 0) (0, 1) _ _ V0 F).
Qed.
(** A start beyond the last angle is an error of its own. *)
Theorem C57_start_refuted : forall x y angles rs θs power n s, (forall a, In a angles -> a < arctan2 y x) -> length rs = length angles ->
  follow_trajectory (x, y) angles rs θs power (S n) s = ([], TypeErr).
Proof.
  intros x y angles rs θs power n s A L. unfold follow_trajectory. cbn [follow fst snd].
  assert (H : value_at angles rs (arctan2 y x) = IndexError).
  { unfold value_at, get_closest_value_sorted. replace (searchsorted angles (arctan2 y x)) with (length angles).
    - rewrite <- L. rewrite (proj2 (nth_error_None rs (length rs))) by lia. reflexivity.
    - clear L. induction angles as [|a t IH]; [reflexivity|]. cbn [searchsorted length]. unfold Rltb. destruct (Rlt_dec a (arctan2 y x)) as [|N]; [|exfalso; apply N, A; left; reflexivity].
      f_equal. apply IH. intros b Hb. apply A. right. exact Hb. }
  unfold compute_values. rewrite H. reflexivity.
Qed.
(** A straight radial line: three points one step apart, in the direction of the x axis. *)
Lemma toy_values : forall x, 0 < x -> compute_values x 0 [0; 1] [2; 2] [0; 0] (-1/2) = Ret (1, 0).
Proof.
  intros x X. assert (T : arctan2 0 x = 0) by (unfold arctan2; destruct (Rlt_dec 0 x); [|lra]; replace (0 / x) with 0 by (field; lra); apply atan_0).
  assert (V : forall a b, value_at [0; 1] [a; b] (arctan2 0 x) = Ret a).
  { intros a b. rewrite T. unfold value_at, get_closest_value_sorted, searchsorted, Rltb. destruct (Rlt_dec 0 0); [lra | reflexivity]. }
  rewrite (C57_direction _ _ _ _ _ _ 2 0); [|nra|lra|apply V|apply V]. unfold direction. replace (x ^ 2 + 0 ^ 2) with (x ^ 2) by ring. replace (2 ^ 2 + 0 ^ 2) with (2 ^ 2) by ring.
  rewrite !sqrt_pow2 by lra. f_equal. f_equal; field; lra.
Qed.
Example C57_nonvacuous : follow_trajectory (2, 0) [0; 1] [2; 2] [0; 0] (-1/2) 3 (1/10) = ([((1, 0), (2, 0)); ((1, 0), (2 + 1/10, 0)); ((1, 0), (2 + 2/10, 0))], Ended).
Proof.
  unfold follow_trajectory. cbn [follow fst snd]. rewrite toy_values by lra. cbn [move fst snd]. unfold move. cbn [fst snd].
  replace (0 + 1/10 * 0) with 0 by ring. rewrite toy_values by lra. cbn [fst snd]. replace (0 + 1/10 * 0) with 0 by ring. rewrite toy_values by lra.
  repeat (f_equal; try lra).
Qed.
Print Assumptions C57_points.
