(** C87, C88: the critical points of a solution and the info command's crosses-points. *)
From Coq Require Import Reals List Bool String Arith Lra Lia.
From Verif Require Import Model_Index Model_Array Model_Waves Model_Critical Spec_Ode Proofs_Array Proofs_Waves Props_Array Props_Waves.
Import ListNotations.
Open Scope R_scope.

(** A row whose Mach numbers are all defined. *)
Definition regular (p : vec) : Prop := 0 < p iρ /\ p iB_θ <> 0 /\ 0 <= p iv_θ.

Lemma mach_order : forall p, regular p ->
  fast_mach p <= alfven_mach p <= slow_mach p /\ fast_mach p <= sonic_mach p <= slow_mach p.
Proof.
  intros p (H1 & H2 & H3).
  unfold fast_mach, alfven_mach, slow_mach, sonic_mach. destruct (get_mach_numbers p) as [[[s c] a] f] eqn:E.
  destruct (C21_mach_ordered p s c a f H1 H2 H3 E) as (K1 & K2 & _). cbn. tauto.
Qed.

(** [i] is the first row at which the Mach number [f] is at least one. *)
Definition first_at (f : vec -> R) (rows : list vec) (i : nat) : Prop :=
  (exists p, nth_error rows i = Some p /\ 1 <= f p) /\ forall j p, (j < i)%nat -> nth_error rows j = Some p -> f p < 1.
Definition index_of (f : vec -> R) (rows : list vec) (o : option nat) : Prop :=
  match o with Some i => first_at f rows i | None => forall p, In p rows -> f p < 1 end.

Lemma fci_first : forall f p0 rows, f p0 < 1 ->
  exists o, first_closest_index (mach_column f (p0 :: rows)) (Some 1) = Ret o /\ index_of f (p0 :: rows) o.
Proof.
  intros f p0 rows H0. destruct (C26_first_index 0 (f p0) (mach_column f rows) 1) as (r & E & H).
  cbn [repeat app] in E, H. exists r. split; [exact E|].
  change (Some (f p0) :: mach_column f rows) with (mach_column f (p0 :: rows)) in H.
  assert (Hr : forall x, reached (f p0) 1 x <-> 1 <= x) by (intro x; unfold reached; lra).
  assert (Hn : forall i p, nth_error (p0 :: rows) i = Some p -> nth_error (mach_column f (p0 :: rows)) i = Some (Some (f p))).
  { intros i p Hp. unfold mach_column. rewrite nth_error_map, Hp. reflexivity. }
  destruct r as [i|]; cbn [index_of].
  - destruct H as [(x & Hx & Rx) Hj]. unfold mach_column in Hx. rewrite nth_error_map in Hx.
    destruct (nth_error (p0 :: rows) i) as [p|] eqn:Ep; [|discriminate]. cbn in Hx. injection Hx as <-. split.
    + exists p. split; [exact Ep|]. apply Hr. exact Rx.
    + intros j q Lj Hq. specialize (Hj j (f q) Lj (Hn j q Hq)). rewrite Hr in Hj. lra.
  - intros p Hp. destruct (In_nth_error _ _ Hp) as [i Hi]. specialize (H i (f p) (Hn i p Hi)). rewrite Hr in H. lra.
Qed.

(** If one Mach number is never above another, its first index is not before the other's. *)
Lemma index_mono : forall f g rows o o', (forall p, In p rows -> g p <= f p) -> index_of f rows o -> index_of g rows o' ->
  match o', o with Some j, Some i => (i <= j)%nat | Some _, None => False | None, _ => True end.
Proof.
  intros f g rows o o' L Hf Hg. destruct o' as [j|]; [|exact I]. destruct Hg as [(p & Hp & Gp) _].
  pose proof (L p (nth_error_In _ _ Hp)) as Lp. destruct o as [i|].
  - destruct Hf as [_ Hb]. destruct (le_lt_dec i j) as [|Lt]; [assumption|]. specialize (Hb j p Lt Hp). lra.
  - specialize (Hf p (nth_error_In _ _ Hp)). lra.
Qed.

(** [o] is reached whenever [o'] is, and not after it. *)
Definition not_after (o o' : option nat) : Prop :=
  match o', o with Some j, Some i => (i <= j)%nat | Some _, None => False | None, _ => True end.

(** C87: for every solution that starts slower than the slow waves, the indices answered are the first rows at which each Mach number is at
    least one (None: there is no such row), and they are in order: slow before Alfvén before fast, and slow before sonic before fast. *)
Theorem C87_indices : forall p0 rows, Forall regular (p0 :: rows) -> slow_mach p0 < 1 ->
  exists slow sonic alfven fast,
    get_critical_point_indices (p0 :: rows) = Ret (slow, sonic, alfven, fast) /\
    index_of slow_mach (p0 :: rows) slow /\ index_of sonic_mach (p0 :: rows) sonic /\
    index_of alfven_mach (p0 :: rows) alfven /\ index_of fast_mach (p0 :: rows) fast /\
    not_after slow alfven /\ not_after alfven fast /\ not_after slow sonic /\ not_after sonic fast.
Proof.
  intros p0 rows Hr H0. assert (HR : forall p, In p (p0 :: rows) -> regular p) by (apply Forall_forall; exact Hr).
  destruct (mach_order p0 (HR p0 (or_introl eq_refl))) as [O1 O2].
  destruct (fci_first slow_mach p0 rows) as (s & Es & Hs); [lra|].
  destruct (fci_first sonic_mach p0 rows) as (c & Ec & Hc); [lra|].
  destruct (fci_first alfven_mach p0 rows) as (a & Ea & Ha); [lra|].
  destruct (fci_first fast_mach p0 rows) as (f & Ef & Hf); [lra|].
  exists s, c, a, f. split; [unfold get_critical_point_indices; rewrite Es, Ec, Ea, Ef; reflexivity|].
  refine (conj Hs (conj Hc (conj Ha (conj Hf (conj _ (conj _ (conj _ _))))))).
  - refine (index_mono slow_mach alfven_mach _ _ _ _ Hs Ha). intros p Hp. apply mach_order, HR, Hp.
  - refine (index_mono alfven_mach fast_mach _ _ _ _ Ha Hf). intros p Hp. apply mach_order, HR, Hp.
  - refine (index_mono slow_mach sonic_mach _ _ _ _ Hs Hc). intros p Hp. apply mach_order, HR, Hp.
  - refine (index_mono sonic_mach fast_mach _ _ _ _ Hc Hf). intros p Hp. apply mach_order, HR, Hp.
Qed.
Print Assumptions C87_indices.

(** ** Angles *)
(** The function does not decrease along the list. *)
Definition rises {A} (f : A -> R) (l : list A) : Prop :=
  forall i j x y, (i <= j)%nat -> nth_error l i = Some x -> nth_error l j = Some y -> f x <= f y.

(** Where the line through two neighbouring samples takes the value one. *)
Definition cut (xa xb a b : R) : R := xa + (1 - a) / (b - a) * (xb - xa).

Lemma cut_between : forall xa xb a b, a < 1 -> 1 <= b -> xa <= xb -> xa <= cut xa xb a b <= xb.
Proof.
  intros xa xb a b Ha Hb Hx. unfold cut. assert (Hd : 0 < b - a) by lra.
  assert (H1 : 0 <= (1 - a) / (b - a)) by (apply Rmult_le_pos; [lra | left; apply Rinv_0_lt_compat; lra]).
  assert (H2 : (1 - a) / (b - a) <= 1).
  { apply (Rmult_le_reg_r (b - a)); [lra|]. replace ((1 - a) / (b - a) * (b - a)) with (1 - a) by (field; lra). lra. }
  split; nra.
Qed.
Lemma cut_mono : forall xa xb a b a' b', a' <= a -> a < 1 -> b' <= b -> 1 <= b' -> xa <= xb ->
  cut xa xb a b <= cut xa xb a' b'.
Proof.
  intros xa xb a b a' b' H1 H2 H3 H4 Hx. unfold cut. apply Rplus_le_compat_l, Rmult_le_compat_r; [lra|].
  apply (Rmult_le_reg_r (b - a)); [lra|]. replace ((1 - a) / (b - a) * (b - a)) with (1 - a) by (field; lra).
  apply (Rmult_le_reg_r (b' - a')); [lra|].
  replace ((1 - a') / (b' - a') * (b - a) * (b' - a')) with ((1 - a') * (b - a)) by (field; lra). nra.
Qed.

Lemma split_at : forall A (l : list A) i x, nth_error l i = Some x -> (0 < i)%nat ->
  exists l1 y l2, l = l1 ++ y :: x :: l2 /\ List.length l1 = (i - 1)%nat.
Proof.
  intros A l i x Hx Hi. destruct (nth_error_split _ _ Hx) as (l1 & l2 & E & L).
  destruct (rev l1) as [|y r] eqn:Er.
  - apply (f_equal (@rev A)) in Er. rewrite rev_involutive in Er. subst l1. cbn in L. lia.
  - apply (f_equal (@rev A)) in Er. rewrite rev_involutive in Er. cbn in Er. subst l1.
    exists (rev r), y, l2. split; [rewrite E, <- app_assoc; reflexivity|]. rewrite app_length in L. cbn in L. lia.
Qed.
Lemma nth_error_mid : forall A (l1 : list A) y x l2,
  nth_error (l1 ++ y :: x :: l2) (List.length l1) = Some y /\ nth_error (l1 ++ y :: x :: l2) (S (List.length l1)) = Some x.
Proof.
  intros. split; [rewrite nth_error_app2, Nat.sub_diag by lia; reflexivity|].
  rewrite nth_error_app2 by lia. replace (S (List.length l1) - List.length l1)%nat with 1%nat by lia. reflexivity.
Qed.
Lemma split_same : forall (angles : list R) (l1 : list vec) y x l2, List.length angles = List.length (l1 ++ y :: x :: l2) ->
  exists a1 xa xb a2, angles = a1 ++ xa :: xb :: a2 /\ List.length a1 = List.length l1 /\ List.length a2 = List.length l2.
Proof.
  intros angles l1 y x l2 H. rewrite app_length in H. cbn in H.
  rewrite <- (firstn_skipn (List.length l1) angles).
  assert (L : List.length (firstn (List.length l1) angles) = List.length l1) by (apply firstn_length_le; lia).
  assert (L2 : List.length (skipn (List.length l1) angles) = S (S (List.length l2))) by (rewrite skipn_length; lia).
  destruct (skipn (List.length l1) angles) as [|xa [|xb a2]]; try discriminate.
  exists (firstn (List.length l1) angles), xa, xb, a2. cbn in L2. repeat split; [exact L | lia].
Qed.

(** The answer for one Mach number that does not decrease: None if it never exceeds one, and otherwise the angle at which the line
    through the two samples around its first index takes the value one. *)
Definition angle_of (f : vec -> R) (angles : list R) (rows : list vec) (o : option R) : Prop :=
  match o with
  | None => forall p, In p rows -> f p <= 1
  | Some x => (exists p, In p rows /\ 1 < f p) /\
      exists i pa pb xa xb, first_at f rows (S i) /\ nth_error rows i = Some pa /\ nth_error rows (S i) = Some pb /\
        nth_error angles i = Some xa /\ nth_error angles (S i) = Some xb /\ x = cut xa xb (f pa) (f pb)
  end.

Lemma critical_angle_spec : forall f angles p0 rows, f p0 < 1 -> rises f (p0 :: rows) ->
  List.length angles = List.length (p0 :: rows) ->
  exists o, critical_angle angles (mach_column f (p0 :: rows)) = Ret o /\ angle_of f angles (p0 :: rows) o.
Proof.
  intros f angles p0 rows H0 Hm Hl. unfold critical_angle.
  destruct (existsb (fun m => nlt (Some 1) m) (mach_column f (p0 :: rows))) eqn:E.
  - apply existsb_exists in E. destruct E as (m & Hin & Hlt). unfold mach_column in Hin. apply in_map_iff in Hin.
    destruct Hin as (p & <- & Hp). cbn in Hlt. apply Rltb_true in Hlt.
    destruct (fci_first f p0 rows H0) as (o & Eo & Ho). destruct o as [i|]; [|specialize (Ho p Hp); lra].
    pose proof Ho as Hfirst. destruct Ho as [(pb & Hpb & Hb) Hbefore].
    assert (Hi : (0 < i)%nat) by (destruct i; [cbn in Hpb; injection Hpb as <-; lra | lia]).
    destruct (split_at _ _ _ _ Hpb Hi) as (l1 & pa & l2 & El & Ll).
    assert (Hl' := Hl). rewrite El in Hl'. destruct (split_same _ _ _ _ _ Hl') as (a1 & xa & xb & a2 & Ea & L1 & L2).
    assert (Ei : i = S (List.length l1)) by lia.
    destruct (nth_error_mid _ l1 pa pb l2) as [N1 N2]. rewrite <- El in N1, N2.
    destruct (nth_error_mid _ a1 xa xb a2) as [M1 M2]. rewrite <- Ea, L1 in M1, M2.
    assert (Hpa : f pa < 1) by (apply (Hbefore (List.length l1)); [lia | exact N1]).
    assert (Hpre : forall v, In v (map f l1) -> v < 1).
    { intros v Hv. apply in_map_iff in Hv. destruct Hv as (q & <- & Hq). destruct (In_nth_error _ _ Hq) as [k Hk].
      apply (Hbefore k); [assert (k < List.length l1)%nat by (apply nth_error_Some; congruence); lia|].
      rewrite El, nth_error_app1; [exact Hk|]. apply nth_error_Some. congruence. }
    assert (Emap : mach_column f (p0 :: rows) = map Some (map f l1 ++ f pa :: f pb :: map f l2)).
    { rewrite El. unfold mach_column. rewrite !map_app, !map_map. cbn. rewrite map_map. reflexivity. }
    exists (Some (cut xa xb (f pa) (f pb))). split.
    + rewrite Emap, Ea. destruct (Rle_lt_or_eq_dec 1 (f pb) Hb) as [Lt|Eq].
      * destruct (C27_rising_partial a1 xa xb a2 (map f l1) (f pa) (f pb) (map f l2) 1) as (x & Ex & Vx & _);
          try assumption; try (rewrite map_length; lia).
        { intros c Hc. destruct l2 as [|q l2]; [discriminate|]. cbn in Hc. injection Hc as <-.
          apply (Hm i (S i)); [lia | exact Hpb|]. rewrite El, Ei.
          rewrite nth_error_app2 by lia. replace (S (S (List.length l1)) - List.length l1)%nat with 2%nat by lia. reflexivity. }
        rewrite Ex, Vx. reflexivity.
      * rewrite <- Eq.
        replace (a1 ++ xa :: xb :: a2) with ((a1 ++ [xa]) ++ xb :: a2) by (rewrite <- app_assoc; reflexivity).
        replace (map f l1 ++ f pa :: 1 :: map f l2) with ((map f l1 ++ [f pa]) ++ 1 :: map f l2) by (rewrite <- app_assoc; reflexivity).
        rewrite (C27_exact_hit (a1 ++ [xa]) xb a2 (map f l1 ++ [f pa]) (map f l2) 1).
        -- unfold cut. do 2 f_equal. field. lra.
        -- rewrite !app_length, map_length. cbn. lia.
        -- left. intros v Hv. apply in_app_or in Hv. destruct Hv as [Hv|[<-|[]]]; [apply Hpre, Hv | exact Hpa].
        -- destruct l1; discriminate.
    + split; [exists p; split; [exact Hp | exact Hlt]|].
      exists (List.length l1), pa, pb, xa, xb. rewrite <- Ei. rewrite <- Ei in N2, M2.
      exact (conj Hfirst (conj N1 (conj N2 (conj M1 (conj M2 eq_refl))))).
  - exists None. split; [reflexivity|]. intros p Hp. apply (proj1 (existsb_false _ _ _)) with (x := Some (f p)) in E.
    + cbn in E. apply Rltb_false in E. exact E.
    + unfold mach_column. apply in_map_iff. exists p. split; [reflexivity | exact Hp].
Qed.

Definition angle_not_after (o o' : option R) : Prop :=
  match o', o with Some y, Some x => x <= y | Some _, None => False | None, _ => True end.

Lemma angle_mono : forall f g angles rows o o', (forall p, In p rows -> g p <= f p) -> rises (fun x => x) angles ->
  List.length angles = List.length rows ->
  angle_of f angles rows o -> angle_of g angles rows o' -> angle_not_after o o'.
Proof.
  intros f g angles rows o o' L Ha Hl Hf Hg. destruct o' as [y|]; [|exact I].
  destruct Hg as [(p & Hp & Gp) (j & qa & qb & ya & yb & Fj & Nqa & Nqb & Mya & Myb & ->)].
  destruct o as [x|]; [|cbn in Hf; specialize (Hf p Hp); specialize (L p Hp); lra].
  destruct Hf as [_ (i & pa & pb & xa & xb & Fi & Npa & Npb & Mxa & Mxb & ->)]. cbn [angle_not_after].
  assert (Hij : (S i <= S j)%nat) by exact (index_mono f g rows (Some (S i)) (Some (S j)) L Fi Fj).
  destruct Fi as [(p1 & Hp1 & B1) C1]. destruct Fj as [(p2 & Hp2 & B2) C2].
  rewrite Npb in Hp1. injection Hp1 as <-. rewrite Nqb in Hp2. injection Hp2 as <-.
  assert (A1 : f pa < 1) by (apply (C1 i); [lia | exact Npa]).
  assert (A2 : g qa < 1) by (apply (C2 j); [lia | exact Nqa]).
  assert (X1 : xa <= xb) by (apply (Ha i (S i)); [lia | exact Mxa | exact Mxb]).
  assert (X2 : ya <= yb) by (apply (Ha j (S j)); [lia | exact Mya | exact Myb]).
  destruct (Nat.eq_dec i j) as [E|NE].
  - subst j. assert (pa = qa) by congruence. assert (pb = qb) by congruence. assert (xa = ya) by congruence. assert (xb = yb) by congruence.
    subst qa qb ya yb. apply cut_mono; try assumption; apply L; [exact (nth_error_In _ _ Npa) | exact (nth_error_In _ _ Npb)].
  - pose proof (cut_between xa xb (f pa) (f pb) A1 B1 X1). pose proof (cut_between ya yb (g qa) (g qb) A2 B2 X2).
    assert (xb <= ya) by (apply (Ha (S i) j); [lia | exact Mxb | exact Mya]). lra.
Qed.

(** C87 for the angles, if no Mach number decreases: each is where the line through the neighbouring samples takes the value one (None: the Mach
    number never exceeds one), and they are in order. *)
Theorem C87_angles_partial : forall angles p0 rows, Forall regular (p0 :: rows) -> slow_mach p0 < 1 ->
  List.length angles = List.length (p0 :: rows) -> rises (fun x => x) angles ->
  rises slow_mach (p0 :: rows) -> rises sonic_mach (p0 :: rows) -> rises alfven_mach (p0 :: rows) -> rises fast_mach (p0 :: rows) ->
  exists slow sonic alfven fast,
    get_all_sonic_points angles (p0 :: rows) = Ret (slow, sonic, alfven, fast) /\
    angle_of slow_mach angles (p0 :: rows) slow /\ angle_of sonic_mach angles (p0 :: rows) sonic /\
    angle_of alfven_mach angles (p0 :: rows) alfven /\ angle_of fast_mach angles (p0 :: rows) fast /\
    angle_not_after slow alfven /\ angle_not_after alfven fast /\ angle_not_after slow sonic /\ angle_not_after sonic fast.
Proof.
  intros angles p0 rows Hr H0 Hl Ha R1 R2 R3 R4.
  assert (HR : forall p, In p (p0 :: rows) -> regular p) by (apply Forall_forall; exact Hr).
  destruct (mach_order p0 (HR p0 (or_introl eq_refl))) as [O1 O2].
  destruct (critical_angle_spec slow_mach angles p0 rows) as (s & Es & Hs); try assumption; try lra.
  destruct (critical_angle_spec sonic_mach angles p0 rows) as (c & Ec & Hc); try assumption; try lra.
  destruct (critical_angle_spec alfven_mach angles p0 rows) as (a & Ea & Hal); try assumption; try lra.
  destruct (critical_angle_spec fast_mach angles p0 rows) as (f & Ef & Hf); try assumption; try lra.
  exists s, c, a, f. split; [unfold get_all_sonic_points; rewrite Es, Ec, Ea, Ef; reflexivity|].
  refine (conj Hs (conj Hc (conj Hal (conj Hf (conj _ (conj _ (conj _ _))))))).
  - refine (angle_mono slow_mach alfven_mach _ _ _ _ _ Ha Hl Hs Hal). intros p Hp. apply mach_order, HR, Hp.
  - refine (angle_mono alfven_mach fast_mach _ _ _ _ _ Ha Hl Hal Hf). intros p Hp. apply mach_order, HR, Hp.
  - refine (angle_mono slow_mach sonic_mach _ _ _ _ _ Ha Hl Hs Hc). intros p Hp. apply mach_order, HR, Hp.
  - refine (angle_mono sonic_mach fast_mach _ _ _ _ _ Ha Hl Hc Hf). intros p Hp. apply mach_order, HR, Hp.
Qed.
Print Assumptions C87_angles_partial.

(** ** Without monotonicity *)
Lemma interp_total : forall a b y xa xb, a < y < b -> forall pts, (pts = [] \/ exists c xc, pts = [(c, xc)]) ->
  exists v, interp1d ((a, xa) :: (b, xb) :: pts) y = Ret v.
Proof.
  intros a b y xa xb Ha pts [->|(c & xc & ->)].
  - eexists. apply interp2; assumption.
  - unfold interp1d, sort_pts. cbn. rdec. cbn.
    destruct (Rltb c a) eqn:E1; [apply Rltb_true in E1 | apply Rltb_false in E1].
    + cbn. rdec. cbn. eexists. reflexivity.
    + destruct (Rltb c b) eqn:E2; [apply Rltb_true in E2 | apply Rltb_false in E2]; cbn; rdec; cbn; try (eexists; reflexivity).
      destruct (Rltb c y); cbn; eexists; reflexivity.
Qed.

(** Whatever the Mach number does after the start, an angle is answered exactly if it exceeds one somewhere. *)
Lemma critical_angle_total : forall f angles p0 rows, f p0 < 1 -> List.length angles = List.length (p0 :: rows) ->
  exists o, critical_angle angles (mach_column f (p0 :: rows)) = Ret o /\
    (is_some o = true <-> exists p, In p (p0 :: rows) /\ 1 < f p).
Proof.
  intros f angles p0 rows H0 Hl. unfold critical_angle.
  destruct (existsb (fun m => nlt (Some 1) m) (mach_column f (p0 :: rows))) eqn:E.
  - apply existsb_exists in E. destruct E as (m & Hin & Hlt). unfold mach_column in Hin. apply in_map_iff in Hin.
    destruct Hin as (p & <- & Hp). cbn in Hlt. apply Rltb_true in Hlt.
    assert (Hex : exists q, In q (p0 :: rows) /\ 1 < f q) by (exists p; split; assumption).
    destruct (fci_first f p0 rows H0) as (o & Eo & Ho). destruct o as [i|]; [|specialize (Ho p Hp); lra].
    destruct Ho as [(pb & Hpb & Hb) Hbefore].
    assert (Hi : (0 < i)%nat) by (destruct i; [cbn in Hpb; injection Hpb as <-; lra | lia]).
    destruct (split_at _ _ _ _ Hpb Hi) as (l1 & pa & l2 & El & Ll).
    assert (Hl' := Hl). rewrite El in Hl'. destruct (split_same _ _ _ _ _ Hl') as (a1 & xa & xb & a2 & Ea & L1 & L2).
    assert (Ei : i = S (List.length l1)) by lia.
    destruct (nth_error_mid _ l1 pa pb l2) as [N1 N2]. rewrite <- El in N1, N2.
    assert (Hpa : f pa < 1) by (apply (Hbefore (List.length l1)); [lia | exact N1]).
    assert (Emap : mach_column f (p0 :: rows) = map Some (map f l1) ++ Some (f pa) :: Some (f pb) :: map Some (map f l2)).
    { rewrite El. unfold mach_column. rewrite !map_app, !map_map. cbn. reflexivity. }
    unfold interp_for_value. rewrite Eo.
    assert (En : @nth num i (mach_column f (p0 :: rows)) None = Some (f pb)).
    { rewrite Emap, Ei. rewrite app_nth2; rewrite !map_length; [|lia].
      replace (S (List.length l1) - List.length l1)%nat with 1%nat by lia. reflexivity. }
    rewrite En. destruct (neq (Some (f pb)) (Some 1)) eqn:Eq.
    + eexists. split; [reflexivity|]. split; [intros _; exact Hex | reflexivity].
    + cbn in Eq. apply Reqb_false in Eq.
      replace (i - 1)%nat with (List.length l1) by lia. replace (i + 2)%nat with (List.length l1 + 3)%nat by lia.
      assert (S1 : pyslice (mach_column f (p0 :: rows)) (List.length l1) (List.length l1 + 3)
                 = firstn 3 (Some (f pa) :: Some (f pb) :: map Some (map f l2))).
      { unfold pyslice. rewrite Emap. rewrite skipn_app, skipn_all2 by (rewrite !map_length; lia). rewrite !map_length, Nat.sub_diag.
        replace (List.length l1 + 3 - List.length l1)%nat with 3%nat by lia. reflexivity. }
      assert (S2 : pyslice angles (List.length l1) (List.length l1 + 3) = firstn 3 (xa :: xb :: a2)).
      { unfold pyslice. rewrite Ea. rewrite skipn_app, skipn_all2 by lia. rewrite L1, Nat.sub_diag.
        replace (List.length l1 + 3 - List.length l1)%nat with 3%nat by lia. reflexivity. }
      rewrite S1, S2.
      destruct (interp_total (f pa) (f pb) 1 xa xb ltac:(lra)
        (match l2, a2 with q :: _, x :: _ => [(f q, x)] | _, _ => [] end)) as [v Ev].
      { destruct l2, a2; (left; reflexivity) || (right; do 2 eexists; reflexivity). }
      destruct l2 as [|q l2]; destruct a2 as [|x a2]; try discriminate L2; cbn [map firstn all_nums option_map combine]; rewrite Ev;
        eexists; (split; [reflexivity|]); (split; [intros _; exact Hex | reflexivity]).
  - exists None. split; [reflexivity|]. split; [discriminate|]. intros (p & Hp & L). exfalso.
    apply (proj1 (existsb_false _ _ _)) with (x := Some (f p)) in E.
    + cbn in E. apply Rltb_false in E. lra.
    + unfold mach_column. apply in_map_iff. exists p. split; [reflexivity | exact Hp].
Qed.

Definition exceeds (f : vec -> R) (rows : list vec) : Prop := exists p, In p rows /\ 1 < f p.

(** C88: what is printed is the last of slow, sonic, Alfvén, fast (in this order) whose Mach number exceeds one somewhere. *)
Theorem C88_exact : forall angles p0 rows, Forall regular (p0 :: rows) -> slow_mach p0 < 1 ->
  List.length angles = List.length (p0 :: rows) ->
  exists out, crosses_points angles (p0 :: rows) = Ret out /\
    (out = "fast"%string <-> exceeds fast_mach (p0 :: rows)) /\
    (out = "alfven"%string <-> exceeds alfven_mach (p0 :: rows) /\ ~ exceeds fast_mach (p0 :: rows)) /\
    (out = "sonic"%string <-> exceeds sonic_mach (p0 :: rows) /\ ~ exceeds alfven_mach (p0 :: rows)) /\
    (out = "slow"%string <-> exceeds slow_mach (p0 :: rows) /\ ~ exceeds sonic_mach (p0 :: rows) /\ ~ exceeds alfven_mach (p0 :: rows)) /\
    (out = "none"%string <-> ~ exceeds slow_mach (p0 :: rows)).
Proof.
  intros angles p0 rows Hr H0 Hl.
  assert (HR : forall p, In p (p0 :: rows) -> regular p) by (apply Forall_forall; exact Hr).
  destruct (mach_order p0 (HR p0 (or_introl eq_refl))) as [O1 O2].
  destruct (critical_angle_total slow_mach angles p0 rows) as (s & Es & Hs); [lra | exact Hl|].
  destruct (critical_angle_total sonic_mach angles p0 rows) as (c & Ec & Hc); [lra | exact Hl|].
  destruct (critical_angle_total alfven_mach angles p0 rows) as (a & Ea & Ha); [lra | exact Hl|].
  destruct (critical_angle_total fast_mach angles p0 rows) as (f & Ef & Hf); [lra | exact Hl|].
  fold (exceeds slow_mach (p0 :: rows)) in Hs. fold (exceeds sonic_mach (p0 :: rows)) in Hc.
  fold (exceeds alfven_mach (p0 :: rows)) in Ha. fold (exceeds fast_mach (p0 :: rows)) in Hf.
  assert (I1 : exceeds fast_mach (p0 :: rows) -> exceeds alfven_mach (p0 :: rows) /\ exceeds sonic_mach (p0 :: rows)).
  { intros (p & Hp & L). pose proof (mach_order p (HR p Hp)). split; exists p; split; try assumption; lra. }
  assert (I2 : exceeds alfven_mach (p0 :: rows) \/ exceeds sonic_mach (p0 :: rows) -> exceeds slow_mach (p0 :: rows)).
  { intros [(p & Hp & L)|(p & Hp & L)]; pose proof (mach_order p (HR p Hp)); exists p; split; try assumption; lra. }
  unfold crosses_points, get_all_sonic_points. rewrite Es, Ec, Ea, Ef. cbn [pybind].
  eexists. split; [reflexivity|].
  destruct (is_some f), (is_some a), (is_some c), (is_some s);
    repeat match goal with
    | H : true = true <-> ?P |- _ => assert P by (apply H; reflexivity); clear H
    | H : false = true <-> ?P |- _ => assert (~ P) by (intro K; apply H in K; discriminate K); clear H
    end; refine (conj _ (conj _ (conj _ (conj _ _))));
    (split; [intro K; try discriminate K; tauto | intro K; try reflexivity; exfalso; tauto]).
Qed.
Print Assumptions C88_exact.

(** ** Witnesses: field along θ only, Alfvén speed s ≤ 1, v_θ = v. *)
Definition row (v s : R) : vec := state 0 0 1 0 0 v (1 / (4 * PI * s ^ 2)) 0 0 0 0.
Lemma sqrt_quot : forall v w s, 0 <= v -> 0 < s -> w = s ^ 2 -> sqrt (v ^ 2 / w) = v / s.
Proof.
  intros v w s Hv Hs ->. replace (v ^ 2 / s ^ 2) with ((v / s) * (v / s)) by (field; lra).
  apply sqrt_square. apply Rmult_le_pos; [exact Hv | left; apply Rinv_0_lt_compat; exact Hs].
Qed.
Lemma row_regular : forall v s, 0 <= v -> 0 < s -> regular (row v s).
Proof.
  intros v s Hv Hs. pose proof PI_RGT_0. assert (0 < s ^ 2) by (apply pow_lt; exact Hs).
  split; [|split]; cbn; try lra. unfold Rdiv. rewrite Rmult_1_l. apply Rinv_0_lt_compat. apply Rmult_lt_0_compat; [lra|].
  replace (s * (s * 1)) with (s ^ 2) by ring. assumption.
Qed.
Lemma row_mach : forall v s, 0 <= v -> 0 < s <= 1 -> get_mach_numbers (row v s) = (v / s, v, v / s, v).
Proof.
  intros v s Hv Hs. pose proof PI_RGT_0.
  assert (Ew : mhd_wave_speeds (row v s) 1 = (s ^ 2, s ^ 2, 1)).
  { unfold mhd_wave_speeds.
    change (row v s iB_r) with 0. change (row v s iB_φ) with 0. change (row v s iB_θ) with 1. change (row v s iρ) with (1 / (4 * PI * s ^ 2)).
    assert (EV : (0 ^ 2 + 0 ^ 2 + 1 ^ 2) / (4 * PI * (1 / (4 * PI * s ^ 2))) = s ^ 2) by (field; lra).
    rewrite EV. replace (1 ^ 2 / (0 ^ 2 + 0 ^ 2 + 1 ^ 2)) with 1 by field.
    assert (ED : (s ^ 2 + 1 ^ 2) ^ 2 - 4 * s ^ 2 * 1 ^ 2 * 1 = (1 - s ^ 2) * (1 - s ^ 2)) by ring.
    rewrite ED, sqrt_square by nra. f_equal; [f_equal|]; field. }
  unfold get_mach_numbers. rewrite Ew. change (row v s iv_θ) with v.
  rewrite (sqrt_quot v (s ^ 2) s) by (try lra; reflexivity). rewrite (sqrt_quot v 1 1) by (try lra; ring).
  replace (v / 1) with v by field. reflexivity.
Qed.
Ltac row_machs := unfold slow_mach, sonic_mach, alfven_mach, fast_mach; rewrite !row_mach by lra; cbn [fst snd].

(** C87_indices and C87_angles_partial apply to a solution that crosses all four points at different places. *)
Example C87_nonvacuous : let rows := [row 0 (1 / 2); row (3 / 4) (1 / 2); row 2 (3 / 4)] in
  Forall regular rows /\ slow_mach (row 0 (1 / 2)) < 1 /\ List.length [0; 1; 2] = List.length rows /\ rises (fun x => x) [0; 1; 2] /\
  rises slow_mach rows /\ rises sonic_mach rows /\ rises alfven_mach rows /\ rises fast_mach rows.
Proof.
  cbv zeta. split; [repeat (apply Forall_cons; [apply row_regular; lra|]); apply Forall_nil|]. split; [row_machs; lra|]. split; [reflexivity|].
  repeat split; intros i j x y Hij Hx Hy; destruct i as [|[|[|i]]]; destruct j as [|[|[|j]]]; try lia; try (cbn in Hx; destruct i; discriminate);
    try (cbn in Hy; destruct j; discriminate); cbn in Hx, Hy; injection Hx as <-; injection Hy as <-; try lra; row_machs; lra.
Qed.
(** C87 for the angles is false in general: here the slow Mach number falls after its crossing, as an outflow's does when the field weakens less
    than the density, and the angle answered for the slow point lies after the sonic one, although the slow Mach number is
    never below the sonic one. *)
Theorem C87_angles_refuted : exists angles rows slow sonic alfven fast,
  Forall regular rows /\ rises (fun x => x) angles /\ List.length angles = List.length rows /\
  (exists p0 rest, rows = p0 :: rest /\ slow_mach p0 < 1) /\
  get_all_sonic_points angles rows = Ret (Some slow, Some sonic, alfven, fast) /\ sonic < slow.
Proof.
  set (rows := [row 0 (3 / 5); row (6 / 5) (3 / 5); row (13 / 10) (13 / 15)]).
  assert (Es : mach_column slow_mach rows = map Some [0; 2; 3 / 2]).
  { unfold rows, mach_column. cbn [map]. row_machs. cbn [map].
    apply f_equal2; [apply f_equal; lra | apply f_equal2; [apply f_equal; lra | apply f_equal2; [apply f_equal; lra | reflexivity]]]. }
  assert (Ec : mach_column sonic_mach rows = map Some [0; 6 / 5; 13 / 10]).
  { unfold rows, mach_column. cbn [map]. row_machs. reflexivity. }
  assert (Ea : mach_column alfven_mach rows = map Some [0; 2; 3 / 2]).
  { unfold rows, mach_column. cbn [map]. row_machs. cbn [map].
    apply f_equal2; [apply f_equal; lra | apply f_equal2; [apply f_equal; lra | apply f_equal2; [apply f_equal; lra | reflexivity]]]. }
  assert (Ef : mach_column fast_mach rows = map Some [0; 6 / 5; 13 / 10]).
  { unfold rows, mach_column. cbn [map]. row_machs. reflexivity. }
  assert (K1 : critical_angle [0; 1; 2] (map Some [0; 2; 3 / 2]) = Ret (Some (4 / 3))).
  { unfold critical_angle. cbn [map existsb nlt cmp]. rdec. cbn [orb]. unfold interp_for_value.
    change [Some 0; Some 2; Some (3 / 2)] with (map Some ([0] ++ 2 :: [3 / 2])).
    rewrite fci_rising; [|discriminate | intros x [<-|[]]; lra | lra].
    cbn [List.length app map nth neq cmp]. replace (Reqb 2 1) with false by (symmetry; apply Reqb_false; lra).
    cbn [Nat.sub Nat.add pyslice skipn firstn all_nums option_map combine].
    unfold interp1d, sort_pts. cbn. rdec. cbn. rdec. cbn. rdec. cbn. rdec. f_equal. f_equal. field. }
  assert (K2 : critical_angle [0; 1; 2] (map Some [0; 6 / 5; 13 / 10]) = Ret (Some (5 / 6))).
  { unfold critical_angle. cbn [map existsb nlt cmp]. rdec. cbn [orb]. unfold interp_for_value.
    change [Some 0; Some (6 / 5); Some (13 / 10)] with (map Some ([0] ++ 6 / 5 :: [13 / 10])).
    rewrite fci_rising; [|discriminate | intros x [<-|[]]; lra | lra].
    cbn [List.length app map nth neq cmp]. replace (Reqb (6 / 5) 1) with false by (symmetry; apply Reqb_false; lra).
    cbn [Nat.sub Nat.add pyslice skipn firstn all_nums option_map combine].
    unfold interp1d, sort_pts. cbn. rdec. cbn. rdec. cbn. rdec. cbn. rdec. f_equal. f_equal. field. }
  exists [0; 1; 2], rows, (4 / 3), (5 / 6), (Some (4 / 3)), (Some (5 / 6)).
  split; [unfold rows; repeat (apply Forall_cons; [apply row_regular; lra|]); apply Forall_nil|].
  split. { intros i j x y Hij Hx Hy. destruct i as [|[|[|i]]]; destruct j as [|[|[|j]]]; try lia; try (cbn in Hx; destruct i; discriminate);
    try (cbn in Hy; destruct j; discriminate); cbn in Hx, Hy; injection Hx as <-; injection Hy as <-; lra. }
  split; [reflexivity|]. split; [do 2 eexists; split; [reflexivity|]; row_machs; lra|]. split; [|lra].
  unfold get_all_sonic_points. rewrite Es, Ec, Ea, Ef, K1, K2. reflexivity.
Qed.
Print Assumptions C87_angles_refuted.

(** C88: the printed name is not "the last point passed on the way to the fast one": "alfven" is printed for a solution that never becomes
    supersonic. *)
Theorem C88_refuted : exists angles rows, Forall regular rows /\ List.length angles = List.length rows /\
  (exists p0 rest, rows = p0 :: rest /\ slow_mach p0 < 1) /\
  crosses_points angles rows = Ret "alfven"%string /\ ~ exceeds sonic_mach rows.
Proof.
  set (p0 := row 0 (1 / 2)). set (p1 := row (3 / 4) (1 / 2)).
  assert (Hr : Forall regular [p0; p1]) by (repeat (apply Forall_cons; [apply row_regular; lra|]); apply Forall_nil).
  assert (H0 : slow_mach p0 < 1) by (unfold p0; row_machs; lra).
  assert (Hs : ~ exceeds sonic_mach [p0; p1]).
  { intros (p & [<-|[<-|[]]] & L); unfold p0, p1 in L; revert L; row_machs; lra. }
  exists [0; 1], [p0; p1]. split; [exact Hr|]. split; [reflexivity|]. split; [exists p0, [p1]; split; [reflexivity | exact H0]|].
  split; [|exact Hs].
  destruct (C88_exact [0; 1] p0 [p1] Hr H0 eq_refl) as (out & E & _ & Ha & _). rewrite E. f_equal. apply Ha. split.
  - exists p1. split; [right; left; reflexivity|]. unfold p1. row_machs. lra.
  - intros (p & [<-|[<-|[]]] & L); unfold p0, p1 in L; revert L; row_machs; lra.
Qed.
Print Assumptions C88_refuted.
