(** C105: trajectories saved to files.  C106: trajectories drawn. *)
From Coq Require Import String Ascii List Bool Reals Lra Lia.
From Verif Require Import Lib_Py Model_Index Model_Array Model_Csv Model_Waves Model_Critical Model_Stats Model_Trajectory Spec_Trajectory Props_Trajectory Model_Flow Spec_Flow Proofs_Flow.
Import ListNotations.
Open Scope R_scope. Open Scope string_scope. Open Scope list_scope.

Lemma write_same : forall n c fs, write n c fs n = Some c.
Proof. intros n c fs. unfold write. rewrite String.eqb_refl. reflexivity. Qed.
Lemma write_other : forall n m c fs, m <> n -> write n c fs m = fs m.
Proof. intros n m c fs D. unfold write. apply String.eqb_neq in D. rewrite D. reflexivity. Qed.
Lemma present_true : forall n fs, present n fs = true <-> fs n <> None.
Proof. intros n fs. unfold present. destruct (fs n); split; intro H; try discriminate; try reflexivity. contradiction. Qed.
Lemma present_false : forall n fs, present n fs = false <-> fs n = None.
Proof. intros n fs. unfold present. destruct (fs n); split; intro H; try discriminate; reflexivity. Qed.

Section Save.
Variable text : R -> string.
Hypothesis plain : forall x, unquoted (text x).

(** Whatever happens, a file that was there keeps its contents, and no other file than the three is made. *)
Theorem C105_existing : forall s filename range stats B v a fs fs' said e,
  save_trajectory text s filename range stats B v a fs = (fs', said, e) ->
  (forall n c, fs n = Some c -> fs' n = Some c) /\ (forall n, n <> stats -> n <> v -> n <> B -> fs' n = fs n).
Proof.
  intros s filename range stats B v a fs fs' said e H.
  assert (W : forall n c fs0, fs0 n = None -> (forall m d, fs0 m = Some d -> write n c fs0 m = Some d) /\ (forall m, m <> n -> write n c fs0 m = fs0 m)).
  { intros n c fs0 N. split; [|intros m D; apply write_other, D]. intros m d D. rewrite write_other; [exact D|]. intros ->. congruence. }
  assert (Q : forall n body msg next fs0 said0, (forall fs1 said1, (forall m d, fs0 m = Some d -> fs1 m = Some d) -> next fs1 said1 = (fs', said, e) ->
      (forall m d, fs1 m = Some d -> fs' m = Some d) /\ (forall m, m <> stats -> m <> v -> m <> B -> fs' m = fs1 m)) ->
      n = stats \/ n = v \/ n = B -> created n body msg next fs0 said0 = (fs', said, e) ->
      (forall m d, fs0 m = Some d -> fs' m = Some d) /\ (forall m, m <> stats -> m <> v -> m <> B -> fs' m = fs0 m)).
  { intros n [c [x|]] msg next fs0 said0 IH O C; unfold created in C; destruct (present n fs0) eqn:P; try (injection C as <- <- <-; split; auto; fail);
      apply present_false in P; destruct (W n c fs0 P) as [W1 W2].
    - injection C as <- <- <-. split; [exact W1|]. intros m D1 D2 D3. apply W2. destruct O as [->|[->| ->]]; assumption.
    - destruct (IH _ _ W1 C) as [I1 I2]. split; [intros m d D; apply I1, W1, D|]. intros m D1 D2 D3. rewrite (I2 m D1 D2 D3). apply W2. destruct O as [->|[->| ->]]; assumption. }
  unfold save_trajectory in H. destruct (get_all_sonic_points _ _) as [[[[sl so] al] fa]| | |]; try (injection H as <- <- <-; split; auto; fail).
  destruct (py_max _) as [m| | |]; try (injection H as <- <- <-; split; auto; fail).
  eapply (Q stats); [|left; reflexivity | exact H]. intros fs1 said1 _ H1.
  eapply (Q v); [|right; left; reflexivity | exact H1]. intros fs2 said2 _ H2.
  eapply (Q B); [|right; right; reflexivity | exact H2]. intros fs3 said3 _ H3. injection H3 as <- <- <-. split; auto.
Qed.

Lemma unquoted_rows : forall l, Forall (fun r => r <> [] /\ Forall unquoted r) (map (point_row text) l).
Proof.
  intro l. apply Forall_map, Forall_forall. intros [[a b] [c d]] _. split; [discriminate|]. cbn [point_row fst snd]. repeat constructor; apply plain.
Qed.
Lemma point_rows : forall l, map (point_row text) l = map (point_entries text) l.
Proof. intro l. apply map_ext. intros [v p]. reflexivity. Qed.
Ltac plain_names := repeat constructor; cbn; repeat split; discriminate.

(** Success in detail. *)
Lemma save_success : forall s filename range stats B v a fs fs' said, save_trajectory text s filename range stats B v a fs = (fs', said, None) ->
  exists sl so al fa m vl Bl, get_all_sonic_points (fl_angles s) (fl_rows s) = Ret (sl, so, al, fa) /\ py_max (fl_angles s) = Ret m /\
    v_line s a = (vl, Ended) /\ B_line s a = (Bl, Ended) /\ fs stats = None /\ fs v = None /\ v <> stats /\ fs B = None /\ B <> v /\ B <> stats /\
    said = ["Saved stats"; "Saved v"; "Saved B"; ("Finished " ++ filename)%string] /\
    fs' = write B (heading filename range ["B_x"; "B_y"; "x"; "y"] ++ rows_text (map (point_row text) Bl))
         (write v (heading filename range ["v_x"; "v_y"; "x"; "y"] ++ rows_text (map (point_row text) vl))
         (write stats (heading filename range ["slow_angle"; "sonic_angle"; "alfven_angle"; "fast_angle"; "max_soln_angle"] ++
              rows_text [[cell text sl; cell text so; cell text al; cell text fa; text m]]) fs)).
Proof.
  intros s filename range stats B v a fs fs' said H. unfold save_trajectory in H.
  destruct (get_all_sonic_points _ _) as [[[[sl so] al] fa]| | |] eqn:G; try discriminate H.
  destruct (py_max _) as [m| | |] eqn:M; try discriminate H.
  unfold created at 1 in H. destruct (present stats fs) eqn:P1; [discriminate H|]. apply present_false in P1.
  unfold created at 1 in H. unfold line_body at 1 in H. destruct (present v _) eqn:P2; [discriminate H|]. apply present_false in P2.
  destruct (v_line s a) as [vl ev] eqn:Lv. cbn [fst snd] in H. destruct ev; cbn [exn_of_ending] in H; try discriminate H.
  unfold created in H. unfold line_body in H. destruct (present B _) eqn:P3; [discriminate H|]. apply present_false in P3.
  destruct (B_line s a) as [Bl eB] eqn:LB. cbn [fst snd] in H. destruct eB; cbn [exn_of_ending] in H; try discriminate H.
  injection H as <- <-.
  assert (D1 : v <> stats) by (intros ->; rewrite write_same in P2; discriminate P2).
  assert (D2 : B <> v) by (intros ->; rewrite write_same in P3; discriminate P3).
  rewrite write_other in P2 by exact D1. rewrite write_other in P3 by exact D2.
  assert (D3 : B <> stats) by (intros ->; rewrite write_same in P3; discriminate P3). rewrite write_other in P3 by exact D3.
  exists sl, so, al, fa, m, vl, Bl. repeat split; try assumption.
Qed.

(** After a normal return the three files are new, hold the angles, the streamline and the field line, and nothing else has changed. *)
Theorem C105_saved : forall s filename range stats B v a fs fs' said, List.length (fl_rows s) = List.length (fl_angles s) ->
  save_trajectory text s filename range stats B v a fs = (fs', said, None) ->
  NoDup [stats; v; B] /\ fs stats = None /\ fs v = None /\ fs B = None /\ (forall n, n <> stats -> n <> v -> n <> B -> fs' n = fs n) /\
  said = ["Saved stats"; "Saved v"; "Saved B"; ("Finished " ++ filename)%string] /\
  exists sl so al fa m vl Bl,
    get_all_sonic_points (fl_angles s) (fl_rows s) = Ret (sl, so, al, fa) /\ greatest m (fl_angles s) /\
    is_line s iv_r iv_θ (fa_v_start a) (fa_v_max_steps a) (fa_v_step a) vl /\
    is_line s iB_r iB_θ (fa_B_start a) (fa_B_max_steps a) (fa_B_step a) Bl /\
    fs' stats = Some (table filename (range_text range)
      [["slow_angle"; "sonic_angle"; "alfven_angle"; "fast_angle"; "max_soln_angle"];
       [maybe text sl; maybe text so; maybe text al; maybe text fa; text m]]) /\
    fs' v = Some (table filename (range_text range) (["v_x"; "v_y"; "x"; "y"] :: map (point_entries text) vl)) /\
    fs' B = Some (table filename (range_text range) (["B_x"; "B_y"; "x"; "y"] :: map (point_entries text) Bl)).
Proof.
  intros s filename range stats B v a fs fs' said L H.
  assert (O := proj2 (C105_existing _ _ _ _ _ _ _ _ _ _ _ H)).
  destruct (save_success _ _ _ _ _ _ _ _ _ _ H) as (sl & so & al & fa & m & vl & Bl & G & M & Lv & LB & N1 & N2 & D1 & N3 & D2 & D3 & S & ->).
  split. { repeat constructor; cbn; intuition congruence. }
  repeat split; try assumption.
  exists sl, so, al, fa, m, vl, Bl. repeat split; try assumption.
  - apply (py_max_greatest _ _ M).
  - apply (py_max_greatest _ _ M).
  - destruct (followed s L _ _ _ _ _ _ _ _ Lv) as [(_ & _ & X)|(X & _)]; [apply X | discriminate X].
  - destruct (followed s L _ _ _ _ _ _ _ _ Lv) as [(_ & _ & X)|(X & _)]; [apply X | discriminate X].
  - destruct (followed s L _ _ _ _ _ _ _ _ Lv) as [(_ & _ & X)|(X & _)]; [apply X | discriminate X].
  - destruct (followed s L _ _ _ _ _ _ _ _ Lv) as [(_ & _ & X)|(X & _)]; [apply X | discriminate X].
  - destruct (followed s L _ _ _ _ _ _ _ _ LB) as [(_ & _ & X)|(X & _)]; [apply X | discriminate X].
  - destruct (followed s L _ _ _ _ _ _ _ _ LB) as [(_ & _ & X)|(X & _)]; [apply X | discriminate X].
  - destruct (followed s L _ _ _ _ _ _ _ _ LB) as [(_ & _ & X)|(X & _)]; [apply X | discriminate X].
  - destruct (followed s L _ _ _ _ _ _ _ _ LB) as [(_ & _ & X)|(X & _)]; [apply X | discriminate X].
  - rewrite write_other by congruence. rewrite write_other by congruence. rewrite write_same. f_equal. apply table_text; [discriminate | plain_names|].
    assert (U : forall o, unquoted (cell text o)) by (intros [x|]; [apply plain | exact Logic.I]).
    apply Forall_cons; [|apply Forall_nil]. split; [discriminate|]. repeat (apply Forall_cons; [apply U|]). apply Forall_cons; [apply plain | apply Forall_nil].
  - rewrite write_other by congruence. rewrite write_same. f_equal. rewrite <- point_rows. apply table_text; [discriminate | plain_names | apply unquoted_rows].
  - rewrite write_same. f_equal. rewrite <- point_rows. apply table_text; [discriminate | plain_names | apply unquoted_rows].
Qed.

(** It returns normally exactly when the solution has angles and critical points, the three names are different and new, and both lines
    start inside the solution (or have no steps). *)
Theorem C105_outcome : forall s filename range stats B v a fs, List.length (fl_rows s) = List.length (fl_angles s) ->
  snd (save_trajectory text s filename range stats B v a fs) = None <->
  (exists pts, get_all_sonic_points (fl_angles s) (fl_rows s) = Ret pts) /\ fl_angles s <> [] /\
  fs stats = None /\ fs v = None /\ fs B = None /\ NoDup [stats; v; B] /\
  (fa_v_max_steps a = 0%nat \/ inside s (fa_v_start a)) /\ (fa_B_max_steps a = 0%nat \/ inside s (fa_B_start a)).
Proof.
  intros s filename range stats B v a fs L. split.
  - intro H. destruct (save_trajectory text s filename range stats B v a fs) as [[fs' said] e] eqn:E. cbn [snd] in H. subst e.
    destruct (save_success _ _ _ _ _ _ _ _ _ _ E) as (sl & so & al & fa & m & vl & Bl & G & M & Lv & LB & N1 & N2 & D1 & N3 & D2 & D3 & S & _).
    split; [eexists; exact G|]. split; [intro X; rewrite X in M; discriminate M|]. repeat (split; [assumption|]).
    split. { repeat constructor; cbn; intuition congruence. }
    split.
    + destruct (followed s L _ _ _ _ _ _ _ _ Lv) as [(_ & X & _)|(X & _)]; [exact X | discriminate X].
    + destruct (followed s L _ _ _ _ _ _ _ _ LB) as [(_ & X & _)|(X & _)]; [exact X | discriminate X].
  - intros ((pts & G) & A & N1 & N2 & N3 & D & Iv & IB). destruct pts as [[[sl so] al] fa]. unfold save_trajectory. rewrite G.
    destruct (py_max (fl_angles s)) as [m| | |] eqn:M; try (destruct (fl_angles s); [contradiction | discriminate M]).
    inversion D as [|? ? D1 D']; subst. inversion D' as [|? ? D2 D'']; subst.
    assert (v <> stats) by (intros ->; apply D1; left; reflexivity). assert (B <> stats) by (intros ->; apply D1; right; left; reflexivity).
    assert (B <> v) by (intros ->; apply D2; left; reflexivity).
    unfold created at 1. rewrite (proj2 (present_false _ _) N1). unfold created at 1, line_body at 1.
    rewrite (proj2 (present_false _ _)) by (rewrite write_other by assumption; exact N2).
    destruct (v_line s a) as [vl ev] eqn:Lv. destruct (followed s L _ _ _ _ _ _ _ _ Lv) as [(-> & _)|(_ & _ & X & Y)]; [|exfalso; destruct Iv; [lia | contradiction]].
    cbn [snd exn_of_ending]. unfold created, line_body. rewrite (proj2 (present_false _ _)) by (rewrite !write_other by assumption; exact N3).
    destruct (B_line s a) as [Bl eB] eqn:LB. destruct (followed s L _ _ _ _ _ _ _ _ LB) as [(-> & _)|(_ & _ & X & Y)]; [|exfalso; destruct IB; [lia | contradiction]].
    reflexivity.
Qed.

(** "Either all three files are made or none" does not hold: when only the third name is taken, the first two files are made and stay. *)
Theorem C105_all_or_nothing_refuted : forall s filename range stats B v a fs pts, List.length (fl_rows s) = List.length (fl_angles s) ->
  get_all_sonic_points (fl_angles s) (fl_rows s) = Ret pts -> inside s (fa_v_start a) -> fs stats = None -> fs v = None -> v <> stats -> fs B <> None ->
  exists fs', save_trajectory text s filename range stats B v a fs = (fs', ["Saved stats"; "Saved v"], Some FileExistsError) /\
    fs' stats <> None /\ fs' v <> None /\ fs' B = fs B.
Proof.
  intros s filename range stats B v a fs [[[sl so] al] fa] L G I N1 N2 D N3. unfold save_trajectory. rewrite G.
  destruct (py_max (fl_angles s)) as [m| | |] eqn:M; try (destruct I as (x & Ix & _); destruct (fl_angles s); [destruct Ix | discriminate M]).
  assert (B <> stats) by congruence. assert (B <> v) by congruence.
  unfold created at 1. rewrite (proj2 (present_false _ _) N1). unfold created at 1, line_body at 1.
  rewrite (proj2 (present_false _ _)) by (rewrite write_other by assumption; exact N2).
  destruct (v_line s a) as [vl ev] eqn:Lv. destruct (followed s L _ _ _ _ _ _ _ _ Lv) as [(-> & _)|(_ & _ & X & Y)]; [|contradiction].
  cbn [snd exn_of_ending]. unfold created, line_body. rewrite (proj2 (present_true _ _)) by (rewrite !write_other by assumption; exact N3).
  eexists. split; [reflexivity|]. split; [rewrite write_other by congruence; rewrite write_same; discriminate|].
  split; [rewrite write_same; discriminate|]. rewrite !write_other by assumption. reflexivity.
Qed.
(** Nor when the streamline starts outside the solution: the angles are saved, and an empty streamline. *)
Theorem C105_outside_refuted : forall s filename range stats B v a fs pts, List.length (fl_rows s) = List.length (fl_angles s) ->
  get_all_sonic_points (fl_angles s) (fl_rows s) = Ret pts -> fl_angles s <> [] -> ~ inside s (fa_v_start a) -> (0 < fa_v_max_steps a)%nat ->
  fs stats = None -> fs v = None -> v <> stats ->
  exists fs', save_trajectory text s filename range stats B v a fs = (fs', ["Saved stats"], Some TypeError) /\
    fs' stats <> None /\ fs' v = Some (table filename (range_text range) [["v_x"; "v_y"; "x"; "y"]]).
Proof.
  intros s filename range stats B v a fs [[[sl so] al] fa] L G A I S N1 N2 D. unfold save_trajectory. rewrite G.
  destruct (py_max (fl_angles s)) as [m| | |] eqn:M; try (destruct (fl_angles s); [contradiction | discriminate M]).
  unfold created at 1. rewrite (proj2 (present_false _ _) N1). unfold created at 1, line_body at 1.
  rewrite (proj2 (present_false _ _)) by (rewrite write_other by assumption; exact N2).
  destruct (v_line s a) as [vl ev] eqn:Lv. destruct (followed s L _ _ _ _ _ _ _ _ Lv) as [(_ & X & _)|(-> & -> & _)]; [destruct X; [lia | contradiction]|].
  cbn [fst snd exn_of_ending]. eexists. split; [reflexivity|]. rewrite write_other by congruence. rewrite !write_same. split; [discriminate|].
  f_equal. apply (table_text _ _ _ []); [discriminate | plain_names | constructor].
Qed.
(** And what is left behind stops every later attempt. *)
Theorem C105_again_refuted : forall s filename range stats B v a fs fs' said e, save_trajectory text s filename range stats B v a fs = (fs', said, e) ->
  fs' stats <> None -> forall s' filename' range' B' v' a', exists x, save_trajectory text s' filename' range' stats B' v' a' fs' = (fs', [], Some x).
Proof.
  intros s filename range stats B v a fs fs' said e _ P s' filename' range' B' v' a'. unfold save_trajectory.
  destruct (get_all_sonic_points _ _) as [[[[sl so] al] fa]| | |]; try (eexists; reflexivity). destruct (py_max _); try (eexists; reflexivity).
  unfold created at 1. rewrite (proj2 (present_true _ _) P). eexists. reflexivity.
Qed.

(** ** The figure *)
Definition ray (asked : bool) (angle : option R) (name color : string) : list drawn :=
  match asked, angle with
  | true, Some θ => [Line (tan θ) (name ++ " (" ++ text (θ * 180 / PI) ++ "°)")%string color]
  | _, _ => []
  end.
(** What is drawn: a line through the origin for each critical angle asked for that the solution has, 45°, the greatest angle of the
    solution and of the streamline where asked for; then the field line and the streamline. *)
Theorem C106_figure : forall s a w fig, List.length (fl_rows s) = List.length (fl_angles s) -> generate_flow_plot text s a w = Ok fig ->
  exists sl so al fa m mv vl Bl,
    get_all_sonic_points (fl_angles s) (fl_rows s) = Ret (sl, so, al, fa) /\ greatest m (fl_angles s) /\ greatest mv (map polar (map snd vl)) /\
    is_line s iv_r iv_θ (fa_v_start a) (fa_v_max_steps a) (fa_v_step a) vl /\ vl <> [] /\
    is_line s iB_r iB_θ (fa_B_start a) (fa_B_max_steps a) (fa_B_step a) Bl /\ Bl <> [] /\
    fig = ray (fl_slow w) sl "Slow point angle" "C2" ++ ray (fl_sonic w) so "Sonic point angle" "C3" ++
          ray (fl_alfven w) al "alfven point angle" "C4" ++ ray (fl_fast w) fa "fast point angle" "C5" ++
          (if fl_45 w then [Line 1 "45°" "C6"] else []) ++
          (if fl_max_soln w then [Line (tan m) ("Max angle in solution " ++ text (m * 180 / PI) ++ "°")%string "C7"] else []) ++
          (if fl_max_v w then [Line (tan mv) ("Max angle in v streamline " ++ text (mv * 180 / PI) ++ "°")%string "C8"] else []) ++
          [Curve (map snd Bl) "$B$ field line" "C1"; Curve (map snd vl) "$v$ streamline" "C0"].
Proof.
  intros s a w fig L H. unfold generate_flow_plot in H.
  destruct (get_all_sonic_points _ _) as [[[[sl so] al] fa]| | |] eqn:G; try discriminate H. cbn [res_of rbind] in H.
  destruct (v_line s a) as [vl ev] eqn:Lv. destruct (followed s L _ _ _ _ _ _ _ _ Lv) as [(-> & Iv & Pv)|(-> & _)]; [|discriminate H].
  destruct (B_line s a) as [Bl eB] eqn:LB. destruct (followed s L _ _ _ _ _ _ _ _ LB) as [(-> & IB & PB)|(-> & _)]; [|discriminate H].
  cbn [get_trajectory fst snd exn_of_ending rbind] in H.
  destruct vl as [|[v1 p1] vl].
  { exfalso. destruct (if fl_max_soln w then _ else _) as [x|e] in H; [|discriminate H]. cbn [rbind map columns_of] in H.
    destruct (fl_max_v w); [discriminate H|]. cbn [rbind] in H. destruct (columns_of (map snd Bl)); discriminate H. }
  destruct Bl as [|[B1 q1] Bl].
  { exfalso. destruct (if fl_max_soln w then _ else _) as [x|e] in H; [|discriminate H]. cbn [rbind] in H.
    destruct (if fl_max_v w then _ else _) as [y|e] in H; discriminate H. }
  assert (Is : exists b, In b (fl_angles s)).
  { destruct Pv as (_ & D & _). destruct (D v1 p1 (or_introl eq_refl)) as (row & (be & b & af & E & _) & _). exists b. rewrite E. apply in_elt. }
  destruct (py_max (fl_angles s)) as [m| | |] eqn:M; try (destruct Is as (b & Ib); destruct (fl_angles s); [destruct Ib | discriminate M]).
  set (vs := (v1, p1) :: vl) in *. assert (MV : exists mv, py_max (map polar (map snd vs)) = Ret mv) by (eexists; reflexivity).
  destruct MV as (mv & MV).
  exists sl, so, al, fa, m, mv, vs, ((B1, q1) :: Bl). split; [reflexivity|]. split; [exact (py_max_greatest _ _ M)|]. split; [exact (py_max_greatest _ _ MV)|].
  split; [exact Pv|]. split; [discriminate|]. split; [exact PB|]. split; [discriminate|].
  change (columns_of (map snd vs)) with (@Ok (list pt) (map snd vs)) in H. change (columns_of (map snd ((B1, q1) :: Bl))) with (@Ok (list pt) (map snd ((B1, q1) :: Bl))) in H.
  cbn [rbind] in H. match type of H with context [py_max ?x] => change (py_max x) with (py_max (map polar (map snd vs))) in H end. rewrite MV in H. cbn [res_of rbind] in H.
  destruct (fl_max_soln w), (fl_max_v w); cbn [rbind] in H; injection H as <-; reflexivity.
Qed.
(** The figure of the plot command: besides the two curves only the sonic line, and the steepest direction of the streamline when that is asked for. *)
Theorem C106_command : forall s a with_max_v fig, List.length (fl_rows s) = List.length (fl_angles s) ->
  generate_flow_plot text s a (plotted_lines with_max_v) = Ok fig ->
  exists sl so al fa mv vl Bl,
    get_all_sonic_points (fl_angles s) (fl_rows s) = Ret (sl, so, al, fa) /\ greatest mv (map polar (map snd vl)) /\
    is_line s iv_r iv_θ (fa_v_start a) (fa_v_max_steps a) (fa_v_step a) vl /\
    is_line s iB_r iB_θ (fa_B_start a) (fa_B_max_steps a) (fa_B_step a) Bl /\
    fig = match so with Some θ => [Line (tan θ) ("Sonic point angle (" ++ text (θ * 180 / PI) ++ "°)")%string "C3"] | None => [] end ++
          (if with_max_v then [Line (tan mv) ("Max angle in v streamline " ++ text (mv * 180 / PI) ++ "°")%string "C8"] else []) ++
          [Curve (map snd Bl) "$B$ field line" "C1"; Curve (map snd vl) "$v$ streamline" "C0"].
Proof.
  intros s a w fig L H. destruct (C106_figure _ _ _ _ L H) as (sl & so & al & fa & m & mv & vl & Bl & G & _ & M & Pv & _ & PB & _ & E).
  exists sl, so, al, fa, mv, vl, Bl. split; [exact G|]. split; [exact M|]. split; [exact Pv|]. split; [exact PB|]. rewrite E. reflexivity.
Qed.
(** A figure is drawn exactly when both lines have a step to take and start inside the solution, and its critical points are found. *)
Theorem C106_outcome : forall s a w, List.length (fl_rows s) = List.length (fl_angles s) ->
  (exists fig, generate_flow_plot text s a w = Ok fig) <->
  (exists pts, get_all_sonic_points (fl_angles s) (fl_rows s) = Ret pts) /\
  (0 < fa_v_max_steps a)%nat /\ inside s (fa_v_start a) /\ (0 < fa_B_max_steps a)%nat /\ inside s (fa_B_start a).
Proof.
  intros s a w L. split.
  - intros (fig & H). destruct (C106_figure _ _ _ _ L H) as (sl & so & al & fa & m & mv & vl & Bl & G & _ & _ & Pv & Nv & PB & NB & _).
    split; [eexists; exact G|].
    assert (T : forall r θ st n step l, is_line s r θ st n step l -> l <> [] -> (0 < n)%nat /\ inside s st).
    { intros r θ st n step l (A & B & C & _) N. destruct l as [|[v p] l]; [contradiction|]. cbn [List.length] in A. split; [lia|].
      destruct (C ltac:(lia)) as (v' & t & E & _). injection E as -> -> ->. destruct (B v' st (or_introl eq_refl)) as (row & (be & b & af & E & _ & Q & _) & _).
      exists b. split; [rewrite E; apply in_elt | exact Q]. }
    destruct (T _ _ _ _ _ _ Pv Nv), (T _ _ _ _ _ _ PB NB). auto.
  - intros (([[[sl so] al] fa] & G) & Nv & Iv & NB & IB). unfold generate_flow_plot. rewrite G. cbn [res_of rbind].
    destruct (v_line s a) as [vl ev] eqn:Lv. destruct (followed s L _ _ _ _ _ _ _ _ Lv) as [(-> & _ & Pv)|(_ & _ & _ & X)]; [|contradiction].
    destruct (B_line s a) as [Bl eB] eqn:LB. destruct (followed s L _ _ _ _ _ _ _ _ LB) as [(-> & _ & PB)|(_ & _ & _ & X)]; [|contradiction].
    cbn [get_trajectory fst snd exn_of_ending rbind].
    destruct Pv as (_ & _ & Cv & _). destruct (Cv Nv) as (v1 & tv & -> & _). destruct PB as (_ & _ & CB & _). destruct (CB NB) as (B1 & tB & -> & _).
    cbn [map snd columns_of rbind].
    destruct (py_max (fl_angles s)) as [m| | |] eqn:M; try (destruct Iv as (b & Ib & _); destruct (fl_angles s); [destruct Ib | discriminate M]).
    destruct (fl_max_soln w), (fl_max_v w); cbn; eexists; reflexivity.
Qed.
(** The files hold the points that are drawn. *)
Theorem C106_files : forall s a w fig filename range stats B v fs fs' said,
  save_trajectory text s filename range stats B v a fs = (fs', said, None) -> generate_flow_plot text s a w = Ok fig ->
  exists front vl Bl, fig = front ++ [Curve (map snd Bl) "$B$ field line" "C1"; Curve (map snd vl) "$v$ streamline" "C0"] /\
    fs' v = Some (table filename (range_text range) (["v_x"; "v_y"; "x"; "y"] :: map (point_entries text) vl)) /\
    fs' B = Some (table filename (range_text range) (["B_x"; "B_y"; "x"; "y"] :: map (point_entries text) Bl)).
Proof.
  intros s a w fig filename range stats B v fs fs' said H F.
  destruct (save_success _ _ _ _ _ _ _ _ _ _ H) as (sl & so & al & fa & m & vl & Bl & G & M & Lv & LB & N1 & N2 & D1 & N3 & D2 & D3 & S & ->).
  unfold generate_flow_plot in F. rewrite G, Lv, LB in F. cbn [get_trajectory fst snd exn_of_ending res_of rbind] in F.
  destruct (if fl_max_soln w then _ else _) as [x|e] in F; [|discriminate F]. cbn [rbind] in F.
  destruct (if fl_max_v w then _ else _) as [y|e] in F; [|discriminate F]. cbn [rbind] in F.
  destruct (columns_of (map snd Bl)) as [Bp|e] eqn:CB; [|discriminate F]. destruct (columns_of (map snd vl)) as [vp|e] eqn:Cv; [|discriminate F].
  assert (U : forall l q, columns_of l = Ok q -> q = l) by (intros [|z l] q E; [discriminate E | injection E as <-; reflexivity]).
  apply U in CB, Cv. subst Bp vp. cbn [rbind] in F. injection F as <-.
  assert (A : forall (b c d e f g h t : list drawn), b ++ c ++ d ++ e ++ f ++ g ++ h ++ t = (b ++ c ++ d ++ e ++ f ++ g ++ h) ++ t) by (intros; rewrite !app_assoc; reflexivity).
  rewrite A. eexists. exists vl, Bl. split; [reflexivity|]. split.
  - rewrite write_other by congruence. rewrite write_same. f_equal. rewrite <- point_rows. apply table_text; [discriminate | plain_names | apply unquoted_rows].
  - rewrite write_same. f_equal. rewrite <- point_rows. apply table_text; [discriminate | plain_names | apply unquoted_rows].
Qed.
End Save.

(** The line at the greatest angle of the streamline touches the streamline from above. *)
Lemma polar_slope : forall p, - (PI / 2) < polar p < PI / 2 -> snd p = tan (polar p) * fst p.
Proof.
  intros [x y]. unfold polar, arctan2. cbn [fst snd]. assert (0 < PI) by apply PI_RGT_0.
  destruct (Rlt_dec 0 x) as [X|X]; [intros _; rewrite tan_atan; field; lra|].
  destruct (Rlt_dec x 0) as [X'|X'].
  - assert (B := atan_bound (y / x)). destruct (Rle_dec 0 y) as [Y|Y]; intro I; exfalso.
    + assert (y / x <= 0). { unfold Rdiv. assert (/ x < 0) by (apply Rinv_lt_0_compat, X'). nra. }
      assert (atan (y / x) <= 0). { destruct (Req_dec (y / x) 0) as [->|Q]; [rewrite atan_0; lra|]. rewrite <- atan_0. left. apply atan_increasing. lra. }
      lra.
    + lra.
  - destruct (Rlt_dec 0 y); [intro; lra|]. destruct (Rlt_dec y 0); [intro; lra|]. intros _. replace x with 0 by lra. lra.
Qed.
Theorem C106_tangent : forall (points : list pt) m, greatest m (map polar points) -> - (PI / 2) < m < PI / 2 ->
  (exists p, In p points /\ snd p = tan m * fst p) /\ forall p, In p points -> 0 < fst p -> snd p <= tan m * fst p.
Proof.
  intros points m [I G] Q. split.
  - apply in_map_iff in I. destruct I as (p & E & P). exists p. split; [exact P|]. rewrite <- E. apply polar_slope. rewrite E. exact Q.
  - intros p P X. assert (U : polar p <= m) by (apply G, in_map, P).
    assert (Lo : - (PI / 2) < polar p). { unfold polar, arctan2. destruct (Rlt_dec 0 (fst p)); [|contradiction]. assert (Bd := atan_bound (snd p / fst p)). lra. }
    rewrite (polar_slope p) by lra. apply Rmult_le_compat_r; [lra|]. destruct (Req_dec (polar p) m) as [->|N]; [lra|]. left. apply tan_increasing; lra.
Qed.

(** ** A case: two angles, matter flowing outwards along the midplane. *)
Definition example_row : vec := fun i => if Nat.eqb i iv_r then 2 else if Nat.eqb i iB_r then 2 else if Nat.eqb i iρ then 1 else 0.
Definition example_soln : fsoln := mk_fsoln [0; 1] [example_row; example_row] (5/4).
Definition example_args : flow_args := mk_flow_args (2, 0) (1, 0) 3 1 (1/10) (1/10).
Definition no_text (x : R) : string := "x".
Lemma example_points : get_all_sonic_points (fl_angles example_soln) (fl_rows example_soln) = Ret (None, None, None, None).
Proof.
  assert (Z : forall f, f example_row = 0 -> critical_angle [0; 1] (mach_column f [example_row; example_row]) = Ret None).
  { intros f E. unfold critical_angle, mach_column. cbn [map existsb]. rewrite E. unfold nlt, cmp, Rltb. destruct (Rlt_dec 1 0); [lra | reflexivity]. }
  assert (V : example_row iv_θ = 0) by reflexivity.
  unfold get_all_sonic_points. cbn [fl_angles fl_rows example_soln].
  assert (Q : forall x, sqrt (0 ^ 2 / x) = 0) by (intro x; replace (0 ^ 2 / x) with 0 by (unfold Rdiv; ring); apply sqrt_0).
  assert (S4 : slow_mach example_row = 0 /\ sonic_mach example_row = 0 /\ alfven_mach example_row = 0 /\ fast_mach example_row = 0).
  { unfold slow_mach, sonic_mach, alfven_mach, fast_mach, get_mach_numbers. rewrite V. destruct (mhd_wave_speeds example_row 1) as [[x y] z].
    cbn [fst snd]. rewrite !Q. repeat split. }
  destruct S4 as (A & B & C & D). rewrite !Z by assumption. reflexivity.
Qed.
Lemma example_inside : forall x, 0 < x -> inside example_soln (x, 0).
Proof.
  intros x X. exists 0. split; [left; reflexivity|]. unfold polar, arctan2. cbn [fst snd]. destruct (Rlt_dec 0 x); [|lra].
  replace (0 / x) with 0 by (field; lra). rewrite atan_0. lra.
Qed.
Example C105_saved_nonvacuous : snd (save_trajectory no_text example_soln "in" None "s" "b" "v" example_args (fun _ => None)) = None.
Proof.
  apply C105_outcome; [reflexivity|]. split; [eexists; apply example_points|]. split; [discriminate|]. repeat (split; [reflexivity|]).
  split. { repeat constructor; cbn; intuition discriminate. }
  split; right; apply example_inside; cbn; lra.
Qed.
Example C105_refuted_nonvacuous : exists fs', save_trajectory no_text example_soln "in" None "s" "b" "v" example_args (fun n => if String.eqb n "b" then Some "old" else None)
  = (fs', ["Saved stats"; "Saved v"], Some FileExistsError) /\ fs' "s" <> None /\ fs' "v" <> None /\ fs' "b" = Some "old".
Proof.
  exact (C105_all_or_nothing_refuted no_text example_soln "in" None "s" "b" "v" example_args (fun n => if String.eqb n "b" then Some "old" else None) _ eq_refl example_points (example_inside 2 Rlt_0_2)
    eq_refl eq_refl ltac:(discriminate) ltac:(discriminate)).
Qed.
Example C105_outside_nonvacuous : ~ inside example_soln (0, 1).
Proof.
  intros (a & I & H). unfold polar, arctan2 in H. cbn [fst snd] in H. destruct (Rlt_dec 0 0); [lra|]. destruct (Rlt_dec 0 1); [|lra].
  assert (P := PI2_1). cbn in I. destruct I as [<-|[<-|[]]]; lra.
Qed.
Example C106_nonvacuous : exists fig, generate_flow_plot no_text example_soln example_args (plotted_lines true) = Ok fig.
Proof.
  apply C106_outcome; [reflexivity|]. split; [eexists; apply example_points|]. cbn. repeat split; try lia; apply example_inside; lra.
Qed.
