(** Properties of the run containers: C30, C36, C37. *)
From Coq Require Import String List Bool ZArith Lia Arith FinFun.
From Verif Require Import Lib_Py Model_Run Spec_Run Proofs_Run.
Import ListNotations.
Open Scope string_scope. Open Scope list_scope.
Section Props.
Context {Sol I : Type}.
Implicit Types (d : solutions Sol) (r : run Sol I).

(** C36.  Starting empty, additions are named 0, 1, 2, ... in order and all kept. *)
Theorem C36_additions : forall ss : list Sol,
  exists d, add_all ss [] = Ok (map str_of_nat (seq 0 (length ss)), d) /\
  dkeys d = map str_of_nat (seq 0 (length ss)) /\
  (forall n s, nth_error ss n = Some s -> dget (str_of_nat n) d = Some s) /\
  (forall s ss', ss = ss' ++ [s] -> get_last_solution d = Ok s).
Proof.
  intro ss. exists (numbered 0 ss). split; [exact (add_all_numbered ss [])|].
  split; [apply numbered_keys|]. split.
  - intros n s H. rewrite <- H. exact (numbered_get ss 0 n).
  - intros s ss' ->.
    destruct (get_last_total (numbered 0 (ss' ++ [s]))) as [s2 H].
    + apply numbered_NoDup.
    + intro E. apply (f_equal (@length _)) in E. rewrite numbered_length, app_length in E. simpl in E. lia.
    + intros k Hk. rewrite numbered_keys in Hk. apply in_map_iff in Hk. destruct Hk as (n & <- & _).
      rewrite py_int_str. discriminate.
    + rewrite H. f_equal. destruct (get_last_spec _ _ (numbered_NoDup _ _) H) as (k & z & G & Z1 & MX).
      assert (L : dget (str_of_nat (length ss')) (numbered 0 (ss' ++ [s])) = Some s).
      { change (length ss') with (0 + length ss'). rewrite numbered_get, nth_error_app2, Nat.sub_diag by lia. reflexivity. }
      destruct (MX _ _ L) as (z' & E' & Hle). rewrite py_int_str in E'. injection E' as <-.
      assert (HK : In k (dkeys (numbered 0 (ss' ++ [s])))) by (apply (in_map fst) in G || (apply dget_In, (in_map fst) in G); exact G).
      rewrite numbered_keys in HK. apply in_map_iff in HK. destruct HK as (n & <- & Hn).
      rewrite py_int_str in Z1. injection Z1 as <-. apply in_seq in Hn. rewrite app_length in Hn. simpl in Hn.
      assert (n = length ss') by lia. subst n. congruence.
Qed.
Print Assumptions C36_additions.
(** Whatever the history, an addition never changes or hides a stored solution: it appends one new name ... *)
Theorem C36_add_preserves : forall d s k d', add_solution s d = Ok (k, d') ->
  ~ In k (dkeys d) /\ d' = d ++ [(k, s)] /\ dget k d' = Some s /\ forall k', k' <> k -> dget k' d' = dget k' d.
Proof.
  intros d s k d' H. unfold add_solution, get_next_index in H.
  destruct (dmem (str_of_nat (length d)) d) eqn:E; [discriminate|]. simpl in H. injection H as <- <-.
  assert (N : dget (str_of_nat (length d)) d = None) by (unfold dmem in E; destruct (dget (str_of_nat (length d)) d); [discriminate | reflexivity]).
  split; [apply dget_None_keys; exact N|]. split; [apply dset_new; exact N|].
  split; [apply dget_dset_same|]. intros k' Hk. apply dget_dset_other. congruence.
Qed.
Print Assumptions C36_add_preserves.
(** ... and fails, with RuntimeError, exactly when the next number is already a name (e.g. after a deletion). *)
Theorem C36_add_fails_iff : forall d s,
  (exists e, add_solution s d = Raise e) <-> In (str_of_nat (length d)) (dkeys d).
Proof.
  intros d s. unfold add_solution, get_next_index. rewrite <- dmem_iff.
  destruct (dmem (str_of_nat (length d)) d); simpl.
  - split; [reflexivity | intros _; eexists; reflexivity].
  - split; [intros [e H]; discriminate | discriminate].
Qed.
Theorem C36_add_error : forall d s e, add_solution s d = Raise e -> e = RuntimeError.
Proof.
  intros d s e. unfold add_solution, get_next_index.
  destruct (dmem (str_of_nat (length d)) d); simpl; [intros [= <-]; reflexivity | discriminate].
Qed.
(** After deleting any but the last solution, additions fail. *)
Theorem C36_deletion_blocks : forall (ss : list Sol) k s, S k < length ss ->
  exists d d', add_all ss [] = Ok (map str_of_nat (seq 0 (length ss)), d) /\ ddel (str_of_nat k) d = Ok d' /\
  add_solution s d' = Raise RuntimeError.
Proof.
  intros ss k s Hk. exists (numbered 0 ss), (dremove (str_of_nat k) (numbered 0 ss)).
  split; [exact (add_all_numbered ss [])|].
  assert (HI : In (str_of_nat k) (dkeys (numbered 0 ss))) by (rewrite numbered_keys, str_in_seq; lia).
  split; [unfold ddel; rewrite (proj2 (dmem_iff _ _) HI); reflexivity|].
  assert (HR : forall d : solutions Sol, In (str_of_nat k) (dkeys d) -> S (length (dremove (str_of_nat k) d)) = length d).
  { induction d as [|[k' v] t IH]; simpl; [tauto|]. destruct (String.eqb_spec (str_of_nat k) k') as [->|N]; [reflexivity|].
    intros [E|E]; [congruence|]. simpl. rewrite IH by exact E. reflexivity. }
  assert (HG : forall k2 (d : solutions Sol), k2 <> str_of_nat k -> In k2 (dkeys d) -> In k2 (dkeys (dremove (str_of_nat k) d))).
  { intros k2. induction d as [|[k' v] t IH]; simpl; [tauto|]. intros N [E|E].
    - destruct (String.eqb_spec (str_of_nat k) k'); [congruence | left; exact E].
    - destruct (String.eqb_spec (str_of_nat k) k'); [exact E | right; auto]. }
  pose proof (HR _ HI) as HL. rewrite numbered_length in HL.
  destruct (add_solution s (dremove (str_of_nat k) (numbered 0 ss))) as [p|e] eqn:E; [|rewrite (C36_add_error _ _ _ E); reflexivity].
  exfalso. assert (In (str_of_nat (length (dremove (str_of_nat k) (numbered 0 ss)))) (dkeys (dremove (str_of_nat k) (numbered 0 ss)))) as HX.
  { apply HG; [intro E2; apply str_of_nat_inj in E2; lia|]. rewrite numbered_keys, str_in_seq. lia. }
  apply (C36_add_fails_iff _ s) in HX. destruct HX as [e HX]. congruence.
Qed.
Print Assumptions C36_deletion_blocks.
(** The last solution is the one with the greatest number; ValueError iff some name is no integer, IndexError iff empty. *)
Theorem C36_last : forall d, NoDup (dkeys d) ->
  match get_last_solution d with
  | Ok s => exists k z, dget k d = Some s /\ py_int k = Some z /\
              forall k' s', dget k' d = Some s' -> exists z', py_int k' = Some z' /\ (z' <= z)%Z
  | Raise ValueError => exists k, In k (dkeys d) /\ py_int k = None
  | Raise IndexError => d = []
  | Raise _ => False
  end.
Proof.
  intros d ND. destruct (get_last_solution d) as [s|e] eqn:E.
  - apply get_last_spec; assumption.
  - assert (HE : (exists k, In k (dkeys d) /\ py_int k = None) \/ forall k, In k (dkeys d) -> py_int k <> None).
    { clear. induction (dkeys d) as [|k t IH]; [right; intros ? []|].
      destruct (py_int k) eqn:E.
      - destruct IH as [(k' & H1 & H2)|H]; [left; exists k'; split; [right; exact H1 | exact H2]|].
        right. intros k' [<-|H']; [congruence | auto].
      - left. exists k. split; [left; reflexivity | exact E]. }
    destruct HE as [(k & H1 & H2)|HE].
    + unfold get_last_solution, sorted_by_int in E. rewrite (int_keys_fail _ _ H1 H2) in E. simpl in E.
      injection E as <-. exists k. auto.
    + destruct d as [|p t]; [cbn in E; injection E as <-; reflexivity|].
      destruct (get_last_total (p :: t) ND) as [s H]; [discriminate | exact HE | congruence].
Qed.
Print Assumptions C36_last.

(** C37.  Once set, the final solution survives every history of operations on the run. *)
Theorem C37_write_once : forall ops r, r_final r <> Unset -> r_final (history ops r) = r_final r.
Proof.
  induction ops as [|o t IH]; intros r H; [reflexivity|]. unfold history. simpl. fold (history t (do_op r o)).
  assert (E : r_final (do_op r o) = r_final r).
  { destruct o as [s|k|k s|x|]; simpl.
    - destruct (add_solution s (r_solutions r)) as [[]|]; reflexivity.
    - destruct (ddel k (r_solutions r)); reflexivity.
    - reflexivity.
    - unfold set_final. destruct (r_final r) eqn:F; [congruence | | ]; rewrite F; reflexivity.
    - unfold finalise. destruct (r_final r) eqn:F; [congruence | | ]; rewrite F; reflexivity. }
  rewrite IH; [exact E | rewrite E; exact H].
Qed.
Print Assumptions C37_write_once.
(** Setting succeeds exactly when it was never set, stores the value and touches nothing else. *)
Theorem C37_set : forall r x,
  match set_final r x with
  | Ok r' => r_final r = Unset /\ r_final r' = match x with Some s => Final s | None => FinalNone end /\
             r_solutions r' = r_solutions r /\ r_info r' = r_info r
  | Raise e => r_final r <> Unset /\ e = RuntimeError
  end.
Proof. intros r x. unfold set_final. destruct (r_final r) eqn:E; simpl; repeat split; congruence. Qed.
(** Finalising sets an unset final solution to the last solution, keeps a set one, is idempotent, and fails exactly
    when it is unset and there is no last solution. *)
Theorem C37_finalise : forall r,
  (r_final r <> Unset -> finalise r = Ok r) /\
  (forall s, r_final r = Unset -> get_last_solution (r_solutions r) = Ok s ->
     exists r', finalise r = Ok r' /\ r_final r' = Final s /\ r_solutions r' = r_solutions r) /\
  (forall r', finalise r = Ok r' -> finalise r' = Ok r') /\
  (forall e, finalise r = Raise e <-> r_final r = Unset /\ get_last_solution (r_solutions r) = Raise e).
Proof.
  intro r. unfold finalise. destruct (r_final r) as [| |s0] eqn:E.
  - split; [congruence|]. split; [|split].
    + intros s _ H. rewrite H. eexists. split; [reflexivity|]. split; reflexivity.
    + intros r' H. destruct (get_last_solution (r_solutions r)); [|discriminate]. injection H as <-. reflexivity.
    + intro e. destruct (get_last_solution (r_solutions r)); simpl; split.
      * discriminate.
      * intros [_ ?]; discriminate.
      * intros [= ->]. auto.
      * intros [_ [= ->]]. reflexivity.
  - split; [reflexivity|]. split; [discriminate|]. split; [intros r' [= <-]; rewrite E; reflexivity|].
    intro e; split; [discriminate | intros [? _]; discriminate].
  - split; [reflexivity|]. split; [discriminate|]. split; [intros r' [= <-]; rewrite E; reflexivity|].
    intro e; split; [discriminate | intros [? _]; discriminate].
Qed.
Print Assumptions C37_finalise.
(** A shock run starts without solutions and unset, and is marked; the original is a different value. *)
Theorem C37_shock_run : forall r f n, let r' := create_shock_run r f n in
  r_info r' = r_info r /\ r_final r' = Unset /\ r_solutions r' = [] /\ r_is_post_shock_only r' = true /\
  r_based_on_filename r' = Some f /\ r_based_on_name r' = Some n.
Proof. intros; repeat split. Qed.

(** C30. *)
Theorem C30_default : forall r, get_solutions r None = get_solutions r (Some "0").
Proof. reflexivity. Qed.
Theorem C30_final : forall r, get_solutions r (Some "final") = Ok (r_final r).
Proof. reflexivity. Qed.
Theorem C30_named : forall r n, n <> "latest" -> n <> "final" ->
  (forall s, dget n (r_solutions r) = Some s -> get_solutions r (Some n) = Ok (Final s)) /\
  (dget n (r_solutions r) = None -> get_solutions r (Some n) = Raise KeyError).
Proof.
  intros r n H1 H2. unfold get_solutions.
  destruct (String.eqb_spec n "latest"); [congruence|]. destruct (String.eqb_spec n "final"); [congruence|].
  unfold dgetitem. split; [intros s Hs; rewrite Hs; reflexivity | intro Hn; rewrite Hn; reflexivity].
Qed.
(** "latest": a set final solution is returned; if the final solution is None, the highest numbered solution is (for the
    names that additions create), and without solutions the request fails. *)
Theorem C30_latest_partial : forall r,
  (forall s, r_final r = Final s -> get_solutions r (Some "latest") = Ok (Final s)) /\
  (r_final r = FinalNone -> NoDup (dkeys (r_solutions r)) ->
   (forall k, In k (dkeys (r_solutions r)) -> exists n, k = str_of_nat n) ->
   (r_solutions r = [] /\ get_solutions r (Some "latest") = Raise ValueError) \/
   exists n s, get_solutions r (Some "latest") = Ok (Final s) /\ dget (str_of_nat n) (r_solutions r) = Some s /\
     forall m s', dget (str_of_nat m) (r_solutions r) = Some s' -> m <= n).
Proof.
  intro r. split; [intros s H; unfold get_solutions; simpl; rewrite H; reflexivity|].
  intros HF ND HK. unfold get_solutions. cbn [String.eqb Ascii.eqb Bool.eqb]. simpl. rewrite HF.
  set (d := r_solutions r) in *.
  destruct (int_keys_total (dkeys d)) as [l E].
  { intros k Hk. destruct (HK k Hk) as [n ->]. rewrite py_int_str. discriminate. }
  rewrite E. destruct (int_keys_ok _ _ E) as [H1 H2]. simpl. clearbody d.
  destruct l as [|[z k0] l].
  - left. destruct d; [split; reflexivity | discriminate H1].
  - right. cbn [map fst snd] in *.
    pose proof (max_list_spec (map fst l) z) as (M1 & M2 & M3). set (mx := max_list (map fst l) z) in *.
    assert (HI : exists k, In (mx, k) ((z, k0) :: l)).
    { destruct M3 as [M3|M3]; [exists k0; left; congruence|]. apply in_map_iff in M3. destruct M3 as ([z' k'] & Ez & Hin).
      simpl in Ez. exists k'. right. rewrite <- Ez. exact Hin. }
    destruct HI as [k HI]. pose proof (H2 _ _ HI) as Hint.
    assert (Hk : In k (dkeys d)) by (rewrite <- H1; exact (in_map snd _ _ HI)).
    destruct (HK k Hk) as [n ->]. rewrite py_int_str in Hint. injection Hint as Hmx.
    assert (HS : str_of_Z mx = str_of_nat n).
    { rewrite <- Hmx. destruct n; [reflexivity|]. simpl str_of_Z. f_equal. simpl. rewrite SuccNat2Pos.id_succ. reflexivity. }
    rewrite HS. apply dmem_iff in Hk. unfold dmem in Hk. destruct (dget (str_of_nat n) d) as [s|] eqn:G; [|discriminate].
    exists n, s. unfold dgetitem. rewrite G. split; [reflexivity|]. split; [reflexivity|].
    intros m s' Hm. apply dget_In, (in_map fst) in Hm. fold (dkeys d) in Hm. rewrite <- H1 in Hm.
    change (k0 :: map snd l) with (map snd ((z, k0) :: l)) in Hm.
    apply in_map_iff in Hm. destruct Hm as ([zm km] & Ek & Hin). simpl in Ek. subst km.
    pose proof (H2 _ _ Hin) as Hzm. rewrite py_int_str in Hzm. injection Hzm as <-.
    assert (Z.of_nat m <= mx)%Z; [|lia]. destruct Hin as [Hin|Hin]; [injection Hin as E1 E2; rewrite <- E1; exact M1 | apply M2; exact (in_map fst _ _ Hin)].
Qed.
Print Assumptions C30_latest_partial.
(** While the final solution has not been set, "latest" (and "final") give the placeholder instead of a solution, even
    though there are solutions. *)
Theorem C30_latest_refuted : forall (info : I) (s : Sol),
  let r := with_solutions (new_run info) [("0", s)] in
  get_solutions r (Some "latest") = Ok Unset /\ get_last_solution (r_solutions r) = Ok s.
Proof. intros; split; reflexivity. Qed.
Print Assumptions C30_latest_refuted.
End Props.

(** Non-vacuity: three additions, a final solution None, the latest is the third; set once, finalise keeps it. *)
Example C30_nonvacuous :
  let r := do_op (history [OpAdd 10; OpAdd 20; OpAdd 30] (new_run tt)) (OpSetFinal None) in
  r_final r = FinalNone /\ get_solutions r (Some "latest") = Ok (Final 30) /\ get_solutions r None = Ok (Final 10).
Proof. repeat split. Qed.
Example C37_nonvacuous :
  r_final (history [OpAdd 10; OpSetFinal (Some 10); OpAdd 20; OpSetFinal (Some 20); OpFinalise] (new_run tt)) = Final 10.
Proof. reflexivity. Qed.
Example C36_nonvacuous : exists d, add_all [10; 20; 30] [] = Ok (["0"; "1"; "2"], d).
Proof. eexists; reflexivity. Qed.
