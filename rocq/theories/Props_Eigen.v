(** C110: the plots of eigenvalues and eigenvectors. *)
From Coq Require Import Reals List Bool String Arith Lra Lia Permutation.
From Verif Require Import Lib_Py Model_Plots Model_Eigen Spec_Plots Spec_Eigen Props_Plots.
Import ListNotations.
Open Scope string_scope.
Open Scope list_scope.
Open Scope R_scope.

Lemma each_ok : forall A B (f : A -> res B) (g : A -> B) l, (forall a, In a l -> f a = Ok (g a)) -> each f l = Ok (map g l).
Proof.
  intros A B f g l. induction l as [|a t IH]; intro H; [reflexivity|]. cbn [each map]. rewrite (H a (or_introl eq_refl)). cbn [rbind].
  rewrite IH; [reflexivity|]. intros b Hb. apply H. right. exact Hb.
Qed.
Lemma each_map : forall A B C (f : B -> res C) (g : A -> B) l, each f (map g l) = each (fun a => f (g a)) l.
Proof. intros A B C f g l. induction l as [|a t IH]; [reflexivity|]. cbn [each map]. rewrite IH. reflexivity. Qed.

(** ** One complex quantity *)
Section Series.
Context {A : Type}.
Variables (angle : A -> R) (q : A -> option (R * R)).
(** The array entry of a sample. *)
Definition entry (a : A) : cnum := match q a with Some z => complex z | None => nan end.
Definition the_series (color : option nat) (label : option string) (l : list A) : list series :=
  let pts (f : A -> bool) (part : cnum -> num) := map (fun a => (deg (angle a), part (entry a))) (filter f l) in
  [mk_series "^" color label (pts (fun a => nonneg (fst (entry a))) fst);
   mk_series "v" color label (pts (fun a => negb (nonneg (fst (entry a)))) (fun c => option_map Ropp (fst c)));
   mk_series "2" color label (pts (fun a => nonneg (snd (entry a))) snd);
   mk_series "1" color label (pts (fun a => negb (nonneg (snd (entry a)))) (fun c => option_map Ropp (snd c)))].
Lemma series_is : forall lo hi l color label,
  plot_in_range lo hi (map angle l) (map entry l) color label = Ok (the_series color label (shown_samples lo hi angle l)).
Proof.
  intros lo hi l color label. unfold plot_in_range, indexes. rewrite map_map. rewrite !mask_filter. cbn [rbind].
  assert (E : filter (fun x => in_range lo hi (degrees (angle x))) l = shown_samples lo hi angle l).
  { unfold shown_samples. apply filter_ext. intro a. apply in_range_between. }
  rewrite E. generalize (shown_samples lo hi angle l). clear E l. intro l.
  unfold plot_log_complex_data. cbv zeta. rewrite !map_map. rewrite !mask_filter. cbn [rbind]. rewrite !map_map, !points_map. cbn [rbind].
  reflexivity.
Qed.
Lemma flat_map_filter : forall B (f : A -> bool) (g : A -> list B) l, flat_map g (filter f l) = flat_map (fun a => if f a then g a else []) l.
Proof. intros B f g l. induction l as [|a t IH]; [reflexivity|]. cbn [filter flat_map]. destruct (f a); cbn [flat_map app]; rewrite IH; reflexivity. Qed.
Lemma map_flat_map : forall B C (f : B -> C) (g : A -> list B) l, map f (flat_map g l) = flat_map (fun a => map f (g a)) l.
Proof. intros B C f g l. induction l as [|a t IH]; [reflexivity|]. cbn [flat_map]. rewrite map_app, IH. reflexivity. Qed.
Lemma flat_map_split : forall B (f g h : A -> list B) l, (forall a, Permutation (f a ++ g a) (h a)) -> Permutation (flat_map f l ++ flat_map g l) (flat_map h l).
Proof.
  intros B f g h l H. induction l as [|a t IH]; [constructor|]. cbn [flat_map]. rewrite <- H, <- IH, <- !app_assoc. apply Permutation_app_head.
  rewrite !app_assoc. apply Permutation_app_tail. apply Permutation_app_comm.
Qed.
Lemma parts_split : forall (part : cnum -> num) (proj : R * R -> R) l,
  (forall z, part (complex z) = Some (proj z)) -> part nan = None \/ part nan = Some 0 ->
  Permutation (flat_map visible (map (fun a => (deg (angle a), part (entry a))) (filter (fun a => nonneg (part (entry a))) l)) ++
               map negated (flat_map visible (map (fun a => (deg (angle a), option_map Ropp (part (entry a)))) (filter (fun a => negb (nonneg (part (entry a)))) l))))
              (expected_parts angle q proj l).
Proof.
  intros part proj l Hp Hn. unfold expected_parts.
  assert (M : forall (f : A -> R * num) k, flat_map visible (map f k) = flat_map (fun a => visible (f a)) k).
  { intros f k. induction k as [|a t IH]; [reflexivity|]. cbn [map flat_map]. rewrite IH. reflexivity. }
  rewrite !M, !flat_map_filter, map_flat_map. apply flat_map_split. intro a. unfold entry. destruct (q a) as [z|].
  - rewrite Hp. cbn [nonneg option_map]. unfold visible, nonzero, negated. cbn [fst snd]. destruct (Rle_dec 0 (proj z)) as [L|L]; cbn [negb].
    + rewrite app_nil_r. destruct (Rlt_dec 0 (proj z)), (Req_EM_T (proj z) 0); try lra; reflexivity.
    + destruct (Rlt_dec 0 (- proj z)), (Req_EM_T (proj z) 0); try lra. cbn [map app fst snd]. rewrite Ropp_involutive. reflexivity.
  - destruct Hn as [-> | ->]; cbn [nonneg option_map]; unfold visible; cbn [fst snd].
    + reflexivity.
    + destruct (Rle_dec 0 0) as [_|N]; [|lra]. destruct (Rlt_dec 0 0); [lra|]. reflexivity.
Qed.
Lemma series_read : forall color label l, Permutation (real_parts (the_series color label l)) (expected_parts angle q fst l) /\
  Permutation (imaginary_parts (the_series color label l)) (expected_parts angle q snd l).
Proof.
  intros color label l. unfold real_parts, imaginary_parts, seen, the_series. cbn [flat_map sr_marker sr_points String.eqb Ascii.eqb Bool.eqb app]. rewrite !app_nil_r. split.
  - apply (parts_split (fun c => fst c)); [reflexivity | left; reflexivity].
  - apply (parts_split (fun c => snd c)); [reflexivity | right; reflexivity].
Qed.
End Series.

(** ** Selecting the series of one colour *)
Lemma of_colour_app : forall c a b, of_colour c (a ++ b) = of_colour c a ++ of_colour c b.
Proof. intros. unfold of_colour. apply filter_app. Qed.
Lemma of_colour_same : forall A (angle : A -> R) q c label l, of_colour c (the_series angle q c label l) = the_series angle q c label l.
Proof. intros A angle q c label l. unfold of_colour, the_series. cbn [filter sr_color]. destruct c as [n|]; [rewrite Nat.eqb_refl|]; reflexivity. Qed.
Lemma of_colour_other : forall A (angle : A -> R) q c c' label l, c <> c' -> of_colour c (the_series angle q c' label l) = [].
Proof.
  intros A angle q c c' label l H. unfold of_colour, the_series. cbn [filter sr_color].
  destruct c' as [n|], c as [k|]; try reflexivity; [|congruence]. destruct (Nat.eqb_spec n k); [congruence|reflexivity].
Qed.
Lemma of_colour_concat : forall A (angle : A -> R) (q : nat -> A -> option (R * R)) label l ks i, NoDup ks -> In i ks ->
  of_colour (Some i) (List.concat (map (fun k => the_series angle (q k) (Some k) (label k) l) ks)) = the_series angle (q i) (Some i) (label i) l.
Proof.
  intros A angle q label l ks i N. induction N as [|k ks Hk N IH]; intros Hi; [destruct Hi|].
  cbn [map List.concat]. rewrite of_colour_app. destruct (Nat.eq_dec k i) as [->|D].
  - rewrite of_colour_same. rewrite <- app_nil_r. f_equal. clear - Hk. induction ks as [|k ks IH]; [reflexivity|]. cbn [map List.concat]. rewrite of_colour_app.
    rewrite of_colour_other; [apply IH; intro; apply Hk; right; assumption|]. intro E. injection E as ->. apply Hk. left. reflexivity.
  - rewrite of_colour_other by congruence. destruct Hi as [Hi|Hi]; [contradiction|]. apply IH. exact Hi.
Qed.
Lemma of_colour_none : forall A (angle : A -> R) (q : nat -> A -> option (R * R)) label l ks,
  of_colour None (List.concat (map (fun k => the_series angle (q k) (Some k) (label k) l) ks)) = [].
Proof. intros A angle q label l ks. induction ks as [|k ks IH]; [reflexivity|]. cbn [map List.concat]. rewrite of_colour_app, IH, of_colour_other by congruence. reflexivity. Qed.

Lemma same_length_ok : forall A (l : list (list A)) M, (forall r, In r l -> List.length r = M) -> same_length l = true.
Proof.
  intros A [|a t] M H; [reflexivity|]. cbn [same_length]. apply forallb_forall. intros b Hb. apply Nat.eqb_eq.
  rewrite (H a (or_introl eq_refl)), (H b (or_intror Hb)). reflexivity.
Qed.
Lemma nth_repeat_nan : forall n i, nth i (repeat nan n) nan = nan.
Proof. induction n as [|n IH]; intros [|i]; try reflexivity. cbn. apply IH. Qed.
Lemma nth_complex : forall l i, nth i (map complex l) nan = match nth_error l i with Some z => complex z | None => nan end.
Proof. induction l as [|z l IH]; intros [|i]; try reflexivity. cbn. apply IH. Qed.
Lemma colour_ok : forall i, (i < 20)%nat -> colour i = Ok (Some i).
Proof. intros i H. unfold colour. apply Nat.ltb_lt in H. rewrite H. reflexivity. Qed.

(** ** Eigenvalues *)
(** For every sample in range with a finite Jacobian both parts of every eigenvalue are seen, with their sign, at the angle of the
    sample and in the colour and under the number of the eigenvalue, unless the part is zero; nothing else is seen. *)
Theorem C110_eigenvalues : forall eigvals M l lo hi, l <> [] -> (M <= 20)%nat -> gives_values eigvals M l ->
  exists fig, plot_jacobian_eigenvalues eigvals (map snd l) (map fst l) lo hi = Ok fig /\
    (forall s, In s fig -> exists i, (i < M)%nat /\ sr_color s = Some i /\ sr_label s = Some (str_of_nat i)) /\
    forall i, (i < M)%nat ->
      Permutation (real_parts (of_colour (Some i) fig)) (expected_parts fst (fun p => eigenvalue_of eigvals i (snd p)) fst (shown_samples lo hi fst l)) /\
      Permutation (imaginary_parts (of_colour (Some i) fig)) (expected_parts fst (fun p => eigenvalue_of eigvals i (snd p)) snd (shown_samples lo hi fst l)).
Proof.
  intros eigvals M l lo hi Hne HM G.
  set (row := fun p : R * matrix => match finite (snd p) with None => repeat nan M | Some m => match eigvals m with Ok w => map complex w | Raise _ => [] end end).
  assert (Rows : each (compute_eigenvalues eigvals) (map snd l) = Ok (map row l)).
  { rewrite each_map. apply each_ok. intros p Hp. destruct (G p Hp) as [L V]. unfold compute_eigenvalues, row. rewrite L. destruct (finite (snd p)) as [m|]; [|reflexivity].
    destruct (V m eq_refl) as (w & E & _). rewrite E. reflexivity. }
  assert (Len : forall r, In r (map row l) -> List.length r = M).
  { intros r Hr. apply in_map_iff in Hr. destruct Hr as (p & <- & Hp). destruct (G p Hp) as [L V]. unfold row. destruct (finite (snd p)) as [m|]; [|apply repeat_length].
    destruct (V m eq_refl) as (w & E & Ew). rewrite E, map_length. exact Ew. }
  assert (Col : forall i, column_at i (map row l) = map (entry (fun p : R * matrix => eigenvalue_of eigvals i (snd p))) l).
  { intro i. unfold column_at. rewrite map_map. apply map_ext. intro p. unfold row, entry, eigenvalue_of. destruct (finite (snd p)) as [m|]; [|apply nth_repeat_nan].
    destruct (eigvals m) as [w|e]; [apply nth_complex|destruct i; reflexivity]. }
  set (one := fun i => the_series fst (fun p : R * matrix => eigenvalue_of eigvals i (snd p)) (Some i) (Some (str_of_nat i)) (shown_samples lo hi fst l)).
  exists (List.concat (map one (seq 0 M))). split; [|split].
  - unfold plot_jacobian_eigenvalues, stack. rewrite Rows. cbn [rbind]. rewrite (same_length_ok _ _ M Len). cbn [rbind].
    destruct (map row l) as [|r t] eqn:E; [destruct l; [congruence|discriminate]|]. rewrite <- E in *. rewrite (Len r) by (rewrite E; left; reflexivity).
    rewrite (each_ok _ _ _ one); [reflexivity|]. intros i Hi. apply in_seq in Hi. rewrite colour_ok by lia. cbn [rbind]. rewrite Col. apply series_is.
  - intros s Hs. apply in_concat in Hs. destruct Hs as (k & Hk & Hs). apply in_map_iff in Hk. destruct Hk as (i & <- & Hi). apply in_seq in Hi.
    exists i. split; [lia|]. unfold one, the_series in Hs. cbn in Hs. repeat (destruct Hs as [<-|Hs]; [split; reflexivity|]). destruct Hs.
  - intros i Hi. unfold one. rewrite (of_colour_concat _ fst (fun i p => eigenvalue_of eigvals i (snd p)) (fun i => Some (str_of_nat i))); [apply series_read|apply seq_NoDup|apply in_seq; lia].
Qed.
(** No samples: an error. *)
Theorem C110_no_samples : forall eigvals eig angles lo hi, plot_jacobian_eigenvalues eigvals [] angles lo hi = Raise IndexError /\
  plot_jacobian_eigenvectors eig [] angles lo hi = Raise ValueError /\ plot_jacobian_eigenvector_norm eig [] angles lo hi = Raise ValueError.
Proof. intros. repeat split. Qed.

(** An error of the routine at the first Jacobian it fails on is the error of the plot. *)
Theorem C110_failed : forall eigvals eig before p after angles lo hi m e,
  (forall q, In q before -> forall n, finite q = Some n -> (exists w, eigvals n = Ok w) /\ (exists w v, eig n = Ok (w, v))) ->
  finite p = Some m -> eigvals m = Raise e -> eig m = Raise e ->
  plot_jacobian_eigenvalues eigvals (before ++ p :: after) angles lo hi = Raise e /\
  plot_jacobian_eigenvectors eig (before ++ p :: after) angles lo hi = Raise e /\
  plot_jacobian_eigenvector_norm eig (before ++ p :: after) angles lo hi = Raise e.
Proof.
  intros eigvals eig before p after angles lo hi m e B Fp E1 E2.
  assert (G : forall X (f : matrix -> res X), (forall q, In q before -> exists x, f q = Ok x) -> f p = Raise e -> each f (before ++ p :: after) = Raise e).
  { intros X f Hf Hp. clear B. induction before as [|q b IH]; cbn [each app].
    - rewrite Hp. reflexivity.
    - destruct (Hf q (or_introl eq_refl)) as [x Hx]. rewrite Hx. cbn [rbind]. rewrite IH; [reflexivity|]. intros q' Hq. apply Hf. right. exact Hq. }
  assert (A1 : each (compute_eigenvalues eigvals) (before ++ p :: after) = Raise e).
  { apply G; [|unfold compute_eigenvalues; rewrite Fp, E1; reflexivity]. intros q Hq. unfold compute_eigenvalues. destruct (finite q) as [n|] eqn:Fq; [|eexists; reflexivity].
    destruct (B q Hq n Fq) as [[w Hw] _]. rewrite Hw. eexists. reflexivity. }
  assert (A2 : each (compute_eigenvalues_and_eigenvectors eig) (before ++ p :: after) = Raise e).
  { apply G; [|unfold compute_eigenvalues_and_eigenvectors; rewrite Fp, E2; reflexivity]. intros q Hq. unfold compute_eigenvalues_and_eigenvectors. destruct (finite q) as [n|] eqn:Fq; [|eexists; reflexivity].
    destruct (B q Hq n Fq) as [_ (w & v & Hw)]. rewrite Hw. eexists. reflexivity. }
  unfold plot_jacobian_eigenvalues, plot_jacobian_eigenvectors, plot_jacobian_eigenvector_norm. rewrite A1, A2. repeat split.
Qed.

(** ** Eigenvectors *)
Lemma both_is : forall eig M l, gives_vectors eig M l ->
  exists both, each (compute_eigenvalues_and_eigenvectors eig) (map snd l) = Ok (map both l) /\
    (forall p, In p l -> List.length (fst (both p)) = M /\ List.length (snd (both p)) = M /\ Forall (fun r => List.length r = M) (snd (both p))) /\
    (forall p j, In p l -> nth j (fst (both p)) nan = entry (fun p : R * matrix => eigenvalue_of (values_only eig) j (snd p)) p) /\
    (forall p i j, In p l -> nth j (nth i (snd (both p)) []) nan = entry (fun p : R * matrix => component_of eig i j (snd p)) p) /\
    (forall p, In p l -> match finite (snd p) with None => snd (both p) = repeat (repeat nan M) M
                         | Some m => forall w v, eig m = Ok (w, v) -> snd (both p) = map (map complex) v end).
Proof.
  intros eig M l G.
  exists (fun p : R * matrix => match finite (snd p) with None => (repeat nan M, repeat (repeat nan M) M)
    | Some m => match eig m with Ok (w, v) => (map complex w, map (map complex) v) | Raise _ => ([], []) end end).
  split; [|split; [|split; [|split]]].
  - rewrite each_map. apply each_ok. intros p Hp. destruct (G p Hp) as [L V]. unfold compute_eigenvalues_and_eigenvectors. rewrite L. destruct (finite (snd p)) as [m|]; [|reflexivity].
    destruct (V m eq_refl) as (w & v & E & _). rewrite E. reflexivity.
  - intros p Hp. destruct (G p Hp) as [L V]. destruct (finite (snd p)) as [m|]; cbn [fst snd].
    + destruct (V m eq_refl) as (w & v & E & E1 & E2 & E3). rewrite E. cbn [fst snd]. rewrite !map_length. split; [exact E1|]. split; [exact E2|].
      apply Forall_forall. intros r Hr. apply in_map_iff in Hr. destruct Hr as (r0 & <- & Hr). rewrite map_length. rewrite Forall_forall in E3. apply E3, Hr.
    + rewrite !repeat_length. split; [reflexivity|]. split; [reflexivity|]. apply Forall_forall. intros r Hr. apply repeat_spec in Hr. subst. apply repeat_length.
  - intros p j _. unfold entry, eigenvalue_of, values_only. destruct (finite (snd p)) as [m|]; [|apply nth_repeat_nan]. destruct (eig m) as [[w v]|e]; [apply nth_complex|destruct j; reflexivity].
  - intros p i j _. unfold entry, component_of. destruct (finite (snd p)) as [m|]; cbn [snd].
    + destruct (eig m) as [[w v]|e]; [|destruct i, j; reflexivity]. cbn [snd]. clear w. revert i. induction v as [|r v IH]; intros [|i]; try (destruct j; reflexivity).
      * cbn. apply nth_complex.
      * cbn. apply IH.
    + generalize (repeat_length nan M). intros _. generalize M at 2. intro n. revert i. induction n as [|n IH]; intros [|i]; try (destruct j; reflexivity); cbn; [apply nth_repeat_nan|apply IH].
  - intros p Hp. destruct (finite (snd p)) as [m|]; [|reflexivity]. intros w v E. rewrite E. reflexivity.
Qed.
(** One panel for every eigenvalue: the eigenvalue in black and the components of its eigenvector, each in its colour and under its
    number.  The twelfth panel is empty. *)
Theorem C110_eigenvectors : forall eig M l lo hi, l <> [] -> (M <= 12)%nat -> gives_vectors eig M l ->
  exists fig, plot_jacobian_eigenvectors eig (map snd l) (map fst l) lo hi = Ok fig /\ List.length fig = 12%nat /\
    (forall j, (M <= j < 12)%nat -> nth_error fig j = Some []) /\
    forall j, (j < M)%nat -> exists panel, nth_error fig j = Some panel /\
      Permutation (real_parts (of_colour None panel)) (expected_parts fst (fun p => eigenvalue_of (values_only eig) j (snd p)) fst (shown_samples lo hi fst l)) /\
      Permutation (imaginary_parts (of_colour None panel)) (expected_parts fst (fun p => eigenvalue_of (values_only eig) j (snd p)) snd (shown_samples lo hi fst l)) /\
      forall i, (i < M)%nat ->
        Permutation (real_parts (of_colour (Some i) panel)) (expected_parts fst (fun p => component_of eig i j (snd p)) fst (shown_samples lo hi fst l)) /\
        Permutation (imaginary_parts (of_colour (Some i) panel)) (expected_parts fst (fun p => component_of eig i j (snd p)) snd (shown_samples lo hi fst l)).
Proof.
  intros eig M l lo hi Hne HM G. destruct (both_is eig M l G) as (both & Rows & Len & Col & Comp & _).
  set (panel := fun j => the_series fst (fun p : R * matrix => eigenvalue_of (values_only eig) j (snd p)) None None (shown_samples lo hi fst l) ++
    List.concat (map (fun i => the_series fst (fun p : R * matrix => component_of eig i j (snd p)) (Some i) (Some (str_of_nat i)) (shown_samples lo hi fst l)) (seq 0 M))).
  exists (map panel (seq 0 M) ++ repeat [] (12 - M)). split; [|split; [|split]].
  - unfold plot_jacobian_eigenvectors. rewrite Rows. cbn [rbind].
    destruct (map both l) as [|[w v] t] eqn:E; [destruct l; [congruence|discriminate]|].
    assert (P0 : exists p0, In p0 l /\ both p0 = (w, v)). { destruct l as [|p0 l']; [congruence|]. injection E as E _. exists p0. split; [left; reflexivity|exact E]. }
    destruct P0 as (p0 & Hp0 & E0). destruct (Len p0 Hp0) as (L1 & L2 & L3). rewrite E0 in L1, L2, L3. cbn [fst snd] in L1, L2, L3. rewrite <- E.
    unfold stack. rewrite (same_length_ok _ _ M).
    2:{ intros r Hr. rewrite map_map in Hr. apply in_map_iff in Hr. destruct Hr as (p & <- & Hp). apply (Len p Hp). }
    cbn [rbind]. rewrite L1.
    assert (L0 : (0 < M)%nat -> List.length (nth 0 v []) = M).
    { intro P. rewrite Forall_forall in L3. apply L3. apply nth_In. rewrite L2. exact P. }
    rewrite (each_ok _ _ _ panel).
    2:{ intros j Hj. apply in_seq in Hj. rewrite L0 by lia. assert (J : (j <? 12)%nat = true) by (apply Nat.ltb_lt; lia). rewrite J.
        assert (C : column_at j (map fst (map both l)) = map (entry (fun p : R * matrix => eigenvalue_of (values_only eig) j (snd p))) l).
        { unfold column_at. rewrite !map_map. apply map_ext_in. intros p Hp. apply Col. exact Hp. }
        rewrite C, series_is. cbn [rbind].
        rewrite (each_ok _ _ _ (fun i => the_series fst (fun p : R * matrix => component_of eig i j (snd p)) (Some i) (Some (str_of_nat i)) (shown_samples lo hi fst l))); [reflexivity|].
        intros i Hi. apply in_seq in Hi. rewrite colour_ok by lia. cbn [rbind].
        assert (D : map (fun m => nth j (nth i m []) nan) (map snd (map both l)) = map (entry (fun p : R * matrix => component_of eig i j (snd p))) l).
        { rewrite !map_map. apply map_ext_in. intros p Hp. apply Comp. exact Hp. }
        rewrite D. apply series_is. }
    cbn [rbind]. rewrite map_length, seq_length. reflexivity.
  - rewrite app_length, map_length, seq_length, repeat_length. lia.
  - intros j Hj. rewrite nth_error_app2; rewrite map_length, seq_length; [|lia].
    assert (Rp : forall (n k : nat) (x : list series), (k < n)%nat -> nth_error (repeat x n) k = Some x).
    { induction n as [|n IH]; intros k x Hk; [lia|]. destruct k; [reflexivity|]. cbn. apply IH. lia. }
    apply Rp. lia.
  - intros j Hj. exists (panel j). split.
    { rewrite nth_error_app1 by (rewrite map_length, seq_length; exact Hj). rewrite nth_error_map. rewrite (nth_error_nth' _ 0%nat) by (rewrite seq_length; exact Hj). rewrite seq_nth by exact Hj. reflexivity. }
    unfold panel. rewrite of_colour_app, of_colour_same.
    rewrite (of_colour_none _ fst (fun i p => component_of eig i j (snd p)) (fun i => Some (str_of_nat i))), app_nil_r.
    split; [apply series_read|]. split; [apply series_read|]. intros i Hi.
    rewrite of_colour_app, of_colour_other by congruence. cbn [app].
    rewrite (of_colour_concat _ fst (fun i p => component_of eig i j (snd p)) (fun i => Some (str_of_nat i))); [apply series_read|apply seq_NoDup|apply in_seq; lia].
Qed.
(** The norm plot: line [j] has the squared length of eigenvector [j] at every sample in range, and a gap where the Jacobian is not
    finite. *)
Theorem C110_norm : forall eig M l lo hi, l <> [] -> gives_vectors eig M l ->
  exists lines, plot_jacobian_eigenvector_norm eig (map snd l) (map fst l) lo hi = Ok lines /\ List.length lines = M /\
    forall j, (j < M)%nat -> exists line, nth_error lines j = Some line /\
      Forall2 (fun p pt => fst pt = deg (fst p) /\
        match finite (snd p) with
        | None => snd pt = None
        | Some m => forall w v, eig m = Ok (w, v) -> snd pt = Some (length_squared (map (fun row => nth j row (0, 0)) v))
        end) (shown_samples lo hi fst l) line.
Proof.
  intros eig M l lo hi Hne G. destruct (both_is eig M l G) as (both & Rows & Len & Col & Comp & Is).
  assert (Vi : forall A (angle : A -> R) k, filter (fun x => in_range lo hi (degrees (angle x))) k = shown_samples lo hi angle k).
  { intros A angle k. unfold shown_samples. apply filter_ext. intro a. apply in_range_between. }
  destruct l as [|p0 l'] eqn:El; [congruence|]. rewrite <- El in *. assert (Hp0 : In p0 l) by (rewrite El; left; reflexivity).
  destruct (Len p0 Hp0) as (L1 & L2 & L3).
  assert (L0 : List.length (nth 0 (snd (both p0)) []) = M).
  { destruct M as [|M']; [destruct (snd (both p0)); [reflexivity|discriminate]|]. rewrite Forall_forall in L3. apply L3. apply nth_In. lia. }
  set (line := fun j => map (fun p : R * matrix => (deg (fst p), compute_norm (map (fun row => nth j row nan) (snd (both p))))) (shown_samples lo hi fst l)).
  exists (map line (seq 0 M)). split; [|split].
  - unfold plot_jacobian_eigenvector_norm. rewrite Rows. cbn [rbind]. unfold indexes. rewrite map_map, mask_filter. cbn [rbind].
    assert (E : map both l = both p0 :: map both l') by (rewrite El; reflexivity). rewrite E. destruct (both p0) as [w v] eqn:E0. rewrite <- E. cbn [snd] in *. rewrite L0.
    rewrite (each_ok _ _ _ line); [reflexivity|]. intros j _. rewrite map_map, mask_filter. cbn [rbind]. rewrite map_map, points_map. unfold line. rewrite Vi. reflexivity.
  - rewrite map_length, seq_length. reflexivity.
  - intros j Hj. exists (line j). split.
    { rewrite nth_error_map. rewrite (nth_error_nth' _ 0%nat) by (rewrite seq_length; exact Hj). rewrite seq_nth by exact Hj. reflexivity. }
    unfold line. assert (Sub : forall p, In p (shown_samples lo hi fst l) -> In p l) by (intros p Hp; apply filter_In in Hp; apply Hp).
    induction (shown_samples lo hi fst l) as [|p k IH]; [constructor|]. cbn [map]. constructor; [|apply IH; intros; apply Sub; right; assumption].
    cbn [fst snd]. split; [reflexivity|]. specialize (Is p (Sub p (or_introl eq_refl))). specialize (Len p (Sub p (or_introl eq_refl))).
    destruct (finite (snd p)) as [m|].
    + intros w v E. rewrite (Is w v E) in *. clear - Len Hj. destruct Len as (_ & _ & F). unfold compute_norm, length_squared.
      induction v as [|r v IH]; [reflexivity|]. inversion F as [|? ? F1 F2]; subst. cbn [map fold_right]. rewrite (IH F2). rewrite nth_complex.
      rewrite map_length in Hj. destruct (nth_error r j) as [z|] eqn:Ez; [|apply nth_error_None in Ez; lia].
      rewrite (nth_error_nth r j (0, 0) Ez). cbn. f_equal. ring.
    + rewrite Is. destruct M as [|M']; [lia|]. cbn [repeat map]. unfold compute_norm. cbn [map fold_right].
      change (nth j (nan :: repeat nan M') nan) with (nth j (repeat nan (S M')) nan). rewrite nth_repeat_nan. reflexivity.
Qed.
(** So with unit eigenvectors every line is at one. *)
Corollary C110_norm_unit : forall eig M l lo hi lines j line x y, gives_vectors eig M l ->
  (forall p m w v, In p l -> finite (snd p) = Some m -> eig m = Ok (w, v) -> length_squared (map (fun row => nth j row (0, 0)) v) = 1) ->
  plot_jacobian_eigenvector_norm eig (map snd l) (map fst l) lo hi = Ok lines -> nth_error lines j = Some line -> In (x, Some y) line -> y = 1.
Proof.
  intros eig M l lo hi lines j line x y G U H Hl Hi. destruct l as [|p0 l'] eqn:El; [discriminate|]. rewrite <- El in *.
  destruct (C110_norm eig M l lo hi) as (lines' & H' & L & F); [rewrite El; discriminate|exact G|]. rewrite H in H'. injection H' as <-.
  assert (Hj : (j < M)%nat) by (rewrite <- L; apply nth_error_Some; rewrite Hl; discriminate).
  destruct (F j Hj) as (line' & Hl' & F2). rewrite Hl in Hl'. injection Hl' as <-. clear - F2 Hi U G.
  assert (Sub : forall p, In p (shown_samples lo hi fst l) -> In p l) by (intros p Hp; apply filter_In in Hp; apply Hp).
  induction F2 as [|p pt k line [E1 E2] F2 IH]; [destruct Hi|]. destruct Hi as [->|Hi]; [|apply IH; [exact Hi|intros; apply Sub; right; assumption]].
  cbn [snd] in E2. destruct (finite (snd p)) as [m|] eqn:Ef; [|discriminate].
  destruct (G p (Sub p (or_introl eq_refl))) as [_ V]. destruct (V m Ef) as (w & v & Ev & _). specialize (E2 w v Ev).
  rewrite (U p m w v (Sub p (or_introl eq_refl)) Ef Ev) in E2. injection E2 as ->. reflexivity.
Qed.

(** A rotation: eigenvalues i and -i, in one sample; the other sample has an infinite entry. *)
Definition ex_eig (m : list (list R)) : res (list (R * R) * list (list (R * R))) := Ok ([(0, 1); (0, -1)], [[(1, 0); (0, 1)]; [(0, 0); (0, 0)]]).
Definition ex_samples : list (R * matrix) := [(0, [[Some 0; Some 1]; [Some (-1); Some 0]]); (1/10, [[None; Some 1]; [Some 1; Some 1]])].
Example C110_nonvacuous : gives_vectors ex_eig 2 ex_samples /\ gives_values (values_only ex_eig) 2 ex_samples /\ ex_samples <> [] /\
  expected_parts fst (fun p => eigenvalue_of (values_only ex_eig) 1 (snd p)) snd (shown_samples 0 90 fst ex_samples) = [(deg 0, -1)] /\
  (forall p m w v j, (j < 2)%nat -> In p ex_samples -> finite (snd p) = Some m -> ex_eig m = Ok (w, v) -> length_squared (map (fun row => nth j row (0, 0)) v) = 1).
Proof.
  split; [|split; [|split; [|split]]].
  - intros p Hp. unfold ex_samples in Hp. destruct Hp as [<-|[<-|[]]]; (split; [reflexivity|]); intros m Hm; eexists _, _; (split; [reflexivity|]); repeat split; repeat constructor.
  - intros p Hp. unfold ex_samples in Hp. destruct Hp as [<-|[<-|[]]]; (split; [reflexivity|]); intros m Hm; eexists; split; reflexivity.
  - discriminate.
  - assert (Z : deg 0 = 0) by (unfold deg, Rdiv; rewrite !Rmult_0_l; reflexivity).
    unfold shown_samples, ex_samples. cbn [filter fst]. unfold between at 1. rewrite Z.
    destruct (Rle_dec 0 0); [|lra]. destruct (Rle_dec 0 90); [|lra].
    destruct (between 0 90 (deg (1 / 10))); unfold expected_parts; cbn; unfold nonzero; rewrite Z; (destruct (Req_EM_T (-1) 0); [lra|]); reflexivity.
  - intros p m w v j Hj _ _ E. injection E as <- <-. destruct j as [|[|j]]; [| |lia]; unfold length_squared; cbn; lra.
Qed.
Print Assumptions C110_eigenvalues. Print Assumptions C110_eigenvectors. Print Assumptions C110_norm_unit.
