(** C90: the component plot. *)
From Coq Require Import Reals List Bool String Lra Lia.
From Verif Require Import Model_Index Model_Deriv Model_Ode Model_Components Spec_Ode Proofs_Ode.
Import ListNotations.
Open Scope string_scope.
Open Scope list_scope.
Open Scope R_scope.

(** The value drawn under a label of an equation, and the sum of all the others. *)
Definition drawn (eq label : string) (cs : list (string * comps)) : option R :=
  match lookup eq cs with Some l => option_map snd (find (fun p => String.eqb (fst p) label) l) | None => None end.
Definition sum_of_parts (eq : string) (cs : list (string * comps)) : option R :=
  match lookup eq cs with
  | Some l => Some (fold_right Rplus 0 (map snd (filter (fun p => negb (String.eqb (fst p) "all terms")) l)))
  | None => None
  end.

(** In five of the six equations the parts add up to the curve "all terms". *)
Theorem C90_parts_partial : forall c angle row eq,
  In eq ["azimuthal momentum"; "polar momentum"; "continuity"; "solenoid condition"; "polar induction"] ->
  exists v, drawn eq "all terms" (compute_components c angle row) = Some v /\ sum_of_parts eq (compute_components c angle row) = Some v.
Proof.
  intros c angle row eq H.
  repeat (destruct H as [<-|H]; [unfold drawn, sum_of_parts, lookup; cbn; eexists; split; [reflexivity|]; f_equal; unfold Rdiv; ring|]).
  destruct H.
Qed.
(** In the radial one they exceed it by v_r²/2. *)
Theorem C90_radial_exact : forall c angle row, exists all parts,
  drawn "radial momentum" "all terms" (compute_components c angle row) = Some all /\
  sum_of_parts "radial momentum" (compute_components c angle row) = Some parts /\ parts = all + row iv_r ^ 2 / 2.
Proof.
  intros c angle row. unfold drawn, sum_of_parts, lookup; cbn. do 2 eexists. split; [reflexivity|]. split; [reflexivity|]. lra.
Qed.
Theorem C90_radial_refuted : exists c angle row, 
  drawn "radial momentum" "all terms" (compute_components c angle row) <> sum_of_parts "radial momentum" (compute_components c angle row).
Proof.
  exists (mk_comp_cons 1 1 1), 0, (state 0 0 1 2 1 2 1 0 1 0 0).
  destruct (C90_radial_exact (mk_comp_cons 1 1 1) 0 (state 0 0 1 2 1 2 1 0 1 0 0)) as (all & parts & H1 & H2 & E).
  rewrite H1, H2. intro K. injection K as K. cbn in E. lra.
Qed.

(** "all terms" is each equation's derivative as the integrator computes it, times the factor the equation carries. *)
Theorem C90_all_terms : forall o θ y, oa_with_taylor o = false -> oa_use_E_r o = false -> oa_deriv_v_θ_func o = None ->
  y iρ <> 0 -> y iv_θ <> 0 -> y iv_θ <> 1 -> y iv_θ <> - 1 ->
  let cs := compute_components (mk_comp_cons (oa_γ o) (oa_a_0 o) (oa_norm_kepler_sq o)) θ y in
  let d := fst (rhs_derivs o θ y) in
  drawn "radial momentum" "all terms" cs = Some (y iv_θ * d iv_r) /\
  drawn "azimuthal momentum" "all terms" cs = Some (y iv_θ * d iv_φ) /\
  drawn "polar momentum" "all terms" cs = Some ((1 - y iv_θ ^ 2) * d iv_θ) /\
  drawn "continuity" "all terms" cs = Some (y iv_θ * d iρ / y iρ) /\
  drawn "solenoid condition" "all terms" cs = Some (d iB_θ) /\
  drawn "polar induction" "all terms" cs = Some (d iB_r).
Proof.
  intros o θ y Ht HE Hf Hρ H0 H1 H1' cs d.
  assert (EBφ : d iB_φ = y iB_φ_prime) by (unfold d; rewrite rhs_B_φ, HE; reflexivity).
  assert (Er : d iB_r = deriv_B_r_func θ (oa_γ o) (y iB_r) (y iB_θ) (y iB_φ) (y iv_r) (y iv_θ) (y iB_φ_prime) (y iη_O) (y iη_A) (y iη_H)
    (y iB_r / sqrt (y iB_r ^ 2 + y iB_φ ^ 2 + y iB_θ ^ 2)) (y iB_φ / sqrt (y iB_r ^ 2 + y iB_φ ^ 2 + y iB_θ ^ 2))
    (y iB_θ / sqrt (y iB_r ^ 2 + y iB_φ ^ 2 + y iB_θ ^ 2))).
  { unfold d. rewrite rhs_B_r. fold d. rewrite EBφ. reflexivity. }
  assert (Eθ : d iv_θ = deriv_v_θ_expr θ (oa_γ o) (oa_a_0 o) (y iv_r) (y iv_θ) (y iv_φ) (y iρ) (y iB_r) (y iB_θ) (y iB_φ) (d iB_r) (y iB_φ_prime)).
  { unfold d. rewrite rhs_v_θ by exact Hf. fold d. rewrite EBφ. reflexivity. }
  assert (Evr := rhs_v_r o θ y Ht). assert (Evf := rhs_v_φ o θ y Ht). assert (Eρ := rhs_ρ o θ y Ht). assert (Eb := rhs_B_θ o θ y).
  fold d in Evr, Evf, Eρ, Eb. rewrite EBφ in Evf.
  clearbody d. unfold cs, drawn, lookup. cbn -[deriv_B_r_func tan sqrt Rdiv pow iB_r iB_φ iB_θ iv_r iv_φ iv_θ iρ iB_φ_prime iη_O iη_A iη_H]. rewrite <- Er.
  assert (Hd : (1 - y iv_θ) * (1 + y iv_θ) <> 0) by (apply Rmult_integral_contrapositive_currified; lra).
  refine (conj _ (conj _ (conj _ (conj _ (conj _ _))))); f_equal.
  - rewrite Evr. unfold deriv_v_r_normal_expr. field. split; assumption.
  - rewrite Evf. unfold deriv_v_φ_normal_expr. field. split; assumption.
  - rewrite Eθ. unfold deriv_v_θ_expr. field. repeat split; try assumption; lra.
  - rewrite Eρ, Eθ. unfold deriv_ρ_normal_expr, deriv_v_θ_expr. field. repeat split; try assumption; lra.
  - rewrite Eb. ring.
  - rewrite Er. unfold deriv_B_r_func. reflexivity.
Qed.
Example C90_nonvacuous : let y := state 1 2 3 4 5 2 1 0 1 1 1 in y iρ <> 0 /\ y iv_θ <> 0 /\ y iv_θ <> 1 /\ y iv_θ <> - 1.
Proof. cbn. lra. Qed.
(** The plot needs B_φ' and refuses solutions that hold E_r; an equation is drawn exactly if its name is one of the six. *)
Theorem C90_plotted : forall c angle row, 
  (forall only, plotted true only c angle row = None) /\
  (plotted false None c angle row = Some (map snd (compute_components c angle row))) /\
  (forall k, plotted false (Some k) c angle row <> None <->
     In k ["radial momentum"; "azimuthal momentum"; "polar momentum"; "continuity"; "solenoid condition"; "polar induction"]).
Proof.
  intros c angle row. split; [reflexivity|]. split; [reflexivity|]. intro k. unfold plotted, lookup.
  split.
  - intro H. destruct (find (fun p => String.eqb (fst p) k) (compute_components c angle row)) eqn:E; [|exfalso; apply H; reflexivity].
    destruct (find_some _ _ E) as [Hin He]. apply String.eqb_eq in He. rewrite <- He.
    change ["radial momentum"; "azimuthal momentum"; "polar momentum"; "continuity"; "solenoid condition"; "polar induction"]
      with (map fst (compute_components c angle row)). apply in_map. exact Hin.
  - intros H. repeat (destruct H as [<-|H]; [cbn; discriminate|]). destruct H.
Qed.
Print Assumptions C90_parts_partial.
Print Assumptions C90_radial_exact.
Print Assumptions C90_radial_refuted.
Print Assumptions C90_all_terms.
Print Assumptions C90_plotted.
