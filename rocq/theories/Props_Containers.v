(** Properties C38, C39, C40: the problem log, the internal data, the initial conditions. *)
From Coq Require Import String List Bool ZArith Reals Permutation Lia Lra.
From Verif Require Import Lib_Py Model_FormatTables Model_Format Model_Containers Spec_Containers.
Import ListNotations.
Open Scope string_scope. Open Scope list_scope.

(** ** C38 *)
Lemma entries_getitem : forall k k' p, entries k (snd (p_getitem k' p)) = entries k p.
Proof.
  intros k k' p. unfold p_getitem, entries. destruct (dget (key_str k') p) eqn:E; [reflexivity|]. simpl.
  destruct (String.eqb_spec (key_str k') k) as [<-|N]; [rewrite dget_dset_same, E; reflexivity | rewrite dget_dset_other by exact N; reflexivity].
Qed.
Lemma fst_getitem : forall k p, fst (p_getitem k p) = entries (key_str k) p.
Proof. intros k p. unfold p_getitem, entries. destruct (dget (key_str k) p); reflexivity. Qed.
Lemma entries_set : forall k k' l p, entries k (dset k' l p) = if String.eqb k' k then l else entries k p.
Proof.
  intros k k' l p. unfold entries. destruct (String.eqb_spec k' k) as [<-|N]; [rewrite dget_dset_same | rewrite dget_dset_other by exact N]; reflexivity.
Qed.
Lemma entries_setitem : forall k k' v p, entries k (p_setitem k' v p) =
  entries k p ++ (if String.eqb (key_str k') k then match v with PStr s => [s] | PList l => l end else []).
Proof.
  intros k k' v p. unfold p_setitem. pose proof (entries_getitem k k' p) as H. pose proof (fst_getitem k' p) as F.
  destruct (p_getitem k' p) as [l p'] eqn:E. cbn [fst snd] in *. subst l.
  assert (G : forall x, entries k (dset (key_str k') (entries (key_str k') p ++ x) p') = entries k p ++ (if String.eqb (key_str k') k then x else [])).
  { intro x. rewrite entries_set. destruct (String.eqb_spec (key_str k') k) as [->|]; [reflexivity | rewrite app_nil_r; exact H]. }
  destruct v; apply G.
Qed.
Lemma entries_append : forall k k' s p, entries k (p_append k' s p) = entries k p ++ (if String.eqb (key_str k') k then [s] else []).
Proof. intros k k' s p. exact (entries_setitem k k' (PStr s) p). Qed.

(** After any sequence of recordings and look-ups the entries under a key are those recorded under it, in order. *)
Theorem C38_history : forall ops p k,
  entries k (fold_left do_pop ops p) = entries k p ++ flat_map (recorded k) ops.
Proof.
  induction ops as [|o t IH]; intros p k; simpl; [rewrite app_nil_r; reflexivity|].
  rewrite IH, app_assoc. f_equal. destruct o as [k0 s|k0 l|k0 s|k0|k0|k0]; cbn [do_pop recorded].
  - apply entries_setitem.
  - apply entries_setitem.
  - apply entries_append.
  - rewrite entries_getitem, app_nil_r. reflexivity.
  - unfold p_contains. cbn [snd]. rewrite entries_getitem, app_nil_r. reflexivity.
  - unfold p_get. rewrite entries_getitem, app_nil_r. reflexivity.
Qed.
(** Looking a key up gives its entries. *)
Theorem C38_lookup : forall k p, fst (p_getitem k p) = entries (key_str k) p /\ fst (p_get k p) = entries (key_str k) p.
Proof. intros. split; apply fst_getitem. Qed.
Lemma entries_cons : forall k k' l (t : problems), entries k ((k', l) :: t) = if String.eqb k k' then l else entries k t.
Proof. intros. unfold entries. simpl. destruct (String.eqb k k'); reflexivity. Qed.
Lemma entries_update : forall k q p, NoDup (dkeys q) -> entries k (p_update q p) = entries k p ++ entries k q.
Proof.
  intros k q. induction q as [|[k' l] t IH]; intros p ND; simpl; [rewrite app_nil_r; reflexivity|].
  inversion ND as [|? ? N1 N2]; subst. unfold p_update in *. simpl. rewrite IH by exact N2. rewrite entries_setitem.
  cbn [key_str fst snd]. rewrite entries_cons. destruct (String.eqb_spec k' k) as [<-|N].
  - rewrite String.eqb_refl. assert (Z : entries k' t = []) by (unfold entries; rewrite (proj2 (dget_None_keys k' t) N1); reflexivity).
    rewrite Z, app_nil_r. reflexivity.
  - destruct (String.eqb_spec k k'); [congruence|]. rewrite app_nil_r. reflexivity.
Qed.
(** Merging the logs of two parts of a solution concatenates them per angle. *)
Theorem C38_merge : forall a b c k, NoDup (dkeys (id_problems a)) -> NoDup (dkeys (id_problems b)) -> id_add a b = Ok c ->
  entries k (id_problems c) = entries k (id_problems a) ++ entries k (id_problems b).
Proof.
  intros a b c k Na Nb H. unfold id_add, id_finalise in H.
  destruct (finalise_rows (id_derivs a)); [|discriminate]. cbn [rbind] in H. destruct (finalise_rows (id_params a)); [|discriminate]. cbn [rbind] in H.
  destruct (jd_finalise (id_jacobian_data a)); [|discriminate]. cbn [rbind] in H.
  destruct (finalise_rows (id_derivs b)); [|discriminate]. cbn [rbind] in H. destruct (finalise_rows (id_params b)); [|discriminate]. cbn [rbind] in H.
  destruct (jd_finalise (id_jacobian_data b)); [|discriminate]. cbn [rbind id_derivs id_params id_jacobian_data id_problems] in H.
  destruct (concat_rows _ _); [|discriminate]. cbn [rbind] in H. destruct (concat_rows _ _); [|discriminate]. cbn [rbind] in H.
  destruct (jd_add _ _); [|discriminate]. injection H as <-. cbn [id_problems].
  rewrite entries_update by exact Nb. unfold p_init. rewrite entries_update by exact Na. reflexivity.
Qed.
(** Every log a caller can build has distinct keys, so the hypothesis of the last theorem always holds. *)
Lemma nodup_getitem : forall k p, NoDup (dkeys p) -> NoDup (dkeys (snd (p_getitem k p))).
Proof. intros k p H. unfold p_getitem. destruct (dget (key_str k) p); [exact H | apply NoDup_dset, H]. Qed.
Lemma nodup_setitem : forall k v p, NoDup (dkeys p) -> NoDup (dkeys (p_setitem k v p)).
Proof.
  intros k v p H. unfold p_setitem. pose proof (nodup_getitem k p H) as G. destruct (p_getitem k p) as [l q]. cbn [snd] in G.
  destruct v; apply NoDup_dset, G.
Qed.
Lemma nodup_update : forall q p, NoDup (dkeys p) -> NoDup (dkeys (p_update q p)).
Proof.
  intros q. induction q as [|[k l] t IH]; intros p H; [exact H|]. unfold p_update in *. simpl. apply IH, nodup_setitem, H.
Qed.
Theorem C38_distinct_keys : forall ops, NoDup (dkeys (fold_left do_pop ops [])).
Proof.
  assert (G : forall ops p, NoDup (dkeys p) -> NoDup (dkeys (fold_left do_pop ops p))).
  { induction ops as [|o t IH]; intros p H; [exact H|]. simpl. apply IH.
    destruct o; cbn [do_pop]; [apply nodup_setitem, H | apply nodup_setitem, H | apply (nodup_setitem k (PStr s)), H | apply nodup_getitem, H | apply (nodup_getitem k), H | apply (nodup_getitem k), H]. }
  intro ops. apply G. constructor.
Qed.
(** Looking and testing do change the log: they add the key, and the test always says yes. *)
Theorem C38_membership_refuted : forall k p, dget (key_str k) p = None ->
  fst (p_contains k p) = true /\ p_len (snd (p_contains k p)) = S (p_len p) /\
  p_len (snd (p_getitem k p)) = S (p_len p) /\ p_len (snd (p_get k p)) = S (p_len p).
Proof.
  intros k p H. unfold p_contains, p_get, p_getitem, p_len. rewrite H. cbn [fst snd]. rewrite (dset_new _ _ _ H), app_length. simpl.
  repeat split; lia.
Qed.
(** An entry recorded under an angle cannot be deleted by that angle, only by its text. *)
Theorem C38_delete_refuted : forall s l p, dget s p = Some l ->
  p_delitem (KOther s) p = Raise KeyError /\ exists p', p_delitem (KText s) p = Ok p' /\ (NoDup (dkeys p) -> dget s p' = None).
Proof.
  intros s l p H. split; [reflexivity|]. unfold p_delitem, ddel, dmem. rewrite H. eexists. split; [reflexivity|].
  intro ND. clear H. induction p as [|[k v] t IH]; [reflexivity|]. simpl. inversion ND as [|? ? N1 N2]; subst.
  destruct (String.eqb_spec s k) as [->|N]; [apply dget_None_keys; exact N1|]. simpl. destruct (String.eqb_spec s k); [congruence | apply IH, N2].
Qed.
Example C38_nonvacuous :
  fold_left do_pop [Append (KOther "0.1") "negative density"; Member (KOther "0.2"); RecordMany (KText "0.1") ["a"; "b"]; Record1 (KOther "0.1") "c"] []
  = [("0.1", ["negative density"; "a"; "b"; "c"]); ("0.2", [])].
Proof. reflexivity. Qed.

(** ** C39 *)
Lemma finalise_shaped : forall a, Forall (fun r => length r = 11) a -> finalise_rows a = Ok a /\ width a = 11.
Proof.
  intros a H. destruct a as [|r t]; [split; reflexivity|]. inversion H as [|? ? H1 H2]; subst. unfold finalise_rows.
  cbn [forallb]. rewrite H1. cbn [Nat.eqb andb].
  assert (U : uniform (r :: t) = true); [|rewrite U; split; [reflexivity | exact H1]]. unfold uniform. apply forallb_forall.
  intros x Hx. cbn [width]. rewrite H1. apply Nat.eqb_eq. rewrite Forall_forall in H. apply H, Hx.
Qed.
Lemma finalise_mats_shaped : forall a, Forall (fun m => m_dim m = (11, 11)) a -> finalise_mats a = Ok a /\ mdim a = (11, 11).
Proof.
  intros a H. destruct a as [|r t]; [split; reflexivity|]. inversion H as [|? ? H1 H2]; subst. unfold finalise_mats.
  assert (Z : forallb (fun m : mat => (mat_size m =? 0)%nat) (r :: t) = false) by (cbn [forallb]; unfold mat_size at 1; rewrite H1; reflexivity).
  rewrite Z. assert (U : forallb (fun m => dim_eqb (m_dim m) (mdim (r :: t))) (r :: t) = true); [|rewrite U; split; [reflexivity | exact H1]]. apply forallb_forall. intros x Hx. cbn [mdim]. rewrite H1. rewrite Forall_forall in H. rewrite (H x Hx). reflexivity.
Qed.
Lemma jd_finalise_shaped : forall j, shaped_jd j -> jd_finalise j = Ok j.
Proof.
  intros [m d p a] (H1 & H2 & H3). unfold jd_finalise. cbn [jd_derivs jd_params jd_jacobians jd_angles] in *.
  rewrite (proj1 (finalise_shaped d H1)), (proj1 (finalise_shaped p H2)), (proj1 (finalise_mats_shaped m H3)). reflexivity.
Qed.
Lemma id_finalise_shaped : forall i, shaped i -> id_finalise i = Ok i.
Proof.
  intros i (H1 & H2 & H3). unfold id_finalise.
  rewrite (proj1 (finalise_shaped _ H1)), (proj1 (finalise_shaped _ H2)), (jd_finalise_shaped _ H3). destruct i; reflexivity.
Qed.
Lemma jd_add_shaped : forall a b, shaped_jd a -> shaped_jd b -> jd_add a b =
  Ok (mk_jd (jd_jacobians a ++ jd_jacobians b) (jd_derivs a ++ jd_derivs b) (jd_params a ++ jd_params b) (jd_angles a ++ jd_angles b)).
Proof.
  intros a b Ha Hb. unfold jd_add. rewrite (jd_finalise_shaped _ Ha), (jd_finalise_shaped _ Hb). cbn [rbind].
  destruct Ha as (A1 & A2 & A3), Hb as (B1 & B2 & B3). unfold concat_rows, concat_mats.
  rewrite (proj2 (finalise_shaped _ A1)), (proj2 (finalise_shaped _ A2)), (proj2 (finalise_shaped _ B1)), (proj2 (finalise_shaped _ B2)),
    (proj2 (finalise_mats_shaped _ A3)), (proj2 (finalise_mats_shaped _ B3)). reflexivity.
Qed.
Definition joined (a b : internal_data) : internal_data :=
  mk_id (id_derivs a ++ id_derivs b) (id_params a ++ id_params b) (id_angles a ++ id_angles b)
    (mk_jd (jd_jacobians (id_jacobian_data a) ++ jd_jacobians (id_jacobian_data b))
           (jd_derivs (id_jacobian_data a) ++ jd_derivs (id_jacobian_data b))
           (jd_params (id_jacobian_data a) ++ jd_params (id_jacobian_data b))
           (jd_angles (id_jacobian_data a) ++ jd_angles (id_jacobian_data b)))
    (id_v_r_normal a ++ id_v_r_normal b) (id_v_φ_normal a ++ id_v_φ_normal b) (id_ρ_normal a ++ id_ρ_normal b)
    (id_v_r_taylor a ++ id_v_r_taylor b) (id_v_φ_taylor a ++ id_v_φ_taylor b) (id_ρ_taylor a ++ id_ρ_taylor b)
    (p_update (id_problems b) (p_init (id_problems a))).
Lemma id_add_shaped : forall a b, shaped a -> shaped b -> id_add a b = Ok (joined a b).
Proof.
  intros a b Ha Hb. unfold id_add. rewrite (id_finalise_shaped _ Ha), (id_finalise_shaped _ Hb). cbn [rbind].
  destruct Ha as (A1 & A2 & A3), Hb as (B1 & B2 & B3). unfold concat_rows.
  rewrite (proj2 (finalise_shaped _ A1)), (proj2 (finalise_shaped _ A2)), (proj2 (finalise_shaped _ B1)), (proj2 (finalise_shaped _ B2)).
  cbn [Nat.eqb rbind]. rewrite (jd_add_shaped _ _ A3 B3). reflexivity.
Qed.
Lemma id_flip_shaped : forall i, shaped i -> id_flip i = Ok (mk_id (rev (id_derivs i)) (rev (id_params i)) (rev (id_angles i)) (jd_flip (id_jacobian_data i))
    (rev (id_v_r_normal i)) (rev (id_v_φ_normal i)) (rev (id_ρ_normal i)) (rev (id_v_r_taylor i)) (rev (id_v_φ_taylor i)) (rev (id_ρ_taylor i)) (id_problems i)).
Proof. intros i H. unfold id_flip. rewrite (id_finalise_shaped _ H). reflexivity. Qed.
Lemma shaped_joined : forall a b, shaped a -> shaped b -> shaped (joined a b).
Proof.
  intros a b (A1 & A2 & A3 & A4 & A5) (B1 & B2 & B3 & B4 & B5). unfold shaped, shaped_jd, joined. cbn.
  repeat split; apply Forall_app; split; assumption.
Qed.
Lemma shaped_flip : forall i j, shaped i -> id_flip i = Ok j -> shaped j.
Proof.
  intros i j H F. rewrite (id_flip_shaped i H) in F. injection F as <-. destruct H as (A1 & A2 & A3 & A4 & A5).
  unfold shaped, shaped_jd, jd_flip. cbn. repeat split; apply Forall_rev; assumption.
Qed.
Lemma aligned_joined : forall a b, aligned a -> aligned b -> aligned (joined a b).
Proof. intros a b Ha Hb. unfold aligned, aligned_jd, joined in *. cbn. rewrite !app_length. intuition; lia. Qed.
Lemma aligned_flip : forall i j, shaped i -> aligned i -> id_flip i = Ok j -> aligned j.
Proof. intros i j S H F. rewrite (id_flip_shaped i S) in F. injection F as <-. unfold aligned, aligned_jd, jd_flip in *. cbn. rewrite !rev_length. intuition. Qed.

(** Everything the solver builds is well shaped and has one entry of each list per angle. *)
Theorem C39_built : forall i, built i -> shaped i /\ aligned i.
Proof.
  induction 1 as [|c i _ [S A] Hp Hd|θ p d m i _ [S A] Hp Hd Hm|θ s i _ [S A]|a b i _ [SA AA] _ [SB AB] H|a i _ [S A] H].
  - split; [repeat split; constructor | repeat split].
  - split.
    + destruct S as (S1 & S2 & S3). unfold shaped, id_record. cbn.
      split; [apply Forall_app; split; [exact S1 | repeat constructor; exact Hd]|]. split; [apply Forall_app; split; [exact S2 | repeat constructor; exact Hp] | exact S3].
    + unfold aligned, id_record in *. cbn. rewrite !app_length. cbn. intuition; lia.
  - split.
    + destruct S as (S1 & S2 & S3 & S4 & S5). unfold shaped, shaped_jd, id_record_jacobian. cbn.
      split; [exact S1|]. split; [exact S2|]. split; [apply Forall_app; split; [exact S3 | repeat constructor; exact Hd]|].
      split; [apply Forall_app; split; [exact S4 | repeat constructor; exact Hp] | apply Forall_app; split; [exact S5 | repeat constructor; exact Hm]].
    + unfold aligned, aligned_jd, id_record_jacobian in *. cbn. rewrite !app_length. cbn. intuition; lia.
  - split; [exact S | exact A].
  - rewrite (id_add_shaped _ _ SA SB) in H. injection H as <-. split; [apply shaped_joined; assumption | apply aligned_joined; assumption].
  - split; [eapply shaped_flip; eassumption | eapply aligned_flip; eassumption].
Qed.
(** Joining such data succeeds, keeps the alignment, and what was recorded at each angle is that of the first
    part followed by that of the second. *)
Lemma combine_app : forall A B (a a' : list A) (b b' : list B), length a = length b -> combine (a ++ a') (b ++ b') = combine a b ++ combine a' b'.
Proof. intros A B a. induction a as [|x t IH]; intros a' [|y b] b' H; try discriminate; simpl; [reflexivity|]. rewrite IH by (injection H; auto). reflexivity. Qed.
Lemma combine_rev : forall A B (a : list A) (b : list B), length a = length b -> combine (rev a) (rev b) = rev (combine a b).
Proof.
  intros A B a. induction a as [|x t IH]; intros [|y b] H; try discriminate; simpl; [reflexivity|]. injection H as H.
  rewrite combine_app by (rewrite !rev_length; exact H). rewrite IH by exact H. reflexivity.
Qed.
Theorem C39_join : forall a b, built a -> built b -> exists c, id_add a b = Ok c /\ built c /\
  samples c = samples a ++ samples b /\
  jac_samples (id_jacobian_data c) = jac_samples (id_jacobian_data a) ++ jac_samples (id_jacobian_data b).
Proof.
  intros a b Ha Hb. destruct (C39_built a Ha) as [SA AA], (C39_built b Hb) as [SB AB].
  exists (joined a b). pose proof (id_add_shaped a b SA SB) as H. split; [exact H|]. split; [exact (b_add a b _ Ha Hb H)|].
  destruct AA as (A1 & A2 & _ & _ & _ & _ & _ & _ & A3 & A4 & A5). split.
  - unfold samples, joined. cbn. rewrite (combine_app _ _ (id_params a)) by congruence. rewrite combine_app; [reflexivity|].
    rewrite combine_length. lia.
  - unfold jac_samples, joined. cbn. rewrite (combine_app _ _ (jd_derivs (id_jacobian_data a))) by congruence.
    rewrite (combine_app _ _ (jd_params (id_jacobian_data a))) by (rewrite combine_length; lia).
    rewrite combine_app by (rewrite !combine_length; lia). reflexivity.
Qed.
(** Reversing succeeds, reverses what was recorded, and twice is the identity. *)
Theorem C39_flip : forall a, built a -> exists b, id_flip a = Ok b /\ built b /\ samples b = rev (samples a) /\
  jac_samples (id_jacobian_data b) = rev (jac_samples (id_jacobian_data a)) /\ id_flip b = Ok a.
Proof.
  intros a Ha. destruct (C39_built a Ha) as [SA AA]. eexists. pose proof (id_flip_shaped a SA) as F. split; [exact F|].
  split; [exact (b_flip a _ Ha F)|]. destruct AA as (A1 & A2 & _ & _ & _ & _ & _ & _ & A3 & A4 & A5). split; [|split].
  - unfold samples. cbn. rewrite combine_rev by congruence. apply combine_rev. rewrite combine_length. lia.
  - unfold jac_samples, jd_flip. cbn. rewrite (combine_rev _ _ (jd_derivs _)) by congruence.
    rewrite (combine_rev _ _ (jd_params _)) by (rewrite combine_length; lia). apply combine_rev. rewrite !combine_length. lia.
  - rewrite (id_flip_shaped _ (shaped_flip a _ SA F)). unfold jd_flip. cbn. rewrite !rev_involutive. clear. destruct a as [d p an [m jd jp ja] v1 v2 v3 t1 t2 t3 pr]. cbn. reflexivity.
Qed.
(** Joining is associative: the arrays are equal, and the logs have the same entries under every key. *)
Theorem C39_associative : forall a b c, built a -> built b -> built c ->
  NoDup (dkeys (id_problems a)) -> NoDup (dkeys (id_problems b)) -> NoDup (dkeys (id_problems c)) ->
  exists ab bc l r, id_add a b = Ok ab /\ id_add b c = Ok bc /\ id_add ab c = Ok l /\ id_add a bc = Ok r /\
    same_arrays l r /\ forall k, entries k (id_problems l) = entries k (id_problems r).
Proof.
  intros a b c Ha Hb Hc Na Nb Nc. destruct (C39_built a Ha) as [SA _], (C39_built b Hb) as [SB _], (C39_built c Hc) as [SC _].
  pose proof (shaped_joined a b SA SB) as SAB. pose proof (shaped_joined b c SB SC) as SBC.
  exists (joined a b), (joined b c), (joined (joined a b) c), (joined a (joined b c)).
  assert (NU : forall x y, NoDup (dkeys (p_update y (p_init x)))) by (intros; apply nodup_update, nodup_update; constructor).
  do 4 (split; [apply id_add_shaped; assumption|]). split.
  - unfold same_arrays, joined. cbn. rewrite !app_assoc. repeat split.
  - intro k. unfold joined. cbn. unfold p_init. rewrite !entries_update; auto using nodup_update, NoDup_nil.
    + change (entries k []) with (@nil string). cbn [app]. rewrite ?app_nil_r, ?app_assoc. reflexivity.
    + apply nodup_update, nodup_update. constructor.
    + apply nodup_update, nodup_update. constructor.
Qed.
(** Reversing a join is the join of the reversed parts in the other order. *)
Theorem C39_flip_join : forall a b, built a -> built b -> exists c fa fb l r,
  id_add a b = Ok c /\ id_flip a = Ok fa /\ id_flip b = Ok fb /\ id_flip c = Ok l /\ id_add fb fa = Ok r /\ same_arrays l r.
Proof.
  intros a b Ha Hb. destruct (C39_built a Ha) as [SA _], (C39_built b Hb) as [SB _].
  pose proof (id_flip_shaped a SA) as FA. pose proof (id_flip_shaped b SB) as FB.
  pose proof (shaped_joined a b SA SB) as SAB.
  do 5 eexists. split; [apply id_add_shaped; assumption|]. split; [exact FA|]. split; [exact FB|].
  split; [apply id_flip_shaped, SAB|]. split; [exact (id_add_shaped _ _ (shaped_flip b _ SB FB) (shaped_flip a _ SA FA))|].
  unfold same_arrays, joined, jd_flip. cbn. rewrite !rev_app_distr. repeat split.
Qed.
(** The problem logs do not distribute: under an angle that both have, the order differs. *)
Theorem C39_flip_join_problems_refuted : exists a b c fa fb l r k, built a /\ built b /\
  id_add a b = Ok c /\ id_flip a = Ok fa /\ id_flip b = Ok fb /\ id_flip c = Ok l /\ id_add fb fa = Ok r /\
  entries k (id_problems l) <> entries k (id_problems r).
Proof.
  set (a := id_problem (KOther "0.1") "x" id_new). set (b := id_problem (KOther "0.1") "y" id_new).
  exists a, b, (joined a b), a, b, (joined a b), (joined b a), "0.1".
  split; [apply b_problem, b_new|]. split; [apply b_problem, b_new|].
  do 5 (split; [vm_compute; reflexivity|]). vm_compute. discriminate.
Qed.
Definition row11 : row := repeat 1%R 11.
Example C39_nonvacuous : built (id_record_jacobian 2 row11 row11 (mk_mat (11, 11) (repeat 0%R 121))
  (id_record (mk_rec 1 row11 row11 0 0 0 0 0 0)%R id_new)).
Proof. apply b_jac; [apply b_record; [apply b_new | |]|..]; reflexivity. Qed.

(** ** C40 *)
Definition ic_kw (nk o a h g ic ang a0 : val) : dict val :=
  [("norm_kepler_sq", nk); ("η_O", o); ("η_A", a); ("η_H", h); ("γ", g); ("init_con", ic); ("angles", ang); ("a_0", a0)].
Lemma init_unfold : forall nk o a h g n data ang a0,
  init_conditions (ic_kw nk o a h g (VArr [n] data) ang a0) =
  let! parts := (if Nat.eqb n 8 then
      let! o' := slot o in let! a' := slot a in let! h' := slot h in Ok (VArr [11] (data ++ [o'; a'; h']), (o, a, h))
    else let! o' := check_η o data 8 in let! a' := check_η a data 9 in let! h' := check_η h data 10 in Ok (VArr [n] data, (o', a', h'))) in
  let '(ic, (o, a, h)) := parts in
  Ok (VObj "InitialConditions" [("norm_kepler_sq", nk); ("η_O", o); ("η_A", a); ("η_H", h); ("γ", g); ("init_con", ic); ("angles", ang); ("a_0", a0)]).
Proof. reflexivity. Qed.
Lemma check_η_ok : forall η data i r, check_η η data i = Ok r -> exists x, nth_error data i = Some x /\
  (η = VNone /\ r = VNum x \/ r = η /\ exists y, x = Some y /\ as_num η = Some (Some y)).
Proof.
  intros η data i r H. unfold check_η, item_of in H. destruct (nth_error data i) as [x|]; [|discriminate]. cbn [rbind] in H.
  exists x. split; [reflexivity|].
  destruct η as [|b|z|s|[y|]|sh d|l|w|c fs]; cbn in H; try discriminate; [left; injection H as <-; split; reflexivity|..];
    destruct x as [x|]; try discriminate; destruct (Req_EM_T _ _) as [<-|]; try discriminate; injection H as <-; right; (split; [reflexivity|]);
    eexists; split; reflexivity.
Qed.
(** Whatever arguments succeed, the diffusivities and the vector agree, provided the vector's components are
    numbers where none was given. *)
Theorem C40_consistent_partial : forall nk o a h g n data ang a0 v,
  length data = n -> (forall i x, nth_error data i = Some x -> (8 <= i)%nat -> x <> None) ->
  (n = 8 -> forall η, In η [o; a; h] -> exists y, as_num η = Some (Some y)) ->
  init_conditions (ic_kw nk o a h g (VArr [n] data) ang a0) = Ok v -> consistent v.
Proof.
  intros nk o a h g n data ang a0 v Hn Hx H8 H. rewrite init_unfold in H. destruct (Nat.eqb_spec n 8) as [E|N].
  - destruct (H8 E o) as (y1 & Y1); [simpl; tauto|]. destruct (H8 E a) as (y2 & Y2); [simpl; tauto|]. destruct (H8 E h) as (y3 & Y3); [simpl; tauto|].
    unfold slot in H. rewrite Y1, Y2, Y3 in H. cbn [rbind] in H. injection H as <-.
    exists (data ++ [Some y1; Some y2; Some y3]), 11. split; [reflexivity|].
    assert (NA : forall i, nth_error (data ++ [Some y1; Some y2; Some y3]) (8 + i) = nth_error [Some y1; Some y2; Some y3] i).
    { intro i. rewrite nth_error_app2 by lia. f_equal. lia. }
    intros name i [E1|[E1|[E1|[]]]]; injection E1 as <- <-.
    + exists y1, o. split; [apply (NA 0)|]. split; [reflexivity | exact Y1].
    + exists y2, a. split; [apply (NA 1)|]. split; [reflexivity | exact Y2].
    + exists y3, h. split; [apply (NA 2)|]. split; [reflexivity | exact Y3].
  - destruct (check_η o data 8) as [o'|] eqn:C1; [|discriminate]. destruct (check_η a data 9) as [a'|] eqn:C2; [|discriminate].
    destruct (check_η h data 10) as [h'|] eqn:C3; [|discriminate]. cbn [rbind] in H. injection H as <-.
    exists data, n. split; [reflexivity|].
    assert (G : forall η i r, check_η η data i = Ok r -> (8 <= i)%nat -> exists x, nth_error data i = Some (Some x) /\ as_num r = Some (Some x)).
    { intros η i r C L. destruct (check_η_ok η data i r C) as (x & X1 & X2).
      destruct x as [x|]; [|destruct (Hx i None X1 L eq_refl)]. exists x. split; [exact X1|].
      destruct X2 as [(_ & ->)|(-> & y & Y1 & Y2)]; [reflexivity | injection Y1 as ->; exact Y2]. }
    intros name i [E1|[E1|[E1|[]]]]; injection E1 as <- <-.
    + destruct (G _ _ _ C1) as (x & X1 & X2); [lia|]. exists x, o'. split; [exact X1|]. split; [reflexivity | exact X2].
    + destruct (G _ _ _ C2) as (x & X1 & X2); [lia|]. exists x, a'. split; [exact X1|]. split; [reflexivity | exact X2].
    + destruct (G _ _ _ C3) as (x & X1 & X2); [lia|]. exists x, h'. split; [exact X1|]. split; [reflexivity | exact X2].
Qed.
(** A full vector with a conflicting diffusivity fails. *)
Theorem C40_conflict : forall nk o a h g n data ang a0 x y, n <> 8 -> length data = n ->
  nth_error data 8 = Some (Some x) -> as_num o = Some (Some y) -> x <> y ->
  init_conditions (ic_kw nk o a h g (VArr [n] data) ang a0) = Raise RuntimeError.
Proof.
  intros nk o a h g n data ang a0 x y N Hn H8 Ho Hxy. rewrite init_unfold. destruct (Nat.eqb_spec n 8); [congruence|].
  unfold check_η at 1. unfold item_of. rewrite H8. cbn [rbind].
  destruct o as [|b|z|s|[y0|]|sh d|l|w|c fs]; cbn in Ho; try discriminate; injection Ho as <-; cbn;
    (destruct (Req_EM_T _ _); [congruence | reflexivity]).
Qed.
Theorem C40_conflict_others : forall nk h a o g n data ang a0 x y i name, n <> 8 -> length data = n ->
  In (name, i) [("η_A", 9); ("η_H", 10)] -> nth_error data i = Some (Some x) ->
  as_num (if String.eqb name "η_A" then a else h) = Some (Some y) -> x <> y ->
  exists e, init_conditions (ic_kw nk o a h g (VArr [n] data) ang a0) = Raise e.
Proof.
  intros nk h a o g n data ang a0 x y i name N Hn Hin Hx Hy Hxy. rewrite init_unfold. destruct (Nat.eqb_spec n 8); [congruence|].
  assert (C : forall η, as_num η = Some (Some y) -> check_η η data i = Raise RuntimeError).
  { intros η Hη. unfold check_η, item_of. rewrite Hx. cbn [rbind].
    destruct η as [|b|z|s|[y0|]|sh d|l|w|c fs]; cbn in Hη; try discriminate; injection Hη as <-; cbn; (destruct (Req_EM_T _ _); [congruence | reflexivity]). }
  destruct (check_η o data 8) as [o'|e]; [|exists e; reflexivity]. cbn [rbind].
  destruct Hin as [E|[E|[]]]; injection E as <- <-; cbn [String.eqb Ascii.eqb Bool.eqb] in Hy.
  - rewrite (C a Hy). eexists; reflexivity.
  - destruct (check_η a data 9) as [a'|e]; [|exists e; reflexivity]. cbn [rbind]. rewrite (C h Hy). eexists; reflexivity.
Qed.
(** create_modified with an 11-component vector takes the diffusivities from it. *)
Theorem C40_create_modified : forall nk o a h g ic ang a0 data ang' n, n <> 8 -> (11 <= length data)%nat ->
  (forall i x, nth_error data i = Some x -> x <> None) -> length data = n ->
  exists v, create_modified (VArr [n] data) ang' (VObj "InitialConditions" (ic_kw nk o a h g ic ang a0)) = Ok v /\ consistent v /\
    getattr "init_con" v = Ok (VArr [n] data) /\ getattr "angles" v = Ok ang' /\ getattr "γ" v = Ok g /\
    getattr "norm_kepler_sq" v = Ok nk /\ getattr "a_0" v = Ok a0.
Proof.
  intros nk o a h g ic ang a0 data ang' n N HL Hx Hn.
  assert (E : create_modified (VArr [n] data) ang' (VObj "InitialConditions" (ic_kw nk o a h g ic ang a0))
    = init_conditions (ic_kw nk VNone VNone VNone g (VArr [n] data) ang' a0)) by reflexivity.
  rewrite E. rewrite init_unfold. destruct (Nat.eqb_spec n 8); [congruence|].
  assert (G : forall i, (i <= 10)%nat -> exists x, nth_error data i = Some (Some x)).
  { intros i Hi. destruct (nth_error data i) as [[x|]|] eqn:D; [exists x; reflexivity | destruct (Hx i None D eq_refl) | apply nth_error_None in D; lia]. }
  destruct (G 8) as (x & X); [lia|]. destruct (G 9) as (y & Y); [lia|]. destruct (G 10) as (z & Z); [lia|].
  unfold check_η, item_of. rewrite X, Y, Z. cbn [rbind]. eexists. split; [reflexivity|]. split; [|repeat split].
  exists data, n. split; [reflexivity|]. intros name i [E1|[E1|[E1|[]]]]; injection E1 as <- <-.
  - exists x, (VNum (Some x)). split; [exact X | split; reflexivity].
  - exists y, (VNum (Some y)). split; [exact Y | split; reflexivity].
  - exists z, (VNum (Some z)). split; [exact Z | split; reflexivity].
Qed.
(** The state need not have 11 components, and a short one without diffusivities gives NaN with attributes None. *)
Theorem C40_size_refuted : exists kw v data, init_conditions kw = Ok v /\ getattr "init_con" v = Ok (VArr [12] data) /\ length data = 12.
Proof.
  exists (ic_kw (VInt 1) VNone VNone VNone (VInt 0) (VArr [12] (repeat (Some 0%R) 12)) VNone (VInt 1)). do 2 eexists.
  split; [reflexivity|]. split; reflexivity.
Qed.
Theorem C40_short_refuted : exists kw v data, init_conditions kw = Ok v /\ getattr "η_O" v = Ok VNone /\
  getattr "init_con" v = Ok (VArr [11] data) /\ nth_error data 8 = Some None.
Proof.
  exists (ic_kw (VInt 1) VNone VNone VNone (VInt 0) (VArr [8] (repeat (Some 0%R) 8)) VNone (VInt 1)). do 2 eexists.
  split; [reflexivity|]. repeat split.
Qed.
Example C40_nonvacuous : exists v, init_conditions (ic_kw (VInt 1) (VInt 2) (VInt 3) (VInt 4) (VInt 0) (VArr [8] (repeat (Some 0%R) 8)) VNone (VInt 1)) = Ok v.
Proof. eexists; reflexivity. Qed.
