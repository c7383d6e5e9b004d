(** Lemmas about the run containers. *)
From Coq Require Import String List Bool ZArith Lia Arith FinFun.
From Verif Require Import Lib_Py Model_Run Spec_Run.
Import ListNotations.
Open Scope string_scope. Open Scope list_scope.
Section P.
Context {Sol I : Type}.
Implicit Types (d : solutions Sol) (r : run Sol I).

(** The container after additions. *)
Definition numbered (k0 : nat) (ss : list Sol) : solutions Sol :=
  combine (map str_of_nat (seq k0 (length ss))) ss.
Lemma numbered_keys : forall k0 ss, dkeys (numbered k0 ss) = map str_of_nat (seq k0 (length ss)).
Proof.
  intros k0 ss. unfold dkeys, numbered. revert k0.
  induction ss as [|s t IH]; intro k0; [reflexivity|]. simpl. rewrite IH. reflexivity.
Qed.
Lemma numbered_length : forall k0 ss, length (numbered k0 ss) = length ss.
Proof. intros. unfold numbered. rewrite combine_length, map_length, seq_length. lia. Qed.
Lemma numbered_app : forall k0 a b, numbered k0 (a ++ b) = numbered k0 a ++ numbered (k0 + length a) b.
Proof.
  intros k0 a b. unfold numbered. revert k0. induction a as [|x t IH]; intro k0; simpl.
  - rewrite Nat.add_0_r. reflexivity.
  - rewrite IH. f_equal. f_equal. f_equal. f_equal. f_equal. lia.
Qed.
Lemma str_in_seq : forall m k0 n, In (str_of_nat m) (map str_of_nat (seq k0 n)) <-> k0 <= m < k0 + n.
Proof.
  intros m k0 n. rewrite in_map_iff. split.
  - intros (x & E & H). apply str_of_nat_inj in E. subst. apply in_seq in H. exact H.
  - intro H. exists m. split; [reflexivity | apply in_seq; exact H].
Qed.
Lemma numbered_NoDup : forall k0 ss, NoDup (dkeys (numbered k0 ss)).
Proof.
  intros. rewrite numbered_keys. apply FinFun.Injective_map_NoDup; [intros a b; apply str_of_nat_inj | apply seq_NoDup].
Qed.
Lemma add_numbered : forall ss s, add_solution s (numbered 0 ss) = Ok (str_of_nat (length ss), numbered 0 (ss ++ [s])).
Proof.
  intros ss s. unfold add_solution, get_next_index. rewrite numbered_length.
  assert (N : dget (str_of_nat (length ss)) (numbered 0 ss) = None).
  { apply dget_None_keys. rewrite numbered_keys, str_in_seq. lia. }
  unfold dmem. rewrite N. simpl. rewrite (dset_new _ _ _ N), numbered_app. reflexivity.
Qed.
Lemma add_all_numbered : forall ss pre,
  add_all ss (numbered 0 pre) = Ok (map str_of_nat (seq (length pre) (length ss)), numbered 0 (pre ++ ss)).
Proof.
  induction ss as [|s t IH]; intro pre; simpl.
  - rewrite app_nil_r. reflexivity.
  - rewrite add_numbered. simpl. rewrite IH. simpl. rewrite app_length. simpl.
    rewrite <- app_assoc. simpl. rewrite Nat.add_1_r. reflexivity.
Qed.

(** Sorting by integer value. *)
Lemma int_keys_ok : forall ks l, int_keys ks = Ok l -> map snd l = ks /\ forall z k, In (z, k) l -> py_int k = Some z.
Proof.
  induction ks as [|k t IH]; intros l H; simpl in H.
  - injection H as <-. split; [reflexivity | intros ? ? []].
  - destruct (py_int k) as [z|] eqn:E; [|discriminate].
    destruct (int_keys t) as [l'|] eqn:E2; [|discriminate]. injection H as <-.
    destruct (IH l' eq_refl) as [H1 H2]. split; [simpl; rewrite H1; reflexivity|].
    intros z' k' [H|H]; [injection H as -> ->; exact E | apply H2, H].
Qed.
Lemma int_keys_total : forall ks, (forall k, In k ks -> py_int k <> None) -> exists l, int_keys ks = Ok l.
Proof.
  induction ks as [|k t IH]; intro H; [eexists; reflexivity|]. simpl.
  destruct (py_int k) eqn:E; [|exfalso; apply (H k); [left; reflexivity | exact E]].
  destruct IH as [l Hl]; [intros; apply H; right; assumption|]. rewrite Hl. eexists; reflexivity.
Qed.
Lemma int_keys_fail : forall ks k, In k ks -> py_int k = None -> int_keys ks = Raise ValueError.
Proof.
  induction ks as [|k0 t IH]; intros k HI HN; [destruct HI|]. simpl. destruct (py_int k0) eqn:E; [|reflexivity].
  destruct HI as [->|HI]; [congruence|]. rewrite (IH k HI HN). reflexivity.
Qed.
Lemma insert_key_In : forall p l q, In q (insert_key p l) <-> q = p \/ In q l.
Proof.
  intros p l; induction l as [|a t IH]; intro q; simpl; [intuition congruence|].
  destruct (fst p <? fst a)%Z; simpl; [intuition congruence | rewrite IH; intuition congruence].
Qed.
(** Sorted by integer value. *)
Inductive zsorted : list (Z * string) -> Prop :=
| zs_nil : zsorted []
| zs_cons : forall p l, Forall (fun q => (fst p <= fst q)%Z) l -> zsorted l -> zsorted (p :: l).
Lemma insert_key_sorted : forall p l, zsorted l -> zsorted (insert_key p l).
Proof.
  intros p l H; induction H as [|a t HF HS IH]; simpl.
  - constructor; constructor.
  - destruct (fst p <? fst a)%Z eqn:E.
    + apply Z.ltb_lt in E. constructor; [|constructor; assumption].
      constructor; [lia|]. rewrite Forall_forall in *. intros q Hq. specialize (HF q Hq). lia.
    + apply Z.ltb_ge in E. constructor; [|exact IH].
      rewrite Forall_forall in *. intros q Hq. apply insert_key_In in Hq. destruct Hq as [->|Hq]; [exact E | auto].
Qed.
Lemma sort_spec : forall l acc, zsorted acc ->
  let s := fold_left (fun acc p => insert_key p acc) l acc in
  zsorted s /\ forall q, In q s <-> In q acc \/ In q l.
Proof.
  induction l as [|p t IH]; intros acc H; simpl; [split; [exact H | tauto]|].
  destruct (IH (insert_key p acc) (insert_key_sorted p acc H)) as [H1 H2]. split; [exact H1|].
  intro q. rewrite H2, insert_key_In. intuition congruence.
Qed.
Lemma zsorted_last : forall l q p0, zsorted l -> In q l -> (fst q <= fst (last l p0))%Z /\ In (last l p0) l.
Proof.
  intros l q p0 H; revert q; induction H as [|a t HF HS IH]; intros q Hq; [destruct Hq|].
  destruct t as [|b t'].
  - destruct Hq as [->|[]]. simpl. split; [lia | auto].
  - destruct (IH b (or_introl eq_refl)) as [_ HL]. change (last (a :: b :: t') p0) with (last (b :: t') p0).
    split; [|right; exact HL]. destruct Hq as [->|Hq].
    + rewrite Forall_forall in HF. apply (HF _ HL).
    + apply IH, Hq.
Qed.
Lemma last_map : forall {A B} (f : A -> B) l a, last (map f l) (f a) = f (last l a).
Proof. intros A B f l a; induction l as [|x t IH]; [reflexivity|]. simpl. destruct t; [reflexivity | exact IH]. Qed.
Lemma last_indep : forall {A} (l : list A) a b, l <> [] -> last l a = last l b.
Proof. intros A l a b; induction l as [|x [|y t] IH]; intro H; [congruence | reflexivity|]. apply IH. discriminate. Qed.

(** The last solution has the greatest number. *)
Lemma get_last_spec : forall d s, NoDup (dkeys d) -> get_last_solution d = Ok s ->
  exists k z, dget k d = Some s /\ py_int k = Some z /\
  forall k' s', dget k' d = Some s' -> exists z', py_int k' = Some z' /\ (z' <= z)%Z.
Proof.
  intros d s ND H. unfold get_last_solution, sorted_by_int in H.
  destruct (int_keys (dkeys d)) as [l|] eqn:E; [|discriminate]. simpl in H.
  destruct (int_keys_ok _ _ E) as [H1 H2]. destruct (sort_spec l [] zs_nil) as [H3 H4].
  set (st := fold_left (fun acc p => insert_key p acc) l []) in *. clearbody st.
  destruct st as [|p0 st']; [discriminate|]. set (st := p0 :: st') in *.
  replace (map snd st) with (snd p0 :: map snd st') in H by reflexivity. cbv iota in H.
  change (snd p0 :: map snd st') with (map snd st) in H.
  rewrite (last_indep _ "" (snd p0)) in H by discriminate. rewrite last_map in H.
  destruct (zsorted_last st p0 p0 H3 (or_introl eq_refl)) as [_ HL].
  exists (snd (last st p0)), (fst (last st p0)).
  unfold dgetitem in H. destruct (dget (snd (last st p0)) d) eqn:G; [|discriminate]. injection H as ->.
  split; [reflexivity|]. split.
  { apply H2. rewrite <- surjective_pairing. apply H4 in HL. destruct HL as [[]|HL]. exact HL. }
  intros k' s' Hk'. apply dget_In, (in_map fst) in Hk'. fold (dkeys d) in Hk'. rewrite <- H1 in Hk'.
  apply in_map_iff in Hk'. destruct Hk' as ([z'' k''] & Ek & Hin). simpl in Ek. subst k''.
  exists z''. split; [apply H2, Hin|].
  apply (zsorted_last st (z'', k') p0 H3). apply H4. right. exact Hin.
Qed.
Lemma get_last_total : forall d, NoDup (dkeys d) -> d <> [] -> (forall k, In k (dkeys d) -> py_int k <> None) ->
  exists s, get_last_solution d = Ok s.
Proof.
  intros d ND Hne HK. unfold get_last_solution, sorted_by_int.
  destruct (int_keys_total _ HK) as [l E]. rewrite E. simpl.
  destruct (int_keys_ok _ _ E) as [H1 H2]. destruct (sort_spec l [] zs_nil) as [H3 H4].
  set (st := fold_left (fun acc p => insert_key p acc) l []) in *. clearbody st.
  destruct st as [|p0 st'].
  - exfalso. destruct d as [|[k v] d']; [congruence|]. destruct l as [|q l']; [discriminate H1|].
    apply (proj2 (H4 q)). right. left. reflexivity.
  - set (st := p0 :: st') in *. replace (map snd st) with (snd p0 :: map snd st') by reflexivity. cbv iota.
    change (snd p0 :: map snd st') with (map snd st).
    rewrite (last_indep _ "" (snd p0)) by discriminate. rewrite last_map.
    destruct (zsorted_last st p0 p0 H3 (or_introl eq_refl)) as [_ HL].
    apply H4 in HL. destruct HL as [[]|HL]. apply (in_map snd) in HL. rewrite H1 in HL.
    unfold dgetitem. destruct (dget (snd (last st p0)) d) eqn:G; [eexists; reflexivity|].
    apply dget_None_keys in G. contradiction.
Qed.
Lemma numbered_get : forall ss k0 n, dget (str_of_nat (k0 + n)) (numbered k0 ss) = nth_error ss n.
Proof.
  induction ss as [|s t IH]; intros k0 n; [destruct n; reflexivity|].
  change (numbered k0 (s :: t)) with ((str_of_nat k0, s) :: numbered (S k0) t). cbn [dget].
  destruct (String.eqb_spec (str_of_nat (k0 + n)) (str_of_nat k0)) as [E|E].
  - apply str_of_nat_inj in E. assert (n = 0) by lia. subst. reflexivity.
  - destruct n as [|n]; [exfalso; apply E; f_equal; lia|]. rewrite <- Nat.add_succ_comm. apply IH.
Qed.
Lemma max_list_spec : forall l m, (m <= max_list l m)%Z /\ (forall z, In z l -> (z <= max_list l m)%Z) /\
  (max_list l m = m \/ In (max_list l m) l).
Proof.
  induction l as [|z t IH]; intro m; simpl; [split; [lia | split; [tauto | auto]]|].
  destruct (IH (Z.max m z)) as (H1 & H2 & H3). split; [lia|]. split.
  - intros z' [<-|H]; [lia | apply H2, H].
  - destruct H3 as [H3|H3]; [|auto]. destruct (Z.max_spec m z) as [[_ E]|[_ E]]; rewrite E in *; auto.
Qed.
End P.
