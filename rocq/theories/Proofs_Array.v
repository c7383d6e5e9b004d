(** Lemmas about the array helpers. *)
From Coq Require Import Reals List Bool Arith Lra Lia.
From Verif Require Import Model_Array.
Import ListNotations.
Open Scope R_scope.

Lemma Rltb_true : forall x y, Rltb x y = true <-> x < y.
Proof. intros; unfold Rltb; destruct (Rlt_dec x y); intuition; discriminate. Qed.
Lemma Rltb_false : forall x y, Rltb x y = false <-> y <= x.
Proof. intros; unfold Rltb; destruct (Rlt_dec x y); split; intro H; try discriminate; try reflexivity; lra. Qed.
Lemma Rleb_true : forall x y, Rleb x y = true <-> x <= y.
Proof. intros; unfold Rleb; destruct (Rle_dec x y); intuition; discriminate. Qed.
Lemma Rleb_false : forall x y, Rleb x y = false <-> y < x.
Proof. intros; unfold Rleb; destruct (Rle_dec x y); split; intro H; try discriminate; try reflexivity; lra. Qed.
Lemma Reqb_true : forall x y, Reqb x y = true <-> x = y.
Proof. intros; unfold Reqb; destruct (Req_EM_T x y); intuition; discriminate. Qed.
Lemma Reqb_false : forall x y, Reqb x y = false <-> x <> y.
Proof. intros; unfold Reqb; destruct (Req_EM_T x y); intuition; discriminate. Qed.

Lemma existsb_false : forall A (f : A -> bool) l, existsb f l = false <-> forall x, In x l -> f x = false.
Proof.
  intros A f l. split.
  - intros H x Hx. destruct (f x) eqn:E; [|reflexivity].
    assert (K : existsb f l = true) by (apply existsb_exists; exists x; auto). congruence.
  - intro H. destruct (existsb f l) eqn:E; [|reflexivity]. apply existsb_exists in E.
    destruct E as (x & Hx & Hf). rewrite H in Hf by exact Hx. discriminate.
Qed.

(** Differences and monotonicity. *)
Lemma diff_cons2 : forall a b t, diff (a :: b :: t) = nsub b a :: diff (b :: t).
Proof. reflexivity. Qed.
Lemma diff_nonneg_iff : forall v : list R,
  existsb (fun d => nlt d (Some 0)) (diff (map Some v)) = false <->
  (forall i j, (i <= j < length v)%nat -> nth i v 0 <= nth j v 0).
Proof.
  induction v as [|a [|b t] IH].
  - split; [intros _ i j H; simpl in H; lia | reflexivity].
  - split; [|reflexivity]. intros _ i j H. simpl in H. assert (i = 0%nat) by lia. assert (j = 0%nat) by lia. subst. lra.
  - change (map Some (a :: b :: t)) with (Some a :: Some b :: map Some t). rewrite diff_cons2.
    simpl existsb. change (Some b :: map Some t) with (map Some (b :: t)).
    rewrite orb_false_iff, IH. clear IH. split.
    + intros [H1 H2] i j Hij. cbn in H1. apply Rltb_false in H1.
      destruct i as [|i]; destruct j as [|j]; try lia.
      * lra.
      * simpl nth at 1. apply Rle_trans with b; [lra|]. apply (H2 0%nat j). simpl in *. lia.
      * apply (H2 i j). simpl in *. lia.
    + intro H. split.
      * cbn. apply Rltb_false. specialize (H 0%nat 1%nat). simpl in H. assert (a <= b) by (apply H; lia). lra.
      * intros i j Hij. apply (H (S i) (S j)). simpl in *. lia.
Qed.
Lemma nonneg_iff : forall v : list R, existsb (fun x => nlt x (Some 0)) (map Some v) = false <-> Forall (fun x => 0 <= x) v.
Proof.
  intro v. rewrite existsb_false, Forall_forall. split; intros H x Hx.
  - specialize (H (Some x) (in_map Some v x Hx)). cbn in H. apply Rltb_false in H. exact H.
  - apply in_map_iff in Hx. destruct Hx as (y & <- & Hy). cbn. apply Rltb_false. apply H, Hy.
Qed.

(** A sorted list splits around an interval. *)
Lemma nondec_tail : forall a v, (forall i j, (i <= j < length (a :: v))%nat -> nth i (a :: v) 0 <= nth j (a :: v) 0) ->
  (forall i j, (i <= j < length v)%nat -> nth i v 0 <= nth j v 0) /\ (forall x, In x v -> a <= x).
Proof.
  intros a v H. split.
  - intros i j Hij. apply (H (S i) (S j)). simpl; lia.
  - intros x Hx. apply In_nth with (d := 0) in Hx. destruct Hx as (n & Hn & <-).
    apply (H 0%nat (S n)). simpl; lia.
Qed.
Lemma split_sorted : forall (lo hi : R) v, lo < hi ->
  (forall i j, (i <= j < length v)%nat -> nth i v 0 <= nth j v 0) ->
  exists pre post, v = pre ++ filter (fun x => Rltb lo x && Rltb x hi) v ++ post /\
    Forall (fun x => x <= lo) pre /\ Forall (fun x => hi <= x) post.
Proof.
  intros lo hi v Hlh. induction v as [|a v IH]; intro H.
  - exists [], []. auto.
  - destruct (nondec_tail a v H) as [H1 H2]. destruct (IH H1) as (pre & post & E & Hp & Hq).
    destruct (Rle_or_lt a lo) as [Hlo|Hlo].
    + exists (a :: pre), post. simpl. replace (Rltb lo a) with false by (symmetry; apply Rltb_false; lra). simpl.
      rewrite E at 1. split; [reflexivity|]. split; [constructor; assumption | assumption].
    + assert (Ep : pre = []).
      { destruct pre as [|q pre]; [reflexivity|]. inversion Hp; subst.
        assert (a <= q) by (apply H2; rewrite E; left; reflexivity). lra. }
      subst pre. simpl in E. destruct (Rlt_or_le a hi) as [Hhi|Hhi].
      * exists [], post. simpl. replace (Rltb lo a) with true by (symmetry; apply Rltb_true; lra).
        replace (Rltb a hi) with true by (symmetry; apply Rltb_true; lra). simpl. rewrite <- E. auto.
      * exists [], (a :: v). simpl. replace (Rltb a hi) with false by (symmetry; apply Rltb_false; lra).
        rewrite andb_false_r.
        assert (Ef : filter (fun x => Rltb lo x && Rltb x hi) v = []).
        { assert (K : forall l, (forall x, In x l -> a <= x) -> filter (fun x => Rltb lo x && Rltb x hi) l = []).
          { clear -Hhi. induction l as [|b l IH]; intro K; [reflexivity|]. simpl.
            assert (a <= b) by (apply K; left; reflexivity).
            replace (Rltb b hi) with false by (symmetry; apply Rltb_false; lra).
            rewrite andb_false_r. apply IH. intros x Hx. apply K; right; exact Hx. }
          apply K, H2. }
        rewrite Ef. simpl. split; [reflexivity|]. split; [constructor|]. constructor; [assumption|].
        apply Forall_forall. intros x Hx. specialize (H2 x Hx). lra.
Qed.
Lemma filter_near_map : forall c v, filter (near_sonic c) (map Some v) = map Some (filter (fun x => Rltb c x && Rltb x 1) v).
Proof.
  intros c v. induction v as [|a v IH]; [reflexivity|]. simpl. unfold near_sonic at 1. cbn.
  destruct (Rltb c a && Rltb a 1); simpl; rewrite IH; reflexivity.
Qed.
(** Second differences. *)
Lemma diff2_iff : forall v : list R,
  existsb (fun d => nlt (Some 0) d) (diff (diff (map Some v))) = false <->
  (forall k, (k + 2 < length v)%nat -> nth (k + 2) v 0 - nth (k + 1) v 0 <= nth (k + 1) v 0 - nth k v 0).
Proof.
  induction v as [|a [|b [|c t]] IH].
  - split; [intros _ k H; simpl in H; lia | reflexivity].
  - split; [intros _ k H; simpl in H; lia | reflexivity].
  - split; [intros _ k H; simpl in H; lia | reflexivity].
  - change (diff (map Some (a :: b :: c :: t))) with (Some (b - a) :: diff (map Some (b :: c :: t))).
    change (diff (map Some (b :: c :: t))) with (Some (c - b) :: diff (map Some (c :: t))) in *.
    rewrite diff_cons2. simpl existsb. cbn [nsub].
    rewrite orb_false_iff. fold (existsb (fun d => nlt (Some 0) d)).
    change (existsb (fun d : num => nlt (Some 0) d) (diff (Some (c - b) :: diff (map Some (c :: t)))) = false)
      with (existsb (fun d => nlt (Some 0) d) (diff (Some (c - b) :: diff (map Some (c :: t)))) = false).
    rewrite IH. split.
    + intros [H1 H2] k Hk. cbn in H1. apply Rltb_false in H1. destruct k as [|k].
      * simpl. lra.
      * apply (H2 k). simpl in *. lia.
    + intro H. split.
      * cbn. apply Rltb_false. specialize (H 0%nat). simpl in H. assert (c - b <= b - a) by (apply H; lia). lra.
      * intros k Hk. apply (H (S k)). simpl in *. lia.
Qed.

(** First index. *)
Lemma find_index_some : forall A (f : A -> bool) l i, find_index f l = Some i ->
  exists x, nth_error l i = Some x /\ f x = true /\ forall j y, (j < i)%nat -> nth_error l j = Some y -> f y = false.
Proof.
  intros A f l. induction l as [|a l IH]; intros i H; [discriminate|]. simpl in H.
  destruct (f a) eqn:E.
  - injection H as <-. exists a. split; [reflexivity|]. split; [exact E|]. intros; lia.
  - destruct (find_index f l) as [k|] eqn:Ek; [|discriminate]. injection H as <-.
    destruct (IH k eq_refl) as (x & H1 & H2 & H3). exists x. split; [exact H1|]. split; [exact H2|].
    intros [|j] y Hj Hy; [injection Hy as <-; exact E|]. apply (H3 j y); [lia | exact Hy].
Qed.
Lemma find_index_none : forall A (f : A -> bool) l, find_index f l = None -> forall x, In x l -> f x = false.
Proof.
  intros A f l. induction l as [|a l IH]; intros H x Hx; [destruct Hx|]. simpl in H.
  destruct (f a) eqn:E; [discriminate|]. destruct (find_index f l); [discriminate|].
  destruct Hx as [<-|Hx]; [exact E | apply IH; auto].
Qed.
Lemma find_index_exists : forall A (f : A -> bool) l, existsb f l = true -> exists i, find_index f l = Some i.
Proof.
  intros A f l. induction l as [|a l IH]; intro H; [discriminate|]. simpl in *.
  destruct (f a); [eexists; reflexivity|]. destruct (IH H) as [i ->]. eexists; reflexivity.
Qed.
Lemma argmin_prefix : forall k x0 t, argmin_isnan (repeat None k ++ Some x0 :: t) = Ret k.
Proof.
  intros k x0 t. unfold argmin_isnan.
  assert (E : find_index (fun x => negb (is_nan x)) (repeat None k ++ Some x0 :: t) = Some k).
  { induction k as [|k IH]; [reflexivity|]. simpl. rewrite IH. reflexivity. }
  rewrite E. destruct k; reflexivity.
Qed.
Lemma nth_prefix : forall k (x0 : R) t, nth k (repeat None k ++ Some x0 :: t) None = Some x0.
Proof. induction k; intros; [reflexivity | apply IHk]. Qed.
Lemma argmin_all_nan : forall k, find_index (fun x => negb (is_nan x)) (repeat None k) = None.
Proof. induction k; [reflexivity|]. simpl. rewrite IHk. reflexivity. Qed.

(** searchsorted. *)
Lemma searchsorted_spec : forall xs x,
  (searchsorted xs x <= length xs)%nat /\
  (forall j, (j < searchsorted xs x)%nat -> nth j xs 0 < x) /\
  ((searchsorted xs x < length xs)%nat -> x <= nth (searchsorted xs x) xs 0).
Proof.
  induction xs as [|a xs IH]; intro x; simpl.
  - split; [lia|]. split; intros; lia.
  - destruct (Rltb a x) eqn:E.
    + apply Rltb_true in E. destruct (IH x) as (H1 & H2 & H3). split; [lia|]. split.
      * intros [|j] Hj; [exact E | apply H2; lia].
      * intro H. apply H3. lia.
    + apply Rltb_false in E. split; [lia|]. split; [intros; lia | intros; exact E].
Qed.

(** Dictionaries of lists. *)
Definition keys_of (d : list (R * list R)) := map fst d.
Definition first_occurrences (l : list R) : list R := rev (nodup Req_EM_T (rev l)).
Lemma first_occ_snoc : forall l a, first_occurrences (l ++ [a]) =
  if in_dec Req_EM_T a l then first_occurrences l else first_occurrences l ++ [a].
Proof.
  intros l a. unfold first_occurrences. rewrite rev_app_distr. simpl.
  destruct (in_dec Req_EM_T a (rev l)) as [H|H].
  - destruct (in_dec Req_EM_T a l) as [_|N]; [reflexivity|]. exfalso. apply N. apply in_rev. exact H.
  - destruct (in_dec Req_EM_T a l) as [Y|_].
    + exfalso. apply H. apply in_rev in Y. exact Y.
    + reflexivity.
Qed.
Lemma dict_append_keys : forall k v d, keys_of (dict_append k v d) =
  if in_dec Req_EM_T k (keys_of d) then keys_of d else keys_of d ++ [k].
Proof.
  intros k v d. induction d as [|[k' l] d IH]; [reflexivity|]. cbn [dict_append keys_of map fst].
  destruct (Reqb k k') eqn:E.
  - apply Reqb_true in E. subst k'. destruct (in_dec Req_EM_T k (k :: map fst d)) as [_|N]; [reflexivity|].
    exfalso; apply N; left; reflexivity.
  - apply Reqb_false in E. change (map fst (dict_append k v d)) with (keys_of (dict_append k v d)). cbn [map fst].
    change (map fst (dict_append k v d)) with (keys_of (dict_append k v d)). rewrite IH.
    destruct (in_dec Req_EM_T k (keys_of d)) as [Y|N].
    + destruct (in_dec Req_EM_T k (k' :: map fst d)) as [_|N']; [reflexivity|]. exfalso; apply N'; right; exact Y.
    + destruct (in_dec Req_EM_T k (k' :: map fst d)) as [[Y|Y]|_]; [congruence | contradiction | reflexivity].
Qed.
Definition vals_for (k : R) (p : list (R * R)) : list R :=
  map snd (filter (fun q => Reqb k (fst q)) p).
Lemma dict_append_vals : forall k v d k' l, NoDup (keys_of d) -> In (k', l) (dict_append k v d) ->
  (k' <> k /\ In (k', l) d) \/
  (k' = k /\ ((exists l0, In (k, l0) d /\ l = l0 ++ [v]) \/ (~ In k (keys_of d) /\ l = [v]))).
Proof.
  intros k v d k' l. induction d as [|[k0 l0] d IH]; intros Hn H.
  - destruct H as [H|[]]. injection H as <- <-. right. split; [reflexivity|]. right. split; [intros []|reflexivity].
  - cbn [dict_append] in H. inversion Hn as [|? ? Hni Hn']; subst. destruct (Reqb k k0) eqn:E.
    + apply Reqb_true in E. subst k0. destruct H as [H|H].
      * injection H as <- <-. right. split; [reflexivity|]. left. exists l0. split; [left; reflexivity | reflexivity].
      * left. split; [|right; exact H]. intro; subst k'. apply Hni. apply (in_map fst) in H. exact H.
    + apply Reqb_false in E. destruct H as [H|H].
      * injection H as <- <-. left. split; [congruence | left; reflexivity].
      * destruct (IH Hn' H) as [[K1 K2]|[K1 [(l1 & K2 & K3)|[K2 K3]]]].
        -- left. split; [exact K1 | right; exact K2].
        -- right. split; [exact K1|]. left. exists l1. split; [right; exact K2 | exact K3].
        -- right. split; [exact K1|]. right. split; [|exact K3]. intros [Y|Y]; [cbn in Y; congruence | contradiction].
Qed.
Lemma dict_fold : forall p,
  let d := fold_left (fun d q => dict_append (fst q) (snd q) d) p [] in
  keys_of d = first_occurrences (map fst p) /\
  NoDup (keys_of d) /\
  forall k l, In (k, l) d -> l = vals_for k p /\ l <> [].
Proof.
  induction p as [|q p IH] using rev_ind.
  - split; [reflexivity|]. split; [constructor|]. intros k l [].
  - cbv zeta in *. rewrite fold_left_app. cbn [fold_left].
    set (d := fold_left (fun d q => dict_append (fst q) (snd q) d) p []) in *.
    destruct IH as (H1 & H2 & H3).
    assert (Hk : keys_of (dict_append (fst q) (snd q) d) = first_occurrences (map fst (p ++ [q]))).
    { rewrite dict_append_keys, map_app. cbn [map]. rewrite first_occ_snoc, <- H1.
      assert (Hiff : In (fst q) (keys_of d) <-> In (fst q) (map fst p)).
      { rewrite H1. unfold first_occurrences. rewrite <- in_rev, nodup_In, <- in_rev. reflexivity. }
      destruct (in_dec Req_EM_T (fst q) (keys_of d)); destruct (in_dec Req_EM_T (fst q) (map fst p)); tauto. }
    split; [exact Hk|]. split.
    { rewrite Hk. unfold first_occurrences. apply NoDup_rev, NoDup_nodup. }
    intros k l Hin. unfold vals_for. rewrite filter_app, map_app. cbn [filter].
    destruct (dict_append_vals _ _ _ _ _ H2 Hin) as [[K1 K2]|[K1 [(l0 & K2 & K3)|[K2 K3]]]].
    + replace (Reqb k (fst q)) with false by (symmetry; apply Reqb_false; exact K1). cbn [map].
      rewrite app_nil_r. apply H3, K2.
    + subst k. replace (Reqb (fst q) (fst q)) with true by (symmetry; apply Reqb_true; reflexivity). cbn [map].
      destruct (H3 _ _ K2) as [E _]. split; [rewrite K3, E; reflexivity|].
      rewrite K3. destruct l0; discriminate.
    + subst k. replace (Reqb (fst q) (fst q)) with true by (symmetry; apply Reqb_true; reflexivity). cbn [map].
      split; [|rewrite K3; discriminate]. rewrite K3.
      assert (E : filter (fun q0 => Reqb (fst q) (fst q0)) p = []).
      { assert (Hn : ~ In (fst q) (map fst p)).
        { intro Y. apply K2. rewrite H1. unfold first_occurrences. rewrite <- in_rev, nodup_In, <- in_rev. exact Y. }
        clear -Hn. induction p as [|a p IH]; [reflexivity|]. cbn [filter].
        destruct (Reqb (fst q) (fst a)) eqn:E; [apply Reqb_true in E; exfalso; apply Hn; left; auto|].
        apply IH. intro Y; apply Hn; right; exact Y. }
      rewrite E. reflexivity.
Qed.
Lemma list_max_in : forall l, l <> [] -> In (list_max l) l.
Proof.
  induction l as [|a [|b l] IH]; intro H; [congruence | left; reflexivity|].
  change (list_max (a :: b :: l)) with (Rmax a (list_max (b :: l))). unfold Rmax.
  destruct (Rle_dec a (list_max (b :: l))); [right; apply IH; discriminate | left; reflexivity].
Qed.
Lemma list_max_ge : forall l x, In x l -> x <= list_max l.
Proof.
  induction l as [|a [|b l] IH]; intros x H; [destruct H | destruct H as [<-|[]]; right; reflexivity|].
  change (list_max (a :: b :: l)) with (Rmax a (list_max (b :: l))). destruct H as [<-|H].
  - apply Rmax_l.
  - eapply Rle_trans; [apply IH, H | apply Rmax_r].
Qed.
Lemma vals_for_in : forall k p v, In v (vals_for k p) <-> In (k, v) p.
Proof.
  intros k p v. unfold vals_for. rewrite in_map_iff. split.
  - intros ([k' v'] & E & H). cbn in E. subst v'. apply filter_In in H. destruct H as [H1 H2]. cbn in H2.
    apply Reqb_true in H2. subst. exact H1.
  - intro H. exists (k, v). split; [reflexivity|]. apply filter_In. split; [exact H|]. apply Reqb_true. reflexivity.
Qed.

(** Interpolation at a crossing. *)
Lemma find_index_app : forall A (f : A -> bool) l1 b l2, (forall x, In x l1 -> f x = false) -> f b = true ->
  find_index f (l1 ++ b :: l2) = Some (length l1).
Proof.
  intros A f l1 b l2 H1 H2. induction l1 as [|a l1 IH]; simpl; [rewrite H2; reflexivity|].
  rewrite (H1 a (or_introl eq_refl)), IH by (intros x Hx; apply H1; right; exact Hx). reflexivity.
Qed.
Lemma existsb_app_mid : forall A (f : A -> bool) l1 b l2, f b = true -> existsb f (l1 ++ b :: l2) = true.
Proof. intros. rewrite existsb_app. simpl. rewrite H. apply orb_true_r. Qed.
Lemma fci_rising : forall l1 b l2 y, l1 <> [] -> (forall x, In x l1 -> x < y) -> y <= b ->
  first_closest_index (map Some (l1 ++ b :: l2)) (Some y) = Ret (Some (length l1)).
Proof.
  intros l1 b l2 y Hne Hlt Hb. destruct l1 as [|x0 l1]; [congruence|].
  unfold first_closest_index. cbn [app map].
  change (Some x0 :: map Some (l1 ++ b :: l2)) with (repeat None 0 ++ Some x0 :: map Some (l1 ++ b :: l2)).
  rewrite argmin_prefix, nth_prefix. cbn [repeat app]. cbn [nlt cmp].
  replace (Rltb x0 y) with true by (symmetry; apply Rltb_true, Hlt; left; reflexivity).
  change (Some x0 :: map Some (l1 ++ b :: l2)) with (map Some ((x0 :: l1) ++ b :: l2)).
  rewrite map_app. change (map Some (b :: l2)) with (Some b :: map Some l2).
  assert (Hf : nle (Some y) (Some b) = true) by (apply Rleb_true; exact Hb).
  rewrite existsb_app_mid by exact Hf. rewrite find_index_app by
    (try exact Hf; intros x Hx; apply in_map_iff in Hx; destruct Hx as (z & <- & Hz); apply Rleb_false, Hlt, Hz).
  rewrite map_length. reflexivity.
Qed.
Lemma fci_falling : forall l1 b l2 y, l1 <> [] -> (forall x, In x l1 -> y < x) -> b <= y ->
  first_closest_index (map Some (l1 ++ b :: l2)) (Some y) = Ret (Some (length l1)).
Proof.
  intros l1 b l2 y Hne Hlt Hb. destruct l1 as [|x0 l1]; [congruence|].
  unfold first_closest_index. cbn [app map].
  change (Some x0 :: map Some (l1 ++ b :: l2)) with (repeat None 0 ++ Some x0 :: map Some (l1 ++ b :: l2)).
  rewrite argmin_prefix, nth_prefix. cbn [repeat app]. cbn [nlt cmp].
  assert (H0 : y < x0) by (apply Hlt; left; reflexivity).
  replace (Rltb x0 y) with false by (symmetry; apply Rltb_false; lra).
  replace (Rltb y x0) with true by (symmetry; apply Rltb_true; lra).
  change (Some x0 :: map Some (l1 ++ b :: l2)) with (map Some ((x0 :: l1) ++ b :: l2)).
  rewrite map_app. change (map Some (b :: l2)) with (Some b :: map Some l2).
  assert (Hf : nle (Some b) (Some y) = true) by (apply Rleb_true; exact Hb).
  rewrite existsb_app_mid with (f := fun z => nle z (Some y)) by exact Hf.
  rewrite find_index_app with (f := fun z => nle z (Some y)) by
    (try exact Hf; intros x Hx; apply in_map_iff in Hx; destruct Hx as (z & <- & Hz); apply Rleb_false, Hlt, Hz).
  rewrite map_length. reflexivity.
Qed.
Lemma skipn_len : forall A (l1 l2 : list A), skipn (length l1) (l1 ++ l2) = l2.
Proof. induction l1; intros; simpl; auto. Qed.
Lemma firstn_skip_len : forall A (l1 l2 : list A) n, pyslice (l1 ++ l2) (length l1) (length l1 + n) = firstn n l2.
Proof. intros. unfold pyslice. rewrite skipn_len. f_equal. lia. Qed.
Lemma all_nums_map : forall l, all_nums (map Some l) = Some l.
Proof. induction l as [|a l IH]; [reflexivity|]. simpl. rewrite IH. reflexivity. Qed.
Lemma nth_len : forall A (l1 : list A) a b l2 d, nth (length l1 + 1) (l1 ++ a :: b :: l2) d = b.
Proof. induction l1; intros; simpl; [reflexivity | apply IHl1]. Qed.
Ltac rdec := repeat match goal with
  | |- context [Rltb ?x ?y] =>
      (replace (Rltb x y) with true by (symmetry; apply Rltb_true; lra)) ||
      (replace (Rltb x y) with false by (symmetry; apply Rltb_false; lra))
  end.
Lemma interp2 : forall a b xa xb y, a < y < b ->
  interp1d [(a, xa); (b, xb)] y = Ret ((xb - xa) / (b - a) * (y - a) + xa).
Proof. intros. unfold interp1d, sort_pts. cbn. rdec. cbn. rdec. cbn. rdec. reflexivity. Qed.
Lemma interp2' : forall a b xa xb y, b < y < a ->
  interp1d [(a, xa); (b, xb)] y = Ret ((xa - xb) / (a - b) * (y - b) + xb).
Proof. intros. unfold interp1d, sort_pts. cbn. rdec. cbn. rdec. cbn. rdec. reflexivity. Qed.
Lemma interp3 : forall a b c xa xb xc y, a < y < b -> b <= c ->
  interp1d [(a, xa); (b, xb); (c, xc)] y = Ret ((xb - xa) / (b - a) * (y - a) + xa).
Proof. intros. unfold interp1d, sort_pts. cbn. rdec. cbn. rdec. cbn. rdec. cbn. rdec. reflexivity. Qed.
Lemma interp3' : forall a b c xa xb xc y, b < y < a -> c < b ->
  interp1d [(a, xa); (b, xb); (c, xc)] y = Ret ((xa - xb) / (a - b) * (y - b) + xb).
Proof. intros. unfold interp1d, sort_pts. cbn. rdec. cbn. rdec. cbn. rdec. cbn. rdec. reflexivity. Qed.
