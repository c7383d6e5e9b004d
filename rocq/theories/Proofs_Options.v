(** Lemmas about the modelled argparse and keyword calls. *)
From Coq Require Import String List Bool ZArith Reals Lia.
From Verif Require Import Lib_Py Model_Options Spec_Options.
Import ListNotations.
Open Scope string_scope. Open Scope list_scope.

Lemma dget_dset : forall {V} k k' (v : V) d, dget k (dset k' v d) = if String.eqb k k' then Some v else dget k d.
Proof.
  intros V k k' v d. induction d as [|[a x] d IH]; cbn.
  - destruct (String.eqb k k'); reflexivity.
  - destruct (String.eqb_spec k' a) as [->|Hne].
    + cbn. destruct (String.eqb k a); reflexivity.
    + cbn. destruct (String.eqb_spec k a) as [->|Hka].
      * destruct (String.eqb_spec a k') as [->|]; [congruence|reflexivity].
      * exact IH.
Qed.

(** First default of the options stored under [k]. *)
Fixpoint first_default (rd : readers) (opts : list opt) (k : string) : option value :=
  match opts with
  | [] => None
  | o :: t => if String.eqb k (o_dest o) then match default_value rd o with Some v => Some v | None => first_default rd t k end
              else first_default rd t k
  end.

Lemma dget_defaults : forall rd opts ns k,
  dget k (defaults rd opts ns) = match dget k ns with Some v => Some v | None => first_default rd opts k end.
Proof.
  intros rd opts. induction opts as [|o opts IH]; intros ns k; cbn.
  - destruct (dget k ns); reflexivity.
  - rewrite IH. unfold dmem. destruct (default_value rd o) as [v|] eqn:Hd.
    + destruct (dget (o_dest o) ns) as [w|] eqn:Hw.
      * destruct (String.eqb_spec k (o_dest o)) as [->|]; [rewrite Hw; reflexivity|reflexivity].
      * rewrite dget_dset. destruct (String.eqb_spec k (o_dest o)) as [->|]; [rewrite Hw; reflexivity|reflexivity].
    + destruct (String.eqb k (o_dest o)); reflexivity.
Qed.

(** The value under [k] after the occurrences. *)
Definition step (rd : readers) (opts : list opt) (k : string) (acc : option value) (g : string * list string) : option value :=
  match find_opt (fst g) opts with
  | Some o => if String.eqb k (o_dest o) then stored rd (o_action o) acc (snd g) else acc
  | None => acc
  end.

Definition taken (rd : readers) (opts : list opt) (g : string * list string) : Prop :=
  exists o, find_opt (fst g) opts = Some o /\ forall acc, stored rd (o_action o) acc (snd g) <> None.

Lemma stored_some : forall rd a acc acc' l, stored rd a acc l <> None -> stored rd a acc' l <> None.
Proof.
  intros rd a acc acc' l. destruct a, l as [|s [|t [|u l]]]; cbn; try congruence; try exact (fun H => H).
Qed.

Lemma take_options_some : forall rd opts given ns r,
  take_options rd opts given ns = Some r ->
  Forall (taken rd opts) given /\ forall k, dget k r = fold_left (step rd opts k) given (dget k ns).
Proof.
  intros rd opts given. induction given as [|[f texts] given IH]; intros ns r H; cbn in H.
  - injection H as <-. split; [constructor|reflexivity].
  - destruct (find_opt f opts) as [o|] eqn:Hf; [|discriminate].
    destruct (stored rd (o_action o) (dget (o_dest o) ns) texts) as [v|] eqn:Hs; [|discriminate].
    destruct (IH _ _ H) as [Hall Hk]. split.
    + constructor; [|exact Hall]. exists o. split; [exact Hf|]. intro acc. cbn.
      apply stored_some with (acc := dget (o_dest o) ns). rewrite Hs. discriminate.
    + intro k. rewrite Hk. cbn [fold_left]. f_equal. rewrite dget_dset. unfold step. cbn [fst snd]. rewrite Hf.
      destruct (String.eqb_spec k (o_dest o)) as [->|]; [symmetry; exact Hs|reflexivity].
Qed.

Lemma take_options_ok : forall rd opts given ns, Forall (taken rd opts) given -> exists r, take_options rd opts given ns = Some r.
Proof.
  intros rd opts given. induction given as [|[f texts] given IH]; intros ns H; cbn.
  - eexists; reflexivity.
  - inversion H as [|? ? [o [Hf Hs]] Hrest]; subst. cbn in Hf, Hs. rewrite Hf.
    destruct (stored rd (o_action o) (dget (o_dest o) ns) texts) as [v|] eqn:E; [|exfalso; exact (Hs _ E)].
    apply IH. exact Hrest.
Qed.

(** ** A table row describes the options stored under one name *)

Definition meaning_of (a : action) : option meaning :=
  match a with
  | Flag b => Some (Switch b)
  | One Text => Some AText | One Number => Some ANumber | One Whole => Some AnInteger | One NumberOrNone => Some ALooseNumber
  | One (Choice l) => Some (OneOf l)
  | Two Text => Some TwoTexts | Two NumberOrNone => Some TwoLooseNumbers
  | _ => None
  end.

Lemma existsb_in : forall s l, existsb (String.eqb s) l = true <-> In s l.
Proof.
  intros s l. rewrite existsb_exists. split.
  - intros [x [Hin Heq]]. apply String.eqb_eq in Heq. subst. exact Hin.
  - intro H. exists s. split; [exact H|apply String.eqb_refl].
Qed.

Lemma read_stored : forall rd a m acc l, meaning_of a = Some m -> stored rd a acc l = read rd m l.
Proof.
  intros rd a m acc l H.
  destruct a as [b|c|c|]; try destruct c; cbn in H; try discriminate; injection H as <-;
    destruct l as [|s [|t [|u l]]]; cbn; try reflexivity.
  destruct (in_dec string_dec s l0) as [Hi|Hi].
  - apply existsb_in in Hi. rewrite Hi. reflexivity.
  - destruct (existsb (String.eqb s) l0) eqn:E; [|reflexivity]. apply existsb_in in E. contradiction.
Qed.

Definition meaning_eq_dec : forall a b : meaning, {a = b} + {a <> b}.
Proof. repeat decide equality. Defined.
Definition is_meaning (o : option meaning) (m : option meaning) : bool :=
  match o, m with Some a, Some b => if meaning_eq_dec a b then true else false | _, _ => false end.

(** The row [d] describes exactly the options stored under [k]. *)
Definition describes (opts : list opt) (k : string) (d : doc) : bool :=
  forallb (fun o => if String.eqb k (o_dest o) then is_meaning (meaning_of (o_action o)) (dget (o_flag o) (doc_flags d))
                    else negb (dmem (o_flag o) (doc_flags d))) opts
  && forallb (fun p => match find_opt (fst p) opts with Some o => String.eqb k (o_dest o) | None => false end) (doc_flags d).

Lemma find_opt_in : forall f opts o, find_opt f opts = Some o -> In o opts /\ o_flag o = f.
Proof.
  intros f opts. induction opts as [|p opts IH]; cbn; intros o H; [discriminate|].
  destruct (String.eqb_spec f (o_flag p)) as [->|].
  - injection H as ->. auto.
  - destruct (IH _ H). auto.
Qed.

Lemma dget_in : forall {V} f (d : list (string * V)) m, dget f d = Some m -> In (f, m) d.
Proof.
  intros V f d. induction d as [|[a b] l IH]; cbn; intros m Hg; [discriminate|].
  destruct (String.eqb_spec f a) as [->|]; [injection Hg as ->; left; reflexivity|right; exact (IH _ Hg)].
Qed.

Lemma is_meaning_eq : forall a b, is_meaning a b = true -> exists m, a = Some m /\ b = Some m.
Proof.
  intros [a|] [b|] H; unfold is_meaning in H; try discriminate. destruct (meaning_eq_dec a b) as [->|]; [|discriminate].
  exists b. auto.
Qed.

Lemma dmem_existsb : forall {V} f (d : list (string * V)), dmem f d = existsb (String.eqb f) (map fst d).
Proof.
  intros V f d. unfold dmem. induction d as [|[k v] d IH]; cbn; [reflexivity|].
  destruct (String.eqb f k); cbn; [reflexivity|exact IH].
Qed.

Lemma step_row : forall rd opts k d, describes opts k d = true -> forall g acc,
  step rd opts k acc g =
  match dget (fst g) (doc_flags d) with Some m => read rd m (snd g) | None => acc end.
Proof.
  intros rd opts k d Hd g acc. unfold describes in Hd. apply andb_prop in Hd. destruct Hd as [H1 H2].
  rewrite forallb_forall in H1, H2. unfold step.
  destruct (find_opt (fst g) opts) as [o|] eqn:Hf.
  - destruct (find_opt_in _ _ _ Hf) as [Hin Hfl]. specialize (H1 o Hin). rewrite Hfl in H1.
    destruct (String.eqb k (o_dest o)).
    + apply is_meaning_eq in H1. destruct H1 as [m [Ha Hm]]. rewrite Hm. apply read_stored. exact Ha.
    + unfold dmem in H1. destruct (dget (fst g) (doc_flags d)); [discriminate|reflexivity].
  - destruct (dget (fst g) (doc_flags d)) as [m|] eqn:Hg; [|reflexivity].
    exfalso. pose proof (dget_in _ _ _ Hg) as Hin.
    specialize (H2 _ Hin). cbn in H2. rewrite Hf in H2. discriminate.
Qed.

(** Folding the occurrences gives what the row says. *)
Lemma fold_asked : forall rd opts k d given init, describes opts k d = true -> Forall (taken rd opts) given ->
  fold_left (step rd opts k) given init =
  match last_given d given with Some _ => Some (asked rd d given) | None => init end.
Proof.
  intros rd opts k d given init Hd. induction given as [|g given IH] using rev_ind; intro Hall.
  - reflexivity.
  - apply Forall_app in Hall. destruct Hall as [Hall Hg]. inversion Hg as [|? ? Htaken _]; subst.
    rewrite fold_left_app. cbn [fold_left]. rewrite (step_row rd opts k d Hd).
    unfold asked, last_given. rewrite rev_app_distr. cbn [rev app find].
    rewrite <- dmem_existsb. unfold dmem.
    destruct (dget (fst g) (doc_flags d)) as [m|] eqn:Hm.
    + destruct g as [f texts]. cbn [fst snd] in *. rewrite Hm.
      destruct Htaken as [o [Hf Hs]]. cbn [fst snd] in *.
      pose proof (step_row rd opts k d Hd (f, texts) None) as Hst. unfold step in Hst. cbn [fst snd] in Hst.
      rewrite Hf, Hm in Hst.
      destruct (String.eqb k (o_dest o)) eqn:Ek.
      * destruct (read rd m texts) as [v|] eqn:Er; [reflexivity|]. exfalso. exact (Hs _ Hst).
      * exfalso. unfold describes in Hd. apply andb_prop in Hd. destruct Hd as [H1 _]. rewrite forallb_forall in H1.
        destruct (find_opt_in _ _ _ Hf) as [Hin Hfl]. specialize (H1 o Hin). rewrite Ek, Hfl in H1. unfold dmem in H1.
        rewrite Hm in H1. discriminate.
    + rewrite (IH Hall). reflexivity.
Qed.

(** ** Positionals *)

Lemma take_positionals_other : forall rd ps texts ns r k, take_positionals rd ps texts ns = Some r ->
  dmem k ps = false -> dget k r = dget k ns.
Proof.
  intros rd ps. induction ps as [|[p c] ps IH]; intros [|s texts] ns r k H Hk; cbn in H; try discriminate.
  - injection H as <-. reflexivity.
  - destruct (convert rd c s) as [v|]; [|discriminate]. unfold dmem in Hk. cbn in Hk.
    destruct (String.eqb_spec k p) as [->|Hne]; [discriminate|].
    rewrite (IH _ _ _ k H). 2:{ unfold dmem. exact Hk. }
    rewrite dget_dset. destruct (String.eqb_spec k p); [contradiction|reflexivity].
Qed.

(** ** Usage *)

Lemma conflict_spec : forall group given, conflict group given = false <-> not_mixed group given.
Proof.
  intros group given. unfold conflict, not_mixed. split.
  - intros H f g Hf Hg Hif Hig. destruct (String.eqb_spec f g) as [|Hne]; [assumption|]. exfalso.
    apply not_true_iff_false in H. apply H. apply existsb_exists. exists f. split; [exact Hf|].
    apply andb_true_intro. split; [|apply existsb_in; exact Hif].
    apply existsb_exists. exists g. split; [exact Hg|]. apply andb_true_intro. split.
    + apply negb_true_iff. apply String.eqb_neq. exact Hne.
    + apply existsb_in. exact Hig.
  - intro H. apply not_true_iff_false. intro E. apply existsb_exists in E. destruct E as [f [Hf E]].
    apply andb_prop in E. destruct E as [E Hif]. apply existsb_exists in E. destruct E as [g [Hg E]].
    apply andb_prop in E. destruct E as [Hne Hig]. apply existsb_in in Hif, Hig.
    apply negb_true_iff, String.eqb_neq in Hne. apply Hne. exact (H f g Hf Hg Hif Hig).
Qed.

(** The rows [docs] are the options of the parser. *)
Definition tabulates (opts : list opt) (docs : list doc) : bool :=
  forallb (fun o => existsb (fun d => is_meaning (meaning_of (o_action o)) (dget (o_flag o) (doc_flags d))) docs) opts
  && forallb (fun d => forallb (fun p => match find_opt (fst p) opts with
                                         | Some o => is_meaning (meaning_of (o_action o)) (dget (fst p) (doc_flags d))
                                         | None => false end) (doc_flags d)) docs.

Lemma taken_allowed : forall rd opts docs, tabulates opts docs = true -> forall g, taken rd opts g <-> allowed rd docs g.
Proof.
  intros rd opts docs H g. unfold tabulates in H. apply andb_prop in H. destruct H as [H1 H2].
  rewrite forallb_forall in H1, H2. split.
  - intros [o [Hf Hs]]. destruct (find_opt_in _ _ _ Hf) as [Hin Hfl]. specialize (H1 o Hin).
    apply existsb_exists in H1. destruct H1 as [d [Hd Hm]]. apply is_meaning_eq in Hm. destruct Hm as [m [Ha Hm]].
    exists d, m. rewrite Hfl in Hm. split; [exact Hd|]. split; [exact Hm|]. rewrite <- (read_stored rd _ _ None _ Ha). apply Hs.
  - intros [d [m [Hd [Hm Hr]]]]. specialize (H2 d Hd). rewrite forallb_forall in H2.
    specialize (H2 _ (dget_in _ _ _ Hm)). cbn in H2. destruct (find_opt (fst g) opts) as [o|] eqn:Hf; [|discriminate].
    apply is_meaning_eq in H2. destruct H2 as [m' [Ha Hb]]. rewrite Hm in Hb. injection Hb as <-.
    exists o. split; [exact Hf|]. intro acc. rewrite (read_stored rd _ _ acc _ Ha). exact Hr.
Qed.
