(** Lemmas about texts and field-by-field conversion. *)
From Coq Require Import String List Bool ZArith Ascii Arith Reals Lia.
From Verif Require Import Lib_Py Model_FormatTables Model_Format Model_Run Model_Inputs Spec_Inputs.
Import ListNotations.
Open Scope string_scope. Open Scope list_scope.

(** ** Integers *)
Lemma strip_minus : forall s, all_digits s = true -> strip (String "-" s) = String "-" s.
Proof. intros s H. unfold strip. cbn [lstrip]. change (is_space "-") with false. cbv iota. cbn [rstrip]. rewrite (rstrip_digits _ H). destruct s; reflexivity. Qed.
Lemma py_int_str_Z : forall z, py_int (str_of_Z z) = Some z.
Proof.
  intros [|p|p]; cbn [str_of_Z]; [reflexivity | rewrite py_int_str; f_equal; lia |].
  pose proof (py_int_str (Pos.to_nat p)) as H. pose proof (str_of_nat_digits (Pos.to_nat p)) as D.
  unfold py_int in *. rewrite (strip_digits _ D) in H. cbn [append]. rewrite (strip_minus _ D).
  change (Ascii.eqb "-" "-") with true. cbv iota.
  destruct (str_of_nat (Pos.to_nat p)) as [|c t]; [discriminate H|].
  cbn [all_digits] in D. apply andb_true_iff in D as [D _]. destruct (digit_not_sign c D) as [Q1 Q2]. rewrite Q1, Q2 in H.
  rewrite H. simpl. f_equal. lia.
Qed.
Definition int_char (c : ascii) : bool := is_digit c || Ascii.eqb c "-".
Fixpoint int_chars (s : string) : bool := match s with EmptyString => true | String c t => int_char c && int_chars t end.
Lemma digits_int_chars : forall s, all_digits s = true -> int_chars s = true.
Proof. induction s; simpl; [auto|]. intro H. apply andb_true_iff in H as [H1 H2]. unfold int_char. rewrite H1. simpl. auto. Qed.
Lemma str_of_Z_chars : forall z, int_chars (str_of_Z z) = true.
Proof. intros [|p|p]; cbn [str_of_Z]; [reflexivity|..]; [|cbn [append int_chars]; rewrite andb_true_iff; split; [reflexivity|]]; apply digits_int_chars, str_of_nat_digits. Qed.
Lemma str_of_Z_nonempty : forall z, str_of_Z z <> "".
Proof. intros [|p|p]; cbn [str_of_Z]; try discriminate; apply str_of_nat_nonempty. Qed.
Lemma int_char_facts : forall c, int_char c = true -> is_space c = false /\ Ascii.eqb c "," = false /\ Ascii.eqb c "N" = false /\ Ascii.eqb c "s" = false.
Proof. intros [[] [] [] [] [] [] [] []]; vm_compute; repeat split; congruence. Qed.

(** Characters of an integer or a comma. *)
Definition list_char (c : ascii) : bool := int_char c || Ascii.eqb c ",".
Fixpoint list_chars (s : string) : bool := match s with EmptyString => true | String c t => list_char c && list_chars t end.
Lemma list_char_facts : forall c, list_char c = true -> is_space c = false /\ Ascii.eqb c "N" = false /\ Ascii.eqb c "s" = false.
Proof. intros [[] [] [] [] [] [] [] []]; vm_compute; repeat split; congruence. Qed.
Lemma int_list_chars : forall s, int_chars s = true -> list_chars s = true.
Proof. induction s; simpl; [auto|]. intro H. apply andb_true_iff in H as [H1 H2]. unfold list_char. rewrite H1. simpl. auto. Qed.
Lemma list_chars_app : forall s t, list_chars (s ++ t) = list_chars s && list_chars t.
Proof. induction s; simpl; intro t; [reflexivity|]. rewrite IHs. apply andb_assoc. Qed.
Lemma list_chars_concat : forall l, forallb int_chars l = true -> list_chars (String.concat "," l) = true.
Proof.
  induction l as [|a [|b t] IH]; intro H; [reflexivity | cbn in H |- *; rewrite andb_true_r in H; apply int_list_chars, H |].
  change (String.concat "," (a :: b :: t)) with (a ++ "," ++ String.concat "," (b :: t))%string.
  cbn [forallb] in H. apply andb_true_iff in H as [H1 H2]. rewrite !list_chars_app, (int_list_chars _ H1), IH by exact H2. reflexivity.
Qed.
Lemma strip_list_chars : forall s, list_chars s = true -> strip s = s.
Proof.
  assert (R : forall s, list_chars s = true -> rstrip s = s).
  { induction s as [|c t IH]; simpl; [reflexivity|]. intro H. apply andb_true_iff in H as [H1 H2].
    rewrite (IH H2). destruct t; [rewrite (proj1 (list_char_facts _ H1))|]; reflexivity. }
  intros s H. unfold strip. replace (lstrip s) with s; [apply R, H|].
  destruct s as [|c t]; [reflexivity|]. simpl in *. apply andb_true_iff in H as [H1 H2].
  rewrite (proj1 (list_char_facts _ H1)). reflexivity.
Qed.
Lemma split_int : forall s, int_chars s = true -> split_on "," s = [s].
Proof.
  induction s as [|c t IH]; simpl; [reflexivity|]. intro H. apply andb_true_iff in H as [H1 H2].
  destruct (int_char_facts _ H1) as (_ & -> & _). rewrite (IH H2). reflexivity.
Qed.
Lemma split_int_comma : forall s t, int_chars s = true -> split_on "," (s ++ "," ++ t) = s :: split_on "," t.
Proof.
  induction s as [|c s IH]; intros t H; [reflexivity|]. cbn [int_chars] in H. apply andb_true_iff in H as [H1 H2].
  change ((String c s ++ "," ++ t)%string) with (String c (s ++ "," ++ t)%string). cbn [split_on].
  destruct (int_char_facts _ H1) as (_ & -> & _). rewrite (IH t H2). reflexivity.
Qed.
Lemma split_concat : forall l, l <> [] -> forallb int_chars l = true -> split_on "," (String.concat "," l) = l.
Proof.
  induction l as [|a [|b t] IH]; intros N H; [congruence | cbn in H |- *; rewrite andb_true_r in H; apply split_int, H |].
  change (String.concat "," (a :: b :: t)) with (a ++ "," ++ String.concat "," (b :: t))%string.
  cbn [forallb] in H. apply andb_true_iff in H as [H1 H2]. rewrite split_int_comma by exact H1. rewrite IH; [reflexivity | discriminate | exact H2].
Qed.
Lemma ints_of_strs : forall l, ints_of (map str_of_Z l) = Ok l.
Proof. induction l as [|z t IH]; simpl; [reflexivity|]. rewrite py_int_str_Z, IH. reflexivity. Qed.
Lemma strs_int_chars : forall l, forallb int_chars (map str_of_Z l) = true.
Proof. induction l; simpl; [reflexivity|]. rewrite str_of_Z_chars. exact IHl. Qed.
Lemma list_text_not : forall s, list_chars s = true -> s <> "None" /\ String.prefix "slice(" s = false.
Proof.
  intros [|c t] H; [split; [discriminate | reflexivity]|]. cbn [list_chars] in H. apply andb_true_iff in H as [H _].
  destruct (list_char_facts _ H) as (_ & N & S). split.
  - intros [= -> _]. discriminate N.
  - cbn [String.prefix]. destruct (ascii_dec "s" c) as [<-|]; [discriminate S | reflexivity].
Qed.
Lemma slice_of_list : forall E l, l <> [] -> str_to_slice E (VText (String.concat "," (map str_of_Z l))) = slice_of_args (map VInt l).
Proof.
  intros E l N. pose proof (list_chars_concat _ (strs_int_chars l)) as LC. destruct (list_text_not _ LC) as [N1 N2].
  unfold str_to_slice. destruct (String.eqb_spec (String.concat "," (map str_of_Z l)) "None") as [Q|_]; [contradiction|].
  rewrite N2, strip_list_chars by exact LC. rewrite split_concat; [rewrite ints_of_strs; reflexivity | destruct l; [congruence|discriminate] | apply strs_int_chars].
Qed.

(** ** Field by field *)
Lemma dget_map : forall (names : list string) (x : string -> val) f, In f names -> dget f (map (fun g => (g, x g)) names) = Some (x f).
Proof.
  induction names as [|n t IH]; intros x f [].
  - subst. simpl. rewrite String.eqb_refl. reflexivity.
  - simpl. destruct (String.eqb_spec f n) as [->|N]; [reflexivity | apply IH; assumption].
Qed.
Lemma dget_map_pair : forall A (t : list (string * A)) (x : string -> val) f, In f (map fst t) -> dget f (map (fun e => (fst e, x (fst e))) t) = Some (x f).
Proof. intros A t x f H. rewrite <- (dget_map _ x f H), map_map. reflexivity. Qed.
Lemma dget_map_none : forall (names : list string) (x : string -> val) f, ~ In f names -> dget f (map (fun g => (g, x g)) names) = None.
Proof. intros names x f H. apply dget_None_keys. unfold dkeys. rewrite map_map, map_id. exact H. Qed.
Lemma getattr_object : forall c names x f, In f names -> getattr f (object c names x) = Ok (x f).
Proof. intros. unfold getattr, object. rewrite dget_map by assumption. reflexivity. Qed.

Lemma convert_out_all_fields : forall E self x w t,
  Forall (fun e => getattr (fst e) self = Ok (x (fst e)) /\ convert_out E (snd e) (x (fst e)) = Ok (w (fst e))) t ->
  convert_out_all E t self = Ok (map (fun e => (fst e, w (fst e))) t).
Proof. intros E self x w t; induction 1 as [|[f k] t [H1 H2] HF IH]; [reflexivity|]. cbn [convert_out_all fst snd] in *. rewrite H1. cbn [rbind]. rewrite H2. cbn [rbind]. rewrite IH. reflexivity. Qed.
Lemma convert_all_fields : forall E T self x w t,
  Forall (fun e => getattr (fst e) self = Ok (x (fst e)) /\ convert_in E T (snd e) (x (fst e)) = Ok (w (fst e))) t ->
  convert_all E T t self = Ok (map (fun e => (fst e, w (fst e))) t).
Proof. intros E T self x w t; induction 1 as [|[f k] t [H1 H2] HF IH]; [reflexivity|]. cbn [convert_all fst snd] in *. rewrite H1. cbn [rbind]. rewrite H2. cbn [rbind]. rewrite IH. reflexivity. Qed.
Definition fld (e : string * dflt * conv) : string := fst (fst e).
Lemma init_fields_fields : forall E kw x w fs,
  Forall (fun e => dget (fld e) kw = Some (x (fld e)) /\ convert E (snd e) (x (fld e)) = Ok (w (fld e))) fs ->
  init_fields E fs kw = Ok (map (fun f => (f, w f)) (map fld fs)).
Proof.
  intros E kw x w fs; induction 1 as [|[[f d] c] t [H1 H2] HF IH]; [reflexivity|]. cbn [init_fields fld fst snd map] in *.
  rewrite H1. cbn [rbind]. rewrite H2. cbn [rbind]. rewrite IH. reflexivity.
Qed.
Lemma known_all : forall names kw, (forall k, In k (map fst kw) -> str_in k names = true) -> known_kwargs names kw = true.
Proof. intros names kw; induction kw as [|[k v] t IH]; simpl; intro H; [reflexivity|]. rewrite H by (left; reflexivity). apply IH. intros; apply H; right; assumption. Qed.
Lemma str_in_iff : forall s l, str_in s l = true <-> In s l.
Proof.
  intros s l; induction l as [|a t IH]; simpl; [split; [discriminate | tauto]|]. rewrite orb_true_iff, IH.
  destruct (String.eqb_spec s a) as [->|N]; split; intros; auto; [destruct H; [discriminate | auto] | destruct H; [congruence | auto]].
Qed.
(** A class called with a value for every field, and only for those. *)
Lemma construct_fields : forall E c fs kw x w, class_fields c = Some fs -> c <> "InitialConditions" ->
  (forall k, In k (map fst kw) -> In k (map fld fs)) ->
  Forall (fun e => dget (fld e) kw = Some (x (fld e)) /\ convert E (snd e) (x (fld e)) = Ok (w (fld e))) fs ->
  construct E c kw = Ok (object c (map fld fs) w).
Proof.
  intros E c fs kw x w Hc N Hk HF. unfold construct. destruct (String.eqb_spec c "InitialConditions"); [contradiction|].
  rewrite Hc. rewrite known_all by (intros k Hin; apply str_in_iff, Hk, Hin). rewrite (init_fields_fields E kw x w fs HF). reflexivity.
Qed.
