(** C101: where log messages go. *)
From Coq Require Import List Bool Arith String Lia.
From Verif Require Import Model_Logging Spec_Logging.
Import ListNotations.
Open Scope string_scope.
Open Scope list_scope.

Lemma received_app : forall s a b, received s (a ++ b) = received s a ++ received s b.
Proof. intros. unfold received. rewrite filter_app, map_app. reflexivity. Qed.
Lemma written_cons : forall a o m ms, written a o (m :: ms) = call_handlers (rev (log_handler a) ++ o) m ++ written a o ms.
Proof. reflexivity. Qed.

(** If each message arrives at [s] exactly when [p] holds, [s] receives the messages with [p]. *)
Lemma received_filter : forall a o s (p : message -> bool),
  (forall m, received s (call_handlers (rev (log_handler a) ++ o) m) = if p m then [m] else []) ->
  forall ms, received s (written a o ms) = filter p ms.
Proof.
  intros a o s p H ms. induction ms as [|m t IH]; [reflexivity|].
  rewrite written_cons, received_app, IH, H. cbn [filter]. destruct (p m); reflexivity.
Qed.
Lemma filter_filter : forall (A : Type) (p q : A -> bool) l, filter p (filter q l) = filter (fun x => q x && p x)%bool l.
Proof.
  intros A p q l. induction l as [|x t IH]; [reflexivity|]. cbn [filter]. destruct (q x); cbn [filter andb]; rewrite IH; reflexivity.
Qed.

Ltac one_message a m :=
  destruct a as [lf fl sl q v]; cbn [la_log_file la_log_file_level la_stderr_level la_quiet la_verbose] in *;
  unfold log_handler, written; cbn [la_log_file la_log_file_level la_stderr_level la_quiet la_verbose rev app].

(** The terminal receives exactly the messages from the threshold on, in their order, whatever else was set up before and
    whether or not there is a log file. *)
Theorem C101_stderr : forall a outer ms,
  received To_stderr (written a outer ms) = at_least (stderr_threshold a) ms.
Proof.
  intros a o ms. apply received_filter. intro m. one_message a m.
  unfold stderr_threshold; cbn [la_quiet la_verbose la_stderr_level].
  destruct lf as [lf|]; [destruct (String.eqb lf "")|];
  destruct q, v, sl as [sl|]; cbn [call_handlers should_handle h_level h_blackhole h_bubble h_sink NullHandler or_default];
  repeat (match goal with |- context [if Nat.leb ?x ?y then _ else _] => destruct (Nat.leb x y) eqn:?E end);
  cbn [received map filter sink_eqb fst snd]; try reflexivity; cbn in *; try congruence.
Qed.
(** No message reaches a handler that was active before: nothing is reported twice. *)
Theorem C101_outer : forall a outer ms, written a outer ms = written a [] ms.
Proof.
  intros a o ms. unfold written. rewrite app_nil_r. induction ms as [|m t IH]; [reflexivity|]. cbn [flat_map]. rewrite IH. reflexivity.
Qed.
(** Without -q and -v the log file receives every message from its own threshold on, whatever the terminal shows. *)
Theorem C101_file : forall a outer f ms, la_log_file a = Some f -> f <> "" -> la_quiet a = false -> la_verbose a = false ->
  received (To_file f) (written a outer ms) = at_least (file_threshold a) ms.
Proof.
  intros a o f ms Hf Hne Hq Hv. rewrite C101_outer. apply received_filter. intro m. one_message a m. subst.
  destruct (String.eqb_spec f "") as [E|_]; [congruence|]. unfold file_threshold; cbn [la_log_file_level].
  destruct sl as [sl|], fl as [fl|]; cbn [call_handlers should_handle h_level h_blackhole h_bubble h_sink NullHandler or_default];
  repeat (match goal with |- context [if Nat.leb ?x ?y then _ else _] => destruct (Nat.leb x y) eqn:?E end);
  cbn [received map filter sink_eqb fst snd]; rewrite ?String.eqb_refl; try reflexivity.
Qed.
(** With -q or -v the log file receives only what the terminal does not show: the messages from the file's threshold on which are
    below the threshold of the terminal. *)
Theorem C101_file_exact : forall a outer f ms, la_log_file a = Some f -> f <> "" -> (la_quiet a || la_verbose a)%bool = true ->
  received (To_file f) (written a outer ms) = at_least (file_threshold a) (less_than (stderr_threshold a) ms).
Proof.
  intros a o f ms Hf Hne Hqv. rewrite C101_outer. unfold at_least, less_than. rewrite filter_filter. apply received_filter.
  intro m. one_message a m. subst.
  destruct (String.eqb_spec f "") as [E|_]; [congruence|]. unfold file_threshold, stderr_threshold; cbn [la_log_file_level la_quiet la_verbose la_stderr_level].
  destruct q, v; try discriminate; destruct fl as [fl|];
  cbn [call_handlers should_handle h_level h_blackhole h_bubble h_sink NullHandler or_default];
  rewrite Nat.ltb_antisym;
  repeat (match goal with |- context [if Nat.leb ?x ?y then _ else _] => destruct (Nat.leb x y) eqn:?E end);
  cbn [received map filter sink_eqb fst snd negb andb]; rewrite ?String.eqb_refl; try reflexivity;
  cbn in *; try congruence; destruct (m_level m); cbn in *; try congruence.
Qed.
(** So -v leaves the log file empty, for every level that can be chosen, and -q keeps the errors out of it. *)
Theorem C101_file_refuted :
  (forall a outer f ms, la_log_file a = Some f -> f <> "" -> la_quiet a = false -> la_verbose a = true ->
     la_log_file_level a <> Some TRACE -> received (To_file f) (written a outer ms) = []) /\
  (forall a outer f ms, la_log_file a = Some f -> f <> "" -> la_quiet a = true ->
     forall m, In m (received (To_file f) (written a outer ms)) -> m_level m <> ERROR /\ m_level m <> CRITICAL) /\
  (exists a f ms, la_log_file a = Some f /\ f <> "" /\
     received (To_file f) (written a [] ms) <> at_least (file_threshold a) ms).
Proof.
  split; [|split].
  - intros a o f ms Hf Hne Hq Hv Hl. rewrite (C101_file_exact a o f ms Hf Hne) by (rewrite Hq, Hv; reflexivity).
    unfold at_least, less_than, stderr_threshold, file_threshold. rewrite Hq, Hv, filter_filter.
    induction ms as [|m t IH]; [reflexivity|]. cbn [filter].
    replace (_ && _)%bool with false; [exact IH|].
    destruct (m_level m), (la_log_file_level a) as [[]|]; try reflexivity; congruence.
  - intros a o f ms Hf Hne Hq m Hm. rewrite (C101_file_exact a o f ms Hf Hne) in Hm by (rewrite Hq; reflexivity).
    unfold at_least, less_than, stderr_threshold in Hm. rewrite Hq in Hm. apply filter_In in Hm. destruct Hm as [Hm _].
    apply filter_In in Hm. destruct Hm as [_ Hm]. split; intro E; rewrite E in Hm; discriminate.
  - exists (mk_log_args (Some "run.log") None None true false), "run.log", [mk_message ERROR "failed"].
    split; [reflexivity|]. split; [discriminate|]. vm_compute. discriminate.
Qed.
(** Without --log-file nothing is written to any file. *)
Theorem C101_no_file : forall a outer ms g, la_log_file a = None -> received (To_file g) (written a outer ms) = [].
Proof.
  intros a o ms g Hf. rewrite C101_outer. transitivity (filter (fun _ : message => false) ms).
  2:{ clear. induction ms as [|m t IH]; [reflexivity|exact IH]. }
  apply received_filter. intro m. one_message a m. subst.
  destruct q, v, sl as [sl|]; cbn [call_handlers should_handle h_level h_blackhole h_bubble h_sink NullHandler or_default];
  repeat (match goal with |- context [if Nat.leb ?x ?y then _ else _] => destruct (Nat.leb x y) eqn:?E end);
  reflexivity.
Qed.

(** The default options with a log file: the terminal shows the notice and the error, the file has everything. *)
Example C101_nonvacuous :
  let a := mk_log_args (Some "run.log") None None false false in
  let ms := [mk_message DEBUG "step"; mk_message NOTICE "start"; mk_message ERROR "failed"] in
  received To_stderr (written a [] ms) = [mk_message NOTICE "start"; mk_message ERROR "failed"] /\
  received (To_file "run.log") (written a [] ms) = ms /\
  received (To_file "run.log") (written (mk_log_args (Some "run.log") None None false true) [] ms) = [].
Proof. vm_compute. repeat split. Qed.
