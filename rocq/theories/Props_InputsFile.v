(** Properties C42, C43, C71 and the file part of C72. *)
From Coq Require Import String List Bool ZArith Ascii Reals Lia Lra.
From Verif Require Import Lib_Py Model_FormatTables Model_Format Model_Run Model_Inputs Spec_Inputs Proofs_Inputs Props_Inputs.
Import ListNotations.
Open Scope string_scope. Open Scope list_scope.

(** ** Writing and reading a configuration file *)
Definition lookup (s o : string) (f : cfg_file) : option string := match dget s f with Some opts => dget o opts | None => None end.
Definition written (s o : string) (t : list (string * string * when)) : bool :=
  existsb (fun e => String.eqb (fst (fst e)) s && String.eqb (snd (fst e)) o) t.
Lemma lookup_set : forall s o s' o' v f,
  lookup s o (dset s' (dset o' v (match dget s' f with Some opts => opts | None => [] end)) f) =
  if String.eqb s' s && String.eqb o' o then Some v else lookup s o f.
Proof.
  intros. unfold lookup. destruct (String.eqb_spec s' s) as [->|N]; cbn [andb].
  - rewrite dget_dset_same. destruct (String.eqb_spec o' o) as [->|N']; [rewrite dget_dset_same; reflexivity|].
    rewrite dget_dset_other by exact N'. destruct (dget s f); reflexivity.
  - rewrite dget_dset_other by exact N. reflexivity.
Qed.
Lemma write_ok : forall self x t f,
  Forall (fun e => getattr (snd (fst e)) self = Ok (x (snd (fst e))) /\
    ((exists u, x (snd (fst e)) = VText u /\ plain_text u) \/ (snd e = IfNotNone /\ x (snd (fst e)) = VNone))) t ->
  exists f', write_options t self f = Ok f' /\
    forall s o, lookup s o f' = match x o with VText u => if written s o t then Some u else lookup s o f | _ => lookup s o f end.
Proof.
  intros self x t; induction t as [|[[s' o'] w] t IH]; intros f HF.
  - exists f. split; [reflexivity|]. intros s o. destruct (x o); reflexivity.
  - inversion HF as [|? ? [H1 H2] HF']; subst. cbn [fst snd] in *. cbn [write_options]. rewrite H1. cbn [rbind].
    destruct H2 as [(u & Hu & P1 & P2 & P3)|[-> Hn]].
    + rewrite Hu. assert (S : (let! raw := cfg_set (VText u) in
          let! s := cfg_text raw in
          write_options t self (dset s' (dset o' s (match dget s' f with Some o => o | None => [] end)) f)) =
          write_options t self (dset s' (dset o' u (match dget s' f with Some o => o | None => [] end)) f)).
      { unfold cfg_set. rewrite P2. cbn [rbind]. unfold cfg_text. rewrite P3, P1. reflexivity. }
      destruct (IH (dset s' (dset o' u (match dget s' f with Some o => o | None => [] end)) f) HF') as (f' & G1 & G2).
      exists f'. split; [destruct w; rewrite <- G1; exact S|].
      intros s o. rewrite G2, lookup_set. unfold written. cbn [existsb fst snd].
      destruct (String.eqb_spec o' o) as [<-|N]; [|rewrite andb_false_r; reflexivity].
      rewrite Hu, andb_true_r. destruct (String.eqb s' s); cbn [orb]; [|reflexivity].
      destruct (existsb (fun e => String.eqb (fst (fst e)) s && String.eqb (snd (fst e)) o') t); reflexivity.
    + rewrite Hn. destruct (IH f HF') as (f' & G1 & G2). exists f'. split; [exact G1|].
      intros s o. rewrite G2. unfold written. cbn [existsb fst snd]. destruct (String.eqb_spec o' o) as [<-|N].
      * rewrite Hn. reflexivity.
      * rewrite andb_false_r. reflexivity.
Qed.

(** C71. A configuration of plain texts, written to a file and read back, is the same configuration; the options
    that may be left out ([omissible]) read as "None" when they were None, except the MCMC variables, which read as
    all three. *)
Definition omissible : list string := ["jump_before_sonic"; "mcmc_vars"; "v_θ_sonic_crit"; "after_sonic"; "sonic_interp_size"].
Definition writable (x : string -> val) : Prop := forall f, In f CONFIG_FIELDS ->
  (exists s, x f = VText s /\ plain_text s /\ (In f optional_fields -> s <> "")) \/ (In f omissible /\ x f = VNone).
Definition read_back (x : string -> val) (f : string) : val :=
  match x f with VNone => if String.eqb f "mcmc_vars" then VText "v_r,v_a,v_k" else VText "None" | v => v end.
Lemma cfg_get_lookup : forall f s o d, cfg_get f s o d = VText (match lookup s o f with Some u => u | None => d end).
Proof. intros. unfold cfg_get, lookup. destruct (dget s f) as [opts|]; [destruct (dget o opts)|]; reflexivity. Qed.
Lemma file_round_trip : forall E x, writable x ->
  exists file, to_conf_file (conf_object x) = Ok file /\ get_input_from_conffile E file None = Ok (conf_object (read_back x)).
Proof.
  intros E x W.
  assert (D : forall f, In f CONFIG_FIELDS -> (exists s, x f = VText s /\ plain_text s /\ (In f optional_fields -> s <> "")) \/ (In f omissible /\ x f = VNone)) by exact W.
  destruct (write_ok (conf_object x) x conf_file_table [("config", []); ("initial", [])]) as (file & W1 & W2).
  { unfold conf_file_table. repeat (apply Forall_cons; [cbn [fst snd]|]); [..|apply Forall_nil]; (split; [apply getattr_object; inl|]);
    match goal with |- context [x ?f] => destruct (D f ltac:(inl)) as [(u & U1 & U2 & _)|[O U]]; [left; exists u; split; assumption|] end.
    all: try (exfalso; apply str_in_iff in O; discriminate O).
    all: right; split; try reflexivity; exact U. }
  exists file. split; [exact W1|].
  unfold get_input_from_conffile, add_overrides. match goal with |- rbind ?r _ = _ => cut (r = Ok (conf_object (read_back x))); [intros ->; reflexivity|] end.
  unfold conf_object, CONFIG_FIELDS. apply (construct_fields E "ConfigInput" fields_ConfigInput _ (read_back x)); [reflexivity | discriminate | |].
  - intros k Hk. rewrite map_map in Hk. apply str_in_iff. repeat (destruct Hk as [<-|Hk]; [reflexivity|]). destruct Hk.
  - assert (L : forall s o d, In o CONFIG_FIELDS -> written s o conf_file_table = true ->
        (x o = VNone -> In o omissible -> d = if String.eqb o "mcmc_vars" then "v_r,v_a,v_k" else "None") -> lookup s o [("config", []); ("initial", [])] = None ->
        cfg_get file s o d = read_back x o).
    { intros s o d Ho Hw Hd Hl. rewrite cfg_get_lookup, W2, Hw, Hl. unfold read_back.
      destruct (D o Ho) as [(u & -> & _)|[O U]]; [reflexivity|]. rewrite U, (Hd U O). destruct (String.eqb o "mcmc_vars"); reflexivity. }
    assert (C : forall o, In o CONFIG_FIELDS -> In o optional_fields -> replace_empty_string (read_back x o) = read_back x o).
    { intros o Ho Hopt. unfold read_back. destruct (D o Ho) as [(u & -> & _ & N)|[O ->]]; [apply not_empty_text, N, Hopt|].
      destruct (String.eqb o "mcmc_vars"); reflexivity. }
    unfold fields_ConfigInput. field_forall; (split; [|cbn [convert]; try reflexivity; f_equal; apply C; inl]);
    (match goal with |- dget ?o _ = Some (read_back x ?o) => rewrite <- (L (if str_in o ["γ"; "v_rin_on_c_s"; "v_a_on_c_s"; "c_s_on_v_k"; "η_O"; "η_H"; "η_A"] then "initial" else "config")
           o (match find (fun e => String.eqb (snd (fst e)) o) conf_defaults with Some e => snd e | None => "" end)) end;
      [reflexivity | inl | reflexivity | intros _ O; first [reflexivity | apply str_in_iff in O; discriminate O] |
       match goal with |- lookup ?s _ _ = _ => let s' := eval vm_compute in s in change s with s' end; reflexivity]).
Qed.
Theorem C71_round_trip : forall E x, (forall f, In f CONFIG_FIELDS -> exists s, x f = VText s /\ plain_text s /\ (In f optional_fields -> s <> "")) ->
  exists file, to_conf_file (conf_object x) = Ok file /\ get_input_from_conffile E file None = Ok (conf_object x).
Proof.
  intros E x H. destruct (file_round_trip E x) as (file & W1 & W2); [intros f Hf; left; apply H, Hf|].
  exists file. split; [exact W1|]. rewrite W2. f_equal. unfold conf_object, object. f_equal. apply map_ext_in. intros f Hf.
  unfold read_back. destruct (H f Hf) as (s & -> & _). reflexivity.
Qed.
Theorem C71_none_partial : forall E x, writable x ->
  exists file, to_conf_file (conf_object x) = Ok file /\ get_input_from_conffile E file None = Ok (conf_object (read_back x)).
Proof. exact file_round_trip. Qed.
(** The "None" texts mean None: the solver input is the same, unless the MCMC variables were None. *)
Theorem C71_solver_input : forall E T x, writable x -> x "mcmc_vars" <> VNone ->
  to_soln_input E T (conf_object (read_back x)) = to_soln_input E T (conf_object x).
Proof.
  intros E T x W M. unfold to_soln_input.
  assert (G : forall t, Forall (fun e => In (fst e) CONFIG_FIELDS /\ convert_in E T (snd e) (read_back x (fst e)) = convert_in E T (snd e) (x (fst e))) t ->
    convert_all E T t (conf_object (read_back x)) = convert_all E T t (conf_object x)).
  { induction 1 as [|[f k] t [H1 H2] HF IH]; [reflexivity|]. cbn [convert_all fst snd] in *. unfold conf_object in *.
    rewrite !getattr_object by exact H1. cbn [rbind]. rewrite H2, IH. reflexivity. }
  rewrite G; [reflexivity|]. unfold to_soln_table.
  assert (R : forall f, In f CONFIG_FIELDS -> read_back x f = x f \/ (In f omissible /\ x f = VNone /\ read_back x f = if String.eqb f "mcmc_vars" then VText "v_r,v_a,v_k" else VText "None")).
  { intros f Hf. unfold read_back. destruct (W f Hf) as [(s & -> & _)|[O ->]]; [left; reflexivity | right; split; [exact O | split; reflexivity]]. }
  field_forall; (split; [inl|]);
  match goal with |- context [read_back x ?f] => destruct (R f ltac:(inl)) as [->|(O & U & ->)]; [reflexivity|] end.
  all: try (exfalso; apply str_in_iff in O; discriminate O).
  all: try (rewrite U; reflexivity).
  contradiction.
Qed.
Theorem C71_mcmc_none_refuted : forall E T x, writable x -> x "mcmc_vars" = VNone ->
  exists file c, to_conf_file (conf_object x) = Ok file /\ get_input_from_conffile E file None = Ok c /\
    getattr "mcmc_vars" c = Ok (VText "v_r,v_a,v_k") /\
    convert_in E T IMcmc (VText "v_r,v_a,v_k") = Ok (mcmc_obj (VBool true) (VBool true) (VBool true)) /\ convert_in E T IMcmc VNone = Ok VNone.
Proof.
  intros E T x W M. destruct (file_round_trip E x W) as (file & W1 & W2). exists file, (conf_object (read_back x)).
  repeat split; try assumption. unfold conf_object. rewrite getattr_object by inl. unfold read_back. rewrite M. reflexivity.
Qed.
(** Options that cannot be left out cannot be None: nothing is written. *)
Theorem C71_none_range_refuted : forall x f, In f ["interp_range"; "interp_slice"; "label"; "start"; "use_E_r"] -> x f = VNone ->
  (forall g, In g CONFIG_FIELDS -> g <> f -> exists s, x g = VText s /\ plain_text s) -> to_conf_file (conf_object x) = Raise TypeError.
Proof.
  intros x f Hf N H. unfold to_conf_file.
  assert (G : forall t file, Forall (fun e => In (snd (fst e)) CONFIG_FIELDS) t -> (exists s, In (s, f, Always) t) ->
    write_options t (conf_object x) file = Raise TypeError).
  { induction t as [|[[s o] w] t IH]; intros file HF HI; [destruct HI as (s & [])|]. inversion HF as [|? ? F1 F2]; subst. cbn [fst snd] in F1.
    cbn [write_options]. unfold conf_object. rewrite getattr_object by exact F1. fold conf_object. cbn [rbind].
    destruct (string_dec o f) as [->|Nf].
    - rewrite N. destruct w; [reflexivity|]. apply IH; [exact F2|]. destruct HI as (s' & [HI|HI]); [discriminate HI | exists s'; exact HI].
    - destruct (H o F1 Nf) as (u & -> & P1 & P2 & P3).
      assert (HI' : exists s', In (s', f, Always) t) by (destruct HI as (s' & [HI|HI]); [congruence | exists s'; exact HI]).
      unfold cfg_set. rewrite P2. unfold cfg_text. cbn [rbind]. rewrite P3. destruct w; apply IH; assumption. }
  apply G.
  - unfold conf_file_table. repeat (apply Forall_cons; [cbn [fst snd]; inl|]). apply Forall_nil.
  - repeat (destruct Hf as [<-|Hf]; [exists "config"; cbn; tauto|]). destruct Hf.
Qed.

(** C72, end to end: the configuration file that dump_config writes for a solution gives its solver input again. *)
Lemma plain_ints : forall s, list_chars s = true -> plain_text s.
Proof.
  assert (F : forall c, list_char c = true -> Ascii.eqb c "%" = false /\ Ascii.eqb c newline = false)
    by (intros [[] [] [] [] [] [] [] []]; vm_compute; split; congruence).
  intros s H. split; [apply strip_list_chars, H|]. split; induction s as [|c t IH]; try reflexivity; cbn [has_char list_chars] in *;
    apply andb_true_iff in H as [H1 H2]; destruct (F c H1) as [Q1 Q2]; rewrite ?Q1, ?Q2; cbn [orb]; apply IH, H2.
Qed.
Theorem C72_dump_config_partial : forall E T x label split, printable E T x -> plain_text label ->
  x "split_method" = VText split -> plain_text split ->
  (forall f r, x f = VNum r -> plain_text (e_str E (VNum r))) ->
  exists c file c', to_config_input E (VText label) (soln_object x) = Ok c /\ to_conf_file c = Ok file /\
    get_input_from_conffile E file None = Ok c' /\ getattr "label" c' = Ok (VText label) /\ to_soln_input E T c' = Ok (soln_object x).
Proof.
  intros E T x label split P PL Hs PS PF0. pose proof P as P0.
  destruct P as [PF PI PBs PB PO PR _ PSl PM].
  set (w := config_value E (VText label) x).
  assert (W : forall f, In f CONFIG_FIELDS -> exists s, w f = VText s /\ plain_text s /\ (In f optional_fields -> s <> "")).
  { assert (AF : forall v, (exists r, v = VNum r /\ float_reads E T r) -> (exists f, x f = v) -> exists s, VText (text_of E v) = VText s /\ plain_text s /\ s <> "").
    { intros v (r & -> & _ & R2 & _) (f & Hf). eexists. split; [reflexivity|]. split; [eapply PF0; exact Hf | exact R2]. }
    assert (AI : forall v, (exists z, v = VInt z /\ int_reads T z) -> exists s, VText (text_of E v) = VText s /\ plain_text s /\ s <> "").
    { intros v (z & -> & _). eexists. split; [reflexivity|]. split; [apply plain_ints, int_list_chars, str_of_Z_chars | apply str_of_Z_nonempty]. }
    assert (AB : forall v, (exists b, v = VBool b) -> exists s, VText (text_of E v) = VText s /\ plain_text s /\ s <> "").
    { intros v ([] & ->); eexists; (split; [reflexivity|]); (split; [repeat split | discriminate]). }
    assert (AN : exists s, VText (text_of E VNone) = VText s /\ plain_text s /\ s <> "") by (eexists; split; [reflexivity|]; split; [repeat split | discriminate]).
    assert (AO : forall v, v = VNone \/ (exists r, v = VNum r /\ float_reads E T r) -> (exists f, x f = v) -> exists s, VText (text_of E v) = VText s /\ plain_text s /\ s <> "")
      by (intros v [->|H] Hf; [exact AN | apply AF; assumption]).
    assert (AR : forall v, v = VNone \/ (exists z, v = VInt z /\ int_reads T z) -> exists s, VText (text_of E v) = VText s /\ plain_text s /\ s <> "")
      by (intros v [->|H]; [exact AN | apply AI; assumption]).
    assert (AM : exists s, VText (text_of E (x "mcmc_vars")) = VText s /\ plain_text s /\ s <> "").
    { destruct PM as [->|(r & a & k & -> & H)]; [exact AN|]. destruct r, a, k; try discriminate H; eexists; (split; [reflexivity|]); (split; [repeat split | discriminate]). }
    assert (AS : exists s, w "interp_slice" = VText s /\ plain_text s /\ s <> "").
    { destruct PSl as (a & b & s & Hv & HE). destruct (slice_ok E T (x "interp_slice") (ex_intro _ a (ex_intro _ b (ex_intro _ s (conj Hv HE))))) as (t & L1 & L2 & _).
      exists t. split; [|split; [|exact L2]].
      - change (match slice_to_str E (x "interp_slice") with Ok s => VText s | Raise _ => VNone end = VText t). rewrite L1. reflexivity.
      - rewrite Hv, slice_text in L1. apply (f_equal (fun r => match r with Ok y => y | Raise _ => "" end)) in L1. cbn beta iota in L1. rewrite <- L1.
        apply plain_ints, list_chars_concat, strs_int_chars. }
    assert (K : forall f, (exists s, w f = VText s /\ plain_text s /\ s <> "") -> exists s, w f = VText s /\ plain_text s /\ (In f optional_fields -> s <> ""))
      by (intros f (s & A & B & C); exists s; split; [exact A | split; [exact B | intros _; exact C]]).
    intros f Hf. cbn in Hf.
    repeat (destruct Hf as [<-|Hf];
      [ first [ apply K; match goal with |- exists s, w ?f = _ /\ _ =>
                  first [ exact (AF (x f) (PF f ltac:(inl)) (ex_intro _ f eq_refl)) | exact (AI (x f) (PI f ltac:(inl))) | exact (AB (x f) (PB f ltac:(inl)))
                        | exact (AO (x f) (PO f ltac:(inl)) (ex_intro _ f eq_refl)) | exact (AR (x f) PR) | exact AM | exact AS ] end
              | exists label; split; [reflexivity|]; split; [exact PL | intro O; apply str_in_iff in O; discriminate O]
              | exists split; split; [exact Hs|]; split; [exact PS | intro O; apply str_in_iff in O; discriminate O] ] | ]).
    destruct Hf. }
  destruct (C71_round_trip E w W) as (file & F1 & F2).
  exists (conf_object w), file, (conf_object w). split; [apply (to_config_ok E T), P0|]. split; [exact F1|]. split; [exact F2|].
  split; [reflexivity | apply conf_to_soln_ok, P0].
Qed.

(** ** A concrete input *)
Definition E1 : env := mk_env (fun _ => Raise OtherError) (fun _ => Raise OtherError)
  (fun v => match v with VNum (Some r) => if Req_EM_T r 1 then "1.0" else "0.5" | _ => "?" end) (fun l => l) true.
Definition T1 : text_tools := mk_tools (fun s => Ok (Some (if String.eqb s "1.0" then 1 else 1/2)%R))
  (fun s => match py_int s with Some z => Ok z | None => Raise ValueError end)
  (fun s => if String.eqb s "True" then Ok true else if String.eqb s "False" then Ok false else Raise ValueError).
Definition x1 (f : string) : val :=
  if str_in f ["start"; "stop"; "γ"; "η_O"] then VNum (Some 1%R)
  else if str_in f float_fields then VNum (Some (1/2)%R)
  else if str_in f int_fields then VInt 12
  else if str_in f bool_fields then VBool true
  else if String.eqb f "jump_before_sonic" then VNum (Some (1/2)%R)
  else if String.eqb f "interp_slice" then slice_obj (VInt (-1000)) (VInt (-100)) VNone
  else if String.eqb f "interp_range" then VInt 10
  else if String.eqb f "split_method" then VText "v_θ_deriv"
  else if String.eqb f "mcmc_vars" then mcmc_obj (VBool true) (VBool false) (VBool true)
  else VNone.
Lemma reads_1 : float_reads E1 T1 (Some 1%R).
Proof. unfold float_reads. cbn [e_str E1]. destruct (Req_EM_T 1 1); [|lra]. repeat split; discriminate. Qed.
Lemma reads_half : float_reads E1 T1 (Some (1/2)%R).
Proof. unfold float_reads. cbn [e_str E1]. destruct (Req_EM_T (1/2) 1); [lra|]. repeat split; discriminate. Qed.
Example C72_nonvacuous : printable E1 T1 x1 /\ (forall f r, x1 f = VNum r -> plain_text (e_str E1 (VNum r))).
Proof.
  split.
  - constructor.
    + intros f Hf. repeat (destruct Hf as [<-|Hf]; [first [exists (Some 1%R); split; [reflexivity | exact reads_1] | exists (Some (1/2)%R); split; [reflexivity | exact reads_half]]|]). destruct Hf.
    + intros f Hf. repeat (destruct Hf as [<-|Hf]; [exists 12%Z; split; reflexivity|]). destruct Hf.
    + split; reflexivity.
    + intros f Hf. repeat (destruct Hf as [<-|Hf]; [exists true; reflexivity|]). destruct Hf.
    + intros f Hf. repeat (destruct Hf as [<-|Hf]; [first [left; reflexivity | right; exists (Some (1/2)%R); split; [reflexivity | exact reads_half]]|]). destruct Hf.
    + right. exists 10%Z. split; reflexivity.
    + eexists. reflexivity.
    + exists (Some (-1000)%Z), (Some (-100)%Z), None. repeat split; discriminate.
    + right. exists true, false, true. split; reflexivity.
  - intros f [r|] _; [|repeat split]. cbn [e_str E1]. destruct (Req_EM_T r 1); repeat split.
Qed.
(** C71: the configuration printed for it. *)
Example C71_nonvacuous : exists file, to_conf_file (conf_object (config_value E1 (VText "run 1") x1)) = Ok file.
Proof.
  destruct C72_nonvacuous as [P Q].
  destruct (C72_dump_config_partial E1 T1 x1 "run 1" "v_θ_deriv" P ltac:(repeat split) eq_refl ltac:(repeat split) Q) as (c & file & _ & H1 & H2 & _).
  exists file. rewrite (to_config_ok E1 T1 x1 _ P) in H1. injection H1 as <-. exact H2.
Qed.

(** ** C42 *)
Lemma last_override_cons : forall f n v l, last_override f ((n, v) :: l) =
  match last_override f l with Some u => Some u | None => if String.eqb n f then Some v else None end.
Proof.
  intros. unfold last_override. cbn [rev]. generalize (rev l). intro m. induction m as [|[a b] t IH]; cbn [app find fst snd].
  - destruct (String.eqb n f); reflexivity.
  - destruct (String.eqb a f); [reflexivity | exact IH].
Qed.
Lemma validate_loop_ok : forall l clean, (forall p, In p l -> In (fst p) CONFIG_FIELDS) -> NoDup (dkeys clean) ->
  exists d, validate_loop l clean = Ok d /\ NoDup (dkeys d) /\
    (forall k, In k (dkeys d) -> In k (dkeys clean) \/ In k CONFIG_FIELDS) /\
    forall f, dget f d = match last_override f l with Some s => Some (VText s) | None => dget f clean end.
Proof.
  induction l as [|[n v] l IH]; intros clean H ND.
  - exists clean. repeat split; auto.
  - cbn [validate_loop]. assert (Hn : str_in n CONFIG_FIELDS = true) by (apply str_in_iff, (H (n, v)); left; reflexivity). rewrite Hn.
    destruct (IH (dset n (VText v) clean)) as (d & D1 & D2 & D3 & D4); [intros p Hp; apply H; right; exact Hp | apply NoDup_dset, ND |].
    exists d. split; [exact D1|]. split; [exact D2|]. split.
    + intros k Hk. destruct (D3 k Hk) as [K|K]; [|right; exact K]. rewrite dkeys_dset in K. destruct (dmem n clean); [left; exact K|].
      apply in_app_iff in K as [K|[<-|[]]]; [left; exact K | right; apply str_in_iff, Hn].
    + intro f. rewrite D4, last_override_cons. destruct (last_override f l); [reflexivity|].
      destruct (String.eqb_spec n f) as [->|N]; [apply dget_dset_same | apply dget_dset_other, N].
Qed.
Theorem C42_validate : forall l, (forall p, In p l -> In (fst p) CONFIG_FIELDS) ->
  exists d, validate_overrides l = Ok d /\ NoDup (dkeys d) /\ forall f, dget f d = option_map VText (last_override f l).
Proof.
  intros l H. destruct (validate_loop_ok l [] H (NoDup_nil _)) as (d & D1 & D2 & _ & D4). exists d. split; [exact D1|]. split; [exact D2|].
  intro f. rewrite D4. destruct (last_override f l); reflexivity.
Qed.
Theorem C42_unknown : forall l, (exists p, In p l /\ ~ In (fst p) CONFIG_FIELDS) -> validate_overrides l = Raise SolverError.
Proof.
  intros l (p & Hp & N). unfold validate_overrides. generalize (@nil (string * val)). induction l as [|[n v] l IH]; intro clean; [destruct Hp|].
  cbn [validate_loop]. destruct (str_in n CONFIG_FIELDS) eqn:Q; [|reflexivity].
  destruct Hp as [<-|Hp]; [exfalso; apply N, str_in_iff, Q | apply IH, Hp].
Qed.
(** Applying changes given as a dictionary to a configuration whose optional fields are not the empty text (no
    configuration that was constructed has one that is). *)
Definition changed (d : dict val) (x : string -> val) (f : string) : val := match dget f d with Some v => given f v | None => x f end.
Lemma evolve_config : forall E x d, (forall f, In f CONFIG_FIELDS -> given f (x f) = x f) -> NoDup (dkeys d) -> (forall k, In k (dkeys d) -> In k CONFIG_FIELDS) ->
  evolve E d (conf_object x) = Ok (conf_object (changed d x)).
Proof.
  intros E x d HG ND HK. unfold evolve, conf_object, object.
  apply (construct_fields E "ConfigInput" fields_ConfigInput _ (fun f => match dget f d with Some v => v | None => x f end)); [reflexivity | discriminate | |].
  - intros k Hk. apply dkeys_dupdate in Hk as [Hk|Hk]; [rewrite map_map, map_id in Hk; exact Hk | apply HK, Hk].
  - unfold changed. 
    assert (G : forall f v, str_in f optional_fields = true -> replace_empty_string v = given f v)
      by (intros f [] Hf; try reflexivity; unfold given; rewrite Hf, andb_true_r; reflexivity).
    assert (G' : forall f v, str_in f optional_fields = false -> v = given f v)
      by (intros f [] Hf; try reflexivity; unfold given; rewrite Hf, andb_false_r; reflexivity).
    unfold fields_ConfigInput. field_forall; (split; [apply dget_dupdate_map; [exact HK | exact ND | inl] | cbn [convert]; f_equal]);
    match goal with |- context [dget ?f d] => specialize (HG f ltac:(inl)); destruct (dget f d) as [u|];
      [ first [exact (G f u eq_refl) | exact (G' f u eq_refl)] | first [reflexivity | exact (eq_trans (G f (x f) eq_refl) HG)] ] end.
Qed.
Theorem C42_apply : forall E x l d, (forall f, In f CONFIG_FIELDS -> given f (x f) = x f) -> validate_overrides l = Ok d ->
  add_overrides E (Some d) (conf_object x) =
  Ok (conf_object (fun f => match last_override f l with Some s => given f (VText s) | None => x f end)).
Proof.
  intros E x l d HG HV.
  assert (HK : forall p, In p l -> In (fst p) CONFIG_FIELDS).
  { intros p Hp. destruct (in_dec string_dec (fst p) CONFIG_FIELDS) as [Q|Q]; [exact Q|]. exfalso. rewrite (C42_unknown l) in HV; [discriminate HV|]. exists p. split; assumption. }
  destruct (validate_loop_ok l [] HK (NoDup_nil _)) as (d' & D1 & D2 & D3 & D4). unfold validate_overrides in HV. rewrite HV in D1. injection D1 as <-.
  cbn [add_overrides]. rewrite evolve_config; [| exact HG | exact D2 | intros k Hk; destruct (D3 k Hk) as [[]|K]; exact K].
  f_equal. unfold conf_object, object. f_equal. apply map_ext. intro f. unfold changed. rewrite D4. destruct (last_override f l); reflexivity.
Qed.
Theorem C42_none : forall E c, add_overrides E None c = Ok c.
Proof. reflexivity. Qed.
Example C42_nonvacuous : validate_overrides [("start", "1"); ("stop", "2"); ("start", "3")] = Ok [("start", VText "3"); ("stop", VText "2")]
  /\ validate_overrides [("start", "1"); ("strat", "2")] = Raise SolverError.
Proof. split; reflexivity. Qed.

(** ** C100: what a configuration file means *)
Lemma conf_construct : forall E file, construct E "ConfigInput" (map (fun e => let '(s, o, d) := e in (o, cfg_get file s o d)) conf_defaults) =
  Ok (conf_object (fun o => given o (VText (option_text file o)))).
Proof.
  intros E file.
  assert (L : forall s o d, s = section_of o -> dget o documented_defaults = Some d -> cfg_get file s o d = VText (option_text file o)).
  { intros s o d -> D. unfold cfg_get, option_text. rewrite D. destruct (dget (section_of o) file) as [opts|]; [destruct (dget o opts)|]; reflexivity. }
  assert (G : forall f v, str_in f optional_fields = true -> replace_empty_string v = given f v)
      by (intros f [] Hf; try reflexivity; unfold given; rewrite Hf, andb_true_r; reflexivity).
  assert (G' : forall f v, str_in f optional_fields = false -> v = given f v)
      by (intros f [] Hf; try reflexivity; unfold given; rewrite Hf, andb_false_r; reflexivity).
  unfold conf_object, CONFIG_FIELDS. apply (construct_fields E "ConfigInput" fields_ConfigInput _ (fun o => VText (option_text file o))); [reflexivity | discriminate | |].
  - intros k Hk. rewrite map_map in Hk. apply str_in_iff. repeat (destruct Hk as [<-|Hk]; [reflexivity|]). destruct Hk.
  - unfold fields_ConfigInput. field_forall; (split; [|cbn [convert]; f_equal; first [apply G; reflexivity | apply G'; reflexivity]]);
    (match goal with |- dget ?o _ = Some (VText (option_text _ ?o)) => rewrite <- (L (section_of o) o (match dget o documented_defaults with Some d => d | None => "" end)) end;
      [reflexivity | reflexivity | reflexivity]).
Qed.
Theorem C100_values : forall E file,
  get_input_from_conffile E file None = Ok (conf_object (fun o => given o (VText (option_text file o)))).
Proof. intros E file. unfold get_input_from_conffile. rewrite conf_construct. reflexivity. Qed.
(** The overrides of the command line come on top of the file. *)
Theorem C100_overrides : forall E file l d, validate_overrides l = Ok d ->
  get_input_from_conffile E file (Some d) =
  Ok (conf_object (fun o => given o (VText (match last_override o l with Some s => s | None => option_text file o end)))).
Proof.
  intros E file l d V. pose proof (C100_values E file) as B. unfold get_input_from_conffile in *.
  destruct (construct E "ConfigInput" _) as [c|e]; [|discriminate B]. cbn [rbind add_overrides] in *. injection B as ->.
  change (evolve E d) with (add_overrides E (Some d)). rewrite (C42_apply E _ l d); [| |exact V].
  - f_equal. unfold conf_object, object. f_equal. apply map_ext. intro f. destruct (last_override f l); reflexivity.
  - intros f Hf. assert (I : forall u, given f (given f (VText u)) = given f (VText u)); [|apply I].
    intro u. destruct (String.eqb u "" && str_in f optional_fields)%bool eqn:Q.
    + replace (given f (VText u)) with (VText "None") by (unfold given; rewrite Q; reflexivity). reflexivity.
    + replace (given f (VText u)) with (VText u) by (unfold given; rewrite Q; reflexivity). unfold given; rewrite Q; reflexivity.
Qed.
(** Nothing else of the file matters: sections and options that are not among these are ignored without a word, and
    an option in the wrong section is such an option. *)
Theorem C100_rest_ignored : forall E f g overrides, (forall o, In o CONFIG_FIELDS -> option_text f o = option_text g o) ->
  get_input_from_conffile E f overrides = get_input_from_conffile E g overrides.
Proof.
  intros E f g overrides H. unfold get_input_from_conffile. rewrite !conf_construct.
  replace (conf_object (fun o => given o (VText (option_text g o)))) with (conf_object (fun o => given o (VText (option_text f o)))); [reflexivity|].
  unfold conf_object, object. f_equal. apply map_ext_in. intros o Ho. rewrite (H o Ho). reflexivity.
Qed.
Example C100_nonvacuous :
  let file := [("initial", [("γ", "0.5"); ("Γ", "2")]); ("config", [("after_sonic", ""); ("η_O", "7")])] in
  option_text file "γ" = "0.5" /\ option_text file "η_O" = "0.001" /\ given "after_sonic" (VText (option_text file "after_sonic")) = VText "None" /\
  (forall o, In o CONFIG_FIELDS -> exists d, dget o documented_defaults = Some d) /\
  List.length documented_defaults = List.length CONFIG_FIELDS.
Proof.
  cbv zeta. repeat split; try reflexivity. intros o Ho.
  assert (Q : dmem o documented_defaults = true).
  { revert o Ho. apply Forall_forall. unfold CONFIG_FIELDS, fields_ConfigInput. cbn [map fst]. repeat constructor. }
  unfold dmem in Q. destruct (dget o documented_defaults) as [d|]; [exists d; reflexivity | discriminate Q].
Qed.
