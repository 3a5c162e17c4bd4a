(** C127: configuration files. *)
Require Import Verif.PyBase Verif.PyLemmas Verif.ArrayProofs Verif.ConfFileModel.
Set Implicit Arguments.
Local Open Scope string_scope.
Local Open Scope Z_scope.

(* ------------------------------------------------------------------ specification *)
(** what a configuration consists of *)
Definition setting_names : list string :=
  ["tot_samples"; "sim_buffer"; "sim_chunk_size"; "start_sources_before_0"; "save_source_contributions"; "array_update_freq"; "samplerate"; "c"; "spatial_dims"; "reverb"; "room_size";
   "room_center"; "rt60"; "max_room_ir_length"; "randomized_ism"; "extra_delay"; "highpass_cutoff"; "export_frequency"; "plot_output"; "output_smoothing"; "auto_save_load"].
(** each setting once, nothing else *)
Definition complete (d : dict pyval) : Prop := forall k, In k (map fst d) <-> In k setting_names.
(** values with a length *)
Inductive has_length : pyval -> Z -> Prop :=
| list_length l : has_length (PList l) (Z.of_nat (List.length l))
| tuple_length l : has_length (PTuple l) (Z.of_nat (List.length l))
| string_length s : has_length (PStr s) (Z.of_nat (String.length s))
| dict_length d : has_length (PDict d) (Z.of_nat (List.length d)).
(** values that are equal to the number n *)
Inductive is_number (n : Z) : pyval -> Prop :=
| int_number : is_number n (PInt n)
| float_number : is_number n (PFloat (n * 2 ^ 1074))
| bool_number b : (n = 1 /\ b = true) \/ (n = 0 /\ b = false) -> is_number n (PBool b).
(** the room fits its number of dimensions, and the type of reverberation is one of three *)
Definition acceptable (d : dict pyval) : Prop := exists rs rc sd rv n,
  dget d "room_size" = Some rs /\ dget d "room_center" = Some rc /\ dget d "spatial_dims" = Some sd /\ dget d "reverb" = Some (PStr rv) /\
  has_length rs n /\ has_length rc n /\ is_number n sd /\ (rv = "none" \/ rv = "direct" \/ rv = "ism").
Definition no_length (d : dict pyval) (k : string) : Prop := exists v, dget d k = Some v /\ forall n, ~ has_length v n.
(** values that safe_load reads back: no tuples, no objects *)
Fixpoint plain (v : pyval) : bool :=
  match v with
  | PTuple _ | PObj => false
  | PList l => forallb plain l
  | PDict d => forallb (fun kv => plain (snd kv)) d
  | _ => true
  end.

(* ------------------------------------------------------------------ proofs *)
Lemma len_spec v n : py_len v = Ok n <-> has_length v n.
Proof. split; [destruct v; cbn [py_len]; intros H; inversion H; constructor|intros H; inversion H; subst; reflexivity]. Qed.
Lemma no_len v : (forall n, ~ has_length v n) -> py_len v = Err TypeError.
Proof. intros H. destruct v; try reflexivity; exfalso; eapply H; constructor. Qed.
Lemma int_eq_spec n v : int_eq n v = true <-> is_number n v.
Proof.
  split.
  - destruct v; cbn [int_eq]; try discriminate; intros H; apply Z.eqb_eq in H; subst; try constructor. destruct b; auto.
  - intros H. inversion H as [|  |b K]; subst; cbn [int_eq]; try apply Z.eqb_refl. destruct K as [[-> ->]|[-> ->]]; reflexivity.
Qed.
Lemma number_unique n m v : is_number n v -> is_number m v -> n = m.
Proof.
  intros A B. apply int_eq_spec in A, B. destruct v; cbn [int_eq] in A, B; try discriminate; apply Z.eqb_eq in A, B; try congruence.
  rewrite <- B in A. apply Z.mul_cancel_r in A; [exact A|]. apply Z.pow_nonzero; discriminate.
Qed.
Lemma smem_In k l : smem k l = true <-> In k l.
Proof. unfold smem. rewrite existsb_exists. split; [intros (x & I & H); apply String.eqb_eq in H; subst; auto|intros I; exists k; split; auto; apply String.eqb_refl]. Qed.
Lemma fields_names : fields = setting_names.
Proof. reflexivity. Qed.
Lemma names_distinct : NoDup setting_names.
Proof. unfold setting_names. repeat constructor; cbn; intuition discriminate. Qed.
Lemma post_spec o : post_init o = Ok o <-> acceptable o.
Proof.
  unfold post_init, acceptable, dgetE. split.
  - intros H. destruct (dget o "room_size") as [rs|]; [|discriminate]. cbn [bind] in H. apply bind_ok in H as (n & L & H). destruct (dget o "spatial_dims") as [sd|]; [|discriminate]. cbn [bind] in H.
    apply bind_ok in H as (u & A & H). destruct (dget o "room_center") as [rc|]; [|discriminate]. cbn [bind] in H. apply bind_ok in H as (n' & L' & H). apply bind_ok in H as (u' & A' & H).
    destruct (dget o "reverb") as [rv|]; [|discriminate]. cbn [bind] in H. apply bind_ok in H as (u2 & A2 & _). unfold passert in *. destruct (int_eq n sd) eqn:Q; [|discriminate]. destruct (int_eq n' sd) eqn:Q'; [|discriminate].
    apply int_eq_spec in Q, Q'. assert (n' = n).
    { exact (number_unique Q' Q). }
    subst n'. destruct rv; try discriminate. destruct (smem s _) eqn:S; [|discriminate]. apply smem_In in S. exists rs, rc, sd, s, n. rewrite <- !len_spec. repeat split; auto. destruct S as [<-|[<-|[<-|[]]]]; auto.
  - intros (rs & rc & sd & rv & n & -> & -> & -> & -> & L & L' & N & R). apply len_spec in L, L'. apply int_eq_spec in N. cbn [bind]. rewrite L. cbn [bind]. unfold passert. rewrite N. cbn [bind]. rewrite L'. cbn [bind]. rewrite N. cbn [bind].
    destruct R as [->|[->| ->]]; reflexivity.
Qed.
Lemma post_same o o' : post_init o = Ok o' -> o' = o.
Proof.
  unfold post_init. intros H. repeat (apply bind_ok in H as (? & _ & H)). injection H as ->. reflexivity.
Qed.
Lemma taken (d : dict pyval) : (forall k, In k fields -> dget d k <> None) -> exists o : dict pyval, mapM (fun k => v <- dgetE d k ;; Ok (k, v)) fields = Ok o /\ dkeys o = fields /\ forall k, In k fields -> dget o k = dget d k.
Proof.
  assert (ND : NoDup fields) by (rewrite fields_names; apply names_distinct). revert ND. generalize fields. intros fl ND. induction fl as [|a l IH]; intros H; [exists []; repeat split; auto; intros k []|].
  inversion ND; subst. cbn [mapM]. unfold dgetE. destruct (dget d a) as [v|] eqn:Q; [|exfalso; apply (H a); [left; reflexivity|exact Q]]. cbn [bind].
  destruct IH as (o & E & K & G); auto. { intros k Hk. apply H. right. exact Hk. }
  unfold dgetE in E. rewrite E. cbn [bind]. exists ((a, v) :: o). split; [reflexivity|]. split; [cbn; f_equal; exact K|].
  intros k [->|I]; cbn [dget]; [rewrite String.eqb_refl; auto|]. destruct (String.eqb_spec k a) as [->|N]; [contradiction|apply G; exact I].
Qed.
Lemma complete_fields d : complete d <-> existsb (fun k => negb (smem k fields)) (dkeys d) = false /\ existsb (fun k => negb (dmem d k)) fields = false.
Proof.
  unfold complete. rewrite <- fields_names. split.
  - intros H. split; apply Bool.not_true_is_false; rewrite existsb_exists; intros (k & I & N); apply negb_true_iff in N.
    + apply H in I. apply smem_In in I. congruence.
    + apply H in I. apply (proj2 (dmem_spec d k)) in I. congruence.
  - intros [A B] k. split; intros I.
    + apply smem_In. destruct (smem k fields) eqn:Q; auto. assert (X : existsb (fun k => negb (smem k fields)) (dkeys d) = true) by (apply existsb_exists; exists k; split; [exact I|rewrite Q; reflexivity]). congruence.
    + apply dmem_spec. destruct (dmem d k) eqn:Q; auto. assert (X : existsb (fun k => negb (dmem d k)) fields = true) by (apply existsb_exists; exists k; split; [exact I|rewrite Q; reflexivity]). congruence.
Qed.
Lemma acceptable_same d o : (forall k, In k setting_names -> dget o k = dget d k) -> acceptable o <-> acceptable d.
Proof.
  intros H. unfold acceptable. rewrite !H by (cbn; tauto). reflexivity.
Qed.
Lemma make_taken d : complete d -> exists o, make_info d = post_init o /\ dkeys o = setting_names /\ forall k, In k setting_names -> dget o k = dget d k.
Proof.
  intros C. pose proof C as C0. apply complete_fields in C as [A B]. unfold make_info. rewrite A, B. destruct (@taken d) as (o & E & K & G).
  { intros k I. apply C0 in I. apply dmem_spec in I. unfold dmem in I. destruct (dget d k); [discriminate|discriminate I]. }
  rewrite E. cbn [bind]. exists o. auto.
Qed.
Lemma make_spec d o : make_info d = Ok o <-> complete d /\ acceptable d /\ dkeys o = setting_names /\ forall k, In k setting_names -> dget o k = dget d k.
Proof.
  split.
  - intros H. assert (C : complete d). { apply complete_fields. unfold make_info in H. destruct (existsb _ (dkeys d)); [discriminate|]. destruct (existsb _ fields); [discriminate|auto]. }
    destruct (make_taken C) as (o' & E & K & G). rewrite E in H. pose proof (post_same _ H). subst o'. split; auto. split; auto. apply (acceptable_same d _ G). apply post_spec. exact H.
  - intros (C & A & K & G). destruct (make_taken C) as (o' & E & K' & G'). rewrite E.
    assert (o' = o).
    { assert (X : forall l (p q : dict pyval), NoDup l -> dkeys p = l -> dkeys q = l -> (forall k, In k l -> dget p k = dget q k) -> p = q).
      { clear. induction l as [|a l IH]; intros [|[k v] p] [|[k' v'] q] ND P Q H; try discriminate; auto. cbn in P, Q. injection P as -> P. injection Q as -> Q. inversion ND; subst.
        pose proof (H a (or_introl eq_refl)) as H0. cbn [dget] in H0. rewrite String.eqb_refl in H0. injection H0 as ->. f_equal. eapply IH; eauto. intros k Hk. specialize (H k (or_intror Hk)). cbn [dget] in H.
        destruct (String.eqb_spec k a) as [E0|N]; [exfalso; rewrite E0 in Hk; contradiction|exact H]. }
      apply (X setting_names); auto; [apply names_distinct|]. intros k I. rewrite G, G'; auto. }
    subst o'. apply post_spec. apply (acceptable_same d _ G'). exact A.
Qed.

Section Files.
Variable Text : Type.
Variable dump : dict pyval -> Text.
Variable safe_load : Text -> res pyval.
Notation files := (files Text).
Notation load := (load_from_file safe_load).
(** what is read: the file itself, or config.yaml in the folder *)
Definition content (fs : files) (p : string) (t : Text) : Prop := dget fs p = Some (File t) \/ (dget fs p = Some Folder /\ dget fs (p ++ "/config.yaml") = Some (File t)).
Lemma content_read fs p t : content fs p t -> load fs (AsPath p) = (config <- safe_load t ;; match config with PDict d => make_info d | _ => Err TypeError end).
Proof. unfold load_from_file, join. intros [H|[H K]]; rewrite H; cbn [append]; [rewrite H|rewrite K]; reflexivity. Qed.
Lemma no_content fs p : (forall t, ~ content fs p t) -> load fs (AsPath p) = Err FileNotFoundError.
Proof.
  intros H. unfold load_from_file, join. cbn [append]. destruct (dget fs p) as [[|t]|] eqn:Q; [|exfalso; eapply H; left; exact Q|rewrite Q; reflexivity].
  destruct (dget fs (p ++ "/config.yaml")) as [[|t]|] eqn:Q2; auto. exfalso. eapply H. right. eauto.
Qed.
(** C127.  A file is loaded exactly if it holds each setting once and nothing else, in any order, the lengths of the room agree
    with its number of dimensions and the reverberation is one of the three.  The settings then have the values of the file. *)
Theorem C127_loaded fs p o : load fs (AsPath p) = Ok o <->
  exists t d, content fs p t /\ safe_load t = Ok (PDict d) /\ complete d /\ acceptable d /\ dkeys o = setting_names /\ forall k, In k setting_names -> dget o k = dget d k.
Proof.
  split.
  - intros H. assert (X : (exists t, content fs p t) \/ forall t, ~ content fs p t).
    { unfold content. destruct (dget fs p) as [[|t]|]; [|left; eauto|right; intros t [?|[? _]]; discriminate]. destruct (dget fs (p ++ "/config.yaml")) as [[|t]|]; [right|left; eauto|right]; intros t' [?|[_ ?]]; discriminate. }
    destruct X as [[t X]|X]; [|rewrite (no_content X) in H; discriminate]. rewrite (content_read X) in H. apply bind_ok in H as (v & L & H). destruct v; try discriminate. apply make_spec in H. exists t, d. tauto.
  - intros (t & d & C & L & H). rewrite (content_read C), L. cbn [bind]. apply make_spec. exact H.
Qed.
(** Otherwise: a path given as a string, which the documentation allows, is an AttributeError; no file is a FileNotFoundError;
    a file that cannot be read raises the error of yaml; a file with another content than all the settings, or a room without
    lengths, is a TypeError (an AssertionError if the centre has no length and the size does not fit either); a room that does not fit its number of dimensions and other types of reverberation are
    AssertionErrors. *)
Theorem C127_errors fs p : load fs (AsStr p) = Err AttributeError /\ ((forall t, ~ content fs p t) -> load fs (AsPath p) = Err FileNotFoundError) /\
  (forall t e, content fs p t -> safe_load t = Err e -> load fs (AsPath p) = Err e) /\
  (forall t v, content fs p t -> safe_load t = Ok v -> (forall d, v = PDict d -> ~ complete d) -> load fs (AsPath p) = Err TypeError) /\
  (forall t d, content fs p t -> safe_load t = Ok (PDict d) -> complete d -> no_length d "room_size" -> load fs (AsPath p) = Err TypeError) /\
  (forall t d, content fs p t -> safe_load t = Ok (PDict d) -> complete d -> no_length d "room_center" -> load fs (AsPath p) = Err TypeError \/ load fs (AsPath p) = Err AssertionError) /\
  (forall t d, content fs p t -> safe_load t = Ok (PDict d) -> complete d -> ~ no_length d "room_size" -> ~ no_length d "room_center" -> ~ acceptable d -> load fs (AsPath p) = Err AssertionError).
Proof.
  split; [reflexivity|]. split; [apply no_content|]. split; [intros t e C L; rewrite (content_read C), L; reflexivity|]. split; [|split; [|split]].
  - intros t v C L H. rewrite (content_read C), L. cbn [bind]. destruct v; auto. destruct (make_info d) as [o|e] eqn:Q; [exfalso; apply (H d eq_refl); apply make_spec in Q; tauto|].
    unfold make_info in Q. destruct (existsb _ (dkeys d)) eqn:A; [congruence|]. destruct (existsb _ fields) eqn:B; [congruence|]. exfalso. apply (H d eq_refl). apply complete_fields. auto.
  - intros t d C L K (v & V & N). rewrite (content_read C), L. cbn [bind]. destruct (make_taken K) as (o & E & _ & G). rewrite E. unfold post_init, dgetE. rewrite (G "room_size") by (cbn; tauto). rewrite V. cbn [bind].
    rewrite (no_len N). reflexivity.
  - intros t d C L K (v & V & N). rewrite (content_read C), L. cbn [bind]. destruct (make_taken K) as (o & E & _ & G). rewrite E. unfold post_init, dgetE. rewrite (G "room_size"), (G "room_center"), (G "spatial_dims") by (cbn; tauto). rewrite V.
    assert (X : forall k, In k setting_names -> exists v, dget d k = Some v). { intros k I. apply K in I. destruct (dget d k) as [w|] eqn:Q; [eauto|]. apply dget_None in Q. contradiction. }
    destruct (X "room_size") as [rs ->]; [cbn; tauto|]. destruct (X "spatial_dims") as [sd ->]; [cbn; tauto|]. cbn [bind]. destruct (py_len rs) as [n|e] eqn:R; [|left; destruct rs; cbn in R |- *; congruence].
    cbn [bind]. unfold passert. destruct (int_eq n sd); [|right; reflexivity]. cbn [bind]. rewrite (no_len N). left. reflexivity.
  - intros t d C L K N1 N2 NA. rewrite (content_read C), L. cbn [bind]. destruct (make_taken K) as (o & E & _ & G). rewrite E. rewrite <- (acceptable_same d _ G) in NA.
    assert (X : forall k, In k setting_names -> exists v, dget o k = Some v).
    { intros k I. rewrite (G k I). apply K in I. destruct (dget d k) as [v|] eqn:Q; [eauto|]. apply dget_None in Q. contradiction. }
    assert (Y : forall k v, In k setting_names -> ~ no_length d k -> dget o k = Some v -> exists n, py_len v = Ok n).
    { intros k v I N V. destruct v; cbn [py_len]; eauto; exfalso; apply N; eexists; (split; [rewrite <- (G k I); exact V|]); intros n Hn; inversion Hn. }
    destruct (X "room_size") as [rs R1]; [cbn; tauto|]. destruct (X "room_center") as [rc R2]; [cbn; tauto|]. destruct (X "spatial_dims") as [sd R3]; [cbn; tauto|]. destruct (X "reverb") as [rv R4]; [cbn; tauto|].
    destruct (Y "room_size" rs) as [n L1]; auto; [cbn; tauto|]. destruct (Y "room_center" rc) as [n' L2]; auto; [cbn; tauto|].
    destruct (post_init o) as [o'|e] eqn:P; [exfalso; apply NA, post_spec; pose proof (post_same _ P); congruence|].
    unfold post_init, dgetE in P. rewrite R1, R2, R3, R4 in P. cbn [bind] in P. rewrite L1 in P. cbn [bind] in P. unfold passert in P.
    destruct (int_eq n sd); [|injection P as <-; reflexivity]. cbn [bind] in P. rewrite L2 in P. cbn [bind] in P. destruct (int_eq n' sd); [|injection P as <-; reflexivity]. cbn [bind] in P.
    destruct (match rv with PStr s => smem s ["none"; "direct"; "ism"] | _ => false end); [discriminate|injection P as <-; reflexivity].
Qed.

(** What is known about yaml: dictionaries of plain values are read back, others are refused with this error *)
Variable yaml_error : exn.
Definition yaml_behaves : Prop := (forall d, NoDup (dkeys d) -> forallb (fun kv => plain (snd kv)) d = true -> safe_load (dump d) = Ok (PDict d)) /\
  (forall d, forallb (fun kv => plain (snd kv)) d = false -> safe_load (dump d) = Err yaml_error).
Lemma path_longer p : (p ++ "/config.yaml")%string <> p.
Proof. induction p as [|a p IH]; cbn; [discriminate|]. intros H. injection H as H. contradiction. Qed.
Lemma saved_content fs fs' o p : save_to_file dump fs o (Some p) = Ok fs' -> content fs' p (dump o).
Proof.
  unfold save_to_file, join. cbn [append]. destruct (dget fs p) as [[|t]|] eqn:Q; try discriminate. intros H. injection H as <-. right. split; [|apply dget_dset_same].
  rewrite dget_dset_other; [exact Q|]. intros H. symmetry in H. revert H. apply path_longer.
Qed.
(** A configuration of plain values that is acceptable is loaded back from the folder where it was saved, and saving touches
    nothing but the file config.yaml. *)
Theorem C127_saved_partial fs o p : yaml_behaves -> dget fs p = Some Folder -> dkeys o = setting_names -> acceptable o -> forallb (fun kv => plain (snd kv)) o = true ->
  exists fs', save_to_file dump fs o (Some p) = Ok fs' /\ load fs' (AsPath p) = Ok o /\ forall q, q <> (p ++ "/config.yaml")%string -> dget fs' q = dget fs q.
Proof.
  intros [Y _] F K A P. eexists. split; [unfold save_to_file; rewrite F; reflexivity|]. split.
  - apply C127_loaded. exists (dump o), o. split; [apply (@saved_content fs _ o p); unfold save_to_file; rewrite F; reflexivity|]. split; [apply Y; auto; rewrite K; apply names_distinct|].
    split; [intros k; change (map fst o) with (dkeys o); rewrite K; reflexivity|]. repeat split; auto.
  - intros q Q. apply dget_dset_other. exact Q.
Qed.
(** False in general: a room size that is a tuple is acceptable, but cannot be read back; ... *)
Theorem C127_tuple_refuted : yaml_behaves -> exists o, post_init o = Ok o /\ dkeys o = setting_names /\ forall fs p, dget fs p = Some Folder ->
  exists fs', save_to_file dump fs o (Some p) = Ok fs' /\ load fs' (AsPath p) = Err yaml_error.
Proof.
  intros [_ Y]. exists (dset default_values "room_size" (PTuple [PInt 5; PInt 4; PInt 3])). split; [vm_compute; reflexivity|]. split; [reflexivity|].
  intros fs p F. eexists. split; [unfold save_to_file; rewrite F; reflexivity|]. rewrite (@content_read _ p _ (@saved_content fs _ _ p ltac:(unfold save_to_file; rewrite F; reflexivity))). rewrite Y by reflexivity. reflexivity.
Qed.
(** ... and a setting that is changed after loading is not checked: the reverberation "random", which the default file offers, is saved but cannot be loaded. *)
Theorem C127_changed_refuted : yaml_behaves -> exists o, post_init o = Ok o /\ dkeys o = setting_names /\ forall fs p, dget fs p = Some Folder ->
  exists fs', save_to_file dump fs (dset o "reverb" (PStr "random")) (Some p) = Ok fs' /\ load fs' (AsPath p) = Err AssertionError.
Proof.
  intros [Y _]. exists default_values. split; [vm_compute; reflexivity|]. split; [reflexivity|].
  intros fs p F. eexists. split; [unfold save_to_file; rewrite F; reflexivity|]. rewrite (@content_read _ p _ (@saved_content fs _ _ p ltac:(unfold save_to_file; rewrite F; reflexivity))).
  rewrite Y; [vm_compute; reflexivity| |reflexivity]. change (NoDup setting_names). apply names_distinct.
Qed.
(** A setup without a configuration path has the settings of the file in the package, which are accepted. *)
Theorem C127_default fs package t : dget fs (package ++ "/config.yaml") = Some (File t) -> safe_load t = Ok (PDict default_values) -> setup_config safe_load fs package None = Ok default_values.
Proof.
  intros F L. unfold setup_config, load_default_config. apply C127_loaded. exists t, default_values. split; [left; exact F|]. split; [exact L|]. split; [intros k; reflexivity|]. split; [apply post_spec; vm_compute; reflexivity|]. auto.
Qed.
(** A session with a configuration that cannot be read keeps every search from getting past it. *)
Theorem C127_blocked fs fits before p after e : dget fs p = Some Folder -> load fs (AsPath p) = Err e ->
  (forall q, In q before -> dget fs q = Some Folder -> exists o, load fs (AsPath q) = Ok o /\ fits q o = Ok false) -> search_sessions safe_load fs fits (before ++ p :: after) = Err e.
Proof.
  intros F L. induction before as [|q l IH]; intros H; cbn [app search_sessions].
  - rewrite F, L. reflexivity.
  - destruct (dget fs q) as [[|t]|] eqn:Q; try (apply IH; intros; apply H; auto; right; auto). destruct (H q (or_introl eq_refl) Q) as (o & E1 & E2). rewrite E1. cbn [bind]. rewrite E2. cbn [bind]. apply IH. intros. apply H; auto. right. auto.
Qed.
(** Saving without a path does nothing; without the folder it is an error. *)
Theorem C127_not_saved fs o p : save_to_file dump fs o None = Ok fs /\ (dget fs p = None -> save_to_file dump fs o (Some p) = Err FileNotFoundError).
Proof. split; [reflexivity|]. intros H. unfold save_to_file. rewrite H. reflexivity. Qed.
(** A search among sessions that can all be read gives the first folder that fits, or the error MatchingSessionNotFoundError. *)
Theorem C127_searched fs fits entries : (forall q, In q entries -> dget fs q = Some Folder -> exists o b, load fs (AsPath q) = Ok o /\ fits q o = Ok b) ->
  (exists before p after o, entries = (before ++ p :: after)%list /\ dget fs p = Some Folder /\ load fs (AsPath p) = Ok o /\ fits p o = Ok true /\
     (forall q o, In q before -> dget fs q = Some Folder -> load fs (AsPath q) = Ok o -> fits q o = Ok false) /\ search_sessions safe_load fs fits entries = Ok p) \/
  ((forall q o, In q entries -> dget fs q = Some Folder -> load fs (AsPath q) = Ok o -> fits q o = Ok false) /\ search_sessions safe_load fs fits entries = Err MatchingSessionNotFoundError).
Proof.
  induction entries as [|q l IH]; intros H; [right; split; [intros q o []|reflexivity]|]. cbn [search_sessions].
  destruct (IH (fun q' I => H q' (or_intror I))) as [(bf & p & af & o & E1 & E2 & E3 & E4 & E5 & E6)|[E5 E6]]; destruct (dget fs q) as [[|t]|] eqn:Q.
  1,4: destruct (H q (or_introl eq_refl) Q) as (o1 & b & L & B); rewrite L; cbn [bind]; rewrite B; cbn [bind]; destruct b;
    [left; exists [], q, l, o1; split; [reflexivity|]; split; [exact Q|]; split; [exact L|]; split; [exact B|]; split; [intros ? ? []|reflexivity]|].
  1,3,4: left; exists (q :: bf), p, af, o; split; [rewrite E1; reflexivity|]; split; [exact E2|]; split; [exact E3|]; split; [exact E4|]; split; [|exact E6];
    intros q' o' [<-|I] F L'; [congruence|eauto].
  all: right; split; [|exact E6]; intros q' o' [<-|I] F L'; [congruence|eauto].
Qed.
End Files.

(* ------------------------------------------------------------------ examples *)
(** a yaml whose files are the dictionaries themselves *)
Definition demo_load (t : dict pyval) : res pyval := if forallb (fun kv => plain (snd kv)) t then Ok (PDict t) else Err ValueError.
Definition demo_dump (d : dict pyval) : dict pyval := d.
Definition flat_config : dict pyval := dset (dset (dset default_values "spatial_dims" (PInt 2)) "room_size" (PList [PFloat (5 * 2 ^ 1074); PInt 4])) "room_center" (PList [PInt 0; PInt 0]).
Definition wide_config : dict pyval := dset default_values "room_size" (PList [PInt 5; PInt 4]).
Definition loose_config : dict pyval := dset default_values "room_center" (PInt 0).
Definition old_config : dict pyval := filter (fun kv => negb (String.eqb (fst kv) "rt60")) default_values.
Definition demo_files : files (dict pyval) :=
  [("sessions", Folder); ("sessions/flat", Folder); ("sessions/flat/config.yaml", File flat_config); ("sessions/wide", Folder); ("sessions/wide/config.yaml", File wide_config);
   ("sessions/new", Folder); ("old.yaml", File old_config); ("loose.yaml", File loose_config); ("tuple.yaml", File [("room_size", PTuple [PInt 5])]); ("turned.yaml", File (rev flat_config)); ("package/config.yaml", File default_values)]%list.
Example demo_yaml_meets : yaml_behaves demo_dump demo_load ValueError.
Proof. split; intros d; unfold demo_dump, demo_load; [intros _ H|intros H]; rewrite H; reflexivity. Qed.
(** the settings in another order are loaded in the order of the class *)
Example C127_loaded_meets : load_from_file demo_load demo_files (AsPath "turned.yaml") = Ok flat_config /\ load_from_file demo_load demo_files (AsPath "sessions/flat") = Ok flat_config /\
  dkeys (rev flat_config) <> dkeys flat_config /\ acceptable flat_config.
Proof. split; [vm_compute; reflexivity|]. split; [vm_compute; reflexivity|]. split; [discriminate|]. apply post_spec. vm_compute. reflexivity. Qed.
Example C127_errors_meets : content demo_files "sessions/wide" wide_config /\ complete wide_config /\ ~ acceptable wide_config /\ load_from_file demo_load demo_files (AsPath "sessions/wide") = Err AssertionError /\
  content demo_files "old.yaml" old_config /\ ~ complete old_config /\ load_from_file demo_load demo_files (AsPath "old.yaml") = Err TypeError /\
  no_length loose_config "room_center" /\ load_from_file demo_load demo_files (AsPath "loose.yaml") = Err TypeError /\
  (forall t, ~ content demo_files "sessions/new" t) /\ load_from_file demo_load demo_files (AsPath "sessions/new") = Err FileNotFoundError /\
  load_from_file demo_load demo_files (AsPath "tuple.yaml") = Err ValueError.
Proof.
  split; [right; split; reflexivity|]. split; [intros k; reflexivity|]. split; [intros H; apply post_spec in H; vm_compute in H; discriminate|]. split; [vm_compute; reflexivity|].
  split; [left; reflexivity|]. split; [intros H; apply complete_fields in H as [_ H]; vm_compute in H; discriminate|]. split; [vm_compute; reflexivity|].
  split; [exists (PInt 0); split; [reflexivity|intros n H; inversion H]|]. split; [vm_compute; reflexivity|]. split; [intros t [H|[_ H]]; discriminate|]. split; vm_compute; reflexivity.
Qed.
Example C127_saved_meets : exists fs', save_to_file demo_dump demo_files flat_config (Some "sessions/new") = Ok fs' /\ load_from_file demo_load fs' (AsPath "sessions/new") = Ok flat_config /\
  forall q, q <> "sessions/new/config.yaml" -> dget fs' q = dget demo_files q.
Proof.
  apply (@C127_saved_partial _ demo_dump demo_load ValueError demo_files flat_config "sessions/new"); [exact demo_yaml_meets|reflexivity|reflexivity|apply post_spec; vm_compute; reflexivity|reflexivity].
Qed.
Example C127_refuted_meets : yaml_behaves demo_dump demo_load ValueError /\ dget demo_files "sessions/new" = Some Folder.
Proof. split; [exact demo_yaml_meets|reflexivity]. Qed.
Example C127_default_meets : dget demo_files "package/config.yaml" = Some (File default_values) /\ demo_load default_values = Ok (PDict default_values).
Proof. split; reflexivity. Qed.
(** the session that fits comes after one that cannot be read *)
Example C127_blocked_meets : let fits q (_ : config) := Ok (String.eqb q "sessions/flat") in
  search_sessions demo_load demo_files fits ["sessions/wide"; "sessions/flat"] = Err AssertionError /\ search_sessions demo_load demo_files fits ["old.yaml"; "sessions/flat"; "sessions/wide"] = Ok "sessions/flat".
Proof. split; vm_compute; reflexivity. Qed.

Example C127_not_saved_meets : dget demo_files "nowhere" = None.
Proof. reflexivity. Qed.
Example C127_searched_meets : let fits q (_ : config) := Ok (String.eqb q "sessions/flat") in
  (forall q, In q ["old.yaml"; "sessions/flat"; "package/config.yaml"] -> dget demo_files q = Some Folder -> exists o b, load_from_file demo_load demo_files (AsPath q) = Ok o /\ fits q o = Ok b) /\
  search_sessions demo_load demo_files fits ["old.yaml"; "sessions/flat"; "package/config.yaml"] = Ok "sessions/flat" /\ search_sessions demo_load demo_files fits ["old.yaml"] = Err MatchingSessionNotFoundError.
Proof.
  split; [|split; vm_compute; reflexivity]. intros q [<-|[<-|[<-|[]]]] H; try discriminate H. exists flat_config, true. split; vm_compute; reflexivity.
Qed.
Print Assumptions C127_not_saved.
Print Assumptions C127_searched.
Print Assumptions C127_loaded.
Print Assumptions C127_errors.
Print Assumptions C127_saved_partial.
Print Assumptions C127_tuple_refuted.
Print Assumptions C127_changed_refuted.
Print Assumptions C127_default.
Print Assumptions C127_blocked.
