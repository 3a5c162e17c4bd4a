(** C135: keyword arguments of diagnostics. *)
Require Import Verif.PyBase Verif.PyLemmas Verif.CallModel.
Set Implicit Arguments.
Local Open Scope string_scope.

Section Calls.
Variable X : Type.
Notation val := (val X).
Notation kwargs := (kwargs X).
Implicit Types K kw : kwargs.

(* ------------------------------------------------------------------ what should happen *)
(** the settings that every diagnostic has *)
Definition settings : list string := ["sim_info"; "export_at"; "save_at"; "export_func"; "keep_only_last_export"; "export_kwargs"; "preprocess"].
(** the value given for a keyword, or the default *)
Definition asked K (n : string) (default : val) : val := match dget K n with Some v => v | None => default end.
(** None means: the default *)
Definition or_else (v default : val) : val := match v with VNone => default | _ => v end.
(** the settings of a diagnostic of signals made with the keywords K: by default it saves during the whole simulation *)
Definition signal_settings (info : val) K (n : string) : val :=
  if n =? "sim_info" then info
  else if n =? "save_at" then or_else (asked K n VNone) VWhole
  else if n =? "export_func" then asked K n (VStr "plot")
  else if n =? "keep_only_last_export" then or_else (asked K n VNone) (VBool false)
  else asked K n VNone.
(** those of a diagnostic of states that is saved every f samples *)
Definition state_settings (info f : val) K (n : string) : val :=
  if n =? "sim_info" then info
  else if n =? "save_at" then VFreq f
  else if n =? "export_func" then asked K n (VStr "plot")
  else if n =? "keep_only_last_export" then asked K n (VBool false)
  else asked K n VNone.
(** those of a summary of a range of samples: saved there and exported at its end *)
Definition summary_settings (info range : val) (func : string) K (n : string) : val :=
  if n =? "sim_info" then info
  else if n =? "export_at" then VEnds range
  else if n =? "save_at" then VRange range
  else if n =? "export_func" then VStr func
  else if n =? "keep_only_last_export" then asked K n (VBool false)
  else asked K n VNone.
(** a constructor knows the given keywords: with others it raises a TypeError, and with known ones the common constructor gets exactly these settings *)
Definition knows (constructor : kwargs -> res kwargs) (known : list string) (expected : kwargs -> string -> val) : Prop := forall K,
  ((forall k, In k (dkeys K) -> In k known) -> exists v, constructor K = Ok v /\ dkeys v = settings /\ forall n, In n settings -> dget v n = Some (expected K n)) /\
  ((exists k, In k (dkeys K) /\ ~ In k known) -> constructor K = Err TypeError).

(* ------------------------------------------------------------------ lemmas *)
Lemma dget_without K names n : dget (filter (fun k => negb (smem (fst k) names)) K) n = if smem n names then None else dget K n.
Proof.
  induction K as [|[k v] K IH]; cbn [filter dget fst]. { destruct (smem n names); reflexivity. }
  destruct (smem k names) eqn:Q; cbn [negb].
  - rewrite IH. destruct (String.eqb_spec n k) as [->|N]; [rewrite Q; reflexivity|reflexivity].
  - cbn [dget]. destruct (String.eqb_spec n k) as [->|N]; [rewrite Q; reflexivity|exact IH].
Qed.
Definition given (s : signature X) (args : list val) K (p : string * option val) : val :=
  match dget (combine (map fst (s_pos s)) args) (fst p) with Some v => v | None => match dget K (fst p) with Some v => v | None => match snd p with Some v => v | None => VNone end end end.
Lemma bind_eq s args K : forallb (fun p => match snd p with Some _ => true | None => smem (fst p) (map fst (combine (map fst (s_pos s)) args)) || smem (fst p) (dkeys K) end) (s_pos s ++ s_only s)%list = true ->
  bind_call s args K =
    if (negb (s_star s) && negb (Nat.eqb (length (skipn (length (s_pos s)) args)) 0)) || existsb (fun k => smem (fst k) (map fst (combine (map fst (s_pos s)) args))) K ||
       (negb (s_starkw s) && negb (Nat.eqb (length (filter (fun k => negb (smem (fst k) (map fst (s_pos s ++ s_only s)%list))) K)) 0)) then Err TypeError
    else Ok (map (fun p => (fst p, given s args K p)) (s_pos s ++ s_only s)%list, skipn (length (s_pos s)) args, filter (fun k => negb (smem (fst k) (map fst (s_pos s ++ s_only s)%list))) K).
Proof.
  intros H. unfold bind_call. destruct (negb (s_star s) && _); [reflexivity|]. destruct (existsb _ K); [reflexivity|]. destruct (negb (s_starkw s) && _); [reflexivity|]. cbn [orb].
  assert (M : forall l, forallb (fun p => match snd p with Some _ => true | None => smem (fst p) (map fst (combine (map fst (s_pos s)) args)) || smem (fst p) (dkeys K) end) l = true ->
    mapM (fun p => match dget (combine (map fst (s_pos s)) args) (fst p), dget K (fst p), snd p with Some v, _, _ | None, Some v, _ | None, None, Some v => Ok (fst p, v) | None, None, None => Err TypeError end) l = Ok (map (fun p => (fst p, given s args K p)) l)).
  { clear H. induction l as [|[n d] l IH]; cbn [forallb]; intros H; [reflexivity|]. apply andb_prop in H as [H1 H2]. cbn [mapM map fst snd] in *. rewrite IH by exact H2. unfold given. cbn [fst snd].
    destruct (dget (combine _ _) n) eqn:Q; [reflexivity|]. destruct (dget K n) eqn:Q2; [reflexivity|]. destruct d; [reflexivity|]. apply dget_None in Q, Q2. apply Bool.orb_prop in H1 as [H1|H1]; apply smem_spec in H1; contradiction. }
  rewrite M by exact H. reflexivity.
Qed.
Lemma exists_key names K : existsb (fun k => smem (fst k) names) K = true <-> exists k, In k (dkeys K) /\ In k names.
Proof.
  rewrite existsb_exists. split.
  - intros (p & I & H). exists (fst p). split; [apply in_map; exact I|apply smem_spec; exact H].
  - intros (k & I & H). apply in_map_iff in I as (p & <- & I). exists p. split; [exact I|apply smem_spec; exact H].
Qed.
Lemma unknown_key names K : negb (Nat.eqb (length (filter (fun k => negb (smem (fst k) names)) K)) 0) = true <-> exists k, In k (dkeys K) /\ ~ In k names.
Proof.
  rewrite Bool.negb_true_iff, Nat.eqb_neq. split.
  - intros H. destruct (filter _ K) as [|p l] eqn:Q; [contradiction|]. assert (I : In p (filter (fun k => negb (smem (fst k) names)) K)) by (rewrite Q; left; reflexivity). apply filter_In in I as [I J]. exists (fst p). split; [apply in_map; exact I|]. apply smem_false. destruct (smem (fst p) names); [discriminate|reflexivity].
  - intros (k & I & N) H. apply in_map_iff in I as (p & <- & I). assert (J : In p (filter (fun k => negb (smem (fst k) names)) K)). { apply filter_In. split; [exact I|]. apply smem_false in N. rewrite N. reflexivity. } destruct (filter _ K); [destruct J|discriminate].
Qed.
Lemma keys_without names K k : In k (dkeys (filter (fun k => negb (smem (fst k) names)) K)) <-> In k (dkeys K) /\ ~ In k names.
Proof.
  unfold dkeys. rewrite !in_map_iff. split.
  - intros (p & <- & I). apply filter_In in I as [I J]. split; [eauto|]. apply smem_false. destruct (smem (fst p) names); [discriminate|reflexivity].
  - intros ((p & <- & I) & N). exists p. split; [reflexivity|]. apply filter_In. split; [exact I|]. apply smem_false in N. rewrite N. reflexivity.
Qed.
(** a call whose keywords are tested for conflicts and for unknown names *)
Lemma test_keys conflict names K : (existsb (fun k => smem (fst k) conflict) K || negb (Nat.eqb (length (filter (fun k => negb (smem (fst k) names)) K)) 0) = false) <-> forall k, In k (dkeys K) -> In k names /\ ~ In k conflict.
Proof.
  rewrite Bool.orb_false_iff, <- !Bool.not_true_iff_false, exists_key, unknown_key. split.
  - intros [A B] k I. split; [destruct (in_dec string_dec k names); [assumption|exfalso; eauto]|eauto].
  - intros H. split; intros (k & I & J); apply H in I; tauto.
Qed.
Lemma conflicts conflict K : existsb (fun k => smem (fst k) conflict) K = false <-> forall k, In k (dkeys K) -> ~ In k conflict.
Proof. rewrite <- Bool.not_true_iff_false, exists_key. split; [intros H k I J; eauto|intros H (k & I & J); eapply H; eauto]. Qed.

(** membership in concrete lists *)
Ltac keys :=
  repeat match goal with H : ?a /\ ?b |- _ => destruct H end;
  match goal with H : In _ (_ :: _) |- _ => cbn [In] in H; repeat destruct H as [<-|H]; try contradiction; try (exfalso; match goal with N : ~ In _ _ |- _ => apply N; cbn [In]; tauto end); cbn [In]; (tauto || (split; cbn [In]; [tauto|intuition discriminate]) || intuition discriminate) end.
(** the constructors, with the required arguments given by position *)
Lemma signal_one info K : signal_diagnostic [info] K =
  if existsb (fun k => smem (fst k) ["sim_info"]) K || negb (Nat.eqb (length (filter (fun k => negb (smem (fst k) settings)) K)) 0) then Err TypeError
  else Ok (map (fun n => (n, signal_settings info K n)) settings).
Proof.
  unfold signal_diagnostic. rewrite bind_eq by reflexivity. cbn [s_pos s_star s_only s_starkw signal_sig combine map fst skipn length app negb andb orb Nat.eqb]. fold settings.
  destruct (existsb _ K || _); [reflexivity|]. cbn [bind fst snd]. unfold param, given. cbn. unfold signal_settings, asked, or_else. cbn. destruct (dget K "save_at") as [[]|], (dget K "keep_only_last_export") as [[]|]; reflexivity.
Qed.
Lemma signal_two info e K : signal_diagnostic [info; e] K =
  if existsb (fun k => smem (fst k) ["sim_info"; "export_at"]) K || negb (Nat.eqb (length (filter (fun k => negb (smem (fst k) settings)) K)) 0) then Err TypeError
  else Ok (map (fun n => (n, if n =? "export_at" then e else signal_settings info K n)) settings).
Proof.
  unfold signal_diagnostic. rewrite bind_eq by reflexivity. cbn [s_pos s_star s_only s_starkw signal_sig combine map fst skipn length app negb andb orb Nat.eqb]. fold settings.
  destruct (existsb _ K || _); [reflexivity|]. cbn [bind fst snd]. unfold param, given. cbn. unfold signal_settings, asked, or_else. cbn. destruct (dget K "save_at") as [[]|], (dget K "keep_only_last_export") as [[]|]; reflexivity.
Qed.
Lemma dget_mapped (f : string -> val) l n : In n l -> dget (map (fun n => (n, f n)) l) n = Some (f n).
Proof. induction l as [|m l IH]; cbn [map dget]; [intros []|]. intros [->|I]; [rewrite String.eqb_refl; reflexivity|]. destruct (String.eqb_spec n m) as [->|]; auto. Qed.
Lemma keys_mapped (f : string -> val) l : dkeys (map (fun n => (n, f n)) l) = l.
Proof. unfold dkeys. rewrite map_map. cbn [fst]. apply map_id. Qed.
(** from the closed form of a constructor to the claim *)
Lemma knows_form constructor known (conflict : kwargs -> bool) expected (found : kwargs -> string -> val) :
  (forall K, constructor K = if conflict K then Err TypeError else Ok (map (fun n => (n, found K n)) settings)) ->
  (forall K, conflict K = false <-> forall k, In k (dkeys K) -> In k known) ->
  (forall K n, conflict K = false -> In n settings -> found K n = expected K n) -> knows constructor known expected.
Proof.
  intros F C E K. rewrite F. split.
  - intros H. apply C in H. rewrite H. eexists. split; [reflexivity|]. split; [apply keys_mapped|]. intros n I. rewrite dget_mapped by exact I. f_equal. apply E; auto.
  - intros (k & I & N). destruct (conflict K) eqn:Q; [reflexivity|]. exfalso. apply N. apply (proj1 (C K) Q). exact I.
Qed.

(** C135.  The keywords of RecordSignal, SignalPower and SignalPowerRatio, besides their own ones. *)
Theorem C135_record_signal name info : knows (record_signal [name; info]) ["num_channels"; "channel_idx"; "export_at"; "save_at"; "export_func"; "keep_only_last_export"; "export_kwargs"; "preprocess"] (signal_settings info).
Proof.
  eapply knows_form; [intros K|intros K|intros K n].
  - unfold record_signal. rewrite bind_eq by reflexivity. cbn [s_pos s_star s_only s_starkw combine map fst snd skipn length app negb andb orb Nat.eqb]. rewrite Bool.orb_false_r. 
    set (K' := filter _ K). instantiate (1 := fun K n => signal_settings info (filter (fun k => negb (smem (fst k) ["sig_name"; "num_channels"; "channel_idx"])) K) n).
    instantiate (1 := fun K => existsb (fun k => smem (fst k) ["sig_name"]) K || (let K' := filter (fun k => negb (smem (fst k) ["sig_name"; "num_channels"; "channel_idx"])) K in existsb (fun k => smem (fst k) ["sim_info"]) K' || negb (Nat.eqb (length (filter (fun k => negb (smem (fst k) settings)) K')) 0))).
    cbv beta zeta. destruct (existsb (fun k => smem (fst k) ["sig_name"]) K); [reflexivity|]. cbn [bind fst snd orb]. rewrite signal_one. reflexivity.
  - cbv beta zeta. rewrite Bool.orb_false_iff, conflicts, test_keys. split.
    + intros [A B] k I. specialize (A k I). specialize (B k). rewrite keys_without in B.
      destruct (in_dec string_dec k ["sig_name"; "num_channels"; "channel_idx"]) as [J|J]; [|specialize (B (conj I J))]; unfold settings in *; keys.
    + intros H. split; intros k I; [|apply keys_without in I as [I J]]; specialize (H k I); unfold settings; keys.
  - intros _ I. unfold signal_settings, asked. rewrite dget_without. unfold settings in I. cbn [In] in I. repeat destruct I as [<-|I]; try reflexivity. destruct I.
Qed.
Theorem C135_signal_power name info : knows (signal_power [name; info]) ["export_at"; "sig_channels"; "save_at"; "export_func"; "keep_only_last_export"; "export_kwargs"; "preprocess"] (signal_settings info).
Proof.
  eapply knows_form; [intros K|intros K|intros K n].
  - unfold signal_power. rewrite bind_eq by reflexivity. cbn [s_pos s_star s_only s_starkw combine map fst snd skipn length app negb andb orb Nat.eqb]. rewrite Bool.orb_false_r.
    instantiate (1 := fun K n => if n =? "export_at" then asked K n VNone else signal_settings info (filter (fun k => negb (smem (fst k) ["sig_name"; "sim_info"; "export_at"; "sig_channels"])) K) n).
    instantiate (1 := fun K => existsb (fun k => smem (fst k) ["sig_name"; "sim_info"]) K || (let K' := filter (fun k => negb (smem (fst k) ["sig_name"; "sim_info"; "export_at"; "sig_channels"])) K in existsb (fun k => smem (fst k) ["sim_info"; "export_at"]) K' || negb (Nat.eqb (length (filter (fun k => negb (smem (fst k) settings)) K')) 0))).
    cbv beta zeta. destruct (existsb (fun k => smem (fst k) ["sig_name"; "sim_info"]) K); [reflexivity|]. cbn [bind fst snd orb]. rewrite signal_two. destruct (existsb _ (filter _ K) || _); reflexivity.
  - cbv beta zeta. rewrite Bool.orb_false_iff, conflicts, test_keys. split.
    + intros [A B] k I. specialize (A k I). specialize (B k). rewrite keys_without in B.
      destruct (in_dec string_dec k ["sig_name"; "sim_info"; "export_at"; "sig_channels"]) as [J|J]; [|specialize (B (conj I J))]; unfold settings in *; keys.
    + intros H. split; intros k I; [|apply keys_without in I as [I J]]; specialize (H k I); unfold settings; keys.
  - intros _ I. unfold signal_settings, asked. rewrite dget_without. unfold settings in I. cbn [In] in I. repeat destruct I as [<-|I]; try reflexivity. destruct I.
Qed.
Theorem C135_signal_power_ratio numerator denom info : knows (signal_power_ratio [numerator; denom; info]) ["export_at"; "numerator_channels"; "denom_channels"; "save_at"; "export_func"; "keep_only_last_export"; "export_kwargs"; "preprocess"] (signal_settings info).
Proof.
  eapply knows_form; [intros K|intros K|intros K n].
  - unfold signal_power_ratio. rewrite bind_eq by reflexivity. cbn [s_pos s_star s_only s_starkw combine map fst snd skipn length app negb andb orb Nat.eqb]. rewrite Bool.orb_false_r.
    instantiate (1 := fun K n => if n =? "export_at" then asked K n VNone else signal_settings info (filter (fun k => negb (smem (fst k) ["numerator_name"; "denom_name"; "sim_info"; "export_at"; "numerator_channels"; "denom_channels"])) K) n).
    instantiate (1 := fun K => existsb (fun k => smem (fst k) ["numerator_name"; "denom_name"; "sim_info"]) K || (let K' := filter (fun k => negb (smem (fst k) ["numerator_name"; "denom_name"; "sim_info"; "export_at"; "numerator_channels"; "denom_channels"])) K in existsb (fun k => smem (fst k) ["sim_info"; "export_at"]) K' || negb (Nat.eqb (length (filter (fun k => negb (smem (fst k) settings)) K')) 0))).
    cbv beta zeta. destruct (existsb (fun k => smem (fst k) ["numerator_name"; "denom_name"; "sim_info"]) K); [reflexivity|]. cbn [bind fst snd orb]. rewrite signal_two. destruct (existsb _ (filter _ K) || _); reflexivity.
  - cbv beta zeta. rewrite Bool.orb_false_iff, conflicts, test_keys. split.
    + intros [A B] k I. specialize (A k I). specialize (B k). rewrite keys_without in B.
      destruct (in_dec string_dec k ["numerator_name"; "denom_name"; "sim_info"; "export_at"; "numerator_channels"; "denom_channels"]) as [J|J]; [|specialize (B (conj I J))]; unfold settings in *; keys.
    + intros H. split; intros k I; [|apply keys_without in I as [I J]]; specialize (H k I); unfold settings; keys.
  - intros _ I. unfold signal_settings, asked. rewrite dget_without. unfold settings in I. cbn [In] in I. repeat destruct I as [<-|I]; try reflexivity. destruct I.
Qed.
(** RecordState, with the times of export and saving given by position.  Without a frequency of saving it is not implemented. *)
Lemma state_three info e f K : f <> VNone -> state_diagnostic [info; e; f] K =
  if existsb (fun k => smem (fst k) ["sim_info"; "export_at"; "save_frequency"]) K || negb (Nat.eqb (length (filter (fun k => negb (smem (fst k) ["sim_info"; "export_at"; "save_frequency"; "export_func"; "keep_only_last_export"; "export_kwargs"; "preprocess"])) K)) 0) then Err TypeError
  else Ok (map (fun n => (n, if n =? "export_at" then e else state_settings info f K n)) settings).
Proof.
  intros Hf. unfold state_diagnostic. rewrite bind_eq by reflexivity. cbn [s_pos s_star s_only s_starkw state_sig combine map fst skipn length app negb andb orb Nat.eqb].
  destruct (existsb _ K || _); [reflexivity|]. cbn [bind fst snd]. unfold param, given. cbn. unfold state_settings, asked. cbn. destruct f; [contradiction|reflexivity..].
Qed.
Theorem C135_record_state name dim info e f : f <> VNone ->
  knows (record_state [name; dim; info; e; f]) ["label_suffix_channel"; "export_func"; "keep_only_last_export"; "export_kwargs"; "preprocess"] (fun K n => if n =? "export_at" then e else state_settings info f K n).
Proof.
  intros Hf. eapply knows_form; [intros K|intros K|intros K n].
  - unfold record_state. rewrite bind_eq by reflexivity. cbn [s_pos s_star s_only s_starkw combine map fst snd skipn length app negb andb orb Nat.eqb]. rewrite Bool.orb_false_r.
    instantiate (1 := fun K n => if n =? "export_at" then e else state_settings info f (filter (fun k => negb (smem (fst k) ["state_name"; "state_dim"; "label_suffix_channel"])) K) n).
    instantiate (1 := fun K => existsb (fun k => smem (fst k) ["state_name"; "state_dim"]) K || (let K' := filter (fun k => negb (smem (fst k) ["state_name"; "state_dim"; "label_suffix_channel"])) K in existsb (fun k => smem (fst k) ["sim_info"; "export_at"; "save_frequency"]) K' || negb (Nat.eqb (length (filter (fun k => negb (smem (fst k) ["sim_info"; "export_at"; "save_frequency"; "export_func"; "keep_only_last_export"; "export_kwargs"; "preprocess"])) K')) 0))).
    cbv beta zeta. destruct (existsb (fun k => smem (fst k) ["state_name"; "state_dim"]) K); [reflexivity|]. cbn [bind fst snd orb]. rewrite state_three by exact Hf. reflexivity.
  - cbv beta zeta. rewrite Bool.orb_false_iff, conflicts, test_keys. split.
    + intros [A B] k I. specialize (A k I). specialize (B k). rewrite keys_without in B.
      destruct (in_dec string_dec k ["state_name"; "state_dim"; "label_suffix_channel"]) as [J|J]; [|specialize (B (conj I J))]; keys.
    + intros H. split; intros k I; [|apply keys_without in I as [I J]]; specialize (H k I); keys.
  - intros _ I. unfold state_settings, asked. rewrite dget_without. unfold settings in I. cbn [In] in I. repeat destruct I as [<-|I]; try reflexivity. destruct I.
Qed.
Theorem C135_no_frequency name dim info K : (forall k, In k (dkeys K) -> In k ["label_suffix_channel"; "export_at"; "export_func"; "keep_only_last_export"; "export_kwargs"; "preprocess"]) ->
  record_state [name; dim; info] K = Err NotImplementedError.
Proof.
  intros H. unfold record_state. rewrite bind_eq by reflexivity. cbn [s_pos s_star s_only s_starkw combine map fst snd skipn length app negb andb orb Nat.eqb]. rewrite Bool.orb_false_r.
  assert (existsb (fun k => smem (fst k) ["state_name"; "state_dim"]) K = false) as -> by (apply conflicts; intros k I; specialize (H k I); keys). cbn [bind fst snd].
  unfold state_diagnostic. rewrite bind_eq by reflexivity. cbn [s_pos s_star s_only s_starkw state_sig combine map fst skipn length app negb andb orb Nat.eqb].
  match goal with |- context [if ?c then Err TypeError else _] => replace c with false end.
  2:{ symmetry. apply test_keys. intros k I. apply keys_without in I as [I J]. specialize (H k I). keys. }
  cbn [bind fst snd]. assert (D : dget (filter (fun k => negb (smem (fst k) ["state_name"; "state_dim"; "label_suffix_channel"])) K) "save_frequency" = None).
  { rewrite dget_without. change (smem "save_frequency" ["state_name"; "state_dim"; "label_suffix_channel"]) with false. cbv iota. apply dget_None. intros I. apply H in I. cbn in I. intuition discriminate. }
  revert D. generalize (filter (fun k => negb (smem (fst k) ["state_name"; "state_dim"; "label_suffix_channel"])) K) as K'. intros K' D. unfold param, given. cbn. rewrite D. reflexivity.
Qed.

Section Summaries.
Variable is_counter : val -> bool.
Variable index : val -> res unit.
(** the summaries of diagnosticscollection.py know neither the times of saving and export nor another function of export *)
Theorem C135_power_spectrum name info range channels segment : is_counter range = false -> index range = Ok tt ->
  knows (power_spectrum is_counter index [name; info; range; channels; segment]) ["sig_channels"; "keep_only_last_export"; "export_kwargs"; "preprocess"] (summary_settings info range "spectrum").
Proof.
  intros Hc Hi. eapply knows_form; [intros K|intros K|intros K n].
  - unfold power_spectrum. rewrite bind_eq by reflexivity. cbn [s_pos s_star s_only s_starkw combine map fst snd skipn length app negb andb orb Nat.eqb]. rewrite Bool.orb_false_r.
    instantiate (1 := fun K n => summary_settings info range "spectrum" (filter (fun k => negb (smem (fst k) ["sig_name"; "sim_info"; "save_range"; "num_channels"; "nperseg"; "sig_channels"])) K) n).
    instantiate (1 := fun K => existsb (fun k => smem (fst k) ["sig_name"; "sim_info"; "save_range"; "num_channels"; "nperseg"]) K || (let K' := filter (fun k => negb (smem (fst k) ["sig_name"; "sim_info"; "save_range"; "num_channels"; "nperseg"; "sig_channels"])) K in existsb (fun k => smem (fst k) ["save_at"; "export_func"]) K' || (existsb (fun k => smem (fst k) ["sim_info"]) K' || negb (Nat.eqb (length (filter (fun k => negb (smem (fst k) ["sim_info"; "save_at"; "export_func"; "keep_only_last_export"; "export_kwargs"; "preprocess"])) K')) 0)))).
    cbv beta zeta. destruct (existsb (fun k => smem (fst k) ["sig_name"; "sim_info"; "save_range"; "num_channels"; "nperseg"]) K); [reflexivity|]. cbn [bind fst snd orb]. set (K' := filter _ K).
    cbn [param given dget]. unfold param, given. cbn [dget s_pos s_only map fst snd app combine String.eqb Ascii.eqb Bool.eqb]. rewrite Hi. cbn [bind]. unfold with_keywords. cbn [map fst]. destruct (existsb (fun k => smem (fst k) ["save_at"; "export_func"]) K') eqn:Q; [reflexivity|]. cbn [bind orb app].
    unfold summary_diagnostic. rewrite bind_eq by reflexivity. cbn [s_pos s_star s_only s_starkw combine map fst snd skipn length app negb andb orb Nat.eqb existsb filter smem String.eqb Ascii.eqb Bool.eqb].
    destruct (existsb _ K' || _); [reflexivity|]. cbn [bind fst snd]. unfold param, given. cbn. rewrite Hc, Hi. cbn. reflexivity.
  - cbv beta zeta. rewrite Bool.orb_false_iff, conflicts, Bool.orb_false_iff, conflicts, test_keys. split.
    + intros (A & B & C) k I. specialize (A k I). specialize (B k). specialize (C k). rewrite keys_without in B, C.
      destruct (in_dec string_dec k ["sig_name"; "sim_info"; "save_range"; "num_channels"; "nperseg"; "sig_channels"]) as [J|J]; [|specialize (B (conj I J)); specialize (C (conj I J))]; keys.
    + intros H. split; [|split]; intros k I; try (apply keys_without in I as [I J]); specialize (H k I); keys.
  - intros _ I. unfold summary_settings, asked. rewrite dget_without. unfold settings in I. cbn [In] in I. repeat destruct I as [<-|I]; try reflexivity. destruct I.
Qed.
Theorem C135_signal_summary name info range : is_counter range = false -> index range = Ok tt ->
  knows (signal_summary is_counter index [name; info; range]) ["summary_func"; "keep_only_last_export"; "export_kwargs"; "preprocess"] (summary_settings info range "text").
Proof.
  intros Hc Hi. eapply knows_form; [intros K|intros K|intros K n].
  - unfold signal_summary. rewrite bind_eq by reflexivity. cbn [s_pos s_star s_only s_starkw combine map fst snd skipn length app negb andb orb Nat.eqb]. rewrite Bool.orb_false_r.
    instantiate (1 := fun K n => summary_settings info range "text" (filter (fun k => negb (smem (fst k) ["sig_name"; "sim_info"; "save_range"; "summary_func"])) K) n).
    instantiate (1 := fun K => existsb (fun k => smem (fst k) ["sig_name"; "sim_info"; "save_range"]) K || (let K' := filter (fun k => negb (smem (fst k) ["sig_name"; "sim_info"; "save_range"; "summary_func"])) K in existsb (fun k => smem (fst k) ["save_at"; "export_func"]) K' || (existsb (fun k => smem (fst k) ["sim_info"]) K' || negb (Nat.eqb (length (filter (fun k => negb (smem (fst k) ["sim_info"; "save_at"; "export_func"; "keep_only_last_export"; "export_kwargs"; "preprocess"])) K')) 0)))).
    cbv beta zeta. destruct (existsb (fun k => smem (fst k) ["sig_name"; "sim_info"; "save_range"]) K); [reflexivity|]. cbn [bind fst snd orb]. set (K' := filter _ K).
    cbn [param given dget]. unfold param, given. cbn [dget s_pos s_only map fst snd app combine String.eqb Ascii.eqb Bool.eqb]. rewrite Hi. cbn [bind]. unfold with_keywords. cbn [map fst]. destruct (existsb (fun k => smem (fst k) ["save_at"; "export_func"]) K') eqn:Q; [reflexivity|]. cbn [bind orb app].
    unfold summary_diagnostic. rewrite bind_eq by reflexivity. cbn [s_pos s_star s_only s_starkw combine map fst snd skipn length app negb andb orb Nat.eqb existsb filter smem String.eqb Ascii.eqb Bool.eqb].
    destruct (existsb _ K' || _); [reflexivity|]. cbn [bind fst snd]. unfold param, given. cbn. rewrite Hc, Hi. cbn. reflexivity.
  - cbv beta zeta. rewrite Bool.orb_false_iff, conflicts, Bool.orb_false_iff, conflicts, test_keys. split.
    + intros (A & B & C) k I. specialize (A k I). specialize (B k). specialize (C k). rewrite keys_without in B, C.
      destruct (in_dec string_dec k ["sig_name"; "sim_info"; "save_range"; "summary_func"]) as [J|J]; [|specialize (B (conj I J)); specialize (C (conj I J))]; keys.
    + intros H. split; [|split]; intros k I; try (apply keys_without in I as [I J]); specialize (H k I); keys.
  - intros _ I. unfold summary_settings, asked. rewrite dget_without. unfold settings in I. cbn [In] in I. repeat destruct I as [<-|I]; try reflexivity. destruct I.
Qed.

(** The diagnostics of diagnosticsummary.py can never be made: their constructor calls the common one with eight arguments, which
    takes seven.  With a range of samples that can be indexed this is a TypeError. *)
Lemma bind_type s args K e : bind_call s args K = Err e -> e = TypeError.
Proof.
  unfold bind_call. destruct (_ && _); [congruence|]. destruct (existsb _ _); [congruence|]. destruct (negb (s_starkw s) && _); [congruence|]. destruct (mapM _ _) as [v|e'] eqn:Q; cbn [bind]; [discriminate|]. intros H. injection H as ->. revert Q.
  generalize (s_pos s ++ s_only s)%list as l. induction l as [|p l IH]; cbn [mapM]; [discriminate|]. destruct (dget (combine _ _) (fst p)), (dget K (fst p)), (snd p); cbn [bind]; try congruence; destruct (mapM _ l); cbn [bind]; try discriminate; intros H; injection H as ->; apply IH; reflexivity.
Qed.
Definition never (constructor : list val -> kwargs -> res kwargs) : Prop :=
  forall args K, exists e, constructor args K = Err e /\ ((forall v, is_counter v = false) -> (forall v, index v = Ok tt) -> e = TypeError).
Lemma old_never : never (old_summary_diagnostic is_counter index).
Proof.
  intros args K. unfold old_summary_diagnostic. destruct (bind_call _ args K) as [b|e] eqn:Q; cbn [bind].
  - destruct (is_counter _) eqn:C. { eexists. split; [reflexivity|]. intros H. rewrite H in C. discriminate. } destruct (index _) as [u|e] eqn:I; cbn [bind].
    + eexists. split; [reflexivity|]. reflexivity.
    + eexists. split; [reflexivity|]. intros _ H. rewrite H in I. discriminate.
  - eexists. split; [reflexivity|]. intros _ _. eapply bind_type; eauto.
Qed.
Ltac passes_on := match goal with |- exists e, bind (bind_call ?s ?args ?K) _ = _ /\ _ => destruct (bind_call s args K) as [b|e] eqn:Q; cbn [bind]; [|eexists; split; [reflexivity|]; intros _ _; eapply bind_type; eauto] end;
  match goal with |- exists e, bind (index ?v) _ = _ /\ _ => destruct (index v) as [u|e] eqn:I; cbn [bind]; [|eexists; split; [reflexivity|]; intros _ H; rewrite H in I; discriminate] end.
Theorem C135_summaries_refuted : never (old_summary_diagnostic is_counter index) /\ never (old_ratio_summary is_counter index) /\ never (old_power_summary is_counter index) /\ never (old_power_spectrum is_counter index).
Proof.
  split; [exact old_never|]. repeat split; intros args K.
  - unfold old_ratio_summary. passes_on. apply old_never.
  - unfold old_power_summary. passes_on. apply old_never.
  - unfold old_power_spectrum. passes_on. unfold with_keywords. destruct (existsb _ _); cbn [bind]; [eexists; split; reflexivity|apply old_never].
Qed.
End Summaries.
End Calls.

(** the examples use numbers as objects; ranges of samples can be indexed *)
Notation indexed := (fun _ => Ok tt).
Example C135_signals_meet : (exists v, record_signal [VStr "mic"; VObj 0] [("num_channels", VObj 2); ("export_at", VObj 500)] = Ok v /\ dget v "export_at" = Some (VObj 500) /\ dget v "save_at" = Some VWhole) /\
  (exists v, signal_power [VStr "mic"; VObj 0] [("export_func", VStr "npz")] = Ok v /\ dget v "export_func" = Some (VStr "npz")) /\
  (exists v, signal_power_ratio [VStr "mic"; VStr "src"; VObj 0] [("keep_only_last_export", VBool true)] = Ok v /\ dget v "keep_only_last_export" = Some (VBool true)) /\
  record_signal [VStr "mic"; VObj 0] [("export_ad", VObj 500)] = Err TypeError.
Proof.
  split; [|split; [|split; [|reflexivity]]].
  - destruct (proj1 (C135_record_signal (VStr "mic") (VObj 0) [("num_channels", VObj 2); ("export_at", VObj 500)])) as (v & H & _ & D). { cbn. intuition. } exists v. split; [exact H|]. split; rewrite D by (cbn; tauto); reflexivity.
  - destruct (proj1 (C135_signal_power (VStr "mic") (VObj 0) [("export_func", VStr "npz")])) as (v & H & _ & D). { cbn. intuition. } exists v. split; [exact H|]. rewrite D by (cbn; tauto). reflexivity.
  - destruct (proj1 (C135_signal_power_ratio (VStr "mic") (VStr "src") (VObj 0) [("keep_only_last_export", VBool true)])) as (v & H & _ & D). { cbn. intuition. } exists v. split; [exact H|]. rewrite D by (cbn; tauto). reflexivity.
Qed.
Example C135_states_meet : (VObj 10 : val Z) <> VNone /\ (exists v, record_state [VStr "w"; VObj 1; VObj 0; VObj 100; VObj 10] [("export_func", VStr "npz")] = Ok v /\ dget v "save_at" = Some (VFreq (VObj 10))) /\
  record_state [VStr "w"; VObj 1; VObj 0] [("export_at", VObj 10)] = Err NotImplementedError.
Proof.
  split; [discriminate|]. split.
  - destruct (proj1 (@C135_record_state Z (VStr "w") (VObj 1) (VObj 0) (VObj 100) (VObj 10) ltac:(discriminate) [("export_func", VStr "npz")])) as (v & H & _ & D). { cbn. intuition. } exists v. split; [exact H|]. rewrite D by (cbn; tauto). reflexivity.
  - apply C135_no_frequency. cbn. intuition.
Qed.
Example C135_summaries_meet : (exists v, power_spectrum (fun _ => false) indexed [VStr "mic"; VObj 0; VObj 7; VObj 2; VObj 512] [("keep_only_last_export", VBool true)] = Ok v /\ dget v "save_at" = Some (VRange (VObj 7)) /\ dget v "export_func" = Some (VStr "spectrum")) /\
  power_spectrum (fun _ => false) indexed [VStr "mic"; VObj 0; VObj 7; VObj 2; VObj 512] [("export_func", VStr "npz")] = Err TypeError /\
  (exists v, signal_summary (fun _ => false) indexed [VStr "mic"; VObj 0; VObj 7] [("summary_func", VObj 1)] = Ok v /\ dget v "export_at" = Some (VEnds (VObj 7))) /\
  old_power_summary (fun _ => false) indexed [VStr "mic"; VObj 0; VObj 256; VObj 7] [] = Err TypeError.
Proof. split; [eexists; split; [reflexivity|split; reflexivity]|]. split; [reflexivity|]. split; [eexists; split; reflexivity|reflexivity]. Qed.
Print Assumptions C135_record_signal.
Print Assumptions C135_signal_power.
Print Assumptions C135_signal_power_ratio.
Print Assumptions C135_record_state.
Print Assumptions C135_no_frequency.
Print Assumptions C135_power_spectrum.
Print Assumptions C135_signal_summary.
Print Assumptions C135_summaries_refuted.
