(** Properties of state and instant diagnostics: C15, C16, C17, C20. *)
From Coq Require Import Sorted.
Require Import Verif.PyBase Verif.PyLemmas Verif.ConfigModel Verif.ArrayModel Verif.ArraySpec Verif.LoggerModel Verif.LoggerSpec Verif.LoggerProofs
  Verif.SimModel Verif.SimSpec Verif.SimDiag Verif.SimLoop Verif.SignalSpec Verif.RunSpec Verif.RunLaw Verif.DiagRun
  Verif.DiagModel Verif.DiagSpec Verif.DiagProofs Verif.DiagCtorModel Verif.DiagCtorProofs Verif.SaveProps Verif.StateProofs Verif.Demo Verif.DemoRun.
Set Implicit Arguments.
Arguments Z.add : simpl never.
Arguments Z.sub : simpl never.
Arguments Z.mul : simpl never.
Ltac Zify.zify_post_hook ::= Z.div_mod_to_equations.

(* ------------------------------------------------------------------ C16: selection of values *)
Section Selection.
Context {E : AEnv}.
(** C16.  [cols] are the values, [times] their time indices; entries that were never filled are NaN.  The
    selection up to [e] is what is stored with a time smaller than e, provided nothing is stored at all or
    the first stored value is older than e. *)
Theorem C16_selection_partial num (cols : columns) times e : 1 <= num -> zlen times = zlen cols ->
  increasing (map snd (stored_pairs cols times)) ->
  (forall v t r, stored_pairs cols times = (v, t) :: r -> t < e) ->
  exists vals ts, values_from_selection num cols times e = Ok (vals, ts) /\
    combine vals ts = filter (fun vt => snd vt <? e) (stored_pairs cols times) /\ length vals = length ts.
Proof.
  intros Hn Hl HI HF. unfold values_from_selection. destruct (Z.leb_spec num 0); [lia|]. rewrite Hl, Z.eqb_refl. cbn [passert bind].
  rewrite stored_pairs_eq. set (l := stored_pairs cols times) in *.
  assert (Cm : forall r : list (frame * Z), combine (map fst r) (map snd r) = r) by (induction r as [|[? ?] ? IH]; simpl; congruence).
  destruct (Z.eqb_spec (zlen (map snd l)) 0) as [Q|Q].
  - assert (l = []) as ->. { destruct l as [|? ?]; auto. cbn [map] in Q. rewrite zlen_cons in Q. pose proof (zlen_nonneg (map snd l)). lia. }
    exists [], []. auto.
  - pose proof (first_ge_spec e HI) as K. destruct (first_ge e (map snd l)) as [k|].
    + destruct K as [K1 K2]. destruct (Z.eqb_spec k 0) as [->|].
      * exfalso. destruct l as [|[v t] r] eqn:Ql; [cbn in Q; lia|]. specialize (HF _ _ _ eq_refl). cbn [map snd filter firstn Z.to_nat] in K2.
        destruct (Z.ltb_spec t e); [discriminate|lia].
      * do 2 eexists. split; [reflexivity|]. assert (zlen (map fst l) = zlen (map snd l)) as HL by (unfold zlen; rewrite !map_length; auto).
        rewrite !pyslice_firstn by lia. rewrite !firstn_map, Cm. split; [symmetry; apply filter_firstn_pairs; auto|rewrite !map_length; auto].
    + do 2 eexists. split; [reflexivity|]. assert (zlen (map fst l) = zlen (map snd l)) as HL by (unfold zlen; rewrite !map_length; auto).
      pose proof (zlen_nonneg (map snd l)). cbn [Z.eqb]. rewrite !pyslice_firstn by lia. rewrite !firstn_map, Cm.
      rewrite (@filter_firstn_pairs _ l e (length l)); auto.
      * rewrite !map_length. split; auto. unfold zlen. rewrite map_length, Nat2Z.id. auto.
      * rewrite K. symmetry. rewrite <- (map_length snd l). apply firstn_all.
Qed.
(** Missing: the case in which every stored value is as new as e.  Then all of them are returned. *)
Theorem C16_selection_refuted num (cols : columns) times e : 1 <= num -> zlen times = zlen cols ->
  stored_pairs cols times <> [] -> increasing (map snd (stored_pairs cols times)) -> (forall vt, In vt (stored_pairs cols times) -> e <= snd vt) ->
  exists vals ts, values_from_selection num cols times e = Ok (vals, ts) /\ combine vals ts = stored_pairs cols times /\
    filter (fun vt => snd vt <? e) (stored_pairs cols times) = [].
Proof.
  intros Hn Hl HN HI HF. unfold values_from_selection. destruct (Z.leb_spec num 0); [lia|]. rewrite Hl, Z.eqb_refl. cbn [passert bind].
  rewrite stored_pairs_eq. set (l := stored_pairs cols times) in *.
  assert (Cm : forall r : list (frame * Z), combine (map fst r) (map snd r) = r) by (induction r as [|[? ?] ? IH]; simpl; congruence).
  destruct l as [|[v t] r] eqn:Ql; [congruence|]. rewrite <- Ql in *. assert (zlen (map fst l) = zlen (map snd l)) as HL by (unfold zlen; rewrite !map_length; auto).
  assert (HP : 0 < zlen (map snd l)). { rewrite Ql. cbn [map]. rewrite zlen_cons. pose proof (zlen_nonneg (map snd r)). lia. }
  destruct (Z.eqb_spec (zlen (map snd l)) 0); [lia|]. assert (first_ge e (map snd l) = Some 0) as ->.
  { rewrite Ql. cbn [map snd first_ge]. specialize (HF (v, t)). rewrite Ql in HF. specialize (HF (or_introl eq_refl)). cbn [snd] in HF. destruct (Z.leb_spec e t); [auto|lia]. }
  cbn [Z.eqb]. do 2 eexists. split; [reflexivity|]. rewrite !pyslice_firstn by lia. rewrite !firstn_map, Cm. split.
  - replace (Z.to_nat (zlen (map snd l))) with (length l) by (unfold zlen; rewrite map_length; lia). apply firstn_all.
  - clear - HF. induction l as [|vt l IH]; simpl; auto. pose proof (HF vt (or_introl eq_refl)). destruct (Z.ltb_spec (snd vt) e); [lia|]. apply IH. intros; apply HF; simpl; auto.
Qed.
End Selection.

(* ------------------------------------------------------------------ C20: constructors *)
Section Ctors.
Variable D : Type.
(** the export indices a setting asks for *)
Definition asked (i : info) (a : arg) : list Z :=
  match a with ANone => multiples (export_frequency i) (tot_samples i) | AInt f => multiples f (tot_samples i) | AList l => l end.
Definition frequency_ok (i : info) (a : arg) : Prop :=
  match a with ANone => 1 <= export_frequency i | AInt f => 1 <= f | AList _ => True end.

Lemma export_counter_ok i a : frequency_ok i a -> exists x, export_counter i a = Ok x /\ ix_list x = asked i a /\ ix_wf x.
Proof.
  assert (K : forall f, 1 <= f -> exists x, ixc_of_frequency f (tot_samples i) = Ok x /\ ix_list x = multiples f (tot_samples i) /\ ix_wf x).
  { intros f Hf. destruct (ixc_of_frequency f (tot_samples i)) as [x|] eqn:Q; [|unfold ixc_of_frequency in Q; destruct (Z.eqb_spec f 0), (Z.ltb_spec f 0); try lia; discriminate].
    exists x. split; auto. apply frequency_ixs; auto. }
  destruct a as [|f|l]; cbn [export_counter asked frequency_ok]; auto. intros _. eexists; split; [reflexivity|]. unfold ixc_of_list. rewrite ixc_make_list. split; auto.
  destruct l; unfold ix_wf; simpl; auto.
Qed.

(** C20.  RecordState, StateComparison, StateSummary: saved after every s samples, exported as asked. *)
Theorem C20_state_diagnostics i e s (pl : Z -> D) : 1 <= s -> 0 <= tot_samples i -> frequency_ok i e ->
  exists d, record_state_init i e (AInt s) pl = Ok d /\
    iv_list (d_iv d) = unit_ivs (multiples s (tot_samples i)) /\ ix_list (d_ix d) = asked i e /\
    d_pl d = pl ((tot_samples i + s - 1) / s).
Proof.
  intros Hs H0 He. destruct (export_counter_ok i e He) as (x & X1 & X2 & _). unfold record_state_init, state_diag_init.
  destruct (ivc_from_frequency s (tot_samples i) false) as [iv|] eqn:Q; [|unfold ivc_from_frequency in Q; destruct (Z.eqb_spec s 0), (Z.ltb_spec s 0); try lia; discriminate].
  destruct (frequency_ivs _ Hs Q) as (A & B & C & F). cbn [bind]. unfold diagnostic_init. rewrite X1. cbn [bind].
  assert (0 <= iv_num iv) by (rewrite F; apply Z.div_pos; lia). destruct (Z.ltb_spec (iv_num iv) 0); [lia|]. eexists; split; [reflexivity|]. cbn [d_iv d_ix d_pl]. rewrite F. auto.
Qed.
(** Frequencies that make no sense: 0 is refused, a negative export frequency means that nothing is exported, and a negative save frequency is refused if its
    absolute value is at most the length of the simulation; otherwise nothing is saved. *)
Theorem C20_bad_frequency i f s (pl : Z -> D) : f < 0 -> 1 <= s -> 0 <= tot_samples i ->
  export_counter i (AInt 0) = Err ValueError /\
  (exists x, export_counter i (AInt f) = Ok x /\ ix_list x = []) /\
  record_state_init i (AInt s) (AInt 0) pl = Err ZeroDivisionError /\
  (- f <= tot_samples i -> record_state_init i (AInt s) (AInt f) pl = Err ValueError) /\
  (tot_samples i < - f -> exists d, record_state_init i (AInt s) (AInt f) pl = Ok d /\ iv_list (d_iv d) = [] /\ d_pl d = pl 0).
Proof.
  intros Hf Hs H0. assert (ED : forall a b, f - 1 <= a -> a <= b -> zrange_down a b f = []).
  { intros a b _ Hab. unfold zrange_down, zrange_step. replace ((- b - - a + - f - 1) / - f) with ((a - b + - f - 1) / - f) by (f_equal; lia).
    assert ((a - b + - f - 1) / - f <= 0) by (apply Z.lt_succ_r; apply Z.div_lt_upper_bound; lia). replace (Z.to_nat ((a - b + - f - 1) / - f)) with 0%nat by lia. reflexivity. }
  split; [reflexivity|]. split; [|split; [reflexivity|]].
  - cbn [export_counter]. unfold ixc_of_frequency. destruct (Z.eqb_spec f 0); [lia|]. destruct (Z.ltb_spec f 0); [|lia]. rewrite ED by lia. eexists. split; reflexivity.
  - destruct (@export_counter_ok i (AInt s) Hs) as (x & X1 & X2 & _).
    unfold record_state_init, state_diag_init, ivc_from_frequency. destruct (Z.eqb_spec f 0); [lia|]. destruct (Z.ltb_spec f 0); [|lia]. cbv zeta. cbn [bind]. unfold diagnostic_init. rewrite X1. cbn [bind].
    rewrite !ED by lia. cbn [combine]. change (iv_num (ivc_make [] ?n)) with n.
    replace (- tot_samples i / f) with (tot_samples i / - f) by (rewrite <- (Z.div_opp_opp (tot_samples i) (- f)) by lia; f_equal; lia). split; intros Hc.
    + assert (1 <= tot_samples i / - f) by (apply Z.div_le_lower_bound; lia). destruct (Z.ltb_spec (- (tot_samples i / - f)) 0); [reflexivity|lia].
    + rewrite Z.div_small by lia. eexists. split; [reflexivity|]. split; reflexivity.
Qed.
(** a save frequency has to be given *)
Theorem C20_frequency_required i e (pl : Z -> D) : record_state_init i e ANone pl = Err NotImplementedError.
Proof. reflexivity. Qed.
(** StatePower: the save frequency is taken from the export setting and the other way round. *)
Theorem C20_state_power_refuted i s (pl : Z -> D) : 1 <= s -> 0 <= tot_samples i ->
  (forall e, 1 <= e -> exists d, state_power_init i (AInt e) (AInt s) pl = Ok d /\
     iv_list (d_iv d) = unit_ivs (multiples e (tot_samples i)) /\ ix_list (d_ix d) = multiples s (tot_samples i)) /\
  state_power_init i ANone (AInt s) pl = Err NotImplementedError /\
  (forall l, state_power_init i (AList l) (AInt s) pl = Err TypeError).
Proof.
  intros Hs H0. split; [|split; auto]. intros e He. unfold state_power_init. destruct (@C20_state_diagnostics i (AInt s) e pl He H0 Hs) as (d & A & B & C & _). exists d. auto.
Qed.
End Ctors.
(** the diagnostics constructed this way are ones the theorems about runs apply to *)
Theorem C20_constructed_ok {E : AEnv} {S : SEnv} i e s (pl : Z -> @SimModel.D E S) d : 1 <= s -> 1 <= sim_buffer i -> frequency_ok i e -> increasing_from 0 (asked i e) ->
  record_state_init i e (AInt s) pl = Ok d -> diag_ok i d.
Proof.
  intros Hs HB He Ha H. unfold record_state_init, state_diag_init in H. apply bind_ok in H as (iv & Q & H).
  destruct (frequency_ivs _ Hs Q) as (A & B & C & F). unfold diagnostic_init in H. apply bind_ok in H as (d2 & Qd & H). apply bind_ok in Qd as (x & Qx & Qd). destruct (iv_num iv <? 0); [discriminate|]. injection H as ->. inversion Qd; subst d; clear Qd.
  destruct (export_counter_ok i e He) as (x' & X1 & X2 & X3). rewrite X1 in Qx. inversion Qx; subst x'. unfold diag_ok. cbn [d_iv d_ix].
  pose proof (multiples_increasing (tot_samples i) Hs) as M. rewrite A, X2.
  do 3 (split; [solve [auto]|]). split.
  - pose proof (@unit_ivs_ok 0 _ M) as O. destruct (unit_ivs (multiples s (tot_samples i))) as [|[a b] r]; auto. simpl in *. split; [lia|]. tauto.
  - split.
    + apply Forall_forall. intros t Ht. unfold unit_ivs in Ht. apply in_map_iff in Ht as (y & <- & Hy). apply increasing_from_lower in M. rewrite Forall_forall in M. specialize (M _ Hy). cbn [snd]. lia.
    + split; [eapply increasing_from_nondec; eauto|]. eapply Forall_impl; [|apply increasing_from_lower; eauto]. simpl; intros; lia.
Qed.

(* ------------------------------------------------------------------ diagnostics of a run *)
Lemma increasing_from_inc lo l : increasing_from lo l -> increasing l.
Proof.
  revert lo. induction l as [|e l IH]; intros lo H; constructor; destruct H as [H1 H2]; [eapply IH; eauto|]. apply increasing_from_lower; auto.
Qed.
Lemma multiples_upto f tot e : 1 <= f -> e <= tot -> filter (fun x => x <=? e) (multiples f tot) = multiples f e.
Proof.
  intros Hf He. apply increasing_ext.
  - apply increasing_filter. eapply increasing_from_inc, multiples_increasing; auto.
  - eapply increasing_from_inc, multiples_increasing; auto.
  - intros t. rewrite filter_In, !In_multiples by auto. split.
    + intros ((k & K1 & K2 & K3) & K4). exists k. lia.
    + intros (k & K1 & K2 & K3). split; [exists k; lia|lia].
Qed.
Lemma multiples_last f tot : 1 <= f -> 0 <= tot -> last_end (unit_ivs (multiples f tot)) = tot / f * f.
Proof.
  intros Hf Ht. assert (0 <= tot / f) by (apply Z.div_pos; lia). unfold multiples. destruct (Z.eq_dec (tot / f) 0) as [->|].
  - rewrite zrange_empty by lia. auto.
  - rewrite zrange_snoc by lia. rewrite map_app. unfold unit_ivs. rewrite map_app. cbn [map]. generalize (map (fun e => (e - 1, e)) (map (fun k => k * f) (zrange 1 (tot / f)))).
    induction l as [|x l IH]; auto. cbn [app last_end]. destruct (l ++ [(tot / f * f - 1, tot / f * f)]) eqn:Q; auto. apply app_eq_nil in Q as [_ Q]. discriminate.
Qed.
Lemma last_ge lo es : increasing_from lo es -> Forall (fun e => e <= last_end (unit_ivs es)) es.
Proof.
  revert lo. induction es as [|e [|e' es] IH]; intros lo H; [constructor|constructor; [cbn; lia|constructor]|]. destruct H as [H1 H2].
  change (last_end (unit_ivs (e :: e' :: es))) with (last_end (unit_ivs (e' :: es))). specialize (IH _ H2). constructor; auto.
  inversion IH; subst. destruct H2 as [H2 _]. lia.
Qed.
Lemma multiples_range f tot : 1 <= f -> Forall (fun e => 1 <= e <= tot) (multiples f tot).
Proof. intros Hf. apply Forall_forall. intros e He. apply In_multiples in He as (k & K1 & K2 & K3); auto. nia. Qed.
Lemma combine_split {A B} (l : list A) (r : list B) x : length l = length r -> combine l r = x -> l = map fst x /\ r = map snd x.
Proof.
  intros H <-. revert r H. induction l as [|a l IH]; intros [|b r] H; try discriminate; auto. cbn [combine map fst snd]. destruct (IH r) as [A1 A2]; [simpl in H; lia|]. split; f_equal; auto.
Qed.
Lemma filter_stored {E : AEnv} (R : Z -> frame -> Prop) e es vs : Forall2 R es vs ->
  let l := filter (fun vt => snd vt <? e) (combine vs (map (fun x => x - 1) es)) in
  map snd l = map (fun x => x - 1) (filter (fun x => x <=? e) es) /\ Forall2 R (filter (fun x => x <=? e) es) (map fst l).
Proof.
  induction 1 as [|x v es vs H F IH]; cbn [map combine filter snd]; [split; constructor|]. destruct IH as [I1 I2].
  destruct (Z.ltb_spec (x - 1) e), (Z.leb_spec x e); try lia; cbn [map fst snd]; split; auto; f_equal; auto.
Qed.

Section Run.
Context {E : AEnv} {DE : DEnv}.
Variables PS0 D0 Out0 : Type.
Variable dsave0 : D0 -> option PS0 -> dict (list frame) -> Z * Z -> res D0.
Variable dout0 : D0 -> Z -> res Out0.
Local Instance RS2 : SEnv := full dsave0 dout0.

Variables (i : info) (c : coll E) (p : @proc E RS2) (diags : dict (diag D)) (st : sim).
Hypothesis HX : experiment i c [p].
Hypothesis HD : good_diags i diags.
Hypothesis HR : run_simulation i c [p] diags = Ok st.
Hypothesis HT1 : 0 <= tot_samples i.
Notation sg := (signals_of i c [p]).
Notation ds := (dims_of i c [p]).
(** the processor after n calls *)
Notation after n := (state_after ds sg p (Z.to_nat n)).

Lemma bs_pos : 1 <= pr_bs p.
Proof. destruct (run_facts HX HD HR) as (_ & _ & _ & Hb & _). inversion Hb; auto. Qed.

(** C15.  RecordState (also StateComparison, StateSummary, EigenvaluesOverTime with their own [get]) with
    save frequency f: tot_samples // f values, the k-th with time k*f - 1; it is taken from the processor
    after (k*f + 1) // block_size calls. *)
Theorem C15_stored nm get dim f e d0 : 1 <= f ->
  record_state_init i e (AInt f) (fun n => DState (state_init get dim n) : D) = Ok d0 -> dget diags nm = Some d0 ->
  exists d r vals, dget (sm_diags st) nm = Some d /\ d_pl d = DState r /\
    st_idx r = tot_samples i / f /\
    st_values r = map Some vals ++ zrep ((tot_samples i + f - 1) / f - tot_samples i / f) None /\
    st_times r = map (fun k => k * f - 1) (zrange 1 (tot_samples i / f + 1)) ++ zrep ((tot_samples i + f - 1) / f - tot_samples i / f) nan_int /\
    Forall2 (fun k v => fills dim (get (after ((k * f + 1) / pr_bs p))) v) (zrange 1 (tot_samples i / f + 1)) vals.
Proof.
  intros Hf Hi Hd.  unfold record_state_init, state_diag_init in Hi. apply bind_ok in Hi as (iv & Q & H).
  destruct (frequency_ivs _ Hf Q) as (A & _ & _ & F). unfold diagnostic_init in H. apply bind_ok in H as (d2 & Qd & H). apply bind_ok in Qd as (x & Qx & Qd). destruct (iv_num iv <? 0); [discriminate|]. injection H as ->. inversion Qd; subst d0; clear Qd.
  destruct (diag_law HX HD HR _ Hd) as (d & ts & rest & F1 & F2 & F3 & _). cbn [d_iv d_pl] in *. rewrite A in F3.
  pose proof (run_longer HX HD HR) as HL. assert (0 <= tot_samples i / f) by (apply Z.div_pos; lia).
  assert (ts = unit_ivs (multiples f (tot_samples i))) as ->.
  { eapply unit_tiles; [|exact F3|]. apply unit_ivs_ok, multiples_increasing; auto. eapply Forall_impl; [|apply multiples_range; auto]. simpl. intros; lia. }
  unfold state_init in F2. rewrite F in F2.
  edestruct (@state_saves E DE PS0 D0 Out0 dsave0 dout0 get dim ds sg (proc_state i c [p]) (multiples f (tot_samples i)) [] [] ((tot_samples i + f - 1) / f)) as (vs & V1 & V2 & V3);
    [reflexivity|apply Z.div_pos; lia|exact F2|].
  cbn [app map] in V3. assert (zlen (multiples f (tot_samples i)) = tot_samples i / f) as HZ.
  { unfold multiples, zlen. rewrite map_length. change (Z.of_nat (length ?l)) with (zlen l). rewrite zlen_zrange. lia. }
  rewrite HZ in *. eexists d, _, vs. split; auto. split; [exact V3|]. cbn [st_idx st_values st_times]. rewrite zlen_nil. split; [lia|]. split; auto. split.
  - f_equal. unfold multiples. rewrite map_map. auto.
  - unfold multiples in V1. clear - V1. remember (zrange 1 (tot_samples i / f + 1)) as ks. clear Heqks. revert vs V1. induction ks as [|k ks IH]; cbn [map]; intros vs V1; inversion V1 as [|? ? ? ? (q & Q1 & Q2) V2]; subst; constructor; auto.
    unfold proc_state in Q1. inversion Q1; subst q. auto.
Qed.
(** The claim: the k-th value shows the blocks completed after k*f samples.  True when no block ends with the sample after that. *)
Theorem C15_documented_partial f k : ~ (pr_bs p | k * f + 1) -> (k * f + 1) / pr_bs p = k * f / pr_bs p.
Proof.
  intros H. pose proof bs_pos as Hb. assert (K : (k * f + 1) mod pr_bs p <> 0) by (intros K; apply H; apply Z.mod_divide; lia).
  pose proof (Z.mod_pos_bound (k * f + 1) (pr_bs p) ltac:(lia)) as B. pose proof (Z.div_mod (k * f + 1) (pr_bs p) ltac:(lia)) as Q.
  apply Z.div_unique with (r := (k * f + 1) mod pr_bs p - 1); [left|]; revert K B Q;
    generalize ((k * f + 1) mod pr_bs p), ((k * f + 1) / pr_bs p), (k * f); intros; lia.
Qed.

Lemma state_exports nm get dim f e d0 : 1 <= f -> frequency_ok i e ->
  record_state_init i e (AInt f) (fun n => DState (state_init get dim n) : D) = Ok d0 -> dget diags nm = Some d0 -> plot_output i <> "none"%string ->
  map fst (exports_of nm (sm_out st)) = filter (fun x => x <=? tot_samples i / f * f) (asked i e) /\
  Forall (fun eo => f <= fst eo -> exists vals, snd eo = XSignal vals (map (fun k => k * f - 1) (zrange 1 (fst eo / f + 1))) /\
    Forall2 (fun k v => fills dim (get (after ((k * f + 1) / pr_bs p))) v) (zrange 1 (fst eo / f + 1)) vals) (exports_of nm (sm_out st)) /\
  Forall (fun eo => fst eo < f -> exists v, snd eo = XSignal [v] [f - 1]) (exports_of nm (sm_out st)).
Proof.
  intros Hf Hfe Hi Hd Hpo.  destruct (C20_state_diagnostics i e (fun n => DState (state_init get dim n) : @SimModel.D E RS2) Hf HT1 Hfe) as (d0' & Hi' & A & B & C).
  rewrite Hi in Hi'. inversion Hi'; subst d0'; clear Hi'. pose proof (run_longer HX HD HR) as HL. assert (HP : 0 <= tot_samples i / f) by (apply Z.div_pos; lia).
  split.
  - rewrite <- multiples_last by lia. eapply C13_all_exported; eauto. apply Forall_forall. intros t Ht. unfold unit_ivs in Ht. apply in_map_iff in Ht as (y & <- & Hy). cbn [snd].
    pose proof (multiples_range (tot_samples i) Hf) as M. rewrite Forall_forall in M. apply M; auto.
  - destruct (diag_law HX HD HR _ Hd) as (d & ts & rest & F1 & F2 & F3 & _ & _ & F6). destruct (F6 Hpo) as (os & G1 & G2). rewrite G1. clear F6 G1.
    destruct (proj2 HD _ _ Hd) as (_ & _ & _ & HO & _ & HN & HE1). rewrite A, B, C in *.
    assert (ts = unit_ivs (multiples f (tot_samples i))) as ->.
    { eapply unit_tiles; [|exact F3|]. apply unit_ivs_ok, multiples_increasing; auto. eapply Forall_impl; [|apply multiples_range; auto]. simpl. intros; lia. }
    assert (HE : Forall (fun x => 1 <= x <= tot_samples i / f * f) (due (asked i e) (last_end (unit_ivs (multiples f (tot_samples i)))))).
    { rewrite multiples_last by lia. apply Forall_forall. intros x Hx. rewrite (due_filter _ _ HN) in Hx. apply filter_In in Hx as [X1 X2]. rewrite Forall_forall in HE1. specialize (HE1 _ X1). lia. }
    revert G2 HE. generalize (due (asked i e) (last_end (unit_ivs (multiples f (tot_samples i))))). clear F2 d F1 F3 HO HN HE1. intros xs G2 HE.
    assert (K : Forall (fun eo => (f <= fst eo -> exists vals, snd eo = XSignal vals (map (fun k => k * f - 1) (zrange 1 (fst eo / f + 1))) /\
        Forall2 (fun k v => fills dim (get (after ((k * f + 1) / pr_bs p))) v) (zrange 1 (fst eo / f + 1)) vals) /\
        (fst eo < f -> exists v, snd eo = XSignal [v] [f - 1])) (combine xs os)).
    { induction G2 as [|x o xs os' (q & P1 & P2) _ IH]; cbn [combine]; constructor; [|apply IH; inversion HE; auto]. cbn [fst snd]. inversion HE as [|? ? [X1 X2] _]; subst. clear IH HE.
      assert (XT : x <= tot_samples i) by (pose proof (Z.mul_div_le (tot_samples i) f); lia).
      destruct (@until_prefix _ x _ (multiples_increasing (tot_samples i) Hf)) as (es1 & es2 & U1 & U2 & U3 & U4). rewrite U2 in P1. unfold state_init in P1.
      edestruct (@state_saves E DE PS0 D0 Out0 dsave0 dout0 get dim ds sg (proc_state i c [p]) es1 [] [] ((tot_samples i + f - 1) / f)) as (vs & V1 & V2 & V3);
        [reflexivity|apply Z.div_pos; lia|exact P1|]. subst q. cbn in P2. apply bind_ok in P2 as ([vals tt] & P2 & P3). inversion P3; subst o; clear P3. cbn [fst snd].
      assert (HQ : length vs = length (map (fun e => e - 1) es1)) by (rewrite map_length; symmetry; eapply Forall2_len; eauto).
      pose proof (stored_pairs_app vs (map (fun e => e - 1) es1) ((tot_samples i + f - 1) / f - zlen es1) HQ) as SP.
      assert (HNum : 1 <= dim) by (unfold values_from_selection in P2; destruct (Z.leb_spec dim 0); [discriminate|lia]).
      assert (HI1 : increasing_from 0 es1). { pose proof (multiples_increasing (tot_samples i) Hf) as M. rewrite U1 in M. clear - M. revert M. generalize 0. induction es1; simpl; intuition. }
      assert (HI : increasing (map (fun e => e - 1) es1)).
      { apply increasing_from_inc in HI1. clear - HI1. induction HI1 as [|y l H IH F]; simpl; constructor; auto. rewrite Forall_forall in *. intros z Hz. apply in_map_iff in Hz as (w & <- & Hw). specialize (F _ Hw). lia. }
      assert (HZl : zlen (map (fun e => e - 1) es1 ++ zrep ((tot_samples i + f - 1) / f - zlen es1) nan_int) = zlen (map Some vs ++ zrep ((tot_samples i + f - 1) / f - zlen es1) None)).
      { rewrite !zlen_app, !zlen_zrep. unfold zlen. rewrite !map_length in *. lia. }
      assert (HM : increasing (map snd (combine vs (map (fun e => e - 1) es1)))).
      { edestruct (combine_split vs (map (fun e => e - 1) es1) HQ eq_refl) as [_ <-]. auto. }
      rewrite <- SP in HM.
      assert (HM1 : 1 <= tot_samples i / f). { destruct (Z.eq_dec (tot_samples i / f) 0) as [Q0|]; [rewrite Q0 in X2|]; lia. }
      assert (Hes : exists r, es1 = f :: r).
      { assert (N1 : es1 <> []). { apply U4; [rewrite multiples_last by lia; auto|]. unfold multiples. rewrite zrange_cons by lia. discriminate. }
        destruct es1 as [|y r]; [congruence|]. exists r. f_equal. unfold multiples in U1. rewrite zrange_cons in U1 by lia. cbn [map app] in U1. inversion U1. lia. }
      destruct Hes as [r Hr].
      split; intros Hx.
      - edestruct (C16_selection_partial (num := dim) _ _ (e := x) HNum HZl HM) as (vals' & tt' & S1 & S2 & S3).
        { intros v t r0. rewrite SP, Hr. destruct vs; [discriminate|]. cbn [map combine]. intros Q; inversion Q. lia. }
        rewrite P2 in S1. inversion S1; subst vals' tt'; clear S1. rewrite SP in S2. apply combine_split in S2 as [S2 S4]; auto.
        destruct (filter_stored x V1) as [W1 W2]. rewrite <- S4 in W1. rewrite <- S2 in W2. rewrite <- U3, multiples_upto in * by auto.
        exists vals. split; [f_equal; rewrite W1; unfold multiples; rewrite map_map; auto|].
        unfold multiples in W2. clear - W2. remember (zrange 1 (x / f + 1)) as ks. clear Heqks. revert vals W2. induction ks as [|k ks IH]; cbn [map]; intros vals V1; inversion V1 as [|? ? ? ? (q & Q1 & Q2) V2]; subst; constructor; auto.
        unfold proc_state in Q1. inversion Q1; subst q. auto.
      - assert (r = []) as ->.
        { destruct r as [|y r]; auto. exfalso. rewrite U1 in U2. rewrite Hr in U2. cbn [unit_ivs map app tiles_until snd] in U2. destruct (Z.leb_spec x f); [discriminate|lia]. }
        subst es1. destruct vs as [|v [|]]; try discriminate. cbn [map combine] in SP, HZl, HM, P2.
        edestruct (C16_selection_refuted (num := dim) _ _ (e := x) HNum HZl) as (vals' & tt' & S1 & S2 & _).
        { rewrite SP. discriminate. } { auto. } { intros vt. rewrite SP. intros [<-|[]]. cbn [snd]. lia. }
        pose proof S1 as S1'. unfold values_from_selection in S1. rewrite P2 in S1'. inversion S1'; subst vals' tt'; clear S1'.
        rewrite stored_pairs_eq, SP in S1. destruct (dim <=? 0); [discriminate|]. apply bind_ok in S1 as (? & _ & S1). cbn [map fst snd] in S1.
        destruct (zlen [f - 1] =? 0); inversion S1; subst; [eauto|].
        cbn [first_ge] in *. destruct (Z.leb_spec x (f - 1)); [|lia]. exists v. reflexivity. }
    split; (eapply Forall_impl; [|exact K]); simpl; tauto.
Qed.
(** C16, in a run.  Exported are the indices asked for up to the last value; the export at e holds the
    values with a time smaller than e, if there are any (f <= e).  Missing: e < f. *)
Theorem C16_exported_partial nm get dim f e d0 : 1 <= f -> frequency_ok i e ->
  record_state_init i e (AInt f) (fun n => DState (state_init get dim n) : D) = Ok d0 -> dget diags nm = Some d0 -> plot_output i <> "none"%string ->
  map fst (exports_of nm (sm_out st)) = filter (fun x => x <=? tot_samples i / f * f) (asked i e) /\
  Forall (fun eo => f <= fst eo -> exists vals, snd eo = XSignal vals (map (fun k => k * f - 1) (zrange 1 (fst eo / f + 1))) /\
    Forall2 (fun k v => fills dim (get (after ((k * f + 1) / pr_bs p))) v) (zrange 1 (fst eo / f + 1)) vals) (exports_of nm (sm_out st)).
Proof. intros. edestruct state_exports as (A & B & C); eauto. Qed.
(** an index before the first value: the export contains the value of time f - 1, which is not smaller than e *)
Theorem C16_early_export_refuted nm get dim f e d0 : 1 <= f -> frequency_ok i e ->
  record_state_init i e (AInt f) (fun n => DState (state_init get dim n) : D) = Ok d0 -> dget diags nm = Some d0 -> plot_output i <> "none"%string ->
  Forall (fun eo => fst eo < f -> exists v, snd eo = XSignal [v] [f - 1]) (exports_of nm (sm_out st)).
Proof. intros. eapply state_exports; eauto. Qed.

(** C17.  An instant diagnostic (RecordFilter, RecordFilterDifference, Eigenvalues) that is saved at the indices es:
    the exports are at es, each once, and the export at e holds the property at step e, i.e. after
    (e + 1) // block_size calls. *)
Lemma instant_exports nm get es iv x d0 : iv_list iv = unit_ivs es -> ix_list x = es -> d0 = mkDiag iv x (DInstant (mkInstantDiag get None) : D) ->
  dget diags nm = Some d0 -> plot_output i <> "none"%string -> increasing_from 0 es -> Forall (fun e => e <= tot_samples i) es ->
  exports_of nm (sm_out st) = map (fun e => (e, XValue (Some (get (after ((e + 1) / pr_bs p)))))) es.
Proof using HX HD HR.
  intros A B -> Hd Hpo HI HF. destruct (diag_law HX HD HR _ Hd) as (d & ts & rest & F1 & F2 & F3 & _ & _ & F6). destruct (F6 Hpo) as (os & G1 & G2). rewrite G1. clear F6 G1.
  destruct (proj2 HD _ _ Hd) as (_ & _ & _ & HO & _ & HN & HE1). cbn [d_iv d_ix d_pl] in *. rewrite A, B in *. pose proof (run_longer HX HD HR) as HL.
  assert (ts = unit_ivs es) as ->. { eapply unit_tiles; [exact HO|exact F3|]. eapply Forall_impl; [|exact HF]. simpl; intros; lia. }
  assert (K : due es (last_end (unit_ivs es)) = es).
  { rewrite (due_filter _ _ HN). assert (Forall (fun e => e <= last_end (unit_ivs es)) es) as HE.
    { eapply last_ge; eauto. }
    clear - HE. revert HE. generalize (last_end (unit_ivs es)). induction es as [|e es IH]; intros z HE; auto. inversion HE; subst. cbn [filter]. destruct (Z.leb_spec e z); [|lia]. f_equal; auto. }
  rewrite K in G2. rewrite K. clear K.
  assert (G3 : Forall2 (fun e o => o = XValue (Some (get (after ((e + 1) / pr_bs p))))) es os).
  { eapply Forall2_impl; [|exact G2]. intros e o He (q & P1 & P2). apply in_split in He as (l1 & l2 & ->). rewrite until_unit in P1 by auto.
    apply instant_saves in P1 as (q' & Q1 & ->). unfold proc_state in Q1. inversion Q1; subst q'. cbn in P2. inversion P2. auto. }
  clear - G3. induction G3 as [|e o es os H _ IH]; auto. subst o. cbn [combine map]. f_equal. auto.
Qed.
Theorem C17_instant nm get a d0 : frequency_ok i a -> increasing_from 0 (asked i a) -> Forall (fun e => e <= tot_samples i) (asked i a) ->
  instant_diag_init i a (DInstant (mkInstantDiag get None) : D) = Ok d0 -> dget diags nm = Some d0 -> plot_output i <> "none"%string ->
  exports_of nm (sm_out st) = map (fun e => (e, XValue (Some (get (after ((e + 1) / pr_bs p)))))) (asked i a).
Proof using HX HD HR.
  intros Hfa HI HF Hi Hd Hpo. unfold instant_diag_init in Hi. destruct a as [|f|l]; cbn [asked frequency_ok] in *;
    apply bind_ok in Hi as (iv & Q & Hi); unfold diagnostic_init in Hi; apply bind_ok in Hi as (x & Qx & Hi); cbn [export_counter] in Qx; injection Hi as Hi; symmetry in Hi.
  - destruct (frequency_ivs _ Hfa Q) as (A & _). destruct (frequency_ixs _ Hfa Qx) as (B & _). eapply instant_exports; eauto.
  - destruct (frequency_ivs _ Hfa Q) as (A & _). destruct (frequency_ixs _ Hfa Qx) as (B & _). eapply instant_exports; eauto.
  - inversion Qx; subst x. eapply instant_exports; eauto; [|unfold ixc_of_list; apply ixc_make_list].
    unfold ivc_of_indices in Q. destruct l; [discriminate|]. inversion Q. rewrite ivc_make_list. auto.
Qed.
(** a frequency asks for increasing indices inside the run *)
Theorem C17_frequencies f : 1 <= f -> increasing_from 0 (asked i (AInt f)) /\ Forall (fun e => e <= tot_samples i) (asked i (AInt f)).
Proof.
  intros Hf. split; [apply multiples_increasing; auto|]. eapply Forall_impl; [|apply multiples_range; auto]. simpl; intros; lia.
Qed.
End Run.

(** C17.  Without a processor there is nothing to take a value from: the first save of such a diagnostic fails. *)
Section NoProcessor.
Context {E : AEnv} {DE : DEnv}.
Variables PS0 D0 : Type.
Variable dsave0 : D0 -> option PS0 -> dict (list frame) -> Z * Z -> res D0.
Theorem C17_no_processor signals t :
  (forall get x, dg_save dsave0 (DInstant (mkInstantDiag get x)) None signals (t, t + 1) = Err AttributeError) /\
  (forall get dim values times idx, dg_save dsave0 (DState (mkStateDiag get dim values times idx)) None signals (t, t + 1) = Err AttributeError).
Proof.
  split; intros; cbn [dg_save]; [reflexivity|]. unfold state_save. cbn [fst snd]. replace (t + 1 - t =? 1) with true by lia. reflexivity.
Qed.
(** C74.  A value of the wrong size (one number would be repeated) does not fit into the array of values *)
Theorem C74_wrong_size signals t p get dim values times idx : zlen (get p) <> dim -> zlen (get p) <> 1 ->
  dg_save dsave0 (DState (mkStateDiag get dim values times idx)) (Some p) signals (t, t + 1) = Err ValueError.
Proof.
  intros H1 H2. cbn [dg_save]. unfold state_save. cbn [fst snd st_dim st_get]. replace (t + 1 - t =? 1) with true by lia. cbn [passert bind]. unfold fit. destruct (Z.eqb_spec (zlen (get p)) dim); [contradiction|].
  destruct (get p) as [|x [|y r]]; [reflexivity|exfalso; apply H2; reflexivity|reflexivity].
Qed.
(** C11.  A recorder needs as many channels as it was told, and the signal must have each of them (counted from the end if negative) *)
Theorem C11_channel_count name num l tot : zlen l <> num -> record_signal (E := E) name num (Some l) tot = Err AssertionError.
Proof. intros H. unfold record_signal. apply Z.eqb_neq in H as ->. reflexivity. Qed.
Theorem C11_no_channel r p (signals : dict (list frame)) iv chans (fr : frame) (rest : list frame) ch : rs_chans r = Some chans -> dget signals (rs_name r) = Some ((fr :: rest) : list frame) -> In ch chans -> ~ (- zlen fr <= ch < zlen fr) ->
  dg_save dsave0 (DRecordSignal r) p signals iv = Err IndexError.
Proof.
  intros HC HD I N. cbn [dg_save]. unfold record_signal_save, dgetE. rewrite HD, HC. cbn [bind mapM pick].
  assert (M : mapM (pick1 fr) chans = Err IndexError).
  { clear HC. induction chans as [|c r0 IH]; [destruct I|]. cbn [mapM]. destruct (pick1 fr c) as [x|e] eqn:P.
    - destruct I as [<-|I]; [exfalso|cbn [bind]; rewrite (IH I); reflexivity]. apply N. unfold pick1 in P. destruct (zget fr _) as [v|] eqn:Z0; [|discriminate P]. apply zget_some_range in Z0. destruct (Z.ltb_spec c 0); lia.
    - unfold pick1 in P. destruct (zget fr _); [discriminate P|]. injection P as <-. reflexivity. }
  rewrite M. reflexivity.
Qed.
(** C18.  SoundfieldPower takes the signals from the processor, so it needs one too *)
Theorem C18_no_processor signals iv : forall r, dg_save dsave0 (DSoundfield r) None signals iv = Err AttributeError.
Proof. reflexivity. Qed.
End NoProcessor.

(* ------------------------------------------------------------------ Examples *)
Section Examples.
Local Open Scope string_scope.
Local Existing Instances demo demo_d demo_s.
Let i := run_info 10 5 false true.
Let counter := fun x : Z => [x].

(** the demo run: "state" is saved every 2 samples and exported at 5 and 12, "inst" is saved at 5 and 9 *)
Lemma state_demo : exists c diags st d0 d1, experiment i c [dplayer 3] /\
  good_diags i diags /\ demo_run i None [dplayer 3] = Ok st /\ run_simulation i c [dplayer 3] diags = Ok st /\
  record_state_init i (AList [5; 12]) (AInt 2) (fun n => DState (state_init counter 1 n) : D) = Ok d0 /\ dget diags "state" = Some d0 /\
  instant_diag_init i (AList [5; 9]) (DInstant (mkInstantDiag counter None) : D) = Ok d1 /\ dget diags "inst" = Some d1.
Proof.
  destruct (demo_meets i None [dplayer 3]) as (c & d & st & Hc & Hd & Hr & A & B & C); [vm_compute; reflexivity|cbn; lia|repeat constructor; eauto|vm_compute; reflexivity|].
  unfold demo_diags in Hd. do 4 (apply bind_ok in Hd as (? & _ & Hd)). apply bind_ok in Hd as (d0 & H0 & Hd). apply bind_ok in Hd as (d1 & H1 & Hd).
  do 6 (apply bind_ok in Hd as (? & _ & Hd)). inversion Hd; subst d.
  eexists c, _, st, d0, d1. do 4 (split; [eassumption|]). do 2 (split; [assumption|split; [reflexivity|]] || (split; [assumption|reflexivity])).
Qed.
Example C15_example : exists c diags st d0, experiment i c [dplayer 3] /\ good_diags i diags /\
  run_simulation i c [dplayer 3] diags = Ok st /\ 0 <= tot_samples i /\
  record_state_init i (AList [5; 12]) (AInt 2) (fun n => DState (state_init counter 1 n) : D) = Ok d0 /\ dget diags "state" = Some d0 /\
  frequency_ok i (AList [5; 12]) /\ increasing_from 0 [5; 12] /\ plot_output i <> "none".
Proof.
  destruct state_demo as (c & diags & st & d0 & d1 & A & B & _ & C & F & G & _). exists c, diags, st, d0. do 3 (split; [assumption|]). split; [vm_compute; discriminate|].
  do 2 (split; [assumption|]). split; [exact I|]. split; [simpl; lia|vm_compute; discriminate].
Qed.
Example C17_example : exists c diags st d0, experiment i c [dplayer 3] /\ good_diags i diags /\
  run_simulation i c [dplayer 3] diags = Ok st /\
  frequency_ok i (AList [5; 9]) /\ increasing_from 0 (asked i (AList [5; 9])) /\ Forall (fun e => e <= tot_samples i) (asked i (AList [5; 9])) /\
  instant_diag_init i (AList [5; 9]) (DInstant (mkInstantDiag counter None) : D) = Ok d0 /\ dget diags "inst" = Some d0 /\ plot_output i <> "none".
Proof.
  destruct state_demo as (c & diags & st & d0 & d1 & A & B & _ & C & F & G & H & K). exists c, diags, st, d1. do 3 (split; [assumption|]). split; [exact I|].
  split; [simpl; lia|]. split; [repeat constructor; cbn; lia|]. do 2 (split; [assumption|]). vm_compute; discriminate.
Qed.
Definition as_state (d : @D demo demo_s) : option (state_diag Z) := match d with DState r => Some r | _ => None end.
Lemma as_state_inv d r : as_state d = Some r -> d = DState r.
Proof. destruct d; cbn; intros H; inversion H; auto. Qed.
Example C15_values : get (demo_run i None [dplayer 3]) (fun st => match dget (sm_diags st) "state" with Some d => option_map (fun r => (st_values r, st_times r)) (as_state (d_pl d)) | None => None end)
  = Some (Some ([Some [1]; Some [1]; Some [2]; Some [3]; Some [3]; Some [4]], [1; 3; 5; 7; 9; 11])).
Proof. vm_compute; reflexivity. Qed.
Example C16_values : get (demo_run i None [dplayer 3]) (fun st => exports_of "state" (sm_out st))
  = Some [(5, XSignal [[1]; [1]] [1; 3]); (12, XSignal [[1]; [1]; [2]; [3]; [3]; [4]] [1; 3; 5; 7; 9; 11])].
Proof. vm_compute; reflexivity. Qed.
Example C17_values : get (demo_run i None [dplayer 3]) (fun st => exports_of "inst" (sm_out st)) = Some [(5, XValue (Some [2])); (9, XValue (Some [3]))].
Proof. vm_compute; reflexivity. Qed.

(** C15 is false: block size 3, save frequency 2.  After 2 samples no block is complete, but the first
    value is taken after one call. *)
Theorem C15_refuted : exists c diags st d0 d r, experiment i c [dplayer 3] /\ good_diags i diags /\
  run_simulation i c [dplayer 3] diags = Ok st /\
  record_state_init i (AList [5; 12]) (AInt 2) (fun n => DState (state_init counter 1 n) : D) = Ok d0 /\ dget diags "state" = Some d0 /\
  dget (sm_diags st) "state" = Some d /\ d_pl d = DState r /\ zget (st_times r) 0 = Some (1 * 2 - 1) /\
  zget (st_values r) 0 = Some (Some [1]) /\
  counter (state_after (dims_of i c [dplayer 3]) (signals_of i c [dplayer 3]) (dplayer 3) (Z.to_nat (1 * 2 / 3))) = [0].
Proof.
  destruct state_demo as (c & diags & st & d0 & d1 & A & B & R & C & F & G & _).
  pose proof C15_values as V. rewrite R in V. cbn [get] in V.
  destruct (dget (sm_diags st) "state") as [d|] eqn:Hd; [|discriminate V]. destruct (as_state (d_pl d)) as [r|] eqn:Hr; [|discriminate V]. apply as_state_inv in Hr. cbn [option_map] in V.
  exists c, diags, st, d0, d, r. do 5 (split; [assumption|]). split; auto. split; auto. injection V as V1 V2. rewrite V1, V2. split; [reflexivity|]. split; [reflexivity|]. reflexivity.
Qed.

(** C16 is false: exported at index 3, saved every 5 samples *)
Definition early_diags : res (dict (diag D)) :=
  d <- record_state_init i (AList [3; 12]) (AInt 5) (fun n => DState (state_init counter 1 n) : D) ;; Ok [("s", d)].
Definition early_run : res sim := c <- run_coll i None ;; d <- early_diags ;; run_simulation i c [dplayer 3] d.
Example C16_early_values : get early_run (fun st => exports_of "s" (sm_out st)) = Some [(3, XSignal [[2]] [4])].
Proof. vm_compute; reflexivity. Qed.
Example C16_early_example : exists c diags st d0, experiment i c [dplayer 3] /\ good_diags i diags /\ run_simulation i c [dplayer 3] diags = Ok st /\
  record_state_init i (AList [3; 12]) (AInt 5) (fun n => DState (state_init counter 1 n) : D) = Ok d0 /\ dget diags "s" = Some d0.
Proof.
  destruct (@bind_is_ok _ _ early_diags (fun d => if forallb (fun kd => diag_okb i (snd kd)) d then c <- run_coll i None ;; st <- run_simulation i c [dplayer 3] d ;; Ok tt else Err ValueError))
    as (d & u & Hd & K); [vm_compute; reflexivity|].
  destruct (forallb (fun kd => diag_okb i (snd kd)) d) eqn:Q; [|discriminate]. apply bind_ok in K as (c & Hc & K). apply bind_ok in K as (st & Hs & _).
  unfold early_diags in Hd. apply bind_ok in Hd as (d0 & H0 & Hd). injection Hd as <-.
  exists c, [("s", d0)], st, d0. split; [apply (demo_experiment _ _ _ _ i None c [dplayer 3] Hc); [cbn; lia|repeat constructor; exists 3; reflexivity]|].
  split; [apply good_of; [constructor; [intros []|constructor]|exact Q]|]. split; [exact Hs|]. split; [exact H0|reflexivity].
Qed.
Example C16_selection_example : increasing (map snd (@stored_pairs demo [Some [7]; Some [8]; None] [1; 3; nan_int])) /\
  values_from_selection 1 [Some [7]; Some [8]; None] [1; 3; nan_int] 3 = Ok ([[7]], [1]) /\
  values_from_selection 1 [Some [7]; Some [8]; None] [1; 3; nan_int] 1 = Ok ([[7]; [8]], [1; 3]).
Proof. split; [repeat constructor|split; reflexivity]. Qed.
Example C20_example : exists d, record_state_init i (AInt 6) (AInt 4) (fun n : Z => n) = Ok d /\ iv_list (d_iv d) = [(3, 4); (7, 8); (11, 12)] /\ ix_list (d_ix d) = [6; 12].
Proof. eexists; split; [reflexivity|]; split; reflexivity. Qed.
Example C20_power_example : exists d, state_power_init i (AInt 6) (AInt 4) (fun n : Z => n) = Ok d /\ iv_list (d_iv d) = [(5, 6); (11, 12)] /\ ix_list (d_ix d) = [4; 8; 12].
Proof. eexists; split; [reflexivity|]; split; reflexivity. Qed.

(** cases that meet the hypotheses of each theorem *)
Example C15_stored_meets : 1 <= 2 /\ exists c diags st d0, experiment i c [dplayer 3] /\ good_diags i diags /\ run_simulation i c [dplayer 3] diags = Ok st /\ 0 <= tot_samples i /\
  record_state_init i (AList [5; 12]) (AInt 2) (fun n => DState (state_init counter 1 n) : D) = Ok d0 /\ dget diags "state" = Some d0.
Proof. split; [lia|]. destruct C15_example as (c & diags & st & d0 & H1 & H2 & H3 & H4 & H5 & H6 & _). exists c, diags, st, d0. do 5 (split; [assumption|]). exact H6. Qed.
Example C15_documented_partial_meets : ~ (pr_bs (dplayer 3) | 3 * 2 + 1).
Proof. intros (q & H). change (pr_bs (dplayer 3)) with 3 in H. lia. Qed.
Example C16_exported_partial_meets : 1 <= 2 /\ exists c diags st d0, experiment i c [dplayer 3] /\ good_diags i diags /\ run_simulation i c [dplayer 3] diags = Ok st /\ 0 <= tot_samples i /\ frequency_ok i (AList [5; 12]) /\
  record_state_init i (AList [5; 12]) (AInt 2) (fun n => DState (state_init counter 1 n) : D) = Ok d0 /\ dget diags "state" = Some d0 /\ plot_output i <> "none".
Proof. split; [lia|]. destruct C15_example as (c & diags & st & d0 & H1 & H2 & H3 & H4 & H5 & H6 & H7 & _ & H8). exists c, diags, st, d0. do 7 (split; [assumption|]). exact H8. Qed.
(** two values stored, the last place unused, an export after the first one *)
Example C16_selection_partial_meets : 1 <= 1 /\ zlen [1; 3; nan_int] = zlen [Some [7]; Some [8]; None] /\
  increasing (map snd (@stored_pairs demo [Some [7]; Some [8]; None] [1; 3; nan_int])) /\
  forall v t r, @stored_pairs demo [Some [7]; Some [8]; None] [1; 3; nan_int] = (v, t) :: r -> t < 3.
Proof.
  split; [lia|]. split; [reflexivity|]. split; [apply C16_selection_example|]. intros v t r H.
  assert (K : t = snd (hd (v, t) ((v, t) :: r))) by reflexivity. rewrite <- H in K. vm_compute in K. lia.
Qed.
Example C16_selection_refuted_meets : 1 <= 1 /\ zlen [1; 3; nan_int] = zlen [Some [7]; Some [8]; None] /\
  @stored_pairs demo [Some [7]; Some [8]; None] [1; 3; nan_int] <> [] /\
  increasing (map snd (@stored_pairs demo [Some [7]; Some [8]; None] [1; 3; nan_int])) /\
  forall vt, In vt (@stored_pairs demo [Some [7]; Some [8]; None] [1; 3; nan_int]) -> 1 <= snd vt.
Proof.
  split; [lia|]. split; [reflexivity|]. split; [vm_compute; discriminate|]. split; [apply C16_selection_example|].
  intros vt H. vm_compute in H. destruct H as [<-|[<-|[]]]; cbn; lia.
Qed.
Example C17_instant_meets : exists c diags st d0, experiment i c [dplayer 3] /\ good_diags i diags /\ run_simulation i c [dplayer 3] diags = Ok st /\
  frequency_ok i (AList [5; 9]) /\ increasing_from 0 (asked i (AList [5; 9])) /\ Forall (fun e => e <= tot_samples i) (asked i (AList [5; 9])) /\
  instant_diag_init i (AList [5; 9]) (DInstant (mkInstantDiag counter None) : D) = Ok d0 /\ dget diags "inst" = Some d0 /\ plot_output i <> "none" /\ 0 <= tot_samples i.
Proof. destruct C17_example as (c & diags & st & d0 & H1 & H2 & H3 & H4 & H5 & H6 & H7 & H8 & H9). exists c, diags, st, d0. do 9 (split; [assumption|]). cbn; lia. Qed.
Example C17_frequencies_meets : 1 <= 5 /\ asked i (AInt 5) = [5; 10].
Proof. split; [lia|vm_compute; reflexivity]. Qed.
Example C20_state_diagnostics_meets : 1 <= 4 /\ 0 <= tot_samples i /\ frequency_ok i ANone /\ asked i ANone = [6; 12].
Proof. split; [lia|]. split; [cbn; lia|]. split; [cbn; lia|vm_compute; reflexivity]. Qed.
Example C20_bad_frequency_meets : -4 < 0 /\ 1 <= 3 /\ 0 <= tot_samples i /\ - -4 <= tot_samples i /\ tot_samples i < - -40.
Proof. cbn. lia. Qed.
Example C20_constructed_ok_meets : exists d, 1 <= 2 /\ 1 <= sim_buffer i /\ frequency_ok i (AList [5; 12]) /\ increasing_from 0 (asked i (AList [5; 12])) /\
  record_state_init i (AList [5; 12]) (AInt 2) (fun n => DState (state_init counter 1 n) : D) = Ok d.
Proof. destruct C15_example as (c & diags & st & d0 & _ & _ & _ & _ & H5 & _ & H7 & H8 & _). exists d0. split; [lia|]. split; [cbn; lia|]. split; [exact H7|]. split; [exact H8|exact H5]. Qed.
Example C11_channel_meets : let r := mkRecSignal (E := demo) "mic" 2 (Some [0; -3]) [] in rs_chans r = Some [0; -3] /\ dget [("mic", [[1; 2]])] (rs_name r) = Some ([1; 2] :: []) /\ In (-3) [0; -3] /\ ~ (- zlen [1; 2] <= -3 < zlen [1; 2]) /\ zlen [0; -3] <> 1.
Proof. cbv zeta. split; [reflexivity|]. split; [reflexivity|]. split; [right; left; reflexivity|]. split; vm_compute; [intros [H _]; apply H; reflexivity|discriminate]. Qed.
End Examples.

Print Assumptions C15_stored.
Print Assumptions C15_documented_partial.
Print Assumptions C15_refuted.
Print Assumptions C16_selection_partial.
Print Assumptions C16_selection_refuted.
Print Assumptions C16_exported_partial.
Print Assumptions C16_early_export_refuted.
Print Assumptions C17_instant.
Print Assumptions C17_frequencies.
Print Assumptions C20_state_diagnostics.
Print Assumptions C20_frequency_required.
Print Assumptions C20_state_power_refuted.
Print Assumptions C20_bad_frequency.
Print Assumptions C20_constructed_ok.
Print Assumptions C17_no_processor.
Print Assumptions C74_wrong_size.
Print Assumptions C11_channel_count.
Print Assumptions C11_no_channel.
Print Assumptions C18_no_processor.
