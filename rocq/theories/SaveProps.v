(** Properties of saving and exporting: C11 - C14. *)
From Coq Require Import Sorted.
Require Import Verif.PyBase Verif.PyLemmas Verif.ConfigModel Verif.ArrayModel Verif.ArraySpec Verif.LoggerModel Verif.LoggerSpec Verif.LoggerProofs
  Verif.SimModel Verif.SimSpec Verif.SimDiag Verif.SimLoop Verif.SignalSpec Verif.RunSpec Verif.RunLaw Verif.DiagRun
  Verif.DiagModel Verif.DiagSpec Verif.DiagProofs Verif.DiagCtorModel Verif.DiagCtorProofs Verif.SaveSpec Verif.Demo Verif.DemoRun.
Set Implicit Arguments.
Arguments Z.add : simpl never.
Arguments Z.sub : simpl never.
Arguments Z.mul : simpl never.
Ltac Zify.zify_post_hook ::= Z.div_mod_to_equations.

(* ------------------------------------------------------------------ lemmas *)
Lemma due_filter x s : nondecreasing x -> due x s = filter (fun e => e <=? s) x.
Proof.
  induction x as [|e x IH]; intros H; auto. destruct (nondec_tail _ _ H) as [H1 H2]. cbn [due filter]. destruct (Z.leb_spec e s); [rewrite IH; auto|].
  symmetry. clear - H2 H0. induction H2; simpl; auto. destruct (Z.leb_spec x s); [lia|auto].
Qed.
Lemma map_fst_combine {A B} (l : list A) (r : list B) : length l = length r -> map fst (combine l r) = l.
Proof. revert r; induction l as [|x l IH]; intros [|y r] H; simpl in *; try discriminate; auto. f_equal. auto. Qed.
Lemma last_end_times ts : Forall (fun t => fst t < snd t) ts -> ts <> [] -> last_end ts = last (times ts) 0 + 1.
Proof.
  induction ts as [|t [|t' r] IH]; intros F N; [congruence| |].
  - inversion F; subst. cbn [last_end]. unfold times. cbn [flat_map]. rewrite app_nil_r. replace (snd t) with (snd t - 1 + 1) at 2 by lia. rewrite zrange_snoc by lia. rewrite last_last. lia.
  - inversion F; subst. change (last_end (t :: t' :: r)) with (last_end (t' :: r)). rewrite IH by (auto; discriminate).
    change (times (t :: t' :: r)) with (zrange (fst t) (snd t) ++ times (t' :: r)). f_equal.
    assert (Q : times (t' :: r) <> []).
    { inversion H2; subst. change (times (t' :: r)) with (zrange (fst t') (snd t') ++ times r). rewrite zrange_cons by lia. discriminate. }
    generalize (zrange (fst t) (snd t)). intros l. induction l as [|x l IHl]; auto. cbn [app]. rewrite IHl. destruct (l ++ times (t' :: r)) eqn:Ql; auto.
    exfalso. apply app_eq_nil in Ql as [_ Ql]. auto.
Qed.
Lemma ivs_ok_pos lo l : ivs_ok lo l -> Forall (fun t => fst t < snd t) l.
Proof. revert lo; induction l as [|[s e] l IH]; simpl; intros lo H; constructor; [simpl; lia|]. eapply IH; apply H. Qed.
Lemma tiles_last last lo l n ts rest : ivs_ok lo l -> tiles_ok last l n ts rest -> Forall (fun iv => snd iv < Z.of_nat n) l -> last_end ts = last_end l.
Proof.
  intros HO HT HF. destruct (tiles_complete HT HF) as [_ Q]. pose proof (@ivs_ok_pos _ _ HO) as P.
  assert (PT : Forall (fun t => fst t < snd t) ts) by (apply Forall_forall; intros t Ht; apply (tile_range _ HO HT _ Ht)).
  destruct l as [|x l'].
  - destruct ts as [|y r]; auto. inversion PT; subst. change (times (y :: r)) with (zrange (fst y) (snd y) ++ times r) in Q. rewrite zrange_cons in Q by lia. discriminate.
  - destruct ts as [|y r]; [|rewrite !last_end_times by (auto; discriminate); congruence].
    inversion P; subst. change (times (x :: l')) with (zrange (fst x) (snd x) ++ times l') in Q. rewrite zrange_cons in Q by lia. discriminate.
Qed.
Lemma iv_list_of l iv : ivc_of_intervals l = Ok iv -> iv_list iv = l.
Proof. unfold ivc_of_intervals. destruct l; [discriminate|]. intros H; inversion H. apply ivc_make_list. Qed.

(* ------------------------------------------------------------------ any diagnostic *)
Section Any.
Context {E : AEnv} {S : SEnv}.
Variables (i : info) (c : coll E) (procs : list (@proc E S)) (diags : dict (diag D)) (st : sim).
Hypothesis HX : experiment i c procs.
Hypothesis HD : good_diags i diags.
Hypothesis HR : run_simulation i c procs diags = Ok st.
Notation N := (Z.of_nat (run_length i procs)).
Lemma run_longer : tot_samples i < N.
Proof.
  destruct (run_facts HX HD HR) as (_ & _ & H1 & _). destruct (supported_sizes i procs (ex_sizes HX) H1) as ((Z1 & Z2 & Z3) & _). unfold run_length. lia.
Qed.

(** intervals inside the run: everything up to the end of the last interval is exported *)
Theorem C13_all_exported nm d0 l x : dget diags nm = Some d0 -> iv_list (d_iv d0) = l -> ix_list (d_ix d0) = x ->
  plot_output i <> "none"%string -> Forall (fun iv => snd iv <= tot_samples i) l ->
  map fst (exports_of nm (sm_out st)) = filter (fun e => e <=? last_end l) x.
Proof.
  intros Hd Hl Hx Hpo HF. destruct (diag_law HX HD HR _ Hd) as (d & ts & rest & F1 & F2 & F3 & F4 & _ & F6).
  destruct (F6 Hpo) as (os & G1 & G2). destruct (proj2 HD _ _ Hd) as (_ & _ & _ & HO & _ & HN & H1). rewrite Hl, Hx in *.
  rewrite G1, map_fst_combine by (eapply Forall2_len; eauto). rewrite <- (due_filter _ _ HN). f_equal. eapply tiles_last; eauto.
  eapply Forall_impl; [|exact HF]. simpl. intros iv Hiv. pose proof run_longer. lia.
Qed.
Theorem C13_no_exports nm d0 : dget diags nm = Some d0 -> plot_output i = "none"%string -> exports_of nm (sm_out st) = [].
Proof. intros Hd Hpo. destruct (diag_law HX HD HR _ Hd) as (d & ts & rest & F1 & F2 & F3 & F4 & F5 & _). auto. Qed.
End Any.

(* ------------------------------------------------------------------ C12, C13: save calls and exports *)
Section Calls.
Context {E : AEnv}.
Variables PS0 D1 Out1 : Type.
Variable dsave1 : D1 -> option PS0 -> dict (list frame) -> Z * Z -> res D1.
Variable dout1 : D1 -> Z -> res Out1.
Local Instance OS : SEnv := observed dsave1 dout1.

Variables (i : info) (c : coll E) (procs : list (@proc E OS)) (diags : dict (diag D)) (st : sim).
Hypothesis HX : experiment i c procs.
Hypothesis HD : good_diags i diags.
Hypothesis HR : run_simulation i c procs diags = Ok st.
Notation N := (Z.of_nat (run_length i procs)).
Notation sg := (signals_of i c procs).
Notation ds := (dims_of i c procs).

Lemma saves_log log ts : saves ds sg (proc_state i c procs) (inl log : D) ts =
  Ok (inl (log ++ map (fun t => mkCall t (proc_state i c procs (snd t)) (window ds sg (fst t) (snd t))) ts)).
Proof.
  unfold saves. revert log. induction ts as [|t ts IH]; intros log; cbn [foldM map].
  - rewrite app_nil_r. auto.
  - assert (Hs : forall log p v g, dsave (inl log : D) p v g = Ok (inl (log ++ [mkCall g p v]))) by reflexivity. rewrite Hs. cbn [bind]. rewrite IH, <- app_assoc. auto.
Qed.

(** C12.  [l] are the save intervals.  The save calls of the run, in order, cover the requested times one by
    one, up to intervals [rest] that end after the run; each call stays inside one interval and
    ends where the interval ends or where the buffer is shifted; it is handed the samples of all
    signals that belong to its interval, and the processor as it is after that time step. *)
Theorem C12_save_calls nm d0 l : dget diags nm = Some d0 -> d_pl d0 = inl [] -> iv_list (d_iv d0) = l ->
  exists d log rest, dget (sm_diags st) nm = Some d /\ d_pl d = inl log /\
    times (map (@k_iv E PS0) log) ++ times rest = times l /\
    Forall (fun iv => N <= snd iv /\ exists s e, In (s, e) l /\ s <= fst iv /\ snd iv <= e) rest /\
    Forall (fun k => let (a, b) := k_iv k in
      (exists s e, In (s, e) l /\ s <= a < b /\ b <= e /\ (b = e \/ last_at i (max_block_size i procs) b = true)) /\
      0 <= b < N /\
      k_view k = window ds sg a b /\ k_proc k = proc_state i c procs b) log.
Proof.
  intros Hd Hp Hl. destruct (diag_law HX HD HR _ Hd) as (d & ts & rest & F1 & F2 & F3 & _). rewrite Hp in F2. rewrite saves_log in F2. inversion F2 as [F4].
  rewrite Hl in F3. destruct (proj2 HD _ _ Hd) as (_ & _ & _ & HO & _). rewrite Hl in HO.
  exists d, (map (fun t => mkCall t (proc_state i c procs (snd t)) (window ds sg (fst t) (snd t))) ts), rest.
  split; auto. split; auto. rewrite map_map. cbn [k_iv]. rewrite map_id. split; [apply (to_times F3)|].
  split; [eapply Forall_impl; [|apply (to_rest F3)]; intros iv (((s & e) & I1 & I2 & I3) & I4); split; eauto|].
  apply Forall_forall. intros k Hk. apply in_map_iff in Hk as ([a b] & <- & Ht). cbn [k_iv k_view k_proc fst snd].
  pose proof (to_tile F3) as G. rewrite Forall_forall in G. destruct (G _ Ht) as (((s & e) & I1 & I2 & I3) & G2 & G3 & G4). cbn [fst snd] in *.
  split; auto. exists s, e. do 2 (split; [solve [auto]|]). split; auto. destruct G4 as [G4|G4]; auto. left.
  apply in_map_iff in G4 as ((s' & e') & Q & G4). cbn [snd] in Q. subst e'.
  clear - HO I1 I2 I3 G2 G4. revert HO. generalize (1 - sim_buffer i). revert I1 G4. induction l as [|[x y] r IH]; intros I1 G4 lo HO; [destruct I1|].
  destruct HO as (O1 & O2 & O3). pose proof (@ivs_ok_starts _ _ O3) as O4. pose proof (@ivs_ok_ends _ _ O3) as O5. rewrite Forall_forall in O4, O5.
  destruct I1 as [I1|I1], G4 as [G4|G4]; try (inversion I1; subst); try (inversion G4; subst); auto.
  - specialize (O5 _ G4). simpl in O5. lia.
  - specialize (O4 _ I1). simpl in O4. lia.
  - eapply IH; eauto.
Qed.
(** if the intervals end within the run, nothing is left over *)
Theorem C12_all_saved nm d0 l : dget diags nm = Some d0 -> d_pl d0 = inl [] -> iv_list (d_iv d0) = l -> Forall (fun iv => snd iv <= tot_samples i) l ->
  exists d log, dget (sm_diags st) nm = Some d /\ d_pl d = inl log /\ times (map (@k_iv E PS0) log) = times l.
Proof.
  intros Hd Hp Hl HF. destruct (C12_save_calls _ Hd Hp Hl) as (d & log & rest & A1 & A2 & A3 & A4 & A5). exists d, log. split; auto. split; auto.
  destruct rest as [|iv r]; [simpl in A3; rewrite app_nil_r in A3; auto|]. exfalso. inversion A4 as [|x y (B1 & s & e & B2 & B3 & B4) _]; subst.
  rewrite Forall_forall in HF. specialize (HF _ B2). simpl in HF. pose proof (run_longer HX HD HR). lia.
Qed.

(** C13.  [x] are the requested export indices, [saved] the end of the last save call.  The exports of a
    diagnostic are the requested indices up to [saved], each once and in order; what is exported at
    e is the state after the save calls [log], after which everything requested before e has been saved. *)
Theorem C13_exports nm d0 l x : dget diags nm = Some d0 -> d_pl d0 = inl [] ->
  iv_list (d_iv d0) = l -> ix_list (d_ix d0) = x -> plot_output i <> "none"%string ->
  exists d log, dget (sm_diags st) nm = Some d /\ d_pl d = inl log /\
    map fst (exports_of nm (sm_out st)) = filter (fun e => e <=? last_end (map (@k_iv E PS0) log)) x /\
    Forall (fun eo => exists done later, snd eo = inl done /\ log = done ++ later /\
      (forall t, t < fst eo -> In t (times (map (@k_iv E PS0) done)) <-> In t (times l))) (exports_of nm (sm_out st)).
Proof.
  intros Hd Hp Hl Hx Hpo. destruct (diag_law HX HD HR _ Hd) as (d & ts & rest & F1 & F2 & F3 & F4 & _ & F6). rewrite Hp in F2, F6. rewrite saves_log in F2. inversion F2 as [F5].
  destruct (F6 Hpo) as (os & G1 & G2). clear F6. destruct (proj2 HD _ _ Hd) as (_ & _ & _ & HO & _ & HN & H1). rewrite Hl, Hx in *.
  exists d, (map (fun t => mkCall t (proc_state i c procs (snd t)) (window ds sg (fst t) (snd t))) ts). split; auto. split; auto.
  rewrite map_map. cbn [k_iv]. rewrite map_id. rewrite <- (due_filter _ _ HN). rewrite G1.
  assert (HL : length (due x (last_end ts)) = length os) by (eapply Forall2_len; eauto). split; [apply map_fst_combine; auto|].
  assert (HD1 : Forall (fun e => 1 <= e <= last_end ts) (due x (last_end ts))).
  { apply Forall_forall. intros e He. rewrite (due_filter _ _ HN) in He. apply filter_In in He as [He1 He2]. rewrite Forall_forall in H1. specialize (H1 _ He1). lia. }
  clear G1 HL. induction G2 as [|e o es os' (p & P1 & P2) _ IH]; cbn [combine]; constructor; [|apply IH; inversion HD1; auto].
  inversion HD1 as [|? ? [E1 E2] _]; subst. rewrite saves_log in P1. inversion P1; subst p. cbn in P2. inversion P2; subst o. cbn [fst snd].
  assert (Q : exists r, ts = tiles_until e ts ++ r).
  { clear. induction ts as [|t ts [r IH]]; cbn [tiles_until]; [exists []; auto|]. destruct (e <=? snd t); [exists ts; auto|exists r; cbn [app]; congruence]. }
  destruct Q as [r Q]. eexists. exists (map (fun t => mkCall t (proc_state i c procs (snd t)) (window ds sg (fst t) (snd t))) r).
  split; [reflexivity|]. split; [cbn [app]; rewrite <- map_app, <- Q; auto|].
  intros t Ht. cbn [app]. rewrite map_map. cbn [k_iv]. rewrite map_id. apply (until_complete _ HO F3); auto.
Qed.
End Calls.

(* ------------------------------------------------------------------ C11, C14: recorded signals *)
Section Recorded.
Context {E : AEnv} {DE : DEnv}.
Variables PS0 D0 Out0 : Type.
Variable dsave0 : D0 -> option PS0 -> dict (list frame) -> Z * Z -> res D0.
Variable dout0 : D0 -> Z -> res Out0.
Local Instance RS : SEnv := full dsave0 dout0.

Variables (i : info) (c : coll E) (procs : list (@proc E RS)) (diags : dict (diag D)) (st : sim).
Hypothesis HX : experiment i c procs.
Hypothesis HD : good_diags i diags.
Hypothesis HR : run_simulation i c procs diags = Ok st.
Notation sg := (signals_of i c procs).
Notation ds := (dims_of i c procs).

(** a diagnostic whose payload is one column per time *)
Section Payload.
Variables (mk : columns -> dg PS0 D0) (val : Z -> frame -> Prop) (num : Z).
Hypothesis Hmk : forall cols a b p d', 0 <= a < b -> b <= zlen cols -> dsave (mk cols : D) p (window ds sg a b) (a, b) = Ok d' ->
  exists cols', d' = mk cols' /\ writes val a b cols cols'.
Hypothesis Hout : forall cols e o, dout (mk cols : D) e = Ok o -> exists vals ts, values_up_to_idx num cols e = Ok (vals, ts) /\ o = XSignal vals ts.

Lemma payload_store nm d0 l : dget diags nm = Some d0 -> d_pl d0 = mk (zrep (tot_samples i) None) -> iv_list (d_iv d0) = l ->
  Forall (fun iv => 0 <= fst iv /\ snd iv <= tot_samples i) l ->
  exists d cols, dget (sm_diags st) nm = Some d /\ d_pl d = mk cols /\ zlen cols = Z.max 0 (tot_samples i) /\ holds val (times l) cols.
Proof using HX HD HR Hmk.
  clear Hout num.
  intros Hd Hp Hl HF. destruct (diag_law HX HD HR _ Hd) as (d & ts & rest & F1 & F2 & F3 & F4 & _).
  destruct (proj2 HD _ _ Hd) as (_ & _ & _ & HO & _). rewrite Hl in *. rewrite Hp in F2.
  pose proof (run_longer HX HD HR) as HL. 
  assert (HN : Forall (fun iv => snd iv < Z.of_nat (run_length i procs)) l) by (eapply Forall_impl; [|exact HF]; simpl; intros; lia).
  destruct (tiles_complete F3 HN) as [_ Ht].
  assert (HT : Forall (fun t => 0 <= fst t < snd t /\ snd t <= zlen (zrep (tot_samples i) (@None frame))) ts).
  { apply Forall_forall. intros t Hi. rewrite zlen_zrep. pose proof (to_tile F3) as G. rewrite Forall_forall in G, HF. destruct (G _ Hi) as ((iv & I1 & I2 & I3) & G2 & _).
    specialize (HF _ I1). lia. }
  destruct (cols_saves mk (val := val) ds sg (proc_state i c procs) Hmk _ HT F2) as (cols & C1 & C2 & C3). exists d, cols.
  split; auto. split; auto. rewrite C2, zlen_zrep. split; auto. intros t Htr. rewrite <- Ht. destruct (C3 t) as [C4 C5]. split; auto. intros Hn. rewrite (C5 Hn).
  rewrite zget_zrep. rewrite C2, zlen_zrep in Htr. destruct ((0 <=? t) && (t <? tot_samples i)) eqn:Q; auto; lia.
Qed.
Lemma payload_export nm d0 l x : dget diags nm = Some d0 -> d_pl d0 = mk (zrep (tot_samples i) None) -> iv_list (d_iv d0) = l -> ix_list (d_ix d0) = x ->
  plot_output i <> "none"%string -> Forall (fun iv => 0 <= fst iv /\ snd iv <= tot_samples i) l ->
  map fst (exports_of nm (sm_out st)) = filter (fun e => e <=? last_end l) x /\
  Forall (fun eo => exists vals ts, snd eo = XSignal vals ts /\ ts = filter (fun t => t <? fst eo) (times l) /\ Forall2 val ts vals) (exports_of nm (sm_out st)).
Proof.
  intros Hd Hp Hl Hx Hpo HF. 
  assert (HF' : Forall (fun iv => snd iv <= tot_samples i) l) by (eapply Forall_impl; [|exact HF]; simpl; tauto).
  split; [eapply C13_all_exported; eauto|].
  destruct (diag_law HX HD HR _ Hd) as (d & ts & rest & F1 & F2 & F3 & F4 & _ & F6). destruct (F6 Hpo) as (os & G1 & G2). rewrite G1. clear F6 G1.
  destruct (proj2 HD _ _ Hd) as (_ & _ & _ & HO & _ & HN & H1). rewrite Hl, Hx in *. rewrite Hp in G2.
  assert (HD1 : Forall (fun e => 1 <= e <= last_end ts) (due x (last_end ts))).
  { apply Forall_forall. intros e He. rewrite (due_filter _ _ HN) in He. apply filter_In in He as [He1 He2]. rewrite Forall_forall in H1. specialize (H1 _ He1). lia. }
  induction G2 as [|e o es os' (p & P1 & P2) _ IH]; cbn [combine]; constructor; [|apply IH; inversion HD1; auto].
  inversion HD1 as [|? ? [E1 E2] _]; subst. cbn [fst snd].
  assert (HT : Forall (fun t => 0 <= fst t < snd t /\ snd t <= zlen (zrep (tot_samples i) (@None frame))) (tiles_until e ts)).
  { apply Forall_forall. intros t Hi. apply until_In in Hi. rewrite zlen_zrep. pose proof (to_tile F3) as G. rewrite Forall_forall in G, HF. destruct (G _ Hi) as ((iv & I1 & I2 & I3) & G2 & _).
    specialize (HF _ I1). lia. }
  destruct (cols_saves mk (val := val) ds sg (proc_state i c procs) Hmk _ HT P1) as (cols & -> & C2 & C3).
  destruct (Hout _ _ P2) as (vals & tt & V1 & ->). exists vals, tt. split; auto.
  edestruct up_to_idx_spec as (U1 & U2 & U3 & U4); [exact V1|lia|].
  assert (Q : tt = filter (fun t => t <? e) (times (iv_list (d_iv d0)))).
  { apply increasing_ext.
    - rewrite U3. apply increasing_filter, increasing_zrange.
    - apply increasing_filter. eapply increasing_times; eauto.
    - intros t. rewrite U3, !filter_In, In_zrange. destruct (C3 t) as [C4 C5].
      split.
      + intros [T1 T2]. assert (t < e) by lia. split; [|lia]. apply (until_complete _ HO F3 (e := e)); auto.
        destruct (in_dec Z.eq_dec t (times (tiles_until e ts))); auto. rewrite (C5 n), zget_zrep in T2. destruct (_ && _) in T2; discriminate.
      + intros [T1 T2]. assert (t < e) by lia. rewrite <- (until_complete _ HO F3 (e := e)) in T1; auto. destruct (C4 T1) as (f & _ & ->). split; auto.
        apply In_times in T1 as (iv & I1 & I2). rewrite Forall_forall in HT. specialize (HT _ I1). lia. }
  split; auto. clear Q. assert (K : forall t, In t tt -> In t (times (tiles_until e ts))).
  { intros t Ht. rewrite U3 in Ht. apply filter_In in Ht as [T1 T2]. destruct (C3 t) as [C4 C5].
    destruct (in_dec Z.eq_dec t (times (tiles_until e ts))); auto. rewrite (C5 n), zget_zrep in T2. destruct (_ && _) in T2; discriminate. }
  clear - U4 K C3. induction U4 as [|t f tt vals Q _ IH]; constructor; [|apply IH; intros; apply K; simpl; auto].
  destruct (C3 t) as [C4 _]. destruct (C4 (K t (or_introl eq_refl))) as (f' & V & Q'). congruence.
Qed.
End Payload.

(** C11.  RecordSignal with save intervals [l] inside the run: afterwards column t holds the (selected channels of
    the) signal at time t for every requested t, and NaN everywhere else. *)
Theorem C11_recorded nm name num chans l iv e r0 d0 :
  ivc_of_intervals l = Ok iv -> record_signal name num chans (tot_samples i) = Ok r0 ->
  signal_diag_init i e (Some iv) (DRecordSignal r0 : D) = Ok d0 -> dget diags nm = Some d0 ->
  Forall (fun iv => 0 <= fst iv /\ snd iv <= tot_samples i) l ->
  exists d r, dget (sm_diags st) nm = Some d /\ d_pl d = DRecordSignal r /\
    zlen (rs_data r) = Z.max 0 (tot_samples i) /\
    holds (fun t f => column chans num (sg name t) f) (times l) (rs_data r).
Proof.
  intros H1 H2 H3 Hd HF. unfold record_signal in H2. apply bind_ok in H2 as (u & _ & H2). inversion H2; subst r0; clear H2.
  unfold signal_diag_init, diagnostic_init in H3. cbn [bind] in H3. apply bind_ok in H3 as (x & Hx & H3). inversion H3; subst d0; clear H3.
  edestruct payload_store with (mk := fun cols => DRecordSignal (mkRecSignal name num chans cols) : dg PS0 D0)
    (val := fun t f => column chans num (sg name t) f) as (d & cols & A & B & C & D); [|exact Hd|reflexivity|exact (iv_list_of _ H1)|exact HF|].
  - intros; eapply record_writes; eauto.
  - exists d, (mkRecSignal name num chans cols). auto.
Qed.
(** without a save_at argument every sample 0 .. tot_samples-1 is requested *)
Theorem C11_default_interval {D2} (pl : D2) e d0 : signal_diag_init i e None pl = Ok d0 ->
  iv_list (d_iv d0) = [(0, tot_samples i)] /\ times (iv_list (d_iv d0)) = zrange 0 (tot_samples i).
Proof.
  unfold signal_diag_init, diagnostic_init. intros H. apply bind_ok in H as (iv & H1 & H). apply bind_ok in H as (x & H2 & H). inversion H; subst. cbn [d_iv].
  rewrite (iv_list_of _ H1). split; auto. unfold times. cbn [flat_map fst snd]. apply app_nil_r.
Qed.
(** the same for SignalPower: the mean over the channels of the squared samples *)
Theorem C11_power nm name chans l iv e d0 : ivc_of_intervals l = Ok iv ->
  signal_diag_init i e (Some iv) (DSignalPower (signal_power name chans (tot_samples i)) : D) = Ok d0 -> dget diags nm = Some d0 ->
  Forall (fun iv => 0 <= fst iv /\ snd iv <= tot_samples i) l ->
  exists d r, dget (sm_diags st) nm = Some d /\ d_pl d = DSignalPower r /\
    zlen (sp_data r) = Z.max 0 (tot_samples i) /\
    holds (fun t f => exists y, selected chans (sg name t) y /\ f = [vdivz (vsum (map vsq y)) (zlen y)]) (times l) (sp_data r).
Proof.
  intros H1 H3 Hd HF.
  unfold signal_diag_init, diagnostic_init in H3. cbn [bind] in H3. apply bind_ok in H3 as (x & Hx & H3). inversion H3; subst d0; clear H3.
  edestruct payload_store with (mk := fun cols => DSignalPower (mkSigPower name chans cols) : dg PS0 D0)
    (val := fun t f => exists y, selected chans (sg name t) y /\ f = [mean_power y]) as (d & cols & A & B & C & D); [|exact Hd|reflexivity|exact (iv_list_of _ H1)|exact HF|].
  - intros; eapply power_writes; eauto.
  - exists d, (mkSigPower name chans cols). auto.
Qed.

(** C14.  What RecordSignal exports at index e: the requested times before e, and the signal at those times.
    Exported are the requested indices [x] up to the end of the last interval. *)
Theorem C14_exported nm name num chans l iv e x r0 d0 :
  ivc_of_intervals l = Ok iv -> record_signal name num chans (tot_samples i) = Ok r0 ->
  signal_diag_init i e (Some iv) (DRecordSignal r0 : D) = Ok d0 -> dget diags nm = Some d0 ->
  export_counter i e = Ok x -> plot_output i <> "none"%string ->
  Forall (fun iv => 0 <= fst iv /\ snd iv <= tot_samples i) l ->
  map fst (exports_of nm (sm_out st)) = filter (fun e => e <=? last_end l) (ix_list x) /\
  Forall (fun eo => exists vals ts, snd eo = XSignal vals ts /\
    ts = filter (fun t => t <? fst eo) (times l) /\
    Forall2 (fun t f => column chans num (sg name t) f) ts vals) (exports_of nm (sm_out st)).
Proof.
  intros H1 H2 H3 Hd He Hpo HF. unfold record_signal in H2. apply bind_ok in H2 as (u & _ & H2). inversion H2; subst r0; clear H2.
  unfold signal_diag_init, diagnostic_init in H3. cbn [bind] in H3. rewrite He in H3. cbn [bind] in H3. inversion H3; subst d0; clear H3.
  eapply payload_export with (mk := fun cols => DRecordSignal (mkRecSignal name num chans cols) : dg PS0 D0) (num := num)
    (val := fun t f => column chans num (sg name t) f); [| |exact Hd|reflexivity|exact (iv_list_of _ H1)|reflexivity|exact Hpo|exact HF].
  - intros; eapply record_writes; eauto.
  - intros cols e' o H. cbn in H. apply bind_ok in H as ([vals ts] & V1 & V2). inversion V2. eauto.
Qed.
Theorem C14_power_exported nm name chans l iv e x d0 : ivc_of_intervals l = Ok iv ->
  signal_diag_init i e (Some iv) (DSignalPower (signal_power name chans (tot_samples i)) : D) = Ok d0 -> dget diags nm = Some d0 ->
  export_counter i e = Ok x -> plot_output i <> "none"%string ->
  Forall (fun iv => 0 <= fst iv /\ snd iv <= tot_samples i) l ->
  map fst (exports_of nm (sm_out st)) = filter (fun e => e <=? last_end l) (ix_list x) /\
  Forall (fun eo => exists vals ts, snd eo = XSignal vals ts /\
    ts = filter (fun t => t <? fst eo) (times l) /\
    Forall2 (fun t f => exists y, selected chans (sg name t) y /\ f = [vdivz (vsum (map vsq y)) (zlen y)]) ts vals) (exports_of nm (sm_out st)).
Proof.
  intros H1 H3 Hd He Hpo HF.
  unfold signal_diag_init, diagnostic_init in H3. cbn [bind] in H3. rewrite He in H3. cbn [bind] in H3. inversion H3; subst d0; clear H3.
  eapply payload_export with (mk := fun cols => DSignalPower (mkSigPower name chans cols) : dg PS0 D0) (num := 1)
    (val := fun t f => exists y, selected chans (sg name t) y /\ f = [mean_power y]); [| |exact Hd|reflexivity|exact (iv_list_of _ H1)|reflexivity|exact Hpo|exact HF].
  - intros; eapply power_writes; eauto.
  - intros cols e' o H. cbn in H. apply bind_ok in H as ([vals ts] & V1 & V2). inversion V2. eauto.
Qed.
End Recorded.

(** C13: the export loop ends, whatever is due *)
Theorem C13_export_loop_ends {E : AEnv} {S : SEnv} po (diags : dict (diag D)) out :
  NoDup (dkeys diags) -> (forall nm d, dget diags nm = Some d -> exists x, d_ix d = ixc_of_list x) ->
  (forall p e, exists o, dout p e = Ok o) ->
  exists r, dispatch dout po (diags, out) = Ok r.
Proof.
  intros ND HI HO. apply dispatch_total; auto. intros nm d Hd. destruct (HI _ _ Hd) as [x ->]. unfold ixc_of_list. destruct x; unfold ix_wf; simpl; auto.
Qed.

(* ------------------------------------------------------------------ Examples *)
Section Examples.
Local Open Scope string_scope.
Local Existing Instances demo demo_d demo_s.
Let i := run_info 10 5 false true.

(** the demo run meets all hypotheses: the recorder "part" asks for 1..2 and 4..8, exports at 6 and 12 *)
Example C11_example : exists c diags st iv r0 d0, experiment i c [dplayer 3] /\
  good_diags i diags /\ run_simulation i c [dplayer 3] diags = Ok st /\
  ivc_of_intervals [(1, 3); (4, 9)] = Ok iv /\ record_signal "mic" 1 None (tot_samples i) = Ok r0 /\
  signal_diag_init i (AInt 6) (Some iv) (DRecordSignal r0 : D) = Ok d0 /\ dget diags "part" = Some d0 /\
  Forall (fun iv => 0 <= fst iv /\ snd iv <= tot_samples i) [(1, 3); (4, 9)].
Proof.
  destruct (demo_meets i None [dplayer 3]) as (c & d & st & Hc & Hd & Hr & A & B & C); [vm_compute; reflexivity|cbn; lia|repeat constructor; eauto|vm_compute; reflexivity|].
  unfold demo_diags in Hd. do 3 (apply bind_ok in Hd as (? & _ & Hd)). apply bind_ok in Hd as (p & Hp & Hd). do 8 (apply bind_ok in Hd as (? & _ & Hd)). inversion Hd; subst d.
  unfold rec in Hp. cbn [bind] in Hp. apply bind_ok in Hp as (o & Ho & Hp). apply bind_ok in Ho as (iv & Hiv & Ho). inversion Ho; subst o. apply bind_ok in Hp as (r & Hr0 & Hp).
  eexists c, _, st, iv, r, p. do 3 (split; [eassumption|]). do 3 (split; [assumption|]). split; [reflexivity|]. repeat constructor; simpl; lia.
Qed.
Example C11_values : get (demo_run i None [dplayer 3]) (fun st => option_map (fun d => match d_pl d with DRecordSignal r => rs_data r | _ => [] end) (dget (sm_diags st) "part"))
  = Some (Some [None; Some [0]; Some [5]; None; Some [7]; Some [8]; Some [14]; Some [16]; Some [18]; None; None; None]).
Proof. vm_compute; reflexivity. Qed.
Example C14_values : get (demo_run i None [dplayer 3]) (fun st => exports_of "part" (sm_out st))
  = Some [(6, XSignal [[0]; [5]; [7]; [8]] [1; 2; 4; 5])].
Proof. vm_compute; reflexivity. Qed.

(** an observer with the same intervals, exporting at 3, 6 and 9; the interval 4..8 is split at the buffer shift at step 7 *)
Definition watch : @SEnv demo := @observed demo Z Empty_set Empty_set (fun d => match d with end) (fun d => match d with end).
Definition watch_diags : dict (diag (@D demo watch)) :=
  [("log", mkDiag (ivc_make [(1, 3); (4, 9)] 7) (ixc_of_list [3; 6; 9]) (inl []))].
Definition watch_procs : list (@proc demo watch) := [player 3].
Definition watch_run := c <- run_coll i None ;; @run_simulation demo watch i c watch_procs watch_diags.
Lemma bind_is_ok {A B} (r : res A) (f : A -> res B) : is_ok (bind r f) = true -> exists a b, r = Ok a /\ f a = Ok b.
Proof. destruct r as [a|e]; simpl; [|discriminate]. intros K. apply is_ok_ex in K as [b K]. eauto. Qed.
Example C12_example : exists c st, @experiment demo watch i c watch_procs /\ @good_diags demo watch i watch_diags /\
  @run_simulation demo watch i c watch_procs watch_diags = Ok st.
Proof.
  destruct (@bind_is_ok _ _ (run_coll i None) (fun c => @run_simulation demo watch i c watch_procs watch_diags)) as (c & st & Hc & K);
    [vm_compute; reflexivity|].
  exists c, st. split; [apply (demo_experiment _ _ _ _ i None c watch_procs Hc); [cbn; lia|repeat constructor; exists 3; reflexivity]|].
  split; [|exact K]. apply good_of; [|vm_compute; reflexivity]. change (NoDup ["log"]). constructor; [intros []|constructor].
Qed.
Example C12_values : get watch_run (fun st => option_map (fun d => match d_pl d with inl log => map (@k_iv demo Z) log | _ => [] end) (dget (sm_diags st) "log"))
  = Some (Some [(1, 2); (2, 3); (4, 7); (7, 9)]).
Proof. vm_compute; reflexivity. Qed.
Example C13_values : get watch_run (fun st => map fst (exports_of "log" (sm_out st))) = Some [3; 6; 9].
Proof. vm_compute; reflexivity. Qed.

(** further cases that meet the hypotheses *)
Example C11_recorded_meets : exists c diags st iv r0 d0, experiment i c [dplayer 3] /\
  good_diags i diags /\ run_simulation i c [dplayer 3] diags = Ok st /\
  ivc_of_intervals [(1, 3); (4, 9)] = Ok iv /\ record_signal "mic" 1 None (tot_samples i) = Ok r0 /\
  signal_diag_init i (AInt 6) (Some iv) (DRecordSignal r0 : D) = Ok d0 /\ dget diags "part" = Some d0 /\
  Forall (fun iv => 0 <= fst iv /\ snd iv <= tot_samples i) [(1, 3); (4, 9)].
Proof. exact C11_example. Qed.
Example C11_default_interval_meets : exists d0, signal_diag_init i (AInt 6) None (tt : unit) = Ok d0 /\ iv_list (d_iv d0) = [(0, 12)].
Proof. eexists. split; vm_compute; reflexivity. Qed.
Example C14_exported_meets : exists c diags st iv r0 d0 x, experiment i c [dplayer 3] /\
  good_diags i diags /\ run_simulation i c [dplayer 3] diags = Ok st /\
  ivc_of_intervals [(1, 3); (4, 9)] = Ok iv /\ record_signal "mic" 1 None (tot_samples i) = Ok r0 /\
  signal_diag_init i (AInt 6) (Some iv) (DRecordSignal r0 : D) = Ok d0 /\ dget diags "part" = Some d0 /\
  export_counter i (AInt 6) = Ok x /\ plot_output i <> "none" /\
  Forall (fun iv => 0 <= fst iv /\ snd iv <= tot_samples i) [(1, 3); (4, 9)].
Proof.
  destruct C11_example as (c & diags & st & iv & r0 & d0 & H1 & H2 & H3 & H4 & H5 & H6 & H7 & H8). eexists c, diags, st, iv, r0, d0, _.
  do 7 (split; [eassumption|]). split; [vm_compute; reflexivity|]. split; [vm_compute; discriminate|exact H8].
Qed.
Definition power_diag : res (dict (diag (@D demo demo_s))) :=
  iv <- ivc_of_intervals [(1, 3); (4, 9)] ;; d <- signal_diag_init i (AInt 6) (Some iv) (DSignalPower (signal_power "mic" None (tot_samples i)) : D) ;; Ok [("p", d)].
Example C14_power_exported_meets : exists c diags st iv d0 x, experiment i c [dplayer 3] /\
  good_diags i diags /\ run_simulation i c [dplayer 3] diags = Ok st /\ ivc_of_intervals [(1, 3); (4, 9)] = Ok iv /\
  signal_diag_init i (AInt 6) (Some iv) (DSignalPower (signal_power "mic" None (tot_samples i)) : D) = Ok d0 /\ dget diags "p" = Some d0 /\
  export_counter i (AInt 6) = Ok x /\ plot_output i <> "none" /\
  Forall (fun iv => 0 <= fst iv /\ snd iv <= tot_samples i) [(1, 3); (4, 9)].
Proof.
  destruct (@bind_is_ok _ _ power_diag (fun d => c <- run_coll i None ;; run_simulation i c [dplayer 3] d)) as (d & st & Hd & K); [vm_compute; reflexivity|].
  apply bind_ok in K as (c & Hc & K). unfold power_diag in Hd. apply bind_ok in Hd as (iv & Hiv & Hd). apply bind_ok in Hd as (d0 & Hd0 & Hd).
  assert (Ed : [("p", d0)] = d) by (injection Hd; auto). subst d. eexists c, [("p", d0)], st, iv, d0, _.
  split; [apply (demo_experiment _ _ _ _ i None c [dplayer 3] Hc); [cbn; lia|repeat constructor; exists 3; reflexivity]|].
  split; [|split; [exact K|split; [exact Hiv|split; [exact Hd0|split; [reflexivity|split; [vm_compute; reflexivity|split; [vm_compute; discriminate|]]]]]]].
  - apply good_of; [change (NoDup ["p"]); constructor; [intros []|constructor]|]. clear K Hc. vm_compute in Hiv. injection Hiv as <-. vm_compute in Hd0. injection Hd0 as <-. vm_compute. reflexivity.
  - repeat constructor; cbn; lia.
Qed.
Example C11_power_meets : exists c diags st iv d0, experiment i c [dplayer 3] /\
  good_diags i diags /\ run_simulation i c [dplayer 3] diags = Ok st /\ ivc_of_intervals [(1, 3); (4, 9)] = Ok iv /\
  signal_diag_init i (AInt 6) (Some iv) (DSignalPower (signal_power "mic" None (tot_samples i)) : D) = Ok d0 /\ dget diags "p" = Some d0 /\
  Forall (fun iv => 0 <= fst iv /\ snd iv <= tot_samples i) [(1, 3); (4, 9)].
Proof. destruct C14_power_exported_meets as (c & diags & st & iv & d0 & x & H1 & H2 & H3 & H4 & H5 & H6 & _ & _ & H7). exists c, diags, st, iv, d0. do 6 (split; [assumption|]). exact H7. Qed.
Example C12_save_calls_meets : exists c st d0, @experiment demo watch i c watch_procs /\ @good_diags demo watch i watch_diags /\
  @run_simulation demo watch i c watch_procs watch_diags = Ok st /\ dget watch_diags "log" = Some d0 /\ d_pl d0 = inl [] /\ iv_list (d_iv d0) = [(1, 3); (4, 9)].
Proof. destruct C12_example as (c & st & H1 & H2 & H3). eexists c, st, _. do 3 (split; [assumption|]). repeat split; reflexivity. Qed.
Example C12_all_saved_meets : exists c st d0, @experiment demo watch i c watch_procs /\ @good_diags demo watch i watch_diags /\
  @run_simulation demo watch i c watch_procs watch_diags = Ok st /\ dget watch_diags "log" = Some d0 /\ d_pl d0 = inl [] /\ iv_list (d_iv d0) = [(1, 3); (4, 9)] /\
  Forall (fun iv : Z * Z => snd iv <= tot_samples i) [(1, 3); (4, 9)].
Proof. destruct C12_save_calls_meets as (c & st & d0 & H1 & H2 & H3 & H4 & H5 & H6). exists c, st, d0. do 6 (split; [assumption|]). repeat constructor; cbn; lia. Qed.
Example C13_exports_meets : exists c st d0, @experiment demo watch i c watch_procs /\ @good_diags demo watch i watch_diags /\
  @run_simulation demo watch i c watch_procs watch_diags = Ok st /\ dget watch_diags "log" = Some d0 /\ d_pl d0 = inl [] /\ iv_list (d_iv d0) = [(1, 3); (4, 9)] /\
  ix_list (d_ix d0) = [3; 6; 9] /\ plot_output i <> "none".
Proof. destruct C12_example as (c & st & H1 & H2 & H3). eexists c, st, _. do 3 (split; [assumption|]). do 4 (split; [reflexivity|]). vm_compute. discriminate. Qed.
Example C13_all_exported_meets : exists c st d0, @experiment demo watch i c watch_procs /\ @good_diags demo watch i watch_diags /\
  @run_simulation demo watch i c watch_procs watch_diags = Ok st /\ dget watch_diags "log" = Some d0 /\ iv_list (d_iv d0) = [(1, 3); (4, 9)] /\
  ix_list (d_ix d0) = [3; 6; 9] /\ plot_output i <> "none" /\ Forall (fun iv : Z * Z => snd iv <= tot_samples i) [(1, 3); (4, 9)].
Proof. destruct C13_exports_meets as (c & st & d0 & H1 & H2 & H3 & H4 & H5 & H6 & H7 & H8). exists c, st, d0. do 7 (split; [assumption|]). repeat constructor; cbn; lia. Qed.
Definition no_output : info := mkInfo 12 10 5 false true 4 100 343 3 "ism" [1; 1; 1] [0; 0; 0] 1 4 false 0 0 6 "none" 2 false.
Example C13_no_exports_meets : exists c st d0, @experiment demo watch no_output c watch_procs /\ @good_diags demo watch no_output watch_diags /\
  @run_simulation demo watch no_output c watch_procs watch_diags = Ok st /\ dget watch_diags "log" = Some d0 /\ plot_output no_output = "none".
Proof.
  destruct (@bind_is_ok _ _ (run_coll no_output None) (fun c => @run_simulation demo watch no_output c watch_procs watch_diags)) as (c & st & Hc & K);
    [vm_compute; reflexivity|].
  eexists c, st, _. split; [apply (demo_experiment _ _ _ _ no_output None c watch_procs Hc); [cbn; lia|repeat constructor; exists 3; reflexivity]|].
  split; [apply good_of; [change (NoDup ["log"]); constructor; [intros []|constructor]|vm_compute; reflexivity]|]. split; [exact K|]. split; reflexivity.
Qed.
Example C13_export_loop_ends_meets : NoDup (dkeys watch_diags) /\ (forall nm d, dget watch_diags nm = Some d -> exists x, d_ix d = ixc_of_list x) /\
  forall p e, exists o, @dout demo watch p e = Ok o.
Proof.
  split; [change (NoDup ["log"]); constructor; [intros []|constructor]|]. split.
  - intros nm d H. cbn [watch_diags dget] in H. destruct (String.eqb _ _); [|discriminate H]. injection H as <-. exists [3; 6; 9]. reflexivity.
  - intros [p|[]] e. eexists. reflexivity.
Qed.
End Examples.

Print Assumptions C11_recorded.
Print Assumptions C11_default_interval.
Print Assumptions C11_power.
Print Assumptions C12_save_calls.
Print Assumptions C12_all_saved.
Print Assumptions C13_exports.
Print Assumptions C13_all_exported.
Print Assumptions C13_no_exports.
Print Assumptions C13_export_loop_ends.
Print Assumptions C14_exported.
Print Assumptions C14_power_exported.
