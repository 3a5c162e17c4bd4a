(** Properties of sim_buffer and sim_chunk_size: C02, C07. *)
Require Import Verif.PyBase Verif.PyLemmas Verif.ConfigModel Verif.ArrayModel Verif.ArraySpec Verif.ArrayProofs Verif.ArrayPaths Verif.LoggerModel Verif.LoggerSpec Verif.LoggerProofs
  Verif.SimModel Verif.SimSpec Verif.SimRefine Verif.SimRun Verif.SimDiag Verif.SimLoop Verif.SignalSpec Verif.SignalPass Verif.SignalRun Verif.SignalInv Verif.RunSpec Verif.RunLaw Verif.DiagRun
  Verif.DiagModel Verif.DiagSpec Verif.DiagProofs Verif.DiagCtorModel Verif.DiagCtorProofs Verif.SaveProps Verif.ProcModel Verif.Demo Verif.DemoRun Verif.DemoSpy Verif.SignalProps Verif.SizeProofs.
Set Implicit Arguments.
Arguments Z.add : simpl never.
Arguments Z.sub : simpl never.
Arguments Z.mul : simpl never.
Ltac Zify.zify_post_hook ::= Z.div_mod_to_equations.

(* ------------------------------------------------------------------ C02 *)
Section Invisible.
Context {E : AEnv} {DE : DEnv}.
Variables PS0 D0 Out0 : Type.
Variable dsave0 : D0 -> option PS0 -> dict (list frame) -> Z * Z -> res D0.
Variable dout0 : D0 -> Z -> res Out0.
Local Instance SzS : SEnv := full dsave0 dout0.
Variables (B' C' : Z) (i : info) (c : coll E) (procs : list (@proc E SzS)) (diags diags' : dict (diag D)) (st st' : sim).
(** the same settings and arrays, with buffer B' and chunk C' *)
Notation i' := (resize B' C' i).
Notation c' := (resize_coll B' C' c).

(** setting up the same arrays for the two sizes gives collections that differ in the stored sizes only *)
Theorem C02_setup c0 : setup_ir c0 i = Ok c -> setup_ir c0 (resize B' C' i) = Ok (resize_coll B' C' c).
Proof. intros H. pose proof (setup_resize (fun T => T) (fun _ => B') (fun _ => C') (fun b => b) i c0) as K. rewrite H in K. apply res_rel_ok_r in K as (x & K & ->). exact K. Qed.

Hypothesis Hs : start_sources_before_0 i = false.
Hypothesis HX : experiment i c procs.
Hypothesis HD : good_diags i diags.
Hypothesis HR : run_simulation i c procs diags = Ok st.
Hypothesis HX' : experiment i' c' procs.
Hypothesis HD' : good_diags i' diags'.
Hypothesis HR' : run_simulation i' c' procs diags' = Ok st'.

Lemma both_refs : exists ds r0 r r', zlen procs <= 1 /\ ref_prepare (save_source_contributions i) None ds c procs = Ok r0 /\ r_procs r0 = procs /\
  ref_steps (save_source_contributions i) ds (run_length i procs) r0 = Ok r /\ ref_steps (save_source_contributions i) ds (run_length i' procs) r0 = Ok r' /\
  signals_of i c procs = r_tl r /\ signals_of i' c' procs = r_tl r' /\ sm_procs st = r_procs r /\ sm_procs st' = r_procs r'.
Proof.
  destruct (run_facts HX HD HR) as (r & P & H1 & Hb & Hds & Hr & Es & C1 & C2 & _). destruct (run_facts HX' HD' HR') as (q & P' & _ & _ & Hds' & Hq & Es' & C1' & C2' & _).
  unfold early_start in Hr, Hq. change (start_sources_before_0 i') with (start_sources_before_0 i) in Hq. rewrite Hs in Hr, Hq. change (save_source_contributions i') with (save_source_contributions i) in Hq.
  pose proof (ref_run_resize (fun T => T) (fun _ => B') (fun _ => C') (fun b => b) (save_source_contributions i) None c procs (run_length i' procs)) as K. change (retune_coll (fun T => T) (fun _ => B') (fun _ => C') (fun b => b) c) with c' in K. rewrite Hq in K. apply res_rel_ok_l in K as (r' & K & K1 & K2 & K3 & K4).
  unfold ref_run in Hr, K. rewrite Hds in Hr, K. cbn [bind] in Hr, K. apply bind_ok in Hr as (r0 & R0 & Hr). rewrite R0 in K. cbn [bind] in K.
  exists (dims_of i c procs), r0, r, r'. split; auto. split; auto. split; [eapply ref_prepare_procs; eauto|]. split; auto. split; auto. split; auto. split; [rewrite Es'; auto|]. split; auto. rewrite C2'. auto.
Qed.
Lemma same_signals nm t : t <= Z.of_nat (run_length i procs) -> t <= Z.of_nat (run_length i' procs) -> signals_of i' c' procs nm t = signals_of i c procs nm t.
Proof.
  intros H1 H2. destruct both_refs as (ds & r0 & r & r' & L & R0 & P0 & R1 & R2 & E1 & E2 & _). rewrite E1, E2.
  assert (F : Forall (fun p => 0 <= pr_bs p) (r_procs r0)).
  { rewrite P0. destruct procs as [|p [|p2 l]]; [constructor|constructor; [pose proof (ex_sizes HX) as (Q & _); lia|constructor]|]. rewrite !zlen_cons in L. pose proof (zlen_nonneg l). lia. }
  destruct (Nat.le_ge_cases (run_length i procs) (run_length i' procs)) as [Q|Q].
  - replace (run_length i' procs) with (run_length i procs + (run_length i' procs - run_length i procs))%nat in R2 by lia. eapply ref_steps_past; eauto.
  - replace (run_length i procs) with (run_length i' procs + (run_length i procs - run_length i' procs))%nat in R1 by lia. symmetry. eapply ref_steps_past; eauto.
Qed.
(** C02.  A signal recorded in both runs, whatever else the diagnostics do *)
Theorem C02_recorded dn dn' nm num : dget (dims_of i c procs) nm = Some num -> 0 <= num ->
  records i diags dn nm num -> records i' diags' dn' nm num ->
  exists x, recording i st dn x /\ recording i' st' dn' x.
Proof.
  intros Hn Hp R1 R2. exists (signals_of i c procs nm). split; [eapply (recorded_signal HX HD HR); eauto|].
  assert (Hn' : dget (dims_of i' c' procs) nm = Some num) by exact Hn.
  destruct (recorded_signal HX' HD' HR' R2 Hn' Hp) as (d & r & A1 & A2 & A3). exists d, r. split; auto. split; auto. rewrite A3.
  change (tot_samples i') with (tot_samples i). apply map_ext_in. intros t Ht. apply In_zrange in Ht. f_equal.
  pose proof (run_longer HX HD HR). pose proof (run_longer HX' HD' HR') as L. change (tot_samples i') with (tot_samples i) in L. apply same_signals; lia.
Qed.
(** and the processor, whatever it does with what it is handed, ends in the same state *)
Theorem C02_processor : sm_procs st' = sm_procs st.
Proof.
  destruct both_refs as (ds & r0 & r & r' & L & R0 & P0 & R1 & R2 & E1 & E2 & C1 & C2). rewrite C1, C2. destruct procs as [|p l] eqn:Q.
  - assert (K : forall n q, ref_steps (save_source_contributions i) ds n r0 = Ok q -> r_procs q = []).
    { induction n as [|n IH]; cbn [ref_steps]; intros q Hq; [inversion Hq; subst; auto|]. apply bind_ok in Hq as (q1 & Q1 & Q2). apply IH in Q1. unfold ref_step in Q2. rewrite Q1 in Q2.
      apply bind_ok in Q2 as (? & _ & Q2). cbn [foldM bind] in Q2. apply bind_ok in Q2 as ([] & _ & Q2). apply bind_ok in Q2 as (? & _ & Q2). apply bind_ok in Q2 as (? & _ & Q2). apply bind_ok in Q2 as (? & _ & Q2). inversion Q2; auto. }
    rewrite (K _ _ R1), (K _ _ R2). auto.
  - assert (run_length i' (p :: l) = run_length i (p :: l)) as K by reflexivity. rewrite K in R2. congruence.
Qed.
End Invisible.

(* ------------------------------------------------------------------ C07 *)
Section Limits.
Context {E : AEnv} {S : SEnv}.
(** the states in which the main loop performs a step *)
Inductive reaches (i : info) (mbs : Z) (st0 : @sim E S) : sim -> Prop :=
| reach_start : reaches i mbs st0 st0
| reach_step st st' : reaches i mbs st0 st -> sim_step i mbs st = Ok st' -> reaches i mbs st0 st'.

(** C07.  In every reachable state: every buffer has sim_buffer + sim_chunk_size samples; the sample about to be
    written (index idx) lies in it; if a processor is due, its window idx - h .. idx - 1 and the block
    idx .. idx + block_size - 1 it writes lie in it; and so does the first sample, idx - (n - s) - 1, of
    whatever a diagnostic may save (its last one is before idx). *)
Theorem C07_in_range i c procs diags st0 st : supported i procs -> good_diags i diags ->
  prepare_simulation i c procs diags = Ok st0 -> reaches i (max_block_size i procs) st0 st ->
  let width := sim_buffer i + sim_chunk_size i in
  (forall nm d buf, dget (sm_sigs st) nm = Some (d, buf) -> zlen buf = width) /\
  0 <= sm_idx st /\ sm_idx st + 1 <= width /\
  (forall p, In p (sm_procs st) -> sm_n st mod pr_bs p = pr_bs p - 1 -> 0 <= sm_idx st - pr_hist p /\ sm_idx st + pr_bs p <= width) /\
  (forall nm d s, dget (sm_diags st) nm = Some d -> iv_start (d_iv d) = Fin s -> 0 <= sm_idx st - (sm_n st - s) - 1).
Proof.
  intros HS [HN HD] E0 HRe.
  destruct (@prepare_inv _ _ i c procs diags st0 HS HN HD E0) as (ds & r0 & H1 & Hds & Hr0 & HC & HDI).
  destruct (supported_sizes i procs HS H1) as (Hsz & Hbuf & Hpo & Hbs).
  pose proof (ref_prepare_procs _ _ _ _ _ Hr0) as Hp.
  pose proof (current_proc_after _ _ _ Hds Hr0 H1 Hp) as Hpsf.
  assert (exists n r, CoreInv i (max_block_size i procs) ds r0 diags n st r /\
     DiagInv i (max_block_size i procs) ds diags (proc_after (save_source_contributions i) (early_start i) c procs) n st r) as (n & r & HC1 & HD1).
  { induction HRe as [|st1 st2 _ (n & r & I1 & I2) Hst]; [exists 0%nat, r0; auto|].
    edestruct (@core_step_inv _ _ i (max_block_size i procs) ds r0 diags (proc_after (save_source_contributions i) (early_start i) c procs)) as (r' & J1 & J2); try exact Hst; try exact I1; try exact I2; try rewrite Hp; auto. eauto. }
  destruct HC1 as [C1 C2 C3 C4 C5 C6 C7]. pose proof (rel_idx C2) as (X1 & X2 & X3). destruct Hsz as (Z1 & Z2 & Z3). cbv zeta.
  split. { intros nm d buf Hb. destruct (rel_sig C2) as (_ & _ & K). apply (K _ _ _ Hb). }
  split; [lia|]. split; [lia|]. split.
  - intros p Hin Hm. rewrite (rel_procs C2) in Hin. rewrite (rel_n C2) in Hm.
    apply (in_map (fun p => (pr_bs p, pr_hist p))) in Hin. rewrite C5, Hp in Hin. apply in_map_iff in Hin as (q & Q & Hq). injection Q as Q1 Q2. pose proof (Hbs _ Hq) as Q3.
    rewrite Forall_forall in Hpo. destruct (Hpo _ Hq) as (P1 & P2 & P3). rewrite <- Q1, <- Q2 in *. split; [lia|]. destruct P3 as [P3|P3]; [|lia]. specialize (X3 P3).
    assert (pr_bs q - 1 <= Z.of_nat n) by (pose proof (Z.mod_le (Z.of_nat n) (pr_bs q)); lia). lia.
  - intros nm d s Hd Hst. destruct (dget diags nm) as [d0|] eqn:Hd0; [|apply dget_None in Hd0; rewrite <- C6 in Hd0; apply dget_None in Hd0; congruence].
    destruct (HD1 nm d0 Hd0 (HD _ _ Hd0)) as (d1 & Hd1 & Hse). rewrite Hd in Hd1. injection Hd1 as <-. destruct (HD _ _ Hd0) as (D1 & D2 & D3 & D4 & D5 & _).
    pose proof (@rest_starts i (max_block_size i procs) (iv_list (d_iv d0)) n ltac:(lia) ltac:(lia) Hbuf D4 D5) as K. rewrite <- (se_rest Hse) in K. pose proof (se_ivwf Hse) as W. unfold iv_wf in W. unfold iv_list in K.
    rewrite Hst in K, W. destruct (iv_end (d_iv d)); [|tauto]. inversion K as [|? ? K1 _]. cbn [fst] in K1. rewrite (rel_n C2), C3. lia.
Qed.
End Limits.

(* ------------------------------------------------------------------ Examples *)
Section Examples.
Local Open Scope string_scope.
Local Existing Instances demo demo_d spy_s.
Let i1 := run_info 10 5 false false.

Lemma coll_resize B C i l c : coll_of i l = Ok c -> exists c0, setup_ir c0 i = Ok c /\ coll_of (resize B C i) l = Ok (resize_coll B C c).
Proof.
  unfold coll_of. intros Hc. apply bind_ok in Hc as (c1 & K1 & Hc). apply bind_ok in Hc as (c2 & K2 & Hc). exists c2. split; auto. rewrite K1. cbn [bind]. rewrite K2. cbn [bind]. apply C02_setup. auto.
Qed.
(** buffers of 10 and 4 samples, chunks of 5 and 2 *)
Example C02_example : exists c0 c d st d' st', setup_ir c0 i1 = Ok c /\ start_sources_before_0 i1 = false /\
  experiment i1 c [sspy 3 2] /\ good_diags i1 d /\ run_simulation i1 c [sspy 3 2] d = Ok st /\
  experiment (resize 4 2 i1) (resize_coll 4 2 c) [sspy 3 2] /\ good_diags (resize 4 2 i1) d' /\ run_simulation (resize 4 2 i1) (resize_coll 4 2 c) [sspy 3 2] d' = Ok st' /\
  forall nm, In nm ["mic"; "src"; "spk"] -> dget (dims_of i1 c [sspy 3 2]) nm = Some 1 /\ records i1 d nm nm 1 /\ records (resize 4 2 i1) d' nm nm 1.
Proof.
  destruct (spy_meets i1 (room None) 3 2) as (c & d & st & Hc & Hd & Hs & A & B & C); [vm_compute; reflexivity|apply room_sized|cbn; lia|vm_compute; reflexivity|].
  destruct (spy_meets (resize 4 2 i1) (room None) 3 2) as (c' & d' & st' & Hc' & Hd' & Hs' & A' & B' & C'); [vm_compute; reflexivity|apply room_sized|cbn; lia|vm_compute; reflexivity|].
  pose proof (coll_is _ _ (fun c => dims_of i1 c [sspy 3 2]) Hc (ltac:(vm_compute; reflexivity))) as Q1. cbv beta in Q1.
  destruct (coll_resize 4 2 i1 (room None) Hc) as (c0 & S1 & S2). assert (c' = resize_coll 4 2 c) as -> by exact (f_equal (fun r => match r with Ok x => x | Err _ => c' end) (eq_trans (eq_sym Hc') S2)).
  exists c0, c, d, st, d', st'. split; [exact S1|]. split; [reflexivity|]. split; [exact A|]. split; [exact B|]. split; [exact C|]. split; [exact A'|]. split; [exact B'|]. split; [exact C'|]. intros nm Hn. split; [rewrite Q1; destruct Hn as [<-|[<-|[<-|[]]]]; reflexivity|]. split; apply spy_records; [exact Hd|exact Hn|exact Hd'|exact Hn].
Qed.
Example C02_values : recs (spy_run i1 (room None) 3 2) = recs (spy_run (resize 4 2 i1) (room None) 3 2) /\
  wins "mic" (spy_run i1 (room None) 3 2) = wins "mic" (spy_run (resize 4 2 i1) (room None) 3 2).
Proof. split; vm_compute; reflexivity. Qed.

(** the smallest sizes for blocks of 3 and windows of 2: buffer 4, chunk 2; the state after some steps *)
Example C07_example : exists c d st0 st, supported (resize 4 2 i1) [sspy 3 2] /\ good_diags (resize 4 2 i1) d /\
  prepare_simulation (resize 4 2 i1) c [sspy 3 2] d = Ok st0 /\ reaches (resize 4 2 i1) (max_block_size (resize 4 2 i1) [sspy 3 2]) st0 st /\ sm_n st = 2.
Proof.
  destruct (spy_meets (resize 4 2 i1) (room None) 3 2) as (c & d & st & Hc & Hd & Hs & A & B & C); [vm_compute; reflexivity|apply room_sized|cbn; lia|vm_compute; reflexivity|].
  assert (K : get (c <- coll_of (resize 4 2 i1) (room None) ;; d <- spy_diags (resize 4 2 i1) ;; st <- prepare_simulation (resize 4 2 i1) c [sspy 3 2] d ;;
     st <- sim_step (resize 4 2 i1) 3 st ;; sim_step (resize 4 2 i1) 3 st) (fun st => sm_n st) = Some 2) by (vm_compute; reflexivity).
  rewrite Hc, Hd in K. cbn [bind] in K. apply get_ex in K as (st2 & K & Kn). apply bind_ok in K as (st0 & K0 & K). apply bind_ok in K as (st1 & K1 & K).
  exists c, d, st0, st2. split; [cbn; lia|]. split; [exact B|]. split; [exact K0|]. split; [|exact Kn]. eapply reach_step; [|exact K]. eapply reach_step; [|exact K1]. constructor.
Qed.

(** C07.  Just below the limits the claim fails.  Buffer as small as the block: a recorder does not find its samples any more;
    buffer one sample too small for the window: the processor's window wraps around; chunk of one sample with blocks
    of 3: the run goes through but two of three samples of every block of the loudspeaker are lost. *)
Theorem C07_small_buffer_refuted : exists d, spy_diags (resize 3 5 i1) = Ok d /\ good_diags (resize 3 5 i1) d /\
  raised (spy_run (resize 3 5 i1) (room None) 3 1) = Some ValueError /\ is_ok (spy_run (resize 4 5 i1) (room None) 3 1) = true.
Proof.
  destruct (is_ok_ex (spy_diags (resize 3 5 i1))) as [d Hd]; [vm_compute; reflexivity|]. exists d. split; [exact Hd|]. split; [|split; vm_compute; reflexivity].
  apply (spy_good _ _ Hd). vm_compute; reflexivity.
Qed.
Theorem C07_small_window_refuted : (* block_size - 1 + h = 5 samples are needed *)
  raised (spy_run (resize 4 5 i1) (room None) 3 3) = Some ValueError /\ is_ok (spy_run (resize 5 5 i1) (room None) 3 3) = true.
Proof. split; vm_compute; reflexivity. Qed.
Theorem C07_small_chunk_refuted :
  nth 2 (recs (spy_run (resize 4 1 i1) (room None) 3 1)) None = Some (map (fun x => Some [x]) [0; 0; 0; 5; 0; 0; 8; 0; 0; 11; 0; 0]) /\
  nth 2 (recs (spy_run (resize 4 2 i1) (room None) 3 1)) None = Some (map (fun x => Some [x]) [0; 0; 0; 5; 5; 5; 13; 13; 13; 24; 24; 24]).
Proof. split; vm_compute; reflexivity. Qed.
End Examples.

Print Assumptions C02_setup.
Print Assumptions C02_recorded.
Print Assumptions C02_processor.
Print Assumptions C07_in_range.
Print Assumptions C07_small_buffer_refuted.
Print Assumptions C07_small_window_refuted.
Print Assumptions C07_small_chunk_refuted.
