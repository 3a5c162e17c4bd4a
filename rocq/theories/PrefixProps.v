(** C103: a longer simulation continues the shorter one.  C104: diagnostics do not influence the simulation. *)
Require Import Verif.PyBase Verif.PyLemmas Verif.ConfigModel Verif.ArrayModel Verif.ArraySpec Verif.ArrayProofs Verif.ArrayPaths Verif.LoggerModel Verif.LoggerSpec Verif.LoggerProofs
  Verif.SimModel Verif.SimSpec Verif.SimRefine Verif.SimRun Verif.SimDiag Verif.SimLoop Verif.SignalSpec Verif.SignalPass Verif.SignalRun Verif.SignalInv Verif.RunSpec Verif.RunLaw Verif.DiagRun
  Verif.DiagModel Verif.DiagSpec Verif.DiagProofs Verif.DiagCtorModel Verif.DiagCtorProofs Verif.SaveProps Verif.ProcModel Verif.Demo Verif.DemoRun Verif.DemoSpy Verif.SignalProps Verif.SizeProofs Verif.ContribProps.
Set Implicit Arguments.
Arguments Z.add : simpl never.
Arguments Z.sub : simpl never.
Arguments Z.mul : simpl never.

Section Longer.
Context {E : AEnv} {DE : DEnv}.
Variables PS0 D0 Out0 : Type.
Variable dsave0 : D0 -> option PS0 -> dict (list frame) -> Z * Z -> res D0.
Variable dout0 : D0 -> Z -> res Out0.
Local Instance PxS : SEnv := full dsave0 dout0.
Variables (T' : Z) (i : info) (c : coll E) (procs : list (@proc E PxS)) (diags diags' : dict (diag D)) (st st' : sim).
(** the same settings and arrays, but for T' instead of tot_samples *)
Notation i' := (lengthen T' i).
Notation c' := (lengthen_coll T' c).

(** setting up the same arrays gives collections that differ in the stored tot_samples only: paths and random draws are the same *)
Theorem C103_setup c0 : setup_ir c0 i = Ok c -> setup_ir c0 (lengthen T' i) = Ok (lengthen_coll T' c).
Proof. intros H. pose proof (setup_resize (fun _ => T') (fun B => B) (fun C => C) (fun b => b) i c0) as K. rewrite H in K. apply res_rel_ok_r in K as (x & K & ->). exact K. Qed.

Hypothesis HX : experiment i c procs.
Hypothesis HD : good_diags i diags.
Hypothesis HR : run_simulation i c procs diags = Ok st.
Hypothesis HX' : experiment i' c' procs.
Hypothesis HD' : good_diags i' diags'.
Hypothesis HR' : run_simulation i' c' procs diags' = Ok st'.

Lemma both_lengths : exists ds r0 r r', zlen procs <= 1 /\ ref_prepare (save_source_contributions i) (early_start i) ds c procs = Ok r0 /\ r_procs r0 = procs /\
  ref_steps (save_source_contributions i) ds (run_length i procs) r0 = Ok r /\ ref_steps (save_source_contributions i) ds (run_length i' procs) r0 = Ok r' /\
  signals_of i c procs = r_tl r /\ signals_of i' c' procs = r_tl r'.
Proof.
  destruct (run_facts HX HD HR) as (r & P & H1 & Hb & Hds & Hr & Es & C1 & C2 & _). destruct (run_facts HX' HD' HR') as (q & P' & _ & _ & Hds' & Hq & Es' & C1' & C2' & _).
  change (early_start i') with (early_start i) in Hq. change (save_source_contributions i') with (save_source_contributions i) in Hq.
  pose proof (ref_run_resize (fun _ => T') (fun B => B) (fun C => C) (fun b => b) (save_source_contributions i) (early_start i) c procs (run_length i' procs)) as K. change (retune_coll (fun _ => T') (fun B => B) (fun C => C) (fun b => b) c) with c' in K. rewrite Hq in K. apply res_rel_ok_l in K as (r' & K & K1 & K2 & K3 & K4).
  unfold ref_run in Hr, K. rewrite Hds in Hr, K. cbn [bind] in Hr, K. apply bind_ok in Hr as (r0 & R0 & Hr). rewrite R0 in K. cbn [bind] in K.
  exists (dims_of i c procs), r0, r, r'. split; auto. split; auto. split; [eapply ref_prepare_procs; eauto|]. split; auto. split; auto. split; auto. rewrite Es'. auto.
Qed.
Lemma same_beginning nm t : tot_samples i <= T' -> t <= Z.of_nat (run_length i procs) -> signals_of i' c' procs nm t = signals_of i c procs nm t.
Proof.
  intros HT H1. destruct both_lengths as (ds & r0 & r & r' & L & R0 & P0 & R1 & R2 & E1 & E2). rewrite E1, E2.
  assert (F : Forall (fun p => 0 <= pr_bs p) (r_procs r0)).
  { rewrite P0. destruct procs as [|p [|p2 l]]; [constructor|constructor; [pose proof (ex_sizes HX) as (Q & _); lia|constructor]|]. rewrite !zlen_cons in L. pose proof (zlen_nonneg l). lia. }
  assert (Q : (run_length i procs <= run_length i' procs)%nat).
  { unfold run_length. change (max_block_size i' procs) with (max_block_size i procs). change (tot_samples i') with T'. lia. }
  replace (run_length i' procs) with (run_length i procs + (run_length i' procs - run_length i procs))%nat in R2 by lia. eapply ref_steps_past; eauto.
Qed.
(** C103.  A signal recorded by both simulations: the data recorded by the longer one begins with the data of the shorter one *)
Theorem C103_prefix dn dn' nm num : 0 <= tot_samples i <= T' -> dget (dims_of i c procs) nm = Some num -> 0 <= num ->
  records i diags dn nm num -> records i' diags' dn' nm num ->
  exists d d' r r', dget (sm_diags st) dn = Some d /\ d_pl d = DRecordSignal r /\ dget (sm_diags st') dn' = Some d' /\ d_pl d' = DRecordSignal r' /\
    zlen (rs_data r) = tot_samples i /\ zlen (rs_data r') = T' /\ firstn (length (rs_data r)) (rs_data r') = rs_data r.
Proof.
  intros HT Hn Hp R1 R2. pose proof (ex_sizes HX) as HS.
  destruct (recorded_signal HX HD HR R1 Hn Hp) as (d & r & A1 & A2 & A3).
  assert (Hn' : dget (dims_of i' c' procs) nm = Some num) by exact Hn.
  destruct (recorded_signal HX' HD' HR' R2 Hn' Hp) as (d' & r' & B1 & B2 & B3). change (tot_samples i') with T' in B3.
  exists d, d', r, r'. split; auto. split; auto. split; auto. split; auto. rewrite A3, B3, !zlen_map, !zlen_zrange. split; [lia|]. split; [lia|].
  rewrite map_length, (@zrange_app 0 (tot_samples i) T') by lia. rewrite map_app, firstn_app, map_length, Nat.sub_diag. cbn [firstn]. rewrite app_nil_r, firstn_all2 by (rewrite map_length; lia).
  apply map_ext_in. intros t Ht. apply In_zrange in Ht. f_equal. pose proof (run_longer HX HD HR). apply same_beginning; lia.
Qed.
(** the arguments for any diagnostics: every signal is the same up to the end of the shorter simulation *)
Theorem C103_signals nm t : tot_samples i <= T' -> t <= tot_samples i -> signals_of i' c' procs nm t = signals_of i c procs nm t.
Proof. intros HT Ht. pose proof (run_longer HX HD HR). apply same_beginning; lia. Qed.
End Longer.

(* ------------------------------------------------------------------ C104 *)
Section Observers.
Context {E : AEnv} {DE : DEnv}.
Variables PS0 D0 Out0 : Type.
Variable dsave0 : D0 -> option PS0 -> dict (list frame) -> Z * Z -> res D0.
Variable dout0 : D0 -> Z -> res Out0.
Local Instance ObS : SEnv := full dsave0 dout0.
Variables (i : info) (c : coll E) (procs : list (@proc E ObS)) (diags diags' : dict (diag D)) (st st' : sim).
Hypothesis HX : experiment i c procs.
Hypothesis HD : good_diags i diags.
Hypothesis HR : run_simulation i c procs diags = Ok st.
Hypothesis HD' : good_diags i diags'.
Hypothesis HR' : run_simulation i c procs diags' = Ok st'.
(** C104.  Two runs of the same experiment with different diagnostics: arrays (with the states of their sources), paths, random
    generators, processors and the time at the end are the same *)
Theorem C104_same_end : sm_coll st' = sm_coll st /\ sm_procs st' = sm_procs st /\ sm_n st' = sm_n st.
Proof.
  destruct (run_facts HX HD HR) as (r & P & _ & _ & _ & Hr & _ & C1 & C2 & C3 & _). destruct (run_facts HX HD' HR') as (q & Q & _ & _ & _ & Hq & _ & D1 & D2 & D3 & _).
  rewrite Hr in Hq. assert (r = q) by congruence. subst q. split; [exact (eq_trans D1 (eq_sym C1))|]. split; [exact (eq_trans D2 (eq_sym C2))|exact (eq_trans D3 (eq_sym C3))].
Qed.
(** and a signal recorded by one is the one recorded by the other, under whatever name and next to whatever else *)
Theorem C104_recorded dn dn' nm num : dget (dims_of i c procs) nm = Some num -> 0 <= num -> records i diags dn nm num -> records i diags' dn' nm num ->
  exists x, recording i st dn x /\ recording i st' dn' x.
Proof.
  intros Hn Hp R1 R2. exists (signals_of i c procs nm). split; [eapply (recorded_signal HX HD HR); eauto|eapply (recorded_signal HX HD' HR'); eauto].
Qed.
End Observers.

(* ------------------------------------------------------------------ Examples *)
Section Examples.
Local Open Scope string_scope.
Local Existing Instances demo demo_d spy_s.
Let i1 := run_info 10 5 false false.
Lemma coll_lengthen T i l c : coll_of i l = Ok c -> exists c0, setup_ir c0 i = Ok c /\ coll_of (lengthen T i) l = Ok (lengthen_coll T c).
Proof.
  unfold coll_of. intros Hc. apply bind_ok in Hc as (c1 & K1 & Hc). apply bind_ok in Hc as (c2 & K2 & Hc). exists c2. split; auto. rewrite K1. cbn [bind]. rewrite K2. cbn [bind]. apply C103_setup. auto.
Qed.
(** 12 and 20 samples, with a processor that answers the microphone *)
Example C103_example : exists c0 c d st d' st', setup_ir c0 i1 = Ok c /\ 0 <= tot_samples i1 <= 20 /\
  experiment i1 c [sspy 3 2] /\ good_diags i1 d /\ run_simulation i1 c [sspy 3 2] d = Ok st /\
  experiment (lengthen 20 i1) (lengthen_coll 20 c) [sspy 3 2] /\ good_diags (lengthen 20 i1) d' /\ run_simulation (lengthen 20 i1) (lengthen_coll 20 c) [sspy 3 2] d' = Ok st' /\
  forall nm, In nm ["mic"; "src"; "spk"] -> dget (dims_of i1 c [sspy 3 2]) nm = Some 1 /\ records i1 d nm nm 1 /\ records (lengthen 20 i1) d' nm nm 1.
Proof.
  destruct (spy_meets i1 (room None) 3 2) as (c & d & st & Hc & Hd & Hs & A & B & C); [vm_compute; reflexivity|apply room_sized|cbn; lia|vm_compute; reflexivity|].
  destruct (spy_meets (lengthen 20 i1) (room None) 3 2) as (c' & d' & st' & Hc' & Hd' & Hs' & A' & B' & C'); [vm_compute; reflexivity|apply room_sized|cbn; lia|vm_compute; reflexivity|].
  pose proof (coll_is _ _ (fun c => dims_of i1 c [sspy 3 2]) Hc (ltac:(vm_compute; reflexivity))) as Q1. cbv beta in Q1.
  destruct (coll_lengthen 20 i1 (room None) Hc) as (c0 & S1 & S2). assert (c' = lengthen_coll 20 c) as -> by exact (f_equal (fun r => match r with Ok x => x | Err _ => c' end) (eq_trans (eq_sym Hc') S2)).
  exists c0, c, d, st, d', st'. split; [exact S1|]. split; [vm_compute; split; discriminate|]. split; [exact A|]. split; [exact B|]. split; [exact C|]. split; [exact A'|]. split; [exact B'|]. split; [exact C'|]. intros nm Hn. split; [rewrite Q1; destruct Hn as [<-|[<-|[<-|[]]]]; reflexivity|]. split; apply spy_records; [exact Hd|exact Hn|exact Hd'|exact Hn].
Qed.
(** a recorder of the microphone alone, and recorders of three signals *)
Example C104_example : exists c d st d' st', experiment i1 c [echo 3 2] /\ good_diags i1 d /\ run_simulation i1 c [echo 3 2] d = Ok st /\
  good_diags i1 d' /\ run_simulation i1 c [echo 3 2] d' = Ok st' /\ dkeys d = ["mic"] /\ dkeys d' = ["src"; "spk"; "mic"] /\
  dget (dims_of i1 c [echo 3 2]) "mic" = Some 1 /\ records i1 d "mic" "mic" 1 /\ records i1 d' "mic" "mic" 1.
Proof.
  assert (N : NoDup ["src"; "spk"; "mic"]) by (repeat constructor; simpl; intuition discriminate). assert (N1 : NoDup ["mic"]) by (repeat constructor; simpl; intuition discriminate).
  destruct (@echo_meets i1 (room None) ["mic"] 3 2) as (c & d & st & Hc & Hd & A & B & C); [vm_compute; reflexivity|apply room_sized|cbn; lia|exact N1|vm_compute; reflexivity|].
  destruct (@echo_meets i1 (room None) ["src"; "spk"; "mic"] 3 2) as (c' & d' & st' & Hc' & Hd' & A' & B' & C'); [vm_compute; reflexivity|apply room_sized|cbn; lia|exact N|vm_compute; reflexivity|].
  assert (c' = c) as -> by exact (f_equal (fun r => match r with Ok x => x | Err _ => c' end) (eq_trans (eq_sym Hc') Hc)).
  pose proof (coll_is _ _ (fun c => dget (dims_of i1 c [echo 3 2]) "mic") Hc (ltac:(vm_compute; reflexivity))) as Q1. cbv beta in Q1.
  destruct (recorders_get _ _ Hd) as [K1 K2]. destruct (recorders_get _ _ Hd') as [K1' K2'].
  exists c, d, st, d', st'. split; [exact A|]. split; [exact B|]. split; [exact C|]. split; [exact B'|]. split; [exact C'|]. split; [exact K1|]. split; [exact K1'|]. split; [exact Q1|].
  split; [apply K2; left; reflexivity|apply K2'; right; right; left; reflexivity].
Qed.
End Examples.
Print Assumptions C104_same_end.
Print Assumptions C104_recorded.
Print Assumptions C103_setup.
Print Assumptions C103_prefix.
Print Assumptions C103_signals.
