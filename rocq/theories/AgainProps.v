(** C105: a simulation that is run a second time records and exports nothing. *)
Require Import Verif.PyBase Verif.PyLemmas Verif.ConfigModel Verif.ArrayModel Verif.ArraySpec Verif.ArrayProofs Verif.ArrayPaths Verif.LoggerModel Verif.LoggerSpec Verif.LoggerProofs
  Verif.SimModel Verif.SimSpec Verif.SimRefine Verif.SimRun Verif.SimDiag Verif.SimLoop Verif.SignalSpec Verif.SignalPass Verif.SignalRun Verif.SignalInv Verif.RunSpec Verif.RunLaw Verif.DiagRun
  Verif.DiagModel Verif.DiagSpec Verif.DiagProofs Verif.DiagCtorModel Verif.DiagCtorProofs Verif.SaveProps Verif.ProcModel Verif.Demo Verif.DemoRun Verif.DemoSpy Verif.SignalProps Verif.ContribProps.
Set Implicit Arguments.
Arguments Z.add : simpl never.
Arguments Z.sub : simpl never.

Section Again.
Context {E : AEnv} {S : SEnv}.
Notation diag := (diag D).
(** a diagnostic after its last save and export: no interval left, and no export time that the saved data reaches *)
Definition finished (plot_output : string) (d : diag) : Prop :=
  iv_start (d_iv d) = Inf /\ (plot_output <> "none"%string -> match ix_next (d_ix d) with Inf => True | Fin e => iv_saved (d_iv d) < e end).

Lemma saves_nothing po cp s idx n last dg : (forall nm d, In (nm, d) dg -> finished po d) -> save_data dsave cp s idx n last dg = Ok dg.
Proof.
  unfold save_data. induction dg as [|[k d] dg IH]; cbn [mapM]; intros H; [reflexivity|]. destruct (H k d (or_introl eq_refl)) as [H1 _]. cbn [fst snd]. unfold save_one at 1. rewrite H1. cbn [bind].
  rewrite IH by (intros; eapply H; right; eauto). reflexivity.
Qed.
Lemma exports_nothing po dg out : (forall nm d, In (nm, d) dg -> finished po d) -> dispatch dout po (dg, out) = Ok (dg, out).
Proof.
  intros H. unfold dispatch. destruct (String.eqb_spec po "none") as [Hp|Hp]; cbn [negb]; [reflexivity|].
  assert (K : export_this_idx dg = []).
  { unfold export_this_idx. induction dg as [|[k d] dg IH]; cbn [filter map]; [reflexivity|]. destruct (H k d (or_introl eq_refl)) as [_ H2]. specialize (H2 Hp). cbn [snd].
    destruct (ix_next (d_ix d)) as [e|]; cbn [ext_leb]; [destruct (Z.leb_spec e (iv_saved (d_iv d))); [lia|]|]; apply IH; intros; eapply H; right; eauto. }
  cbn [fst]. destruct (dispatch_fuel dg); cbn [dispatch_loop fst]; rewrite K; reflexivity.
Qed.
Lemma step_nothing i mbs st st' : (forall nm d, In (nm, d) (sm_diags st) -> finished (plot_output i) d) -> sim_step i mbs st = Ok st' -> sm_diags st' = sm_diags st /\ sm_out st' = sm_out st.
Proof.
  intros HF H. unfold sim_step in H. apply bind_ok in H as (c & _ & H). apply bind_ok in H as ([ps s] & _ & H). apply bind_ok in H as ([[c1 s1] fs] & _ & H). apply bind_ok in H as (cp & _ & H).
  rewrite (saves_nothing _ _ _ _ _ _ HF) in H. cbn [bind] in H. rewrite (exports_nothing _ _ HF) in H. cbn [bind fst snd] in H. inversion H; subst. split; reflexivity.
Qed.
Lemma run_nothing i c procs dg st : (forall nm d, In (nm, d) dg -> finished (plot_output i) d) -> run_simulation i c procs dg = Ok st -> sm_diags st = dg /\ sm_out st = [].
Proof.
  intros HF H. unfold run_simulation in H. apply bind_ok in H as (st0 & H0 & H). apply bind_ok in H as (st1 & H1 & H).
  assert (A : sm_diags st0 = dg /\ sm_out st0 = []).
  { unfold prepare_simulation in H0. destruct (1 <? zlen procs); [discriminate|]. apply bind_ok in H0 as (s & _ & H0). apply bind_ok in H0 as (s1 & _ & H0). apply bind_ok in H0 as (fs & _ & H0).
    apply bind_ok in H0 as ([[c1 s2] fs1] & _ & H0). inversion H0; subst. split; reflexivity. }
  assert (B : sm_diags st1 = dg /\ sm_out st1 = []).
  { clear H0 H. revert st0 A H1. generalize (Z.to_nat (tot_samples i + max_block_size i procs)). intros fuel. induction fuel as [|k IH]; intros st0 [A1 A2] H1; cbn [sim_loop] in H1.
    - destruct (_ <? _); [discriminate|]. inversion H1; subst. split; auto.
    - destruct (_ <? _); [|inversion H1; subst; split; auto]. apply bind_ok in H1 as (st' & Hs & H1). assert (F0 : forall nm d, In (nm, d) (sm_diags st0) -> finished (plot_output i) d) by (rewrite A1; exact HF).
      destruct (step_nothing _ _ _ F0 Hs) as [B1 B2]. apply (IH st'); auto. split; congruence. }
  destruct B as [B1 B2]. rewrite B1, B2, (exports_nothing _ _ HF) in H. cbn [bind fst snd] in H. inversion H; subst. split; reflexivity.
Qed.

Variables (i : info) (c : coll E) (procs : list proc) (diags : dict diag) (st : sim).
Hypothesis HX : experiment i c procs.
Hypothesis HD : good_diags i diags.
Hypothesis HR : run_simulation i c procs diags = Ok st.
(** no diagnostic wants to save after the end *)
Hypothesis HE : forall nm d, dget diags nm = Some d -> Forall (fun iv => snd iv <= tot_samples i) (iv_list (d_iv d)).

(** after a run every diagnostic is finished *)
Theorem C105_finished nm d : dget (sm_diags st) nm = Some d -> finished (plot_output i) d.
Proof.
  intros Hd. destruct (run_refines c procs diags (ex_sizes HX) (proj1 HD) (proj2 HD) HR) as (ds0 & r & H1 & Hds & Hr & Hw & C1 & C2 & C3 & C4 & _ & HK & C7).
  destruct (dget diags nm) as [d0|] eqn:Hd0; [|apply dget_None in Hd0; rewrite <- HK in Hd0; apply dget_None in Hd0; congruence].
  destruct (C7 _ _ Hd0) as (d' & Hd' & HS). rewrite Hd in Hd'. injection Hd' as <-. destruct (proj2 HD _ _ Hd0) as (D1 & D2 & D3 & D4 & D5 & D6 & D7).
  pose proof (@tile_run_ok (last_at i (max_block_size i procs)) _ _ (run_length i procs) D4 D5) as HT.
  pose proof (run_longer HX HD HR) as HL.
  assert (HF : Forall (fun iv => snd iv < Z.of_nat (run_length i procs)) (iv_list (d_iv d0))) by (eapply Forall_impl; [|exact (HE nm Hd0)]; cbn; intros; lia).
  destruct HS as [S1 S2 S3 S4 S5 S6 S7]. destruct (tile_run (last_at i (max_block_size i procs)) (iv_list (d_iv d0)) (run_length i procs)) as [ts rest]. cbn [fst snd] in *.
  destruct (tiles_complete HT HF) as [HRest _]. rewrite HRest in S3. split.
  - unfold iv_list in S3. unfold iv_wf in S1. destruct (iv_start (d_iv d)), (iv_end (d_iv d)); try discriminate; try contradiction; auto.
  - intros Hp. destruct (S7 Hp) as [Q _]. rewrite S4. clear - Q S2. pose proof (not_due_head (ix_list (d_ix d0)) (last_end ts)) as K. rewrite <- Q in K.
    unfold ix_list in K. destruct (ix_next (d_ix d)); auto.
Qed.
(** C105.  Running the simulation again, from whatever state of arrays and processors, changes no recorded data and exports nothing *)
Theorem C105_again c2 procs2 st2 : run_simulation i c2 procs2 (sm_diags st) = Ok st2 -> sm_diags st2 = sm_diags st /\ sm_out st2 = [].
Proof.
  apply run_nothing. intros nm d Hin. eapply C105_finished. apply In_dget; eauto.
  destruct (run_refines c procs diags (ex_sizes HX) (proj1 HD) (proj2 HD) HR) as (ds0 & r & _ & _ & _ & _ & _ & _ & _ & _ & _ & HK & _). rewrite HK. apply HD.
Qed.
(** C105.  The sources are not rewound: after the run the one of array k, whose samples were f 0, f 1, .., has f (requested), f (requested + 1), .. ahead of it,
    where [requested] is what was needed up to time 0 and one sample for each time step; a run continues for a block (a quarter of the buffer without a processor)
    beyond the samples asked for *)
Theorem C105_sources k a src f : 0 <= tot_samples i -> In k (c_free c) -> the_array c k a -> a_source a = Some src -> streams src f ->
  let requested := (if start_sources_before_0 i then sim_buffer i else 1) + (tot_samples i + match procs with [] => sim_buffer i / 4 | p :: _ => pr_bs p end) in
  exists a' src', the_array (sm_coll st) k a' /\ a_source a' = Some src' /\ streams src' (fun j => f (requested + j)).
Proof.
  intros H0 Hk Ha Hs Hf. cbv zeta. destruct (run_facts HX HD HR) as (r & P & H1 & _ & _ & Hr & Es & C1 & C2 & C3 & _ & _ & _ & _ & L & _).
  assert (M : max_block_size i procs = match procs with [] => sim_buffer i / 4 | p :: _ => pr_bs p end) by (destruct procs as [|p [|q0 r0]]; [reflexivity|reflexivity|pose proof (zlen_nonneg r0); rewrite !zlen_cons in H1; lia]). rewrite <- M. clear M.
  destruct (l_draw L Hk Ha) as (src1 & a' & B1 & B2 & B3 & _). rewrite Hs in B1. assert (src1 = src) by congruence. subst src1. clear B1.
  pose proof (early_supported HX H1) as He.
  destruct (@nth_draw_stream _ src f (first_request (early_start i)) (Z.to_nat (Z.of_nat (run_length i procs))) Hf He) as (at_ & A0 & A1 & A2).
  exists a', (fst (nth_draw src (first_request (early_start i)) (Z.to_nat (Z.of_nat (run_length i procs))))). split; [rewrite C1; exact B2|]. split; [exact B3|]. rewrite A2. cbn [fst].
  destruct (supported_sizes i procs (ex_sizes HX) H1) as ((Z1 & Z2 & Z3) & Hb & _). pose proof (run_longer HX HD HR) as HL.
  set (q := first_request (early_start i) + Z.of_nat (Z.to_nat (Z.of_nat (run_length i procs)))).
  assert (Q : q = (if start_sources_before_0 i then sim_buffer i else 1) + (tot_samples i + max_block_size i procs)).
  { unfold q, run_length in *. unfold early_start. destruct (start_sources_before_0 i); cbn [first_request]; lia. }
  exists (fun j => at_ (q + j)). split; [f_equal; lia|]. intros j n Hj Hn. assert (0 <= q) by (unfold q; lia). rewrite A1 by lia. f_equal; [f_equal; lia|].
  rewrite <- Q. replace (q + j) with (j + q) by lia. replace (j + q + n) with (j + n + q) by lia. rewrite (map_zrange_shift f j (j + n) q). apply map_ext. intros x. f_equal. lia.
Qed.
End Again.

(* ------------------------------------------------------------------ Example *)
Section Examples.
Local Open Scope string_scope.
Local Existing Instances demo demo_d spy_s.
Let i1 := run_info 10 5 false false.
Definition ends_okb (i : info) (l : dict (diag (@D demo spy_s))) : bool := forallb (fun kd => forallb (fun iv => (snd iv <=? tot_samples i)%Z) (iv_list (d_iv (snd kd)))) l.
Lemma ends_ok i l nm d : ends_okb i l = true -> dget l nm = Some d -> Forall (fun iv => snd iv <= tot_samples i) (iv_list (d_iv d)).
Proof.
  intros H Hd. unfold ends_okb in H. rewrite forallb_forall in H. apply dget_In in Hd. specialize (H _ Hd). cbn [snd] in H. rewrite forallb_forall in H. apply Forall_forall. intros iv Hi. specialize (H _ Hi). lia.
Qed.
(** two recorders, and a second run with the arrays and processor that the first one left behind *)
Example C105_example : exists c d st st2, experiment i1 c [echo 3 2] /\ good_diags i1 d /\ run_simulation i1 c [echo 3 2] d = Ok st /\
  (forall nm x, dget d nm = Some x -> Forall (fun iv => snd iv <= tot_samples i1) (iv_list (d_iv x))) /\ 0 <= tot_samples i1 /\
  run_simulation i1 (sm_coll st) (sm_procs st) (sm_diags st) = Ok st2.
Proof.
  assert (N1 : NoDup ["mic"; "src"]) by (repeat constructor; simpl; intuition discriminate).
  destruct (@echo_meets i1 (room None) ["mic"; "src"] 3 2) as (c & d & st & Hc & Hd & A & B & C); [vm_compute; reflexivity|apply room_sized|cbn; lia|exact N1|vm_compute; reflexivity|].
  assert (K : is_ok (st <- echo_run i1 (room None) ["mic"; "src"] 3 2 ;; run_simulation i1 (sm_coll st) (sm_procs st) (sm_diags st)) = true) by (vm_compute; reflexivity).
  assert (K1 : get (recorders i1 ["mic"; "src"]) (ends_okb i1) = Some true) by (vm_compute; reflexivity).
  assert (K2 : echo_run i1 (room None) ["mic"; "src"] 3 2 = Ok st) by (unfold echo_run; rewrite Hc; cbn [bind]; rewrite Hd; cbn [bind]; exact C).
  rewrite K2 in K. cbn [bind] in K. apply is_ok_ex in K as [st2 K]. rewrite Hd in K1. cbn [get] in K1.
  exists c, d, st, st2. split; [exact A|]. split; [exact B|]. split; [exact C|]. split; [|split; [vm_compute; discriminate|exact K]].
  intros nm x Hx. refine (@ends_ok _ _ nm _ _ Hx). exact (f_equal (fun o => match o with Some b => b | None => false end) K1).
Qed.
End Examples.
Print Assumptions C105_finished.
Print Assumptions C105_again.
Print Assumptions C105_sources.
