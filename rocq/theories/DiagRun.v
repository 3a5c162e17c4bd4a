(** What every diagnostic of a successful run has been given. *)
Require Import Verif.PyBase Verif.PyLemmas Verif.ConfigModel Verif.ArrayModel Verif.ArraySpec Verif.ArrayProofs Verif.ArrayPaths
  Verif.LoggerModel Verif.LoggerSpec Verif.LoggerProofs Verif.SimModel Verif.SimSpec Verif.SimRefine Verif.SimRun Verif.SimDiag Verif.SimLoop
  Verif.SignalSpec Verif.SignalPass Verif.SignalRun Verif.SignalLaw Verif.SignalInv Verif.SignalStart Verif.RunSpec Verif.RunLaw.
Set Implicit Arguments.
Arguments Z.add : simpl never.
Arguments Z.sub : simpl never.
Arguments Z.mul : simpl never.
Ltac Zify.zify_post_hook ::= Z.div_mod_to_equations.

Section DiagRun.
Context {E : AEnv} {S : SEnv}.
Notation arr := (arr Pos Src).

Lemma saves_ps_ext ds (tl : timeline) ps ps' d ts : (forall t, In t ts -> ps (snd t) = ps' (snd t)) ->
  saves ds tl ps d ts = saves ds tl ps' d ts.
Proof.
  unfold saves. revert d. induction ts as [|t ts IH]; simpl; intros d H; auto. rewrite (H t) by auto.
  destruct (dsave _ _ _ _); simpl; auto.
Qed.
Lemma steps_past ct ds (r0 : ref) : Forall (fun p => 1 <= pr_bs p) (r_procs r0) -> forall n k r1 r,
  (forall k r', ref_steps ct ds k r0 = Ok r' -> Forall (fun p => 0 <= pr_bs p) (r_procs r')) ->
  ref_steps ct ds k r0 = Ok r1 -> ref_steps ct ds (k + n) r0 = Ok r -> forall nm t, t <= Z.of_nat k -> r_tl r nm t = r_tl r1 nm t.
Proof.
  intros Hb. induction n as [|n IH]; intros k r1 r Hp H1 H nm t Ht.
  - rewrite Nat.add_0_r in H. congruence.
  - replace (k + Datatypes.S n)%nat with (Datatypes.S (k + n)) in H by lia. cbn [ref_steps] in H. apply bind_ok in H as (r2 & H2 & H).
    rewrite <- (IH k r1 r2 Hp H1 H2 nm t Ht). eapply ref_step_past; eauto. lia.
Qed.

Variables (i : info) (c : coll E) (procs : list (@proc E S)) (diags : dict (diag D)) (st : sim).
Hypothesis HX : experiment i c procs.
Hypothesis HD : good_diags i diags.
Hypothesis HR : run_simulation i c procs diags = Ok st.
Notation N := (Z.of_nat (run_length i procs)).
Notation sg := (signals_of i c procs).
Notation ds := (dims_of i c procs).
Notation mbs := (max_block_size i procs).

Lemma proc_after_state b : 0 <= b < N -> proc_after (save_source_contributions i) (early_start i) c procs b = proc_state i c procs b.
Proof.
  intros Hb0. destruct (run_facts HX HD HR) as (r & P & H1 & Hb & Hds & Hr & Es & C1 & C2 & C3 & HN & P0 & Pm & Ps & L & St & _).
  pose proof (early_supported HX H1) as He.
  unfold proc_after, proc_state. set (ct := save_source_contributions i) in *.
  assert (K : forall n r', ref_run ct (early_start i) c procs n = Ok r' ->
     r_procs r' = map (fun p => mkProc (pr_bs p) (pr_hist p) (pr_locals p) (pr_step p) (state_after ds (r_tl r') p (Z.to_nat (Z.of_nat n / pr_bs p)))) procs).
  { intros n r' Hr'. destruct (ref_law _ _ _ (ex_coll HX) (ex_paths HX) (ex_counts HX) H1 Hb (ex_dict HX) He Hds Hr') as (P' & _ & _ & _ & L' & _). apply (l_procs L'). }
  pose proof Hr as Hr0. unfold ref_run in Hr0. rewrite Hds in Hr0. cbn [bind] in Hr0. apply bind_ok in Hr0 as (r0 & Hp0 & Hs0).
  destruct (@steps_prefix _ _ ct ds r0 (Z.to_nat (b + 1)) (run_length i procs) r) as (r1 & Hr1); auto; [lia|].
  assert (Hrr : ref_run ct (early_start i) c procs (Z.to_nat (b + 1)) = Ok r1).
  { unfold ref_run. rewrite Hds. cbn [bind]. rewrite Hp0. cbn [bind]. auto. }
  rewrite Hrr. rewrite (K _ _ Hrr). destruct procs as [|p [|q l]]; auto. cbn [map pr_state]. f_equal. rewrite Z2Nat.id by lia.
  inversion Hb; subst. apply state_after_ext; auto.
  intros nm t Ht. rewrite Es. symmetry. eapply (@steps_past ct (dims_of i c [p]) r0) with (k := Z.to_nat (b + 1)) (n := (run_length i [p] - Z.to_nat (b + 1))%nat).
  - rewrite (ref_prepare_procs _ _ _ _ _ Hp0). auto.
  - intros k r' Hk. assert (Hrk : ref_run ct (early_start i) c [p] k = Ok r').
    { unfold ref_run. rewrite Hds. cbn [bind]. rewrite Hp0. cbn [bind]. auto. }
    rewrite (K _ _ Hrk). constructor; auto. cbn [pr_bs]. lia.
  - exact Hr1.
  - replace (Z.to_nat (b + 1) + (run_length i [p] - Z.to_nat (b + 1)))%nat with (run_length i [p]) by lia. auto.
  - nia.
Qed.

(** the save calls and the exports of one diagnostic *)
Theorem diag_law nm d0 : dget diags nm = Some d0 -> exists d ts rest,
  dget (sm_diags st) nm = Some d /\
  saves ds sg (proc_state i c procs) (d_pl d0) ts = Ok (d_pl d) /\
  tiles_ok (last_at i mbs) (iv_list (d_iv d0)) (run_length i procs) ts rest /\
  Forall (fun t => snd t <= last_end ts) ts /\
  (plot_output i = "none"%string -> exports_of nm (sm_out st) = []) /\
  (plot_output i <> "none"%string -> exists os,
     exports_of nm (sm_out st) = combine (due (ix_list (d_ix d0)) (last_end ts)) os /\
     Forall2 (fun e o => exists p, saves ds sg (proc_state i c procs) (d_pl d0) (tiles_until e ts) = Ok p /\ dout p e = Ok o)
       (due (ix_list (d_ix d0)) (last_end ts)) os).
Proof.
  intros Hd0. destruct (run_facts HX HD HR) as (r & P & H1 & Hb & Hds & Hr & Es & C1 & C2 & C3 & HN & P0 & Pm & Ps & L & St & SE).
  destruct (SE nm d0 Hd0) as (d & Hd & [S1 S2 S3 S4 S5 S6 S7]). rewrite <- Es in *.
  destruct (proj2 HD _ _ Hd0) as (D1 & D2 & D3 & D4 & D5 & D6 & D7).
  pose proof (@tile_run_ok (last_at i mbs) _ _ (run_length i procs) D4 D5) as HT.
  pose proof (@tile_ends (last_at i mbs) _ _ (run_length i procs) D4 D5) as (HE & _ & HE3).
  destruct (tile_run (last_at i mbs) (iv_list (d_iv d0)) (run_length i procs)) as [ts rest]. cbn [fst snd] in *.
  assert (HP : forall l, (forall t, In t l -> In t ts) ->
     saves ds sg (proc_after (save_source_contributions i) (early_start i) c procs) (d_pl d0) l = saves ds sg (proc_state i c procs) (d_pl d0) l).
  { intros l Hl. apply saves_ps_ext. intros t Ht. apply proc_after_state.
    pose proof (to_tile HT) as F. rewrite Forall_forall in F. apply (F t). auto. }
  exists d, ts, rest. split; auto. split; [rewrite <- HP; auto|]. split; auto. split; auto. split; [intros; apply S6; auto|].
  intros Hp. destruct (S7 Hp) as (A & os & B & C). exists os. split; auto.
  eapply Forall2_impl; [|exact C]. intros e o _ (p & P1 & P2). exists p; split; auto. rewrite <- HP; auto.
  intros t. clear. induction ts as [|x l IH]; simpl; auto. destruct (e <=? snd x); simpl; intuition.
Qed.
End DiagRun.
