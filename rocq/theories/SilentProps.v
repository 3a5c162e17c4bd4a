(** C119: a processor that plays nothing changes nothing. *)
Require Import Verif.PyBase Verif.PyLemmas Verif.ConfigModel Verif.ArrayModel Verif.ArraySpec Verif.ArrayProofs Verif.ArrayPaths Verif.LoggerModel Verif.LoggerSpec Verif.LoggerProofs
  Verif.SimModel Verif.SimSpec Verif.SimRefine Verif.SimRun Verif.SimDiag Verif.SimLoop Verif.SignalSpec Verif.SignalPass Verif.SignalRun Verif.SignalInv Verif.RunSpec Verif.RunLaw Verif.DiagRun
  Verif.DiagModel Verif.DiagSpec Verif.DiagProofs Verif.DiagCtorModel Verif.DiagCtorProofs Verif.SaveProps Verif.ProcModel Verif.Demo Verif.DemoRun Verif.DemoSpy Verif.ContribProps Verif.SignalProps Verif.SizeProofs.
Arguments Z.add : simpl never.
Arguments Z.sub : simpl never.
Arguments Z.mul : simpl never.

(* ------------------------------------------------------------------ the same simulation with and without the processor *)
Lemma dgetE_ok A (d : dict A) k v : dgetE d k = Ok v -> dget d k = Some v.
Proof. unfold dgetE. destruct (dget d k); [intros H; injection H as <-; reflexivity|discriminate]. Qed.
Section Quiet.
Context {E : AEnv} {S : SEnv}.
Notation arr := (arr Pos Src).
(** [ds0] are the signals that exist without the processor, [ds] those that exist with it *)
Variables ds ds0 : dims.
Hypothesis more : forall nm d, dget ds0 nm = Some d -> dget ds nm = Some d.
Definition agree (tl tl0 : timeline) : Prop := forall nm u, dget ds0 nm <> None -> tl nm u = tl0 nm u.
Definition quiet (p : @proc E S) : Prop := forall s w nm, dget ds0 nm <> None -> ~ In nm (dkeys (snd (pr_step p s w))).

Lemma write_agree tl tl0 name t n xs tl' tl0' : agree tl tl0 -> tl_write ds tl name t n xs = Ok tl' -> tl_write ds0 tl0 name t n xs = Ok tl0' -> agree tl' tl0'.
Proof.
  intros A H H0. unfold tl_write in *. apply bind_ok in H0 as (d & D0 & H0). apply dgetE_ok in D0. apply bind_ok in H as (d' & D' & H). apply dgetE_ok in D'. rewrite (more _ _ D0) in D'. injection D' as <-.
  apply bind_ok in H as (x & X & H). apply bind_ok in H0 as (x0 & X0 & H0). assert (x0 = x) by congruence. subst x0. apply bind_ok in H as (y & Y & H). apply bind_ok in H0 as (y0 & Y0 & H0). assert (y0 = y) by congruence. subst y0.
  injection H as <-. injection H0 as <-. intros nm u K. destruct (String.eqb nm name); [destruct (zget y (u - t)); auto|auto].
Qed.
Lemma write_other tl name t n xs tl' : tl_write ds tl name t n xs = Ok tl' -> forall nm u, nm <> name -> tl' nm u = tl nm u.
Proof.
  intros H nm u K. unfold tl_write in H. apply bind_ok in H as (d & _ & H). apply bind_ok in H as (x & _ & H). apply bind_ok in H as (y & _ & H). injection H as <-. destruct (String.eqb_spec nm name); [contradiction|reflexivity].
Qed.
Lemma add_agree tl tl0 name t y tl' tl0' : agree tl tl0 -> tl_add ds tl name t y = Ok tl' -> tl_add ds0 tl0 name t y = Ok tl0' -> agree tl' tl0'.
Proof.
  intros A H H0. unfold tl_add in *. apply bind_ok in H0 as (d & D0 & H0). apply dgetE_ok in D0. apply bind_ok in H as (d' & _ & H). assert (K : dget ds0 name <> None) by congruence.
  rewrite (A name t K) in H. apply bind_ok in H as (z & Z1 & H). apply bind_ok in H0 as (z0 & Z2 & H0). assert (z0 = z) by congruence. subst z0. injection H as <-. injection H0 as <-.
  intros nm u Kn. destruct (_ && _); auto.
Qed.
Lemma procs_agree t l : Forall quiet l -> forall ps tl ps' tl', foldM (ref_procs ds t) (ps, tl) l = Ok (ps', tl') -> (forall nm u, dget ds0 nm <> None -> tl' nm u = tl nm u) /\ exists l', ps' = ps ++ l' /\ Forall quiet l'.
Proof.
  induction 1 as [|p l Q Ql IH]; intros ps tl ps' tl' H; cbn [foldM] in H.
  - injection H as <- <-. split; auto. exists []. rewrite app_nil_r. auto.
  - apply bind_ok in H as ([ps1 tl1] & H1 & H). destruct (IH _ _ _ _ H) as (A & l' & -> & F). unfold ref_procs in H1. destruct (pr_bs p =? 0); [discriminate|]. destruct (t mod pr_bs p =? 0).
    + apply bind_ok in H1 as ([p1 tl2] & H1 & H2). cbn [fst snd] in H2. injection H2 as <- <-. unfold ref_process in H1. destruct (pr_step p (pr_state p) (window ds tl (t - pr_hist p) t)) as [s outs] eqn:QS.
      apply bind_ok in H1 as (tl3 & H1 & H2). injection H2 as <- <-. split.
      * intros nm u K. rewrite A by auto. assert (N : ~ In nm (dkeys outs)) by (specialize (Q (pr_state p) (window ds tl (t - pr_hist p) t) nm K); rewrite QS in Q; exact Q).
        clear - H1 N. revert tl H1. induction outs as [|[k xs] outs IH]; intros tl H1; cbn [foldM] in H1; [injection H1 as <-; auto|]. apply bind_ok in H1 as (tl4 & W & H1). cbn [fst snd] in W.
        rewrite (IH (fun I => N (or_intror I)) tl4 H1). eapply write_other; [exact W|]. intros ->. apply N. left. reflexivity.
      * exists (mkProc (pr_bs p) (pr_hist p) (pr_locals p) (pr_step p) s :: l'). split; [rewrite <- app_assoc; reflexivity|]. constructor; auto.
    + injection H1 as <- <-. split; auto. exists (p :: l'). split; [rewrite <- app_assoc; reflexivity|]. constructor; auto.
Qed.
Lemma free_agree t n l : forall c tl tl0 c1 tl1 c2 tl2, agree tl tl0 -> foldM (ref_free ds t n) (c, tl) l = Ok (c1, tl1) -> foldM (ref_free ds0 t n) (c, tl0) l = Ok (c2, tl2) -> c1 = c2 /\ agree tl1 tl2.
Proof.
  induction l as [|k l IH]; intros c tl tl0 c1 tl1 c2 tl2 A H1 H2; cbn [foldM] in *; [injection H1 as <- <-; injection H2 as <- <-; auto|].
  apply bind_ok in H1 as ([c3 tl3] & F1 & H1). apply bind_ok in H2 as ([c4 tl4] & F2 & H2). assert (c3 = c4 /\ agree tl3 tl4) as [<- B].
  { unfold ref_free in F1, F2. apply bind_ok in F1 as (a & Ha & F1). apply bind_ok in F2 as (a' & Ha' & F2). assert (a' = a) by congruence. subst a'. destruct (a_source a) as [src|]; [|discriminate]. destruct (src_get src n) as [src' xs].
    apply bind_ok in F1 as (u1 & U1 & F1). apply bind_ok in F2 as (u2 & U2 & F2). injection F1 as <- <-. injection F2 as <- <-. split; auto. eapply write_agree; [exact A|exact U1|exact U2]. }
  exact (IH _ _ _ _ _ _ _ B H1 H2).
Qed.
Lemma pairs_agree ct t l : forall fs tl tl0 fs1 tl1 fs2 tl2, agree tl tl0 -> foldM (ref_pair ct ds t) (fs, tl) l = Ok (fs1, tl1) -> foldM (ref_pair ct ds0 t) (fs, tl0) l = Ok (fs2, tl2) -> fs1 = fs2 /\ agree tl1 tl2.
Proof.
  induction l as [|[s m] l IH]; intros fs tl tl0 fs1 tl1 fs2 tl2 A H1 H2; cbn [foldM] in *; [injection H1 as <- <-; injection H2 as <- <-; auto|].
  apply bind_ok in H1 as ([fs3 tl3] & F1 & H1). apply bind_ok in H2 as ([fs4 tl4] & F2 & H2). assert (fs3 = fs4 /\ agree tl3 tl4) as [<- B].
  { unfold ref_pair in F1, F2. cbn [fst snd] in *. apply bind_ok in F1 as (f & Hf & F1). apply bind_ok in F2 as (f' & Hf' & F2). assert (f' = f) by congruence. subst f'.
    apply bind_ok in F1 as (x1 & _ & F1). apply bind_ok in F2 as (x2 & X2 & F2). apply dgetE_ok in X2. rewrite (A (a_name s) t) in F1 by congruence. destruct (fir_step f (tl0 (a_name s) t)) as [f' y].
    apply bind_ok in F1 as (g1 & G1 & F1). apply bind_ok in F2 as (g2 & G2 & F2). assert (g2 = g1) by congruence. subst g2. apply bind_ok in F1 as (u1 & U1 & F1). apply bind_ok in F2 as (u2 & U2 & F2). assert (B : agree u1 u2) by (eapply add_agree; [exact A|exact U1|exact U2]).
    apply bind_ok in F1 as (v1 & V1 & F1). apply bind_ok in F2 as (v2 & V2 & F2). injection F1 as <- <-. injection F2 as <- <-. split; auto. destruct ct; [eapply write_agree; [exact B|exact V1|exact V2]|]. injection V1 as <-. injection V2 as <-. exact B. }
  exact (IH _ _ _ _ _ _ _ B H1 H2).
Qed.
Definition same_but_quiet (r r0 : @ref E S) : Prop := r_coll r = r_coll r0 /\ agree (r_tl r) (r_tl r0) /\ r_flt r = r_flt r0 /\ Forall quiet (r_procs r) /\ r_procs r0 = [].
Lemma step_agree ct g r r0 q q0 : same_but_quiet r r0 -> ref_step ct ds g r = Ok q -> ref_step ct ds0 g r0 = Ok q0 -> same_but_quiet q q0.
Proof.
  intros (A1 & A2 & A3 & A4 & A5) H H0. unfold ref_step in *. rewrite A1, A3 in H. rewrite A5 in H0. apply bind_ok in H as (c & U & H). apply bind_ok in H0 as (c' & U' & H0). assert (c' = c) by congruence. subst c'.
  apply bind_ok in H as ([ps tl] & P1 & H). cbn [foldM bind] in H0. destruct (procs_agree _ _ A4 _ _ _ _ P1) as (B1 & l' & B2 & B3). cbn [app] in B2. subst l'.
  apply bind_ok in H as ([c1 tl1] & F1 & H). apply bind_ok in H0 as ([c2 tl2] & F2 & H0). assert (A : agree tl (r_tl r0)) by (intros nm u K; rewrite B1; auto). destruct (free_agree _ _ _ _ _ _ _ _ _ _ A F1 F2) as [<- A'].
  apply bind_ok in H as (cs & C1 & H). apply bind_ok in H0 as (cs' & C2 & H0). assert (cs' = cs) by congruence. subst cs'. apply bind_ok in H as (fl & L1 & H). apply bind_ok in H0 as (fl' & L2 & H0). assert (fl' = fl) by congruence. subst fl'.
  apply bind_ok in H as ([f1 u1] & G1 & H). apply bind_ok in H0 as ([f2 u2] & G2 & H0). destruct (pairs_agree _ _ _ _ _ _ _ _ _ _ A' G1 G2) as [<- A2']. injection H as <-. injection H0 as <-. repeat split; auto.
Qed.
Lemma steps_agree ct n r r0 : same_but_quiet r r0 -> forall q q0, ref_steps ct ds n r = Ok q -> ref_steps ct ds0 n r0 = Ok q0 -> same_but_quiet q q0.
Proof.
  intros A. induction n as [|n IH]; intros q q0 H H0; cbn [ref_steps] in *; [injection H as <-; injection H0 as <-; auto|]. apply bind_ok in H as (x & X & H). apply bind_ok in H0 as (y & Y & H0). exact (step_agree _ _ _ _ _ _ (IH _ _ X Y) H H0).
Qed.
Lemma silence_agree : agree (silence ds) (silence ds0).
Proof. intros nm u K. unfold silence. destruct (dget ds0 nm) as [d|] eqn:Q; [|contradiction]. rewrite (more _ _ Q). reflexivity. Qed.
Lemma prepare_agree ct early c procs r r0 : Forall quiet procs -> ref_prepare ct early ds c procs = Ok r -> ref_prepare ct early ds0 c [] = Ok r0 -> same_but_quiet r r0.
Proof.
  intros Q H H0. unfold ref_prepare in *. apply bind_ok in H as (fs & F1 & H). apply bind_ok in H0 as (fs' & F2 & H0). assert (fs' = fs) by congruence. subst fs'. destruct early as [n|].
  - apply bind_ok in H as ([c1 tl1] & G1 & H). apply bind_ok in H0 as ([c2 tl2] & G2 & H0). destruct (free_agree _ _ _ _ _ _ _ _ _ _ silence_agree G1 G2) as [<- A]. apply bind_ok in H as (cs & C1 & H). apply bind_ok in H0 as (cs' & C2 & H0). assert (cs' = cs) by congruence. subst cs'.
    apply bind_ok in H as ([f1 u1] & K1 & H). apply bind_ok in H0 as ([f2 u2] & K2 & H0). injection H as <-. injection H0 as <-. cbn [fst snd]. clear G1 G2 C1 C2 F1 F2.
    assert (f1 = f2 /\ agree u1 u2) as [<- B]; [|repeat split; auto]. revert fs tl1 tl2 A K1 K2. induction cs as [|[s m] l IH]; intros fs tl1 tl2 A K1 K2; cbn [foldM] in *; [injection K1 as <- <-; injection K2 as <- <-; auto|].
    apply bind_ok in K1 as ([fs3 tl3] & F1 & K1). apply bind_ok in K2 as ([fs4 tl4] & F2 & K2). assert (fs3 = fs4 /\ agree tl3 tl4) as [<- B]; [|exact (IH _ _ _ B K1 K2)].
    unfold ref_pair_early in F1, F2. cbn [fst snd] in *. apply bind_ok in F1 as (f & Hf & F1). apply bind_ok in F2 as (f' & Hf' & F2). assert (f' = f) by congruence. subst f'.
    apply bind_ok in F1 as (x1 & _ & F1). apply bind_ok in F2 as (x2 & X2 & F2). apply dgetE_ok in X2. rewrite (map_ext _ _ (fun u => A (a_name s) u ltac:(congruence))) in F1. destruct (fir_process f _) as [f' ys].
    apply bind_ok in F1 as (g1 & G1 & F1). apply bind_ok in F2 as (g2 & G2 & F2). assert (g2 = g1) by congruence. subst g2. apply bind_ok in F1 as (y1 & _ & F1). apply bind_ok in F2 as (y2 & Y2 & F2). apply dgetE_ok in Y2.
    rewrite (map_ext _ _ (fun u => A (a_name m) u ltac:(congruence))) in F1. apply bind_ok in F1 as (zs & Z1 & F1). apply bind_ok in F2 as (zs' & Z2 & F2). assert (zs' = zs) by congruence. subst zs'.
    apply bind_ok in F1 as (v1 & V1 & F1). apply bind_ok in F2 as (v2 & V2 & F2). injection F1 as <- <-. injection F2 as <- <-. split; auto.
    match type of V1 with context [tl_write ds ?a] => set (w1 := a) in * end. match type of V2 with context [tl_write ds0 ?a] => set (w2 := a) in * end.
    assert (W : agree w1 w2). { intros nm u K. unfold w1, w2. destruct (String.eqb nm (a_name m)); [destruct (zget zs _); auto|auto]. }
    destruct ct; [eapply write_agree; [exact W|exact V1|exact V2]|]. injection V1 as <-. injection V2 as <-. exact W.
  - apply bind_ok in H as ([c1 tl1] & G1 & H). apply bind_ok in H0 as ([c2 tl2] & G2 & H0). destruct (free_agree _ _ _ _ _ _ _ _ _ _ silence_agree G1 G2) as [<- A]. apply bind_ok in H as (cs & C1 & H). apply bind_ok in H0 as (cs' & C2 & H0). assert (cs' = cs) by congruence. subst cs'.
    apply bind_ok in H as ([f1 u1] & K1 & H). apply bind_ok in H0 as ([f2 u2] & K2 & H0). injection H as <-. injection H0 as <-. cbn [fst snd]. clear G1 G2 C1 C2 F1 F2.
    assert (f1 = f2 /\ agree u1 u2) as [<- B]; [|repeat split; auto]. revert fs tl1 tl2 A K1 K2. induction cs as [|[s m] l IH]; intros fs tl1 tl2 A K1 K2; cbn [foldM] in *; [injection K1 as <- <-; injection K2 as <- <-; auto|].
    apply bind_ok in K1 as ([fs3 tl3] & F1 & K1). apply bind_ok in K2 as ([fs4 tl4] & F2 & K2). assert (fs3 = fs4 /\ agree tl3 tl4) as [<- B]; [|exact (IH _ _ _ B K1 K2)].
    unfold ref_pair_at_0 in F1, F2. cbn [fst snd] in *. apply bind_ok in F1 as (f & Hf & F1). apply bind_ok in F2 as (f' & Hf' & F2). assert (f' = f) by congruence. subst f'.
    apply bind_ok in F1 as (x1 & _ & F1). apply bind_ok in F2 as (x2 & X2 & F2). apply dgetE_ok in X2. rewrite (A (a_name s) 0) in F1 by congruence. destruct (fir_step f (tl2 (a_name s) 0)) as [f' y].
    apply bind_ok in F1 as (g1 & G1 & F1). apply bind_ok in F2 as (g2 & G2 & F2). assert (g2 = g1) by congruence. subst g2. apply bind_ok in F1 as (y1 & _ & F1). apply bind_ok in F2 as (y2 & Y2 & F2). apply dgetE_ok in Y2.
    apply bind_ok in F1 as (z1 & _ & F1). apply bind_ok in F2 as (z2 & _ & F2).
    apply bind_ok in F1 as (v1 & V1 & F1). apply bind_ok in F2 as (v2 & V2 & F2). injection F1 as <- <-. injection F2 as <- <-. split; auto.
    match type of V1 with context [tl_write ds ?a] => set (w1 := a) in * end. match type of V2 with context [tl_write ds0 ?a] => set (w2 := a) in * end.
    assert (W : agree w1 w2). { intros nm u K. unfold w1, w2. destruct (_ && _); [rewrite (A nm u K); auto|auto]. }
    destruct ct; [eapply write_agree; [exact W|exact V1|exact V2]|]. injection V1 as <-. injection V2 as <-. exact W.
Qed.
End Quiet.

(* ------------------------------------------------------------------ C119 *)
Section Silent.
Context {E : AEnv} {DE : DEnv}.
Variables PS0 D0 Out0 : Type.
Variable dsave0 : D0 -> option PS0 -> dict (list frame) -> Z * Z -> res D0.
Variable dout0 : D0 -> Z -> res Out0.
Local Instance SiS : SEnv := full dsave0 dout0.
Implicit Types (i : info) (c : coll E) (p : @proc E SiS).
(** the processor writes neither to the signal of an array nor to that of a recorded contribution, whatever it is handed; signals
    of its own are allowed *)
Definition plays_nothing i c p : Prop := forall s w nm, In nm (dkeys (snd (pr_step p s w))) ->
  ~ In nm (dkeys (c_arrays c)) /\ (save_source_contributions i = true -> forall s m, In s (c_src c) -> In m (c_mic c) -> nm <> contrib s m).

Lemma own_dims ct c p ds0 ds : ref_dims ct c ([] : list (@proc E SiS)) = Ok ds0 -> ref_dims ct c [p] = Ok ds -> forall nm d, dget ds0 nm = Some d -> dget ds nm = Some d.
Proof.
  intros H0 H nm d Hd. unfold ref_dims in *. apply bind_ok in H0 as (d1 & Q1 & H0). rewrite Q1 in H. cbn [bind] in H. apply bind_ok in H0 as (d2 & Q2 & H0). rewrite Q2 in H. cbn [bind] in H. injection H0 as <-.
  rewrite (declare_get _ _ nm H), Hd. reflexivity.
Qed.
Lemma array_or_contribution ct c ds0 nm : coll_ok c -> ref_dims ct c ([] : list (@proc E SiS)) = Ok ds0 -> dget ds0 nm <> None ->
  In nm (dkeys (c_arrays c)) \/ ct = true /\ exists s m, In s (c_src c) /\ In m (c_mic c) /\ nm = contrib s m.
Proof.
  intros O H K. unfold ref_dims in H. apply bind_ok in H as (d1 & Q1 & H). apply bind_ok in H as (d2 & Q2 & H). injection H as <-.
  assert (A : dget d1 nm <> None -> In nm (dkeys (c_arrays c))).
  { intros G. rewrite (declare_get _ _ nm Q1) in G. cbn [dget] in G. destruct (dget (map _ (c_arrays c)) nm) as [z|] eqn:Qz; [|contradiction]. apply dget_In in Qz. apply in_map_iff in Qz as ((k, a) & Ek & Ik). cbn [fst snd] in Ek. injection Ek as Ek _.
    assert (a_name a = k) by (apply (ok_key O); apply In_dget; [apply (ok_names O)|exact Ik]). subst. apply in_map_iff. eexists. split; [|exact Ik]. simpl. congruence. }
  destruct ct; [|injection Q2 as <-; left; apply A; exact K]. apply bind_ok in Q2 as (cs & Qc & Q2). rewrite (declare_get _ _ nm Q2) in K. destruct (dget d1 nm) as [z|] eqn:Qz; [left; apply A; discriminate|].
  right. split; auto. destruct (dget (map _ cs) nm) as [z|] eqn:Qm; [|contradiction]. apply dget_In in Qm. apply in_map_iff in Qm as ((a, b) & Ek & Ik). cbn [fst snd] in Ek. injection Ek as Ek _.
  destruct (combos_names O Qc) as [P1 _]. assert (I : In (a_name a, a_name b) (list_prod (c_src c) (c_mic c))) by (rewrite <- P1; apply in_map_iff; exists (a, b); auto). apply in_prod_iff in I as [I1 I2].
  exists (a_name a), (a_name b). auto.
Qed.

Variables (i : info) (c : coll E) (p : @proc E SiS) (diags diags' : dict (diag D)) (st st' : sim).
Hypothesis HX : experiment i c [p].
Hypothesis HD : good_diags i diags.
Hypothesis HR : run_simulation i c [p] diags = Ok st.
Hypothesis HX' : experiment i c ([] : list (@proc E SiS)).
Hypothesis HD' : good_diags i diags'.
Hypothesis HR' : run_simulation i c ([] : list (@proc E SiS)) diags' = Ok st'.
Hypothesis Quiet : plays_nothing i c p.

Lemma steps_start ct ds (r0 : @ref E SiS) n m r : (n <= m)%nat -> ref_steps ct ds m r0 = Ok r -> exists q, ref_steps ct ds n r0 = Ok q.
Proof.
  intros L. revert r. induction L as [|m L IH]; intros r H; [eauto|]. cbn [ref_steps] in H. apply bind_ok in H as (x & X & _). eauto.
Qed.
(** C119.  Every array and every contribution has the same signal with and without the processor *)
Theorem C119_signals nm t : dget (dims_of i c ([] : list (@proc E SiS))) nm <> None -> t <= tot_samples i ->
  signals_of i c [p] nm t = signals_of i c ([] : list (@proc E SiS)) nm t.
Proof.
  intros K Ht. destruct (run_facts HX HD HR) as (r & P & H1 & Hb & Hds & Hr & Es & _). destruct (run_facts HX' HD' HR') as (q & P' & _ & _ & Hds' & Hq & Es' & _).
  pose proof (run_longer HX HD HR) as L. pose proof (run_longer HX' HD' HR') as L'. rewrite Es, Es'.
  unfold ref_run in Hr, Hq. rewrite Hds in Hr. rewrite Hds' in Hq. cbn [bind] in Hr, Hq. apply bind_ok in Hr as (r0 & R0 & Hr). apply bind_ok in Hq as (q0 & Q0 & Hq).
  set (n := Nat.min (run_length i [p]) (run_length i ([] : list (@proc E SiS)))). assert (Ln : (n <= run_length i [p] /\ n <= run_length i ([] : list (@proc E SiS)))%nat) by (unfold n; lia). assert (Hn : t <= Z.of_nat n) by (unfold n; lia).
  destruct (steps_start _ _ _ n _ _ (proj1 Ln) Hr) as (r1 & R1). destruct (steps_start _ _ _ n _ _ (proj2 Ln) Hq) as (q1 & Q1).
  pose proof (own_dims _ _ _ _ _ Hds' Hds) as More. assert (Qp : Forall (quiet (dims_of i c ([] : list (@proc E SiS)))) [p]).
  { constructor; [|constructor]. intros s w x Kx I. destruct (Quiet s w x I) as [N1 N2]. destruct (array_or_contribution _ _ _ _ (ex_coll HX) Hds' Kx) as [Ia|(Hc & a & b & Ia & Ib & ->)]; [exact (N1 Ia)|exact (N2 Hc a b Ia Ib eq_refl)]. }
  pose proof (prepare_agree _ _ More _ _ _ _ _ _ Qp R0 Q0) as A0. destruct (steps_agree _ _ More _ _ _ _ A0 _ _ R1 Q1) as (_ & A & _).
  assert (F : Forall (fun p => 0 <= pr_bs p) (r_procs r0)).
  { rewrite (ref_prepare_procs _ _ _ _ _ R0). constructor; [pose proof (ex_sizes HX) as (Q & _); lia|constructor]. }
  assert (F' : Forall (fun p => 0 <= pr_bs p) (r_procs q0)) by (rewrite (ref_prepare_procs _ _ _ _ _ Q0); constructor).
  replace (run_length i [p]) with (n + (run_length i [p] - n))%nat in Hr by lia. replace (run_length i ([] : list (@proc E SiS))) with (n + (run_length i ([] : list (@proc E SiS)) - n))%nat in Hq by lia.
  assert (G : r_tl r nm t = r_tl r1 nm t) by (eapply ref_steps_past; [exact F|exact R1|exact Hr|exact Hn]). assert (G' : r_tl q nm t = r_tl q1 nm t) by (eapply ref_steps_past; [exact F'|exact Q1|exact Hq|exact Hn]).
  rewrite G, G'. exact (A nm t K).
Qed.
(** and whatever is recorded of it is the same, whichever other diagnostics there are *)
Theorem C119_recorded dn dn' nm num : dget (dims_of i c ([] : list (@proc E SiS))) nm = Some num -> 0 <= num -> records i diags dn nm num -> records i diags' dn' nm num ->
  exists x, recording i st dn x /\ recording i st' dn' x.
Proof.
  intros Hn Hp R1 R2. destruct (run_facts HX HD HR) as (_ & _ & _ & _ & Hds & _). destruct (run_facts HX' HD' HR') as (_ & _ & _ & _ & Hds' & _).
  exists (signals_of i c [p] nm). split; [eapply (recorded_signal HX HD HR); eauto; exact (own_dims _ _ _ _ _ Hds' Hds _ _ Hn)|].
  destruct (recorded_signal HX' HD' HR' R2 Hn Hp) as (d' & r' & B1 & B2 & B3). exists d', r'. split; auto. split; auto. rewrite B3. apply map_ext_in. intros t Ht. apply In_zrange in Ht. f_equal. symmetry. apply C119_signals; [congruence|lia].
Qed.
End Silent.

(* ------------------------------------------------------------------ Examples *)
Section Examples.
Local Open Scope string_scope.
Local Existing Instances demo demo_d spy_s.
Let i1 := run_info 10 5 false true.
(** keeps a copy of what the microphone picks up in a signal of its own *)
Let keeper : @proc demo spy_s := @mkProc demo spy_s 3 5 [("level", 1)] (fun s w => (s, match snd (play 3 0 w) with (_, x) :: _ => [("level", x)] | [] => [] end)) (0%Z, []).
Let qrun (names : list string) (ps : list (@proc demo spy_s)) : res sim := c <- coll_of i1 (room (Some (fun t => t))) ;; d <- recorders i1 names ;; run_simulation i1 c ps d.
Lemma qrun_meets names ps : is_ok (qrun names ps) = true -> supported i1 ps -> Forall (fun p => forall s w, NoDup (dkeys (snd (pr_step p s w)))) ps -> NoDup names ->
  get (recorders i1 names) (fun l => forallb (fun kd => diag_okb i1 (snd kd)) l) = Some true ->
  exists c d st, coll_of i1 (room (Some (fun t => t))) = Ok c /\ recorders i1 names = Ok d /\ experiment i1 c ps /\ good_diags i1 d /\ run_simulation i1 c ps d = Ok st.
Proof.
  intros H HS HP HN HG. apply is_ok_ex in H as [st H]. unfold qrun in H. apply bind_ok in H as (c & Hc & H). apply bind_ok in H as (d & Hd & H).
  exists c, d, st. split; [exact Hc|]. split; [exact Hd|]. split; [|split; [|exact H]].
  - eapply coll_experiment; [apply room_sized|exact Hc|exact HS|exact HP].
  - apply good_of; [destruct (recorders_get _ _ Hd) as [-> _]; exact HN|]. rewrite Hd in HG. cbn [get] in HG. exact (f_equal (fun o => match o with Some b => b | None => false end) HG).
Qed.
Lemma keeper_quiet (c : coll demo) : dkeys (c_arrays c) = ["mic"; "src"; "spk"] -> c_src c = ["src"; "spk"] -> c_mic c = ["mic"] -> plays_nothing (spied Z) Empty_set Empty_set no_save no_out i1 c keeper.
Proof.
  intros Q1 Q2 Q3 s w nm. cbn. destruct (dget w "mic"); cbn; [intros [<-|[]]|intros []]. split.
  - intros I. assert (J : In "level" ["mic"; "src"; "spk"]) by (rewrite <- Q1; exact I). simpl in J. intuition discriminate.
  - intros _ a b Ia Ib. assert (Ja : In a ["src"; "spk"]) by (rewrite <- Q2; exact Ia). assert (Jb : In b ["mic"]) by (rewrite <- Q3; exact Ib). destruct Jb as [<-|[]]. destruct Ja as [<-|[<-|[]]]; discriminate.
Qed.
(** a microphone that moves, all contributions recorded *)
Example C119_example : exists c d st d' st', experiment i1 c [keeper] /\ good_diags i1 d /\ run_simulation i1 c [keeper] d = Ok st /\
  experiment i1 c ([] : list (@proc demo spy_s)) /\ good_diags i1 d' /\ run_simulation i1 c ([] : list (@proc demo spy_s)) d' = Ok st' /\ plays_nothing (spied Z) Empty_set Empty_set no_save no_out i1 c keeper /\
  forall nm, In nm all5 -> dget (dims_of i1 c ([] : list (@proc demo spy_s))) nm = Some 1 /\ records i1 d nm nm 1 /\ records i1 d' nm nm 1.
Proof.
  assert (N : NoDup ("level" :: all5)) by (repeat constructor; simpl; intuition discriminate).
  destruct (qrun_meets ("level" :: all5) [keeper]) as (c & d & st & Hc & Hd & A & B & C); [vm_compute; reflexivity|cbn; lia| |exact N|vm_compute; reflexivity|].
  { repeat constructor. intros s w. cbn. destruct (dget w "mic"); cbn; repeat constructor. intros []. }
  destruct (qrun_meets all5 []) as (c' & d' & st' & Hc' & Hd' & A' & B' & C'); [vm_compute; reflexivity|cbn; lia|constructor|exact all5_nodup|vm_compute; reflexivity|].
  assert (c' = c) as -> by exact (f_equal (fun r => match r with Ok x => x | Err _ => c' end) (eq_trans (eq_sym Hc') Hc)).
  assert (G : get (coll_of i1 (room (Some (fun t => t)))) (fun c => (dkeys (c_arrays c), c_src c, c_mic c)) = Some (["mic"; "src"; "spk"], ["src"; "spk"], ["mic"])) by (vm_compute; reflexivity). rewrite Hc in G. cbn [get] in G. injection G as Q1 Q2 Q3.
  assert (G : get (coll_of i1 (room (Some (fun t => t)))) (fun c => map (dget (dims_of i1 c ([] : list (@proc demo spy_s)))) all5) = Some (map (fun _ => Some 1) all5)) by (vm_compute; reflexivity). rewrite Hc in G. cbn [get all5 map] in G. injection G as D1 D2 D3 D4 D5.
  destruct (recorders_get _ _ Hd) as [_ K2]. destruct (recorders_get _ _ Hd') as [_ K2'].
  exists c, d, st, d', st'. split; [exact A|]. split; [exact B|]. split; [exact C|]. split; [exact A'|]. split; [exact B'|]. split; [exact C'|]. split; [exact (keeper_quiet c Q1 Q2 Q3)|].
  intros nm Hn. split; [destruct Hn as [<-|[<-|[<-|[<-|[<-|[]]]]]]; [exact D1|exact D2|exact D3|exact D4|exact D5]|]. split; [apply K2; right; exact Hn|apply K2'; exact Hn].
Qed.
(** a processor that does play is heard *)
Example C119_playing : recs_of (qrun ["mic"] [echo 3 5]) ["mic"] <> recs_of (qrun ["mic"] []) ["mic"] /\ recs_of (qrun ["mic"] [keeper]) ["mic"] = recs_of (qrun ["mic"] []) ["mic"].
Proof. split; [vm_compute; discriminate|vm_compute; reflexivity]. Qed.
End Examples.
Print Assumptions C119_signals.
Print Assumptions C119_recorded.
