(** The refinement theorem for complete runs. *)
Require Import Verif.PyBase Verif.PyLemmas Verif.ConfigModel Verif.ArrayModel Verif.LoggerModel
  Verif.LoggerSpec Verif.LoggerProofs Verif.SimModel Verif.SimSpec Verif.SimRefine Verif.SimRun Verif.SimDiag.
Set Implicit Arguments.
Ltac Zify.zify_post_hook ::= Z.div_mod_to_equations.
Arguments Z.sub : simpl never.
Arguments Z.add : simpl never.

Section Loop.
Context {E : AEnv} {S : SEnv}.
Notation arr := (arr Pos Src).

Lemma supported_sizes i procs : supported i procs -> zlen procs <= 1 ->
  let mbs := max_block_size i procs in
  size_ok i mbs /\ mbs + 1 <= sim_buffer i /\
  Forall (proc_ok (sim_buffer i) (sim_chunk_size i) mbs) procs /\ (forall p, In p procs -> pr_bs p = mbs).
Proof.
  intros HS HL. cbv zeta. unfold supported, max_block_size, size_ok in *. destruct procs as [|p [|q l]].
  - repeat split; try lia; [constructor|intros p []].
  - simpl. repeat split; try lia; [constructor; auto; unfold proc_ok; lia|intros x [->|[]]; auto].
  - rewrite !zlen_cons in HL. pose proof (zlen_nonneg l). lia.
Qed.

Lemma save_one_ix cp s idx g lb (d d' : diag D) : save_one dsave cp s idx g lb d = Ok d' -> d_ix d' = d_ix d.
Proof.
  unfold save_one. destruct (iv_start (d_iv d)), (iv_end (d_iv d)); try (intros H; inversion H; subst; reflexivity).
  destruct (_ <=? _).
  - intros H. apply bind_ok in H as (pl & _ & H). apply bind_ok in H as (iv & _ & H). inversion H; auto.
  - destruct (_ && _); [|intros H; inversion H; subst; auto].
    intros H. apply bind_ok in H as (pl & _ & H). apply bind_ok in H as (iv & _ & H). inversion H; auto.
Qed.
Lemma save_data_ixwf cp s idx g lb dg dg1 : save_data dsave cp s idx g lb dg = Ok dg1 ->
  all_ix_wf dg -> all_ix_wf dg1.
Proof.
  intros Hs HW nm d1 Hd. destruct (dget dg nm) as [d|] eqn:Eg.
  - destruct (save_data_get _ _ _ _ _ _ _ Hs Eg) as (d' & E1 & E2). rewrite Hd in E1. inversion E1; subst.
    rewrite (save_one_ix _ _ _ _ _ _ E2). eauto.
  - exfalso. apply dget_None in Eg. apply Eg. rewrite <- (save_data_keys _ _ _ _ _ _ Hs).
    destruct (In_dec string_dec nm (dkeys dg1)); auto. apply dget_None in n. congruence.
Qed.

Section Inv.
Variables (i : info) (mbs : Z) (ds : dims) (r0 : ref) (diags : dict (diag D)) (psf : Z -> option PS).
Let ct := save_source_contributions i.
Hypothesis Hsize : size_ok i mbs.
Hypothesis Hbuf : mbs + 1 <= sim_buffer i.
Hypothesis Hone : zlen (r_procs r0) <= 1.
Hypothesis Hproc : Forall (proc_ok (sim_buffer i) (sim_chunk_size i) mbs) (r_procs r0).
Hypothesis Hbs : forall p, In p (r_procs r0) -> pr_bs p = mbs.
Hypothesis Hnd : NoDup (dkeys diags).
Hypothesis Hpsf : forall n r, ref_steps ct ds (Datatypes.S n) r0 = Ok r ->
  current_proc (r_procs r) = Ok (psf (Z.of_nat n)).

(** relation without diagnostics *)
Record CoreInv (n : nat) (st : sim) (r : ref) : Prop := {
  ci_steps : ref_steps ct ds n r0 = Ok r;
  ci_rel : Rel i mbs ds (Z.of_nat n) st r;
  ci_idx : sm_idx st = idx_at i mbs n;
  ci_tl : tl_inv ds (quiet_from (r_procs r) mbs (Z.of_nat n)) (r_tl r);
  ci_static : map (fun p => (pr_bs p, pr_hist p)) (r_procs r) = map (fun p => (pr_bs p, pr_hist p)) (r_procs r0);
  ci_keys : dkeys (sm_diags st) = dkeys diags;
  ci_ix : all_ix_wf (sm_diags st)
}.
Definition DiagInv (n : nat) (st : sim) (r : ref) : Prop :=
  forall nm d0, dget diags nm = Some d0 -> diag_ok i d0 ->
    exists d, dget (sm_diags st) nm = Some d /\ seen i mbs ds psf n (r_tl r) nm d0 d (sm_out st).

Lemma static_facts r : map (fun p => (pr_bs p, pr_hist p)) (r_procs r) = map (fun p => (pr_bs p, pr_hist p)) (r_procs r0) ->
  Forall (proc_ok (sim_buffer i) (sim_chunk_size i) mbs) (r_procs r) /\ (forall p, In p (r_procs r) -> pr_bs p = mbs) /\
  zlen (r_procs r) <= 1.
Proof.
  intros HS. split; [eapply Forall_proc_ok_static; eauto|]. split.
  - intros p Hp. apply (in_map (fun p => (pr_bs p, pr_hist p))) in Hp. rewrite HS in Hp.
    apply in_map_iff in Hp as (q & Eq & Hq). injection Eq as Eq1 Eq2. rewrite <- Eq1. auto.
  - assert (zlen (r_procs r) = zlen (r_procs r0)); [|lia].
    rewrite <- (zlen_map (fun p => (pr_bs p, pr_hist p)) (r_procs r)), HS, zlen_map. auto.
Qed.

Lemma core_step_inv n st r st' : CoreInv n st r -> DiagInv n st r -> sim_step i mbs st = Ok st' ->
  exists r', CoreInv (Datatypes.S n) st' r' /\ DiagInv (Datatypes.S n) st' r'.
Proof.
  intros [C1 C2 C3 C4 C5 C6 C7] HDI H.
  destruct (static_facts _ C5) as (HP & HB & _).
  assert (HPs : Forall (proc_ok (sim_buffer i) (sim_chunk_size i) mbs) (sm_procs st)) by (rewrite (rel_procs C2); auto).
  assert (Hg : 0 <= Z.of_nat n) by lia.
  destruct (sim_step_rel Hsize Hg C2 HPs HB C4 H) as (r' & Er & HR').
  exists r'.
  assert (Hsteps : ref_steps ct ds (Datatypes.S n) r0 = Ok r').
  { cbn [ref_steps]. rewrite C1. cbn [bind]. auto. }
  assert (Hm1 : 1 <= mbs) by (unfold size_ok in Hsize; lia).
  destruct (@ref_step_inv _ _ _ _ _ _ _ _ Hg Hm1 HB C4 Er) as [HT' HS'].
  assert (Hpast : forall nm t, t <= Z.of_nat n -> r_tl r' nm t = r_tl r nm t).
  { eapply ref_step_past; [|exact Er]. eapply Forall_impl; [|exact HP]. intros p Hp. destruct Hp as [Hp _]. lia. }
  (* the diagnostics part of the step *)
  rewrite sim_step_core in H. apply bind_ok in H as ([[[c s] fs] ps] & E1 & H).
  pose proof (core_step_rel Hsize Hg C2 HPs) as HCR. rewrite E1 in HCR.
  apply res_rel_ok_l in HCR as (r2 & Er2 & _ & _ & Hps & Hsr). rewrite Er in Er2. inversion Er2; subst r2; clear Er2.
  cbn [fst snd] in Hps, Hsr.
  apply bind_ok in H as (cp & Ecp & H). apply bind_ok in H as (dg1 & Esv & H).
  apply bind_ok in H as ([dg2 out2] & Edi & H). cbn [fst snd] in H.
  pose proof (rel_n C2) as Hn. rewrite Hn, C3 in Esv.
  change (sim_chunk_size i + sim_buffer i <=? idx_at i mbs n + mbs) with (sim_chunk_size i + sim_buffer i <=? idx_at i mbs n + mbs) in Esv.
  replace (sim_chunk_size i + sim_buffer i <=? idx_at i mbs n + mbs) with (last_at i mbs (Z.of_nat n)) in Esv
    by (unfold last_at; rewrite Nat2Z.id; auto).
  assert (HW1 : all_ix_wf dg1) by (eapply save_data_ixwf; eauto).
  assert (HK1 : dkeys dg1 = dkeys diags) by (rewrite (save_data_keys _ _ _ _ _ _ Esv); auto).
  pose proof Edi as Edi'. apply dispatch_lane in Edi' as (HL & HK & _); cbn [fst]; auto; [|rewrite HK1; auto].
  cbn [fst] in HK.
  assert (Ecp' : psf (Z.of_nat n) = cp).
  { pose proof (Hpsf _ Hsteps) as Hx. rewrite <- Hps, Ecp in Hx. inversion Hx; auto. }
  inversion H; subst st'; clear H. split.
  - constructor; cbn [sm_idx sm_diags]; auto.
    + replace (Z.of_nat (Datatypes.S n)) with (Z.of_nat n + 1) by lia. auto.
    + rewrite C3. reflexivity.
    + replace (Z.of_nat (Datatypes.S n)) with (Z.of_nat n + 1) by lia.
      destruct (r_procs r') as [|? ?] eqn:Ep, (r_procs r) as [|? ?] eqn:Ep2; simpl in HS'; try discriminate; auto.
    + congruence.
    + rewrite HK; auto.
    + apply lane_wf in HL. auto.
  - intros nm d0 Hd0 Hok. destruct (HDI nm d0 Hd0 Hok) as (d & Hd & Hse). cbn [sm_diags sm_out].
    assert (Hse' : seen i mbs ds psf n (r_tl r') nm d0 d (sm_out st)).
    { eapply seen_tl; [auto| |exact Hse]. intros nm' u Hu. symmetry; apply Hpast; lia. }
    rewrite C3 in Hsr.
    destruct Hsize as (Z1 & Z2 & Z3).
    assert (HNs : NoDup (dkeys (sm_diags st))) by (rewrite C6; auto).
    eapply seen_step; try exact Hse'; eauto.
Qed.

Lemma loop_inv fuel : forall n st r st', CoreInv n st r -> DiagInv n st r ->
  (n + fuel = Z.to_nat (tot_samples i + mbs))%nat -> sim_loop i mbs fuel st = Ok st' ->
  exists r', CoreInv (Z.to_nat (tot_samples i + mbs)) st' r' /\ DiagInv (Z.to_nat (tot_samples i + mbs)) st' r'.
Proof.
  induction fuel as [|k IH]; intros n st r st' HC HD HN H; cbn [sim_loop] in H; rewrite (rel_n (ci_rel HC)) in H;
    destruct (Z.ltb_spec (Z.of_nat n) (tot_samples i + mbs)); try discriminate.
  - inversion H; subst. assert (n = Z.to_nat (tot_samples i + mbs)) by lia. subst n. eauto.
  - apply bind_ok in H as (st1 & E1 & H). destruct (core_step_inv HC HD E1) as (r1 & HC1 & HD1).
    eapply IH; eauto. lia.
  - lia.
Qed.

(** progress: the buffered simulator does not fail where the reference does not *)
Lemma core_step_total n st r r' :
  (forall pl p v ab, exists pl', dsave pl p v ab = Ok pl') -> (forall p e, exists o, dout p e = Ok o) ->
  CoreInv n st r -> ref_step ct ds (Z.of_nat n) r = Ok r' -> exists st', sim_step i mbs st = Ok st'.
Proof.
  intros HSv HOu [C1 C2 C3 C4 C5 C6 C7] Er.
  destruct (static_facts _ C5) as (HP & HB & H1).
  assert (HPs : Forall (proc_ok (sim_buffer i) (sim_chunk_size i) mbs) (sm_procs st)) by (rewrite (rel_procs C2); auto).
  assert (Hg : 0 <= Z.of_nat n) by lia.
  pose proof (core_step_rel Hsize Hg C2 HPs) as HCR. fold ct in HCR. rewrite Er in HCR.
  apply res_rel_ok_r in HCR as ([[[c s] fs] ps] & E1 & _ & _ & Hps & _). cbn [snd] in Hps.
  rewrite sim_step_core, E1. cbn [bind].
  assert (Hsteps : ref_steps ct ds (Datatypes.S n) r0 = Ok r') by (cbn [ref_steps]; rewrite C1; auto).
  pose proof (Hpsf _ Hsteps) as Hx. rewrite <- Hps in Hx. rewrite Hx. cbn [bind].
  destruct (@save_data_total _ _ (psf (Z.of_nat n)) s (sm_idx st) (sm_n st)
    (sim_chunk_size i + sim_buffer i <=? sm_idx st + mbs) (sm_diags st) HSv) as [dg1 Esv].
  rewrite Esv. cbn [bind].
  destruct (dispatch_total dout (plot_output i) (dg1, sm_out st)) as [[dg2 out2] Edi]; auto.
  - cbn [fst]. rewrite (save_data_keys _ _ _ _ _ _ Esv), C6; auto.
  - cbn [fst]. eapply save_data_ixwf; eauto.
  - rewrite Edi. cbn [bind]. eauto.
Qed.
Lemma ref_steps_prefix n m r : (n <= m)%nat -> ref_steps ct ds m r0 = Ok r -> exists r', ref_steps ct ds n r0 = Ok r'.
Proof.
  intros HL. revert r; induction HL as [|m HL IH]; intros r Hr; eauto.
  cbn [ref_steps] in Hr. apply bind_ok in Hr as (r1 & E1 & _). eauto.
Qed.
End Inv.

Lemma loop_total i mbs ds r0 diags psf rN fuel : size_ok i mbs -> mbs + 1 <= sim_buffer i ->
  zlen (r_procs r0) <= 1 -> Forall (proc_ok (sim_buffer i) (sim_chunk_size i) mbs) (r_procs r0) ->
  (forall p, In p (r_procs r0) -> pr_bs p = mbs) -> NoDup (dkeys diags) ->
  (forall n r, ref_steps (save_source_contributions i) ds (Datatypes.S n) r0 = Ok r ->
     current_proc (r_procs r) = Ok (psf (Z.of_nat n))) ->
  (forall pl p v ab, exists pl', dsave pl p v ab = Ok pl') -> (forall p e, exists o, dout p e = Ok o) ->
  ref_steps (save_source_contributions i) ds (Z.to_nat (tot_samples i + mbs)) r0 = Ok rN ->
  (forall nm d0, dget diags nm = Some d0 -> diag_ok i d0) ->
  forall n st r, CoreInv i mbs ds r0 diags n st r -> DiagInv i mbs ds diags psf n st r ->
  (n + fuel = Z.to_nat (tot_samples i + mbs))%nat -> exists st', sim_loop i mbs fuel st = Ok st'.
Proof.
  intros Hsize Hbuf Hone Hproc Hbs Hnd Hpsf HSv HOu HrN Hdok.
  induction fuel as [|k IH]; intros n st r HC HD HN; cbn [sim_loop]; rewrite (rel_n (ci_rel HC));
    destruct (Z.ltb_spec (Z.of_nat n) (tot_samples i + mbs)); eauto; [lia|].
  destruct (@ref_steps_prefix i ds r0 (Datatypes.S n) (Z.to_nat (tot_samples i + mbs)) rN) as [r1 Hr1]; auto; [lia|].
  cbn [ref_steps] in Hr1. rewrite (ci_steps HC) in Hr1. cbn [bind] in Hr1.
  assert (exists st1, sim_step i mbs st = Ok st1) as [st1 E1] by (eapply core_step_total with (psf := psf); eauto).
  rewrite E1. cbn [bind].
  assert (exists r', CoreInv i mbs ds r0 diags (Datatypes.S n) st1 r' /\ DiagInv i mbs ds diags psf (Datatypes.S n) st1 r')
    as (r2 & HC2 & HD2) by (eapply core_step_inv; eauto).
  eapply IH; eauto. lia.
Qed.

(* ------------------------------------------------------------------ after the loop *)
Lemma seen_dispatch i mbs ds psf n tl nm d0 d d2 dg out dg2 out2 :
  dget dg nm = Some d -> NoDup (dkeys dg) -> all_ix_wf dg ->
  seen i mbs ds psf n tl nm d0 d out -> dispatch dout (plot_output i) (dg, out) = Ok (dg2, out2) ->
  dget dg2 nm = Some d2 -> seen i mbs ds psf n tl nm d0 d2 out2.
Proof.
  intros Hg HN HW [S1 S2 S3 S4 S5 S6 S7] Hdi Hg2.
  apply dispatch_lane in Hdi as (HL & HK & HSet & HNone); auto.
  specialize (HL nm). unfold lane in HL. cbn [fst snd] in *. rewrite Hg, Hg2 in HL.
  destruct HL as (L1 & L2 & L3 & es & os & L4 & L5 & L6 & L7).
  constructor; auto; try congruence.
  - intros Hp. specialize (HNone Hp). inversion HNone; subst. destruct (S6 Hp) as [A B].
    split; auto. rewrite Hg in Hg2. inversion Hg2; subst; auto.
  - intros Hp. destruct (S7 Hp) as (A & B). cbv zeta.
    set (ts := fst (tile_run (last_at i mbs) (iv_list (d_iv d0)) n)) in *.
    assert (es = []).
    { destruct es as [|e es]; auto. exfalso. pose proof (not_due_head (ix_list (d_ix d0)) (last_end ts)) as HH.
      rewrite <- A, L4 in HH. simpl in HH. apply Forall_inv in L5. rewrite S4 in L5. lia. }
    subst es. simpl in L4, L6. rewrite app_nil_r in L6. rewrite L6, <- L4. auto.
Qed.

Lemma dispatch_get po dg out dg2 out2 nm d : NoDup (dkeys dg) -> all_ix_wf dg ->
  dispatch dout po (dg, out) = Ok (dg2, out2) -> dget dg nm = Some d -> exists d2, dget dg2 nm = Some d2.
Proof.
  intros HN HW Hdi Hg. apply dispatch_lane in Hdi as (HL & _); auto. specialize (HL nm). unfold lane in HL.
  cbn [fst] in HL. rewrite Hg in HL. destruct (dget dg2 nm); eauto. tauto.
Qed.

Lemma current_proc_after ct early c (procs : list proc) ds r0 : ref_dims ct c procs = Ok ds ->
  ref_prepare ct early ds c procs = Ok r0 -> zlen procs <= 1 -> r_procs r0 = procs ->
  forall n r, ref_steps ct ds (Datatypes.S n) r0 = Ok r ->
  current_proc (r_procs r) = Ok (proc_after ct early c procs (Z.of_nat n)).
Proof.
  intros Hds Hr0 H1 Hp n r Hr.
  unfold proc_after, ref_run. rewrite Hds. cbn [bind]. rewrite Hr0. cbn [bind].
  replace (Z.to_nat (Z.of_nat n + 1)) with (Datatypes.S n) by lia. rewrite Hr.
  assert (HL : forall m r, ref_steps ct ds m r0 = Ok r -> zlen (r_procs r) = zlen procs).
  { clear n r Hr. induction m as [|m IH]; intros r Hr; cbn [ref_steps] in Hr.
    - inversion Hr; subst; auto.
    - apply bind_ok in Hr as (r1 & E1 & Hr). rewrite <- (IH _ E1). unfold ref_step in Hr.
      apply bind_ok in Hr as (c1 & _ & Hr). apply bind_ok in Hr as ([ps tl] & E2 & Hr).
      apply bind_ok in Hr as ([c2 tl2] & _ & Hr). apply bind_ok in Hr as (combos & _ & Hr).
      apply bind_ok in Hr as (fs & _ & Hr). apply bind_ok in Hr as (ft & _ & Hr). inversion Hr; subst r; clear Hr; simpl.
      apply ref_procs_static in E2 as (l' & E4 & Em). simpl in E4. subst ps.
      rewrite <- (zlen_map (fun p => (pr_bs p, pr_hist p)) l'), Em, zlen_map. auto. }
  specialize (HL _ _ Hr). unfold current_proc. destruct (r_procs r) as [|p [|q l]]; auto.
  rewrite !zlen_cons in HL. pose proof (zlen_nonneg l). lia.
Qed.

Lemma ref_prepare_procs ct early ds c (procs : list proc) r : ref_prepare ct early ds c procs = Ok r -> r_procs r = procs.
Proof.
  unfold ref_prepare. intros H. apply bind_ok in H as (fs & _ & H). destruct early.
  - apply bind_ok in H as ([c1 tl] & _ & H). apply bind_ok in H as (cb & _ & H). apply bind_ok in H as (ft & _ & H). inversion H; auto.
  - apply bind_ok in H as ([c1 tl] & _ & H). apply bind_ok in H as (cb & _ & H). apply bind_ok in H as (ft & _ & H). inversion H; auto.
Qed.

Lemma prepare_eq i c procs (diags : dict (diag D)) : prepare_simulation i c procs diags =
  if 1 <? zlen procs then Err NotImplementedError else
  s <- all_signals i c procs ;;
  csf <- (fs <- filters_init c ;; prop_prepare i c s fs) ;;
  let '(c, s, fs) := csf in Ok (mkSim c s (sim_buffer i) fs procs diags [] 0).
Proof.
  unfold prepare_simulation, all_signals. destruct (1 <? zlen procs); auto.
  destruct (signals_init i c); cbn [bind]; auto.
  match goal with |- bind ?x _ = _ => destruct x; cbn [bind]; auto end.
  destruct (filters_init c); cbn [bind]; auto.
Qed.

Lemma prepare_inv i c procs diags st :
  supported i procs -> NoDup (dkeys diags) -> (forall nm d, dget diags nm = Some d -> diag_ok i d) ->
  prepare_simulation i c procs diags = Ok st ->
  exists ds r0, zlen procs <= 1 /\ ref_dims (save_source_contributions i) c procs = Ok ds /\
    ref_prepare (save_source_contributions i) (early_start i) ds c procs = Ok r0 /\
    CoreInv i (max_block_size i procs) ds r0 diags 0 st r0 /\
    forall psf, DiagInv i (max_block_size i procs) ds diags psf 0 st r0.
Proof.
  intros HS HN HD H. rewrite prepare_eq in H. destruct (Z.ltb_spec 1 (zlen procs)); [discriminate|].
  destruct (supported_sizes i procs HS) as (Hsz & Hbuf & _ & _); [auto|].
  apply bind_ok in H as (s & Es & H). pose proof (all_signals_rel i c procs) as HA. rewrite Es in HA.
  apply res_rel_ok_l in HA as (ds & Eds & Hbl).
  apply bind_ok in H as ([[c1 s1] f1] & Ep & H).
  destruct Hsz as (HC & Hm & HB).
  pose proof (@prepare_rel _ _ i c procs ds s) as HP. rewrite Ep in HP.
  specialize (HP ltac:(lia) ltac:(lia) Hbl). apply res_rel_ok_l in HP as (r0 & Er0 & P1 & P2 & P3 & P4 & P5).
  cbn [fst snd] in *. inversion H; subst st; clear H.
  exists ds, r0. split; [auto|]. split; [auto|]. split; [auto|]. split.
  - constructor; cbn [sm_n sm_coll sm_flt sm_procs sm_idx sm_sigs sm_diags]; auto.
    + constructor; cbn [sm_n sm_coll sm_flt sm_procs sm_idx sm_sigs sm_diags]; auto.
      apply (@idx_at_ok i (max_block_size i procs) 0%nat); auto.
    + destruct P5 as [P5 P6]. split; auto. intros nm d t Eg Ht. apply P6 with (d := d); auto.
      unfold quiet_from in Ht. destruct (r_procs r0); [|destruct (Z.of_nat 0 <? max_block_size i procs)]; lia.
    + intros nm d Hd. destruct (HD _ _ Hd) as (_ & _ & W & _). exact W.
  - intros psf nm d0 Hd Hok. exists d0. split; auto. apply seen_start; auto.
Qed.

Theorem run_refines i c procs diags st :
  supported i procs -> NoDup (dkeys diags) -> (forall nm d, dget diags nm = Some d -> diag_ok i d) ->
  run_simulation i c procs diags = Ok st ->
  exists ds r,
    zlen procs <= 1 /\
    ref_dims (save_source_contributions i) c procs = Ok ds /\
    ref_run (save_source_contributions i) (early_start i) c procs (run_length i procs) = Ok r /\ wide ds (r_tl r) /\
    sm_coll st = r_coll r /\ sm_flt st = r_flt r /\ sm_procs st = r_procs r /\
    sm_n st = Z.of_nat (run_length i procs) /\
    sig_rel (sim_buffer i + sim_chunk_size i) (sm_n st + 1 - sm_idx st) ds (r_tl r) (sm_sigs st) /\
    dkeys (sm_diags st) = dkeys diags /\
    forall nm d0, dget diags nm = Some d0 ->
      exists d, dget (sm_diags st) nm = Some d /\
        seen i (max_block_size i procs) ds (proc_after (save_source_contributions i) (early_start i) c procs)
          (run_length i procs) (r_tl r) nm d0 d (sm_out st).
Proof.
  intros HS HN HD H. unfold run_simulation in H.
  apply bind_ok in H as (st0 & E0 & H). apply bind_ok in H as (st1 & E1 & H).
  apply bind_ok in H as ([dg2 out2] & Edi & H).
  destruct (@prepare_inv i c procs diags st0 HS HN HD E0) as (ds & r0 & H1 & Hds & Hr0 & HC & HDI).
  destruct (supported_sizes i procs HS H1) as (Hsz & Hbuf & Hpo & Hbs).
  pose proof (ref_prepare_procs _ _ _ _ _ Hr0) as Hp.
  pose proof (current_proc_after _ _ _ Hds Hr0 H1 Hp) as Hpsf.
  rewrite <- Hp in H1, Hpo, Hbs.
  assert (Hbs' : forall p, In p (r_procs r0) -> pr_bs p = max_block_size i procs) by (intros p Hin; rewrite Hp in Hbs; apply Hbs; rewrite <- Hp; auto).
  assert (Hpo' : Forall (proc_ok (sim_buffer i) (sim_chunk_size i) (max_block_size i procs)) (r_procs r0)) by (rewrite Hp in *; auto).
  assert (exists r', CoreInv i (max_block_size i procs) ds r0 diags (Z.to_nat (tot_samples i + max_block_size i procs)) st1 r' /\
     DiagInv i (max_block_size i procs) ds diags (proc_after (save_source_contributions i) (early_start i) c procs)
       (Z.to_nat (tot_samples i + max_block_size i procs)) st1 r') as (r & HC1 & HD1)
    by (eapply loop_inv with (n := 0%nat) (fuel := Z.to_nat (tot_samples i + max_block_size i procs)); try exact E1; try exact HC; auto).
  exists ds, r. inversion H; subst st; clear H. cbn [sm_coll sm_flt sm_procs sm_n sm_diags sm_out sm_sigs sm_idx].
  destruct HC1 as [C1 C2 C3 C4 C5 C6 C7].
  split; [rewrite <- Hp; auto|]. split; [auto|].
  split; [unfold ref_run; rewrite Hds; cbn [bind]; rewrite Hr0; cbn [bind]; auto|]. split; [apply C4|].
  split; [apply (rel_coll C2)|]. split; [apply (rel_flt C2)|]. split; [apply (rel_procs C2)|].
  split; [rewrite (rel_n C2); auto|].
  split; [pose proof (rel_sig C2) as RS; rewrite (rel_n C2); exact RS|].
  pose proof Edi as Edi'. apply dispatch_lane in Edi' as (HL & HK & _); cbn [fst] in *; auto; [|rewrite C6; auto].
  split; [rewrite HK; auto|].
  intros nm d0 Hd0. destruct (HD1 nm d0 Hd0 (HD _ _ Hd0)) as (d & Hd & Hse).
  assert (HNd : NoDup (dkeys (sm_diags st1))) by (rewrite C6; auto).
  assert (exists d2, dget dg2 nm = Some d2) as [d2 Hd2] by (eapply dispatch_get; eauto). exists d2. split; auto.
  eapply seen_dispatch; [exact Hd|exact HNd|exact C7|exact Hse|exact Edi|exact Hd2].
Qed.

(** if the reference run succeeds and no diagnostic fails, the buffered run succeeds *)
Theorem run_total i c procs diags r :
  supported i procs -> zlen procs <= 1 -> NoDup (dkeys diags) -> (forall nm d, dget diags nm = Some d -> diag_ok i d) ->
  (forall pl p v ab, exists pl', dsave pl p v ab = Ok pl') -> (forall p e, exists o, dout p e = Ok o) ->
  ref_run (save_source_contributions i) (early_start i) c procs (run_length i procs) = Ok r ->
  exists st, run_simulation i c procs diags = Ok st.
Proof.
  intros HS H1 HN HD HSv HOu Hr. unfold ref_run in Hr.
  apply bind_ok in Hr as (ds & Hds & Hr). apply bind_ok in Hr as (r0 & Hr0 & Hr).
  destruct (supported_sizes i procs HS H1) as (Hsz & Hbuf & Hpo & Hbs). pose proof Hsz as (Z1 & Z2 & Z3).
  assert (Hpr : exists st0, prepare_simulation i c procs diags = Ok st0).
  { rewrite prepare_eq. destruct (Z.ltb_spec 1 (zlen procs)); [lia|].
    pose proof (all_signals_rel i c procs) as HA. rewrite Hds in HA. apply res_rel_ok_r in HA as (s & -> & Hbl). cbn [bind].
    pose proof (@prepare_rel _ _ i c procs ds s ltac:(lia) ltac:(lia) Hbl) as HP. rewrite Hr0 in HP.
    apply res_rel_ok_r in HP as ([[c1 s1] f1] & -> & _). cbn [bind]. eauto. }
  destruct Hpr as [st0 E0].
  destruct (@prepare_inv i c procs diags st0 HS HN HD E0) as (ds' & r0' & _ & Hds' & Hr0' & HC & HDI).
  rewrite Hds in Hds'; inversion Hds'; subst ds'. rewrite Hr0 in Hr0'; inversion Hr0'; subst r0'. clear Hds' Hr0'.
  pose proof (ref_prepare_procs _ _ _ _ _ Hr0) as Hp.
  pose proof (current_proc_after _ _ _ Hds Hr0 H1 Hp) as Hpsf.
  assert (H1' : zlen (r_procs r0) <= 1) by (rewrite Hp; auto).
  assert (Hpo' : Forall (proc_ok (sim_buffer i) (sim_chunk_size i) (max_block_size i procs)) (r_procs r0)) by (rewrite Hp; auto).
  assert (Hbs' : forall p, In p (r_procs r0) -> pr_bs p = max_block_size i procs) by (rewrite Hp; auto).
  assert (exists st1, sim_loop i (max_block_size i procs) (Z.to_nat (tot_samples i + max_block_size i procs)) st0 = Ok st1)
    as [st1 E1] by (eapply loop_total with (n := 0%nat) (psf := proc_after (save_source_contributions i) (early_start i) c procs); try exact HC; eauto).
  unfold run_simulation. rewrite E0. cbn [bind]. rewrite E1. cbn [bind].
  assert (exists r', CoreInv i (max_block_size i procs) ds r0 diags (Z.to_nat (tot_samples i + max_block_size i procs)) st1 r' /\
     DiagInv i (max_block_size i procs) ds diags (proc_after (save_source_contributions i) (early_start i) c procs)
       (Z.to_nat (tot_samples i + max_block_size i procs)) st1 r') as (r1 & HC1 & HD1)
    by (eapply loop_inv with (n := 0%nat) (fuel := Z.to_nat (tot_samples i + max_block_size i procs)); try exact E1; try exact HC; auto).
  destruct (dispatch_total dout (plot_output i) (sm_diags st1, sm_out st1)) as [[dg2 out2] Edi]; auto.
  - cbn [fst]. rewrite (ci_keys HC1); auto.
  - apply (ci_ix HC1).
  - rewrite Edi. cbn [bind]. eauto.
Qed.
End Loop.
