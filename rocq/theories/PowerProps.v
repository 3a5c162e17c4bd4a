(** Properties of diagnostics that average: C18, C19. *)
From Coq Require Import Sorted QArith_base Qcanon.
Require Import Verif.PyBase Verif.PyLemmas Verif.ConfigModel Verif.ArrayModel Verif.ArraySpec Verif.LoggerModel Verif.LoggerSpec Verif.LoggerProofs
  Verif.SimModel Verif.SimSpec Verif.SimRun Verif.SimDiag Verif.SimLoop Verif.SignalSpec Verif.SignalPass Verif.RunSpec Verif.RunLaw Verif.DiagRun
  Verif.DiagModel Verif.DiagSpec Verif.DiagProofs Verif.DiagCtorModel Verif.DiagCtorProofs Verif.SaveProps Verif.StateProofs Verif.StateProps Verif.Demo Verif.DemoRun Verif.DemoQ.
Local Open Scope Z_scope.
Set Implicit Arguments.
Arguments Z.add : simpl never.
Arguments Z.sub : simpl never.
Arguments Z.mul : simpl never.
Ltac Zify.zify_post_hook ::= Z.div_mod_to_equations.

(** what exact arithmetic satisfies *)
Record exact_sums {E : AEnv} {N : DEnv} : Prop := {
  ex_assoc : forall x y z : V, vadd (vadd x y) z = vadd x (vadd y z);
  ex_0_l : forall x : V, vadd v0 x = x;
  ex_0_r : forall x : V, vadd x v0 = x;
  ex_div_add : forall (x y : V) n, vdivz (vadd x y) n = vadd (vdivz x n) (vdivz y n);
  ex_div_0 : forall n, vdivz v0 n = v0
}.

Section Sums.
Context {E : AEnv} {N : DEnv}.
Hypothesis X : exact_sums.
Lemma vsum_from l x : fold_left vadd l x = vadd x (vsum l).
Proof.
  unfold vsum. revert x. induction l as [|y l IH]; intros x; cbn [fold_left]; [rewrite (ex_0_r X); auto|]. rewrite (IH (vadd x y)), (IH (vadd v0 y)), (ex_0_l X), (ex_assoc X). auto.
Qed.
Lemma vsum_app l r : vsum (l ++ r) = vadd (vsum l) (vsum r).
Proof. unfold vsum at 1. rewrite fold_left_app. apply vsum_from. Qed.
End Sums.

Section Run.
Context {E : AEnv} {DE : DEnv}.
Variables PS0 D0 Out0 : Type.
Variable dsave0 : D0 -> option PS0 -> dict (list frame) -> Z * Z -> res D0.
Variable dout0 : D0 -> Z -> res Out0.
Local Instance PwS : SEnv := full dsave0 dout0.

Variables (i : info) (c : coll E) (procs : list (@proc E PwS)) (diags : dict (diag D)) (st : sim).
Hypothesis HX : experiment i c procs.
Hypothesis HD : good_diags i diags.
Hypothesis HR : run_simulation i c procs diags = Ok st.
Notation sg := (signals_of i c procs).
Notation ds := (dims_of i c procs).

(* ------------------------------------------------------------------ C18 *)
Lemma one_interval nm d0 a b : dget diags nm = Some d0 -> iv_list (d_iv d0) = [(a, b)] -> b <= tot_samples i ->
  exists d ts, dget (sm_diags st) nm = Some d /\ saves ds sg (proc_state i c procs) (d_pl d0) ts = Ok (d_pl d) /\
    times ts = zrange a b /\ Forall (fun t => a <= fst t < snd t /\ snd t <= b) ts.
Proof.
  intros Hd Hl Hb. destruct (diag_law HX HD HR _ Hd) as (d & ts & rest & F1 & F2 & F3 & _). rewrite Hl in F3. pose proof (run_longer HX HD HR) as HL.
  exists d, ts. split; auto. split; auto. destruct (tiles_complete F3) as [_ Q]; [constructor; auto; simpl; lia|]. rewrite Q. split.
  - unfold times. cbn [flat_map fst snd]. apply app_nil_r.
  - eapply Forall_impl; [|apply (to_tile F3)]. intros t ((iv & [<-|[]] & I2 & I3) & G & _). cbn [fst snd] in *. lia.
Qed.

Lemma soundfield_saves (X : exact_sums) name n num : forall ts pw d', (forall t, In t (times ts) -> zlen (sg name t) = num) -> Forall (fun t => fst t < snd t) ts -> zlen pw = num ->
  saves ds sg (proc_state i c procs) (DSoundfield (mkSfPower name n pw) : D) ts = Ok d' ->
  exists pw', d' = DSoundfield (mkSfPower name n pw') /\ zlen pw' = num /\
    forall ch, 0 <= ch < num -> chan pw' ch = vadd (chan pw ch) (vdivz (vsum (map (fun t => vsq (chan (sg name t) ch)) (times ts))) n).
Proof.
  induction ts as [|[a b] ts IH]; intros pw d' Hw HF Hp H.
  - cbn in H. inversion H; subst. exists pw. split; auto. split; auto. intros ch Hc. cbn [times flat_map map vsum fold_left]. unfold vsum; cbn [fold_left]. rewrite (ex_div_0 X), (ex_0_r X). auto.
  - cbn [saves foldM] in H. apply bind_ok in H as (d1 & H1 & H). inversion HF as [|x y A1 A3]; subst. cbn [fst snd] in *.
    cbn in H1. apply bind_ok in H1 as (r & H1 & H2). inversion H2; subst d1; clear H2. unfold soundfield_power_save in H1. destruct (proc_state i c procs b); [|discriminate].
    apply bind_ok in H1 as (x & Hx & H1). apply window_dgetE in Hx. subst x. cbn [sf_name sf_power_ sf_avg] in H1. apply bind_ok in H1 as (pw1 & Hpw & H1). inversion H1; subst r; clear H1.
    change (times ((a, b) :: ts)) with (zrange a b ++ times ts) in *.
    assert (Hw1 : sf_width (map (sg name) (zrange a b)) = zlen pw).
    { rewrite zrange_cons by lia. cbn [map sf_width]. apply Hw. apply in_app_iff. left. apply In_zrange. lia. }
    rewrite Hw1 in Hpw. unfold fadd in Hpw. unfold channel_sums in Hpw. rewrite !zlen_map, zlen_zrange in Hpw. pose proof (zlen_nonneg pw).
    destruct (Z.eqb_spec (zlen pw) (Z.max 0 (zlen pw - 0))); [|lia]. inversion Hpw; subst pw1; clear Hpw.
    assert (FL : forall l r, zlen l = zlen r -> zlen (fadd_eq l r) = zlen l).
    { induction l as [|u l IHl]; intros [|w r] Hq; auto; cbn [fadd_eq]; rewrite ?zlen_cons in *; pose proof (zlen_nonneg l); rewrite ?(@zlen_nil V) in *; try lia; rewrite IHl; lia. }
    assert (FC : forall l r ch, zlen l = zlen r -> 0 <= ch < zlen l -> chan (fadd_eq l r) ch = vadd (chan l ch) (chan r ch)).
    { unfold zlen. induction l as [|u l IHl]; intros [|w r] ch Hq Hch; cbn [length] in Hq, Hch; try lia.
      cbn [fadd_eq]. unfold chan in *. rewrite !zget_cons. destruct (Z.eqb_spec ch 0); auto. apply IHl; lia. }
    apply IH in H as (pw' & -> & L1 & K); auto.
    + exists pw'. split; auto. split; auto. intros ch Hch. rewrite K by auto. rewrite FC by (rewrite ?zlen_map, ?zlen_zrange; lia).
      rewrite map_app, (vsum_app X), (ex_div_add X), (ex_assoc X). f_equal. f_equal.
      unfold chan at 1. rewrite !zget_map, zget_zrange. destruct (Z.leb_spec 0 ch), (Z.ltb_spec ch (zlen pw - 0)); try lia. cbn [andb option_map]. rewrite map_map. replace (0 + ch) with ch by lia. auto.
    + intros t Ht. apply Hw. apply in_app_iff; auto.
    + rewrite FL; auto. rewrite !zlen_map, zlen_zrange. lia.
Qed.
(** the interval must hold a sample *)
Theorem C18_soundfield_interval name num a b : (exists r, soundfield_power name num (a, b) = Ok r) <-> a < b.
Proof. unfold soundfield_power. cbn [fst snd]. unfold passert. destruct (Z.leb_spec 1 (b - a)); cbn [bind]; split; intros X; try lia; eauto. destruct X; discriminate. Qed.
(** C18.  SoundfieldPower over the samples a .. b-1: for every microphone the mean of the squared samples of
    the whole interval, however the buffer shifts split it. *)
Theorem C18_soundfield nm name num a b r0 d0 : exact_sums ->
  soundfield_power name num (a, b) = Ok r0 -> soundfield_init i (a, b) (DSoundfield r0 : D) = Ok d0 -> dget diags nm = Some d0 ->
  b <= tot_samples i -> 0 <= num -> (forall t, a <= t < b -> zlen (sg name t) = num) ->
  exists d r, dget (sm_diags st) nm = Some d /\ d_pl d = DSoundfield r /\ zlen (sf_power_ r) = num /\
    forall ch, 0 <= ch < num -> chan (sf_power_ r) ch = vdivz (vsum (map (fun t => vsq (chan (sg name t) ch)) (zrange a b))) (b - a).
Proof.
  intros X H1 H2 Hd Hb Hn Hw. unfold soundfield_power in H1. apply bind_ok in H1 as (u & _ & H1). inversion H1; subst r0; clear H1.
  unfold soundfield_init, diagnostic_init in H2. apply bind_ok in H2 as (iv & Hiv & H2). apply bind_ok in H2 as (x & Hx & H2). inversion H2; subst d0; clear H2.
  destruct (one_interval _ Hd (iv_list_of _ Hiv) Hb) as (d & ts & A1 & A2 & A3 & A4). cbn [d_pl fst snd] in A2.
  edestruct (soundfield_saves X) as (pw & B1 & B2 & B3); [| | |exact A2|].
  - intros t Ht. rewrite A3 in Ht. apply In_zrange in Ht. apply Hw. auto.
  - eapply Forall_impl; [|exact A4]. simpl; intros; lia.
  - unfold zeros. rewrite zlen_zrep. lia.
  - eexists d, _. split; auto. split; [exact B1|]. cbn [sf_power_]. split; auto. intros ch Hc. rewrite B3 by auto. rewrite A3.
    unfold chan at 1, zeros. rewrite zget_zrep. destruct (_ && _); apply (ex_0_l X).
Qed.

(** SignalSummary: [f] is summary_func; np.sum when there is none *)
Definition summary (f : option (list frame -> V)) (x : list frame) : V := match f with None => vsum (concat x) | Some f => f x end.
Lemma summary_saves (X : exact_sums) name n f : (forall x y, summary f (x ++ y) = vadd (summary f x) (summary f y)) -> summary f [] = v0 -> forall ts m d',
  saves ds sg (proc_state i c procs) (DSummary (mkSigSummary name n f m) : D) ts = Ok d' ->
  d' = DSummary (mkSigSummary name n f (vadd m (vdivz (summary f (map (sg name) (times ts))) n))).
Proof.
  intros Hf Hf0. induction ts as [|[a b] ts IH]; intros m d' H.
  - cbn in H. inversion H; subst. cbn [times flat_map map]. rewrite Hf0, (ex_div_0 X), (ex_0_r X). auto.
  - cbn [saves foldM] in H. apply bind_ok in H as (d1 & H1 & H). cbn [fst snd] in *.
    cbn in H1. apply bind_ok in H1 as (r & H1 & H2). inversion H2; subst d1; clear H2. unfold signal_summary_save in H1.
    apply bind_ok in H1 as (x & Hx & H1). apply window_dgetE in Hx. subst x. cbn [su_name su_num su_func su_mean] in H1. inversion H1; subst r; clear H1.
    apply IH in H. rewrite H. do 2 f_equal. change (times ((a, b) :: ts)) with (zrange a b ++ times ts). rewrite map_app, Hf, (ex_div_add X), <- (ex_assoc X). auto.
Qed.
Theorem C18_summary nm name f a b d0 : exact_sums ->
  (forall x y, summary f (x ++ y) = vadd (summary f x) (summary f y)) -> summary f [] = v0 ->
  soundfield_init i (a, b) (DSummary (signal_summary name (a, b) f) : D) = Ok d0 -> dget diags nm = Some d0 -> b <= tot_samples i ->
  exists d r, dget (sm_diags st) nm = Some d /\ d_pl d = DSummary r /\ su_mean r = vdivz (summary f (map (sg name) (zrange a b))) (b - a).
Proof.
  intros X Hf Hf0 H2 Hd Hb.
  unfold soundfield_init, diagnostic_init in H2. apply bind_ok in H2 as (iv & Hiv & H2). apply bind_ok in H2 as (x & Hx & H2). inversion H2; subst d0; clear H2.
  destruct (one_interval _ Hd (iv_list_of _ Hiv) Hb) as (d & ts & A1 & A2 & A3 & A4). cbn [d_pl] in A2. unfold signal_summary in A2. cbn [fst snd] in A2.
  apply (summary_saves X) in A2; auto. rewrite A3 in A2. eexists d, _. split; auto. split; [exact A2|]. cbn [su_mean]. apply (ex_0_l X).
Qed.
(** the sum of all samples is such a function *)
Theorem C18_sum_splits : exact_sums -> (forall x y, summary None (x ++ y) = vadd (summary None x) (summary None y)) /\ summary None [] = v0.
Proof. intros X. cbn [summary]. split; auto. intros x y. rewrite concat_app. apply (vsum_app X). Qed.

(** SignalPowerSpectrum collects the samples: column k holds the signal at time a + k *)
Lemma spectrum_saves name num chans a b : forall ts cols d', zlen cols = b - a -> forall k, 0 <= k -> times ts = zrange (a + k) b -> Forall (fun t => a <= fst t < snd t /\ snd t <= b) ts ->
  saves ds sg (proc_state i c procs) (DSpectrum (mkSigSpectrum name num chans cols k) : D) ts = Ok d' ->
  exists cols' k', d' = DSpectrum (mkSigSpectrum name num chans cols' k') /\ zlen cols' = b - a /\
    (forall j, 0 <= j < k -> zget cols' j = zget cols j) /\
    (forall j, k <= j < b - a -> exists f, column chans num (sg name (a + j)) f /\ zget cols' j = Some (Some f)).
Proof.
  induction ts as [|[u w] ts IH]; intros cols d' Hl k Hk Ht HF H.
  - cbn in H. inversion H; subst. exists cols, k. split; auto. split; auto. split; auto. intros j Hj. rewrite zrange_cons in Ht by lia. discriminate.
  - cbn [saves foldM] in H. apply bind_ok in H as (d1 & H1 & H). inversion HF as [|? ? [A1 A2] A3]; subst. cbn [fst snd] in *.
    change (times ((u, w) :: ts)) with (zrange u w ++ times ts) in Ht.
    assert (u = a + k /\ w <= b) as [-> _]. { rewrite (@zrange_cons u) in Ht by lia. destruct (Z.ltb_spec (a + k) b); [|rewrite (@zrange_empty (a + k)) in Ht by lia; discriminate]. rewrite (@zrange_cons (a + k)) in Ht by lia. inversion Ht. lia. }
    assert (Ht' : times ts = zrange (a + (w - a)) b).
    { rewrite (@zrange_app (a + k) w b) in Ht by lia. apply app_inv_head in Ht. replace (a + (w - a)) with w by lia. auto. }
    cbn in H1. apply bind_ok in H1 as (r & H1 & H2). inversion H2; subst d1; clear H2. unfold signal_spectrum_save in H1. cbn [sx_name sx_num sx_chans sx_data sx_count fst snd] in H1.
    apply bind_ok in H1 as (x & Hx & H1). apply window_dgetE in Hx. subst x. apply bind_ok in H1 as (y & H2 & H1). apply bind_ok in H1 as (z & H3 & H1). apply bind_ok in H1 as (c' & H4 & H1). inversion H1; subst r; clear H1.
    apply mapM_zget in H2 as [L2 G2]. apply mapM_zget in H3 as [L3 G3]. rewrite zlen_map, zlen_zrange in L2.
    replace (k + (w - (a + k))) with (w - a) in * by lia.
    assert (W : writes (fun t f => column chans num (sg name (a + t)) f) k (w - a) cols c').
    { eapply (writes_set dout0); [lia|lia| | |exact H4]; [lia|]. intros j Hj. destruct (G2 j (sg name (a + k + j))) as (q & U1 & U2).
      { rewrite zget_window. destruct ((0 <=? j) && (j <? w - (a + k))) eqn:Q; auto; lia. }
      destruct (G3 j q U2) as (v & V1 & V2). exists v. split; auto. exists q. replace (a + (k + j)) with (a + k + j) by lia. split; [apply pick_selected; auto|apply fit_fills; auto]. }
    destruct W as [W1 W2].
    apply IH in H as (cols' & k' & -> & B1 & B2 & B3); auto; [|lia|lia]. exists cols', k'. split; auto. split; auto. split.
    + intros j Hj. rewrite B2 by lia. apply W2. lia.
    + intros j Hj. destruct (Z.ltb_spec j (w - a)); [|apply B3; lia]. rewrite B2 by lia. apply W2. lia.
Qed.
Theorem C18_spectrum nm name num chans a b d0 : a < b ->
  soundfield_init i (a, b) (DSpectrum (signal_spectrum name (a, b) num chans) : D) = Ok d0 -> dget diags nm = Some d0 -> b <= tot_samples i ->
  exists d r, dget (sm_diags st) nm = Some d /\ d_pl d = DSpectrum r /\ zlen (sx_data r) = b - a /\
    forall k, 0 <= k < b - a -> exists f, column chans num (sg name (a + k)) f /\ zget (sx_data r) k = Some (Some f).
Proof.
  intros Hab H2 Hd Hb.
  unfold soundfield_init, diagnostic_init in H2. apply bind_ok in H2 as (iv & Hiv & H2). apply bind_ok in H2 as (x & Hx & H2). inversion H2; subst d0; clear H2.
  destruct (one_interval _ Hd (iv_list_of _ Hiv) Hb) as (d & ts & A1 & A2 & A3 & A4). cbn [d_pl] in A2. unfold signal_spectrum in A2. cbn [fst snd] in A2.
  edestruct spectrum_saves as (cols & k & B1 & B2 & B3 & B4); [| | |exact A4|exact A2|]; [rewrite zlen_zrep; lia|lia|rewrite A3; f_equal; lia|].
  eexists d, _. split; auto. split; [exact B1|]. auto.
Qed.

(** A diagnostic with one interval and one export index at its end is exported once, with what it holds in the end *)
Lemma until_all b : forall ts lo, increasing (times ts) -> Forall (fun t => lo <= fst t < snd t /\ snd t <= b) ts -> tiles_until b ts = ts.
Proof.
  induction ts as [|[u w] ts IH]; intros lo HI HF; auto. cbn [tiles_until snd]. change (times ((u, w) :: ts)) with (zrange u w ++ times ts) in HI. apply increasing_app_inv in HI as (_ & HI & HB).
  inversion HF as [|? ? [A1 A2] HF']; subst. cbn [fst snd] in *. destruct (Z.leb_spec b w); [|f_equal; apply (IH lo); auto].
  destruct ts as [|[u' w'] ts]; auto. exfalso. inversion HF' as [|? ? [B1 B2] _]; subst. cbn [fst snd] in *. specialize (HB (w - 1) (w' - 1)). rewrite In_zrange in HB.
  assert (w - 1 < w' - 1); [|lia]. apply HB; [lia|]. change (times ((u', w') :: ts)) with (zrange u' w' ++ times ts). apply in_app_iff. left. apply In_zrange. lia.
Qed.
Lemma one_export nm d0 a b : dget diags nm = Some d0 -> iv_list (d_iv d0) = [(a, b)] -> ix_list (d_ix d0) = [b] -> b <= tot_samples i -> plot_output i <> "none"%string ->
  exists d o, dget (sm_diags st) nm = Some d /\ exports_of nm (sm_out st) = [(b, o)] /\ dout (d_pl d) b = Ok o.
Proof.
  intros Hd Hl Hx Hb Hp. destruct (diag_law HX HD HR _ Hd) as (d & ts & rest & F1 & F2 & F3 & F4 & _ & F5). destruct (F5 Hp) as (os & O1 & O2). rewrite Hl in F3. rewrite Hx in O1, O2. pose proof (run_longer HX HD HR) as HL.
  assert (HI : Forall (fun iv => snd iv < Z.of_nat (run_length i procs)) [(a, b)]) by (constructor; auto; simpl; lia).
  destruct (proj2 HD _ _ Hd) as (D1 & D2 & D3 & D4 & D5 & D6 & D7). rewrite Hl in *.
  pose proof (tiles_last _ D4 F3 HI) as EL. cbn in EL. rewrite EL in *.
  assert (U : tiles_until b ts = ts).
  { apply until_all with (lo := a); [apply (tiles_sorted _ D4 F3)|]. eapply Forall_impl; [|apply (to_tile F3)]. intros t ((iv & [<-|[]] & I2 & I3) & G & _). cbn [fst snd] in *. lia. }
  assert (K : due [b] b = [b]) by (cbn; rewrite Z.leb_refl; auto). rewrite K in O1, O2. inversion O2 as [|? o ? os' (p & P1 & P2) O3]; subst. inversion O3; subst. rewrite U in P1. rewrite F2 in P1. inversion P1; subst p.
  exists d, o. auto.
Qed.
(** C18: what is exported, once, at the end of the interval *)
Theorem C18_soundfield_exported nm name num a b r0 d0 : exact_sums ->
  soundfield_power name num (a, b) = Ok r0 -> soundfield_init i (a, b) (DSoundfield r0 : D) = Ok d0 -> dget diags nm = Some d0 ->
  b <= tot_samples i -> 0 <= num -> (forall t, a <= t < b -> zlen (sg name t) = num) -> plot_output i <> "none"%string ->
  exists pw, exports_of nm (sm_out st) = [(b, XValue (Some pw))] /\ zlen pw = num /\
    forall ch, 0 <= ch < num -> chan pw ch = vdivz (vsum (map (fun t => vsq (chan (sg name t) ch)) (zrange a b))) (b - a).
Proof.
  intros X H1 H2 Hd Hb Hn Hw Hp. destruct (@C18_soundfield nm name num a b r0 d0 X H1 H2 Hd Hb Hn Hw) as (d & r & A1 & A2 & A3 & A4).
  unfold soundfield_init, diagnostic_init in H2. apply bind_ok in H2 as (iv & Hiv & H2). apply bind_ok in H2 as (x & Hx & H2). cbn in Hx. inversion Hx; subst x. inversion H2; subst d0; clear H2.
  destruct (one_export _ Hd (iv_list_of _ Hiv) eq_refl Hb Hp) as (d' & o & B1 & B2 & B3). rewrite A1 in B1. inversion B1; subst d'. rewrite A2 in B3. cbn in B3. inversion B3; subst o. exists (sf_power_ r). auto.
Qed.
Theorem C18_summary_exported nm name f a b d0 : exact_sums ->
  (forall x y, summary f (x ++ y) = vadd (summary f x) (summary f y)) -> summary f [] = v0 ->
  soundfield_init i (a, b) (DSummary (signal_summary name (a, b) f) : D) = Ok d0 -> dget diags nm = Some d0 -> b <= tot_samples i -> plot_output i <> "none"%string ->
  exports_of nm (sm_out st) = [(b, XValue (Some [vdivz (summary f (map (sg name) (zrange a b))) (b - a)]))].
Proof.
  intros X Hf Hf0 H2 Hd Hb Hp. destruct (@C18_summary nm name f a b d0 X Hf Hf0 H2 Hd Hb) as (d & r & A1 & A2 & A3).
  unfold soundfield_init, diagnostic_init in H2. apply bind_ok in H2 as (iv & Hiv & H2). apply bind_ok in H2 as (x & Hx & H2). cbn in Hx. inversion Hx; subst x. inversion H2; subst d0; clear H2.
  destruct (one_export _ Hd (iv_list_of _ Hiv) eq_refl Hb Hp) as (d' & o & B1 & B2 & B3). rewrite A1 in B1. inversion B1; subst d'. rewrite A2 in B3. cbn in B3. inversion B3; subst o. rewrite B2, A3. auto.
Qed.
Theorem C18_spectrum_exported nm name num chans a b d0 : a < b ->
  soundfield_init i (a, b) (DSpectrum (signal_spectrum name (a, b) num chans) : D) = Ok d0 -> dget diags nm = Some d0 -> b <= tot_samples i -> plot_output i <> "none"%string ->
  exists cols, exports_of nm (sm_out st) = [(b, XColumns cols)] /\ zlen cols = b - a /\
    forall k, 0 <= k < b - a -> exists f, column chans num (sg name (a + k)) f /\ zget cols k = Some (Some f).
Proof.
  intros Hab H2 Hd Hb Hp. destruct (@C18_spectrum nm name num chans a b d0 Hab H2 Hd Hb) as (d & r & A1 & A2 & A3 & A4).
  unfold soundfield_init, diagnostic_init in H2. apply bind_ok in H2 as (iv & Hiv & H2). apply bind_ok in H2 as (x & Hx & H2). cbn in Hx. inversion Hx; subst x. inversion H2; subst d0; clear H2.
  destruct (one_export _ Hd (iv_list_of _ Hiv) eq_refl Hb Hp) as (d' & o & B1 & B2 & B3). rewrite A1 in B1. inversion B1; subst d'. rewrite A2 in B3. cbn in B3. inversion B3; subst o. exists (sx_data r). auto.
Qed.

(* ------------------------------------------------------------------ C19 *)
(** the mean over the selected channels of the squared samples of a frame *)
Definition is_power (chans : option (list Z)) (x : frame) (v : V) : Prop :=
  exists y, selected chans x y /\ v = vdivz (vsum (map vsq y)) (zlen y).
(** moving average of length L of the power pw at time t, when nothing before time a is known *)
Definition smooth (L : Z) (pw : Z -> V) (a t : Z) : V :=
  vsum [vsum (map (fun k => vmul (vdivz v1 L) (if a <=? t - k then pw (t - k) else v0)) (zrange 0 L))].
(** the moving average of the signal *)
Definition average (L : Z) (pw : Z -> V) (t : Z) : V :=
  vsum [vsum (map (fun k => vmul (vdivz v1 L) (pw (t - k))) (zrange 0 L))].

Lemma smoothed_window L pw a b : a <= b ->
  smoothed L (map (fun t => [pw t]) (zrange a b)) = map (fun t => [smooth L pw a t]) (zrange a b).
Proof.
  intros Hab. unfold smoothed, smoother, fir_init. set (p := mkPath 1 1 L _). set (x := fun u => if a <=? u then [pw u] else zeros 1).
  assert (map (fun t => [pw t]) (zrange a b) = map x (zrange a b)) as ->.
  { apply map_ext_in. intros t Ht. apply In_zrange in Ht. unfold x. destruct (Z.leb_spec a t); [auto|lia]. }
  assert (zrep (p_len p - 1) (zeros (p_ns p)) = map x (zrange (a - hist_len p) a)) as ->.
  { apply zget_ext. intros j. rewrite zget_zrep, zget_map, zget_zrange. unfold hist_len, p. cbn [p_len p_ns].
    destruct (Z.leb_spec 0 j); cbn [andb]; auto. destruct (Z.ltb_spec j (L - 1)), (Z.ltb_spec j (a - (a - Z.max 0 (L - 1)))); try lia; auto. cbn [option_map]. unfold x.
    destruct (Z.leb_spec a (a - Z.max 0 (L - 1) + j)); [lia|auto]. }
  pose proof (@fir_process_conv' _ p x a b Hab) as K. cbv zeta in K. unfold frame in *. rewrite K. cbn [snd]. apply map_ext_in. intros t Ht. unfold response, convolved, p. cbn [p_len p_ns p_nm p_at].
  change (zrange 0 1) with [0]. cbn [map]. unfold smooth. do 4 f_equal. apply map_ext. intros k. f_equal. unfold x. destruct (a <=? t - k); reflexivity.
Qed.
Lemma fdiv_map (f g : Z -> V) l : fdiv_list (map (fun t => [f t]) l) (map (fun t => [g t]) l) = map (fun t => [vdiv (f t) (g t)]) l.
Proof. induction l; cbn [map fdiv_list]; auto. rewrite IHl. reflexivity. Qed.

Definition power_of (chans : option (list Z)) (name : string) (t : Z) : V :=
  match pick chans (sg name t) with Ok y => mean_power y | Err _ => v0 end.
Lemma picked chans name a b y : mapM (pick chans) (map (sg name) (zrange a b)) = Ok y ->
  map (fun f => [mean_power f]) y = map (fun t => [power_of chans name t]) (zrange a b) /\
  forall t, a <= t < b -> is_power chans (sg name t) (power_of chans name t).
Proof.
  intros H. apply mapM_zget in H as [L G]. rewrite zlen_map, zlen_zrange in L.
  assert (K : forall j, 0 <= j < b - a -> exists u, pick chans (sg name (a + j)) = Ok u /\ zget y j = Some u).
  { intros j Hj. apply (G j). rewrite zget_window. destruct ((0 <=? j) && (j <? b - a)) eqn:Q; auto; lia. }
  split.
  - apply zget_ext. intros j. rewrite !zget_map, zget_zrange. destruct (Z.leb_spec 0 j); cbn [andb]; [|rewrite zget_neg by lia; auto].
    destruct (Z.ltb_spec j (b - a)); [|rewrite zget_out by lia; auto]. destruct (K j) as (u & U1 & U2); [lia|]. rewrite U2. cbn [option_map]. unfold power_of. rewrite U1. auto.
  - intros t Ht. destruct (K (t - a)) as (u & U1 & U2); [lia|]. replace (a + (t - a)) with t in U1 by lia. exists u. unfold power_of. rewrite U1. split; auto. apply pick_selected; auto.
Qed.

Lemma ratio_saves n1 n2 c1 c2 L ts0 : forall ts, incl ts ts0 -> forall cols d',
  Forall (fun t => 0 <= fst t < snd t /\ snd t <= zlen cols) ts ->
  saves ds sg (proc_state i c procs) (DPowerRatio (mkPowerRatio n1 n2 c1 c2 L cols) : D) ts = Ok d' ->
  exists cols', d' = DPowerRatio (mkPowerRatio n1 n2 c1 c2 L cols') /\ zlen cols' = zlen cols /\
    forall t, (In t (times ts) -> exists f, (exists a b, In (a, b) ts0 /\ a <= t < b /\
         (forall u, a <= u < b -> is_power c1 (sg n1 u) (power_of c1 n1 u) /\ is_power c2 (sg n2 u) (power_of c2 n2 u)) /\
         f = [vdiv (smooth L (power_of c1 n1) a t) (smooth L (power_of c2 n2) a t)]) /\ zget cols' t = Some (Some f)) /\
      (~ In t (times ts) -> zget cols' t = zget cols t).
Proof.
  induction ts as [|[a b] ts IH]; intros Hi cols d' HF H.
  - cbn in H. inversion H; subst. exists cols. split; auto. split; auto. intros t. split; [intros []|auto].
  - cbn [saves foldM] in H. apply bind_ok in H as (d1 & H1 & H). inversion HF as [|? ? [A1 A2] A3]; subst. cbn [fst snd] in *.
    cbn in H1. apply bind_ok in H1 as (r & H1 & H2). inversion H2; subst d1; clear H2. unfold power_ratio_save in H1. cbn [pw_num pw_den pw_num_chans pw_den_chans pw_smooth pw_data fst snd] in H1.
    apply bind_ok in H1 as (x & Hx & H1). apply window_dgetE in Hx. subst x. apply bind_ok in H1 as (x & Hx & H1).
    apply bind_ok in H1 as (y & Hy & H1). apply window_dgetE in Hy. subst y. apply bind_ok in H1 as (y & Hy & H1).
    destruct (picked _ _ _ _ Hx) as [P1 P2]. destruct (picked _ _ _ _ Hy) as [P3 P4]. rewrite P1, P3, !smoothed_window, fdiv_map in H1 by lia.
    apply bind_ok in H1 as (c' & Hc & H1). inversion H1; subst r; clear H1.
    assert (W : writes (fun t f => f = [vdiv (smooth L (power_of c1 n1) a t) (smooth L (power_of c2 n2) a t)]) a b cols c').
    { eapply (writes_set dout0); [lia|lia| | |exact Hc]; [rewrite zlen_map, zlen_zrange; lia|]. intros k Hk. eexists. split; [reflexivity|].
      rewrite zget_map, zget_zrange. destruct ((0 <=? k) && (k <? b - a)) eqn:Q; [auto|lia]. }
    destruct W as [W1 W2]. apply IH in H as (cols' & -> & B1 & B2); [|intros q Hq; apply Hi; simpl; auto|rewrite W1; auto].
    exists cols'. split; auto. split; [lia|]. intros t. change (times ((a, b) :: ts)) with (zrange a b ++ times ts). rewrite in_app_iff, In_zrange.
    destruct (B2 t) as [C1 C2], (W2 t) as [D1 D2].
    destruct (in_dec Z.eq_dec t (times ts)) as [Hin|Hin]; [split; [auto|tauto]|]. rewrite (C2 Hin). split; [|intros Q; apply D2; tauto].
    intros [Q|Q]; [|tauto]. destruct (D1 Q) as (f & F1 & F2). exists f. split; auto. exists a, b. split; [apply Hi; simpl; auto|]. split; auto.
Qed.

(** What SignalPowerRatio stores.  [ts] are the save calls; the value at time t is the ratio of the moving
    averages of the two powers, but samples before the start of the save call that t belongs to count as zero. *)
Theorem C19_stored nm n1 n2 c1 c2 L l iv e d0 : ivc_of_intervals l = Ok iv ->
  signal_diag_init i e (Some iv) (DPowerRatio (signal_power_ratio n1 n2 c1 c2 L (tot_samples i)) : D) = Ok d0 -> dget diags nm = Some d0 ->
  Forall (fun iv => 0 <= fst iv /\ snd iv <= tot_samples i) l ->
  exists d r ts p1 p2, dget (sm_diags st) nm = Some d /\ d_pl d = DPowerRatio r /\ zlen (pw_data r) = Z.max 0 (tot_samples i) /\
    times ts = times l /\ (forall t, In t (times l) -> is_power c1 (sg n1 t) (p1 t) /\ is_power c2 (sg n2 t) (p2 t)) /\
    Forall (fun t => inside l t /\ (In (snd t) (map snd l) \/ last_at i (max_block_size i procs) (snd t) = true)) ts /\
    holds (fun t f => exists a b, In (a, b) ts /\ a <= t < b /\ f = [vdiv (smooth L p1 a t) (smooth L p2 a t)]) (times l) (pw_data r).
Proof.
  intros H1 H3 Hd HF. unfold signal_diag_init, diagnostic_init in H3. cbn [bind] in H3. apply bind_ok in H3 as (x & Hx & H3). inversion H3; subst d0; clear H3.
  destruct (diag_law HX HD HR _ Hd) as (d & ts & rest & F1 & F2 & F3 & _). cbn [d_iv d_pl] in *. rewrite (iv_list_of _ H1) in F3.
  pose proof (run_longer HX HD HR) as HL.
  assert (HN : Forall (fun iv => snd iv < Z.of_nat (run_length i procs)) l) by (eapply Forall_impl; [|exact HF]; simpl; intros; lia).
  destruct (tiles_complete F3 HN) as [_ Ht].
  assert (HT : Forall (fun t => 0 <= fst t < snd t /\ snd t <= zlen (zrep (tot_samples i) (@None frame))) ts).
  { apply Forall_forall. intros t Hi. rewrite zlen_zrep. pose proof (to_tile F3) as G. rewrite Forall_forall in G, HF. destruct (G _ Hi) as ((iv' & I1 & I2 & I3) & G2 & _).
    specialize (HF _ I1). lia. }
  unfold signal_power_ratio in F2. destruct (@ratio_saves n1 n2 c1 c2 L ts ts (fun x H => H) _ _ HT F2) as (cols & C1 & C2 & C3).
  eexists d, _, ts, (power_of c1 n1), (power_of c2 n2). split; auto. split; [exact C1|]. cbn [pw_data]. rewrite zlen_zrep in C2. split; auto. split; auto. split.
  - intros t Hi. rewrite <- Ht in Hi. destruct (C3 t) as [C4 _]. destruct (C4 Hi) as (f & (a & b & _ & Hab & P & _) & _). auto.
  - split; [eapply Forall_impl; [|apply (to_tile F3)]; simpl; tauto|]. intros t Htr. rewrite <- Ht. destruct (C3 t) as [C4 C5]. split.
    + intros Hi. destruct (C4 Hi) as (f & (a & b & Q1 & Q2 & _ & Q3) & Q4). exists f. split; auto. exists a, b. auto.
    + intros Hn. rewrite (C5 Hn), zget_zrep. destruct ((0 <=? t) && (t <? tot_samples i)) eqn:Q; auto; lia.
Qed.
(** C19.  The value is the one of the signals alone when the last L samples belong to the same save call, in
    particular always without smoothing (L = 1).  Missing: the first L - 1 samples of every save call. *)
Theorem C19_independent_partial L pw a t : a + L - 1 <= t -> smooth L pw a t = average L pw t.
Proof.
  intros H. unfold smooth, average. do 3 f_equal. apply map_ext_in. intros k Hk. apply In_zrange in Hk. destruct (Z.leb_spec a (t - k)); [auto|lia].
Qed.
(** in a run without smoothing *)
Theorem C19_unsmoothed_partial nm n1 n2 c1 c2 l iv e d0 : ivc_of_intervals l = Ok iv ->
  signal_diag_init i e (Some iv) (DPowerRatio (signal_power_ratio n1 n2 c1 c2 1 (tot_samples i)) : D) = Ok d0 -> dget diags nm = Some d0 ->
  Forall (fun iv => 0 <= fst iv /\ snd iv <= tot_samples i) l ->
  exists d r p1 p2, dget (sm_diags st) nm = Some d /\ d_pl d = DPowerRatio r /\ zlen (pw_data r) = Z.max 0 (tot_samples i) /\
    (forall t, In t (times l) -> is_power c1 (sg n1 t) (p1 t) /\ is_power c2 (sg n2 t) (p2 t)) /\
    holds (fun t f => f = [vdiv (average 1 p1 t) (average 1 p2 t)]) (times l) (pw_data r).
Proof.
  intros H1 H2 Hd HF. destruct (C19_stored _ _ _ _ _ _ _ H1 H2 Hd HF) as (d & r & ts & p1 & p2 & A1 & A2 & A3 & A4 & A5 & _ & A6).
  exists d, r, p1, p2. do 4 (split; [assumption|]). intros t Ht. destruct (A6 t Ht) as [B1 B2]. split; auto. intros Hi. destruct (B1 Hi) as (f & (a & b & _ & Hab & ->) & Hz).
  eexists. split; [|exact Hz]. rewrite !C19_independent_partial by lia. auto.
Qed.
End Run.

(* ------------------------------------------------------------------ Examples *)
Section Examples.
Local Open Scope string_scope.
Local Existing Instances qdemo qdemo_d qdemo_s.
(** chunks of 5 and of 12 samples; otherwise the same *)
Let i := run_info 10 5 true false.
Let i2 := run_info 10 12 true false.
Example exact_Qc : @exact_sums qdemo qdemo_d.
Proof.
  assert (Z0 : qz 0 = 0%Qc) by reflexivity.
  constructor; simpl; intros; rewrite ?Z0; try ring; unfold Qcdiv; ring.
Qed.
Lemma power_demo : exists c diags st r0 d0 d1 d2 iv d3, experiment i c [idle 3] /\ good_diags i diags /\ run_simulation i c [idle 3] diags = Ok st /\
  soundfield_power "src" 1 (2, 10) = Ok r0 /\ soundfield_init i (2, 10) (DSoundfield r0 : D) = Ok d0 /\ dget diags "sf" = Some d0 /\
  soundfield_init i (2, 10) (DSummary (signal_summary "src" (2, 10) None) : D) = Ok d1 /\ dget diags "sum" = Some d1 /\
  soundfield_init i (2, 10) (DSpectrum (signal_spectrum "src" (2, 10) 1 None) : D) = Ok d2 /\ dget diags "spec" = Some d2 /\
  ivc_of_intervals [(0, tot_samples i)] = Ok iv /\
  signal_diag_init i (AInt 6) (Some iv) (DPowerRatio (signal_power_ratio "mic" "src" None None 2 (tot_samples i)) : D) = Ok d3 /\ dget diags "ratio" = Some d3 /\
  (forall t, 2 <= t < 10 -> zlen (signals_of i c [idle 3] "src" t) = 1).
Proof.
  destruct (qmeets i) as (c & d & st & Hc & Hd & Hr & A & B & C); [vm_compute; reflexivity|cbn; lia|vm_compute; reflexivity|].
  assert (W : get (qrun_coll i) (fun c => forallb (fun t => (zlen (signals_of i c [idle 3] "src"%string t) =? 1)%Z) (zrange 2 10)) = Some true) by (vm_compute; reflexivity).
  rewrite Hc in W. cbn [get] in W. apply (fun (x y : bool) (H : Some x = Some y) => f_equal (fun o => match o with Some b => b | None => false end) H) in W. cbv beta iota in W. rewrite forallb_forall in W.
  unfold qdiags in Hd. apply bind_ok in Hd as (r0 & H0 & Hd). apply bind_ok in Hd as (d0 & H1 & Hd). apply bind_ok in Hd as (d1 & H2 & Hd). apply bind_ok in Hd as (d2 & H3 & Hd).
  apply bind_ok in Hd as (iv & H4 & Hd). apply bind_ok in Hd as (d3 & H5 & Hd). injection Hd as <-.
  eexists c, _, st, r0, d0, d1, d2, iv, d3. do 5 (split; [eassumption|]). split; [reflexivity|]. split; [assumption|]. split; [reflexivity|]. split; [assumption|].
  split; [reflexivity|]. do 2 (split; [assumption|]). split; [reflexivity|]. intros t Ht. apply Z.eqb_eq. apply W. apply In_zrange. auto.
Qed.
(** squares of 16 .. 23, divided by 8; the interval is split at the buffer shifts *)
Example C18_values : get (qrun i) (fun st => match dget (sm_diags st) "sf" with Some d => match d_pl d with DSoundfield r => map qshow (sf_power_ r) | _ => [] end | None => [] end)
  = Some [(771, 2%positive)].
Proof. vm_compute; reflexivity. Qed.

Definition ratios (i : info) := get (qrun i) (fun st => match dget (sm_diags st) "ratio" with Some d => match d_pl d with DPowerRatio r => map (option_map (map qshow)) (pw_data r) | _ => [] end | None => [] end).
Definition same_signals (nm : string) : Prop :=
  get (qrun_coll i) (fun c => map (fun t => map qshow (signals_of i c [idle 3] nm t)) (zrange 0 12)) =
  get (qrun_coll i2) (fun c => map (fun t => map qshow (signals_of i2 c [idle 3] nm t)) (zrange 0 12)).
(** C19 is false: the same signals, another chunk size, another value at time 2 *)
Theorem C19_refuted : same_signals "mic" /\ same_signals "src" /\ (exists v, ratios i = Some v) /\ (exists v, ratios i2 = Some v) /\ ratios i <> ratios i2.
Proof.
  split; [vm_compute; reflexivity|]. split; [vm_compute; reflexivity|]. split; [eexists; vm_compute; reflexivity|]. split; [eexists; vm_compute; reflexivity|].
  vm_compute. discriminate.
Qed.

(** the demo meets the hypotheses of each theorem *)
Example C18_soundfield_interval_meets : (exists r, @soundfield_power qdemo "mic" 3 (2, 3) = Ok r) /\ ~ exists r, @soundfield_power qdemo "mic" 3 (2, 2) = Ok r.
Proof. split; [apply C18_soundfield_interval; lia|]. intros X. apply C18_soundfield_interval in X. lia. Qed.
Example C18_soundfield_meets : exact_sums /\ exists c diags st r0 d0, experiment i c [idle 3] /\ good_diags i diags /\ run_simulation i c [idle 3] diags = Ok st /\
  soundfield_power "src" 1 (2, 10) = Ok r0 /\ soundfield_init i (2, 10) (DSoundfield r0 : D) = Ok d0 /\ dget diags "sf" = Some d0 /\
  10 <= tot_samples i /\ 0 <= 1 /\ (forall t, 2 <= t < 10 -> zlen (signals_of i c [idle 3] "src" t) = 1).
Proof. split; [exact exact_Qc|]. destruct power_demo as (c & diags & st & r0 & d0 & d1 & d2 & iv & d3 & H1 & H2 & H3 & H4 & H5 & H6 & H7 & H8 & H9 & H10 & H11 & H12 & H13 & H14). exists c, diags, st, r0, d0. do 6 (split; [assumption|]). split; [cbn; lia|]. split; [lia|exact H14]. Qed.
Example C18_exported_values : plot_output i <> "none" /\
  get (qrun i) (fun st => map (fun eo => (fst eo, match snd eo with XValue (Some f) => map qshow f | _ => [] end)) (exports_of "sf" (sm_out st))) = Some [(10, [(771, 2%positive)])] /\
  get (qrun i) (fun st => map (fun eo => (fst eo, match snd eo with XValue (Some f) => map qshow f | _ => [] end)) (exports_of "sum" (sm_out st))) = Some [(10, [(39, 2%positive)])] /\
  get (qrun i) (fun st => map (fun eo => (fst eo, match snd eo with XColumns l => zlen l | _ => 0 end)) (exports_of "spec" (sm_out st))) = Some [(10, 8)].
Proof. split; [discriminate|]. split; [vm_compute; reflexivity|]. split; vm_compute; reflexivity. Qed.
Example C18_summary_meets : exact_sums /\ (forall x y, summary None (x ++ y) = vadd (summary None x) (summary None y)) /\ summary None [] = v0 /\
  exists c diags st d1, experiment i c [idle 3] /\ good_diags i diags /\ run_simulation i c [idle 3] diags = Ok st /\
  soundfield_init i (2, 10) (DSummary (signal_summary "src" (2, 10) None) : D) = Ok d1 /\ dget diags "sum" = Some d1 /\ 10 <= tot_samples i.
Proof.
  split; [exact exact_Qc|]. split; [exact (proj1 (C18_sum_splits exact_Qc))|]. split; [exact (proj2 (C18_sum_splits exact_Qc))|].
  destruct power_demo as (c & diags & st & r0 & d0 & d1 & d2 & iv & d3 & H1 & H2 & H3 & H4 & H5 & H6 & H7 & H8 & H9 & H10 & H11 & H12 & H13 & H14). exists c, diags, st, d1. do 5 (split; [assumption|]). cbn; lia.
Qed.
Example C18_sum_splits_meets : @exact_sums qdemo qdemo_d.
Proof. exact exact_Qc. Qed.
Example C18_spectrum_meets : 2 < 10 /\ exists c diags st d2, experiment i c [idle 3] /\ good_diags i diags /\ run_simulation i c [idle 3] diags = Ok st /\
  soundfield_init i (2, 10) (DSpectrum (signal_spectrum "src" (2, 10) 1 None) : D) = Ok d2 /\ dget diags "spec" = Some d2 /\ 10 <= tot_samples i.
Proof. split; [lia|]. destruct power_demo as (c & diags & st & r0 & d0 & d1 & d2 & iv & d3 & H1 & H2 & H3 & H4 & H5 & H6 & H7 & H8 & H9 & H10 & H11 & H12 & H13 & H14). exists c, diags, st, d2. do 5 (split; [assumption|]). cbn; lia. Qed.
Example C19_stored_meets : exists c diags st iv d3, experiment i c [idle 3] /\ good_diags i diags /\ run_simulation i c [idle 3] diags = Ok st /\ ivc_of_intervals [(0, tot_samples i)] = Ok iv /\
  signal_diag_init i (AInt 6) (Some iv) (DPowerRatio (signal_power_ratio "mic" "src" None None 2 (tot_samples i)) : D) = Ok d3 /\ dget diags "ratio" = Some d3 /\
  Forall (fun iv => 0 <= fst iv /\ snd iv <= tot_samples i) [(0, tot_samples i)].
Proof. destruct power_demo as (c & diags & st & r0 & d0 & d1 & d2 & iv & d3 & H1 & H2 & H3 & H4 & H5 & H6 & H7 & H8 & H9 & H10 & H11 & H12 & H13 & H14). exists c, diags, st, iv, d3. do 6 (split; [assumption|]). repeat constructor; cbn; lia. Qed.
Example C19_independent_partial_meets : 3 + 2 - 1 <= 4.
Proof. lia. Qed.
Definition unsmoothed_diag : res (dict (diag (@D qdemo qdemo_s))) :=
  iv <- ivc_of_intervals [(1, 9)] ;; d <- signal_diag_init i (AInt 6) (Some iv) (DPowerRatio (signal_power_ratio "mic" "src" None None 1 (tot_samples i)) : D) ;; Ok [("r", d)].
Example C19_unsmoothed_partial_meets : exists c diags st iv d0, experiment i c [idle 3] /\ good_diags i diags /\ run_simulation i c [idle 3] diags = Ok st /\
  ivc_of_intervals [(1, 9)] = Ok iv /\
  signal_diag_init i (AInt 6) (Some iv) (DPowerRatio (signal_power_ratio "mic" "src" None None 1 (tot_samples i)) : D) = Ok d0 /\ dget diags "r" = Some d0 /\
  Forall (fun iv => 0 <= fst iv /\ snd iv <= tot_samples i) [(1, 9)].
Proof.
  destruct (@bind_is_ok _ _ unsmoothed_diag (fun d => c <- qrun_coll i ;; run_simulation i c [idle 3] d)) as (d & st & Hd & K); [vm_compute; reflexivity|].
  apply bind_ok in K as (c & Hc & K). unfold unsmoothed_diag in Hd. apply bind_ok in Hd as (iv & Hiv & Hd). apply bind_ok in Hd as (d0 & Hd0 & Hd).
  assert (Ed : [("r", d0)] = d) by (injection Hd; auto). subst d. exists c, [("r", d0)], st, iv, d0.
  split; [apply (@qdemo_experiment i c 3 Hc); cbn; lia|].
  split; [|split; [exact K|split; [exact Hiv|split; [exact Hd0|split; [reflexivity|]]]]].
  - clear K Hc. split; [change (NoDup ["r"]); constructor; [intros []|constructor]|]. intros nm x Hx. apply qdiag_okb_ok.
    cbn [dget] in Hx. destruct (String.eqb _ _); [|discriminate Hx]. injection Hx as <-. vm_compute in Hiv. injection Hiv as <-. vm_compute in Hd0. injection Hd0 as <-. vm_compute. reflexivity.
  - repeat constructor; cbn; lia.
Qed.
End Examples.

Print Assumptions C18_soundfield_interval.
Print Assumptions C18_soundfield.
Print Assumptions C18_soundfield_exported.
Print Assumptions C18_summary_exported.
Print Assumptions C18_spectrum_exported.
Print Assumptions C18_summary.
Print Assumptions C18_sum_splits.
Print Assumptions C18_spectrum.
Print Assumptions C19_stored.
Print Assumptions C19_independent_partial.
Print Assumptions C19_unsmoothed_partial.
Print Assumptions C19_refuted.
