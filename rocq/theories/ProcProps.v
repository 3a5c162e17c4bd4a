(** Properties of processors in a run: C03, C04, C06, C21. *)
Require Import Verif.PyBase Verif.PyLemmas Verif.ConfigModel Verif.ArrayModel Verif.ArraySpec Verif.ArrayProofs Verif.LoggerModel Verif.LoggerSpec Verif.LoggerProofs
  Verif.SimModel Verif.SimSpec Verif.SimRun Verif.SimDiag Verif.SimLoop Verif.SignalSpec Verif.SignalPass Verif.SignalRun Verif.SignalInv Verif.RunSpec Verif.RunLaw Verif.DiagRun
  Verif.DiagModel Verif.DiagSpec Verif.DiagProofs Verif.DiagCtorModel Verif.DiagCtorProofs Verif.SaveProps Verif.SignalProps Verif.ProcModel Verif.Demo Verif.DemoRun Verif.DemoSpy.
Set Implicit Arguments.
Arguments Z.add : simpl never.
Arguments Z.sub : simpl never.
Arguments Z.mul : simpl never.
Ltac Zify.zify_post_hook ::= Z.div_mod_to_equations.

(* ------------------------------------------------------------------ C06: rejection and termination *)
Section Loop.
Context {E : AEnv} {S : SEnv}.
(** C06.  More than one processor is rejected before anything happens. *)
Theorem C06_one_processor i c (procs : list proc) diags : 2 <= zlen procs -> run_simulation i c procs diags = Err NotImplementedError.
Proof. intros H. unfold run_simulation, prepare_simulation. destruct (Z.ltb_spec 1 (zlen procs)); [reflexivity|lia]. Qed.
(** The fuel given to the main loop is enough: it runs out only if a step itself reports so *)
Theorem C06_loop_ends i mbs st e : 0 <= sm_n st -> sim_loop i mbs (Z.to_nat (tot_samples i + mbs)) st = Err e ->
  exists st', sim_step i mbs st' = Err e.
Proof.
  assert (K : forall fuel st, tot_samples i + mbs - sm_n st <= Z.of_nat fuel -> sim_loop i mbs fuel st = Err e -> exists st', sim_step i mbs st' = Err e).
  { induction fuel as [|k IH]; intros s H1 H; cbn [sim_loop] in H; destruct (Z.ltb_spec (sm_n s) (tot_samples i + mbs)); try discriminate; try lia.
    destruct (sim_step i mbs s) as [s'|e'] eqn:Q; cbn [bind] in H; [|inversion H; subst; eauto]. apply (IH s'); auto.
    unfold sim_step in Q. apply bind_ok in Q as (c & _ & Q). apply bind_ok in Q as ([ps s1] & _ & Q). apply bind_ok in Q as ([[c2 s2] fs] & _ & Q).
    apply bind_ok in Q as (cp & _ & Q). apply bind_ok in Q as (dg & _ & Q). apply bind_ok in Q as (dd & _ & Q). inversion Q; subst s'. cbn [sm_n]. lia. }
  intros H0 H. eapply K; [|exact H]. lia.
Qed.
End Loop.

Section Run.
Context {E : AEnv} {DE : DEnv}.
Variables PS1 D0 Out0 : Type.
Variable dsave0 : D0 -> option (spied PS1) -> dict (list frame) -> Z * Z -> res D0.
Variable dout0 : D0 -> Z -> res Out0.
Local Instance SpS : SEnv := full dsave0 dout0.
Variables (bs h : Z) (locals : list (string * Z)) (step : PS1 -> dict (list frame) -> PS1 * dict (list frame)) (s0 : PS1).
(** any processor, with a log of its calls *)
Definition the_spy : @proc E SpS := spy (dg_save dsave0) (dg_out dout0) bs h locals step s0.
Variables (i : info) (c : coll E) (diags : dict (diag D)) (st : sim).
Notation procs := [the_spy].
Hypothesis HT : 0 <= tot_samples i.
Hypothesis HX : experiment i c procs.
Hypothesis HD : good_diags i diags.
Hypothesis HR : run_simulation i c procs diags = Ok st.
Notation sg := (signals_of i c procs).
Notation ds := (dims_of i c procs).

Lemma sizes : 1 <= bs /\ bs + 1 <= sim_buffer i /\ 0 <= h /\ bs - 1 + h <= sim_buffer i.
Proof. pose proof (ex_sizes HX) as (A & B & C & D & _). cbn [pr_bs pr_hist the_spy spy] in *. lia. Qed.
Lemma spy_after tl k : exists s log, state_after ds tl the_spy k = ((s, log) : PS) /\ zlen log = Z.of_nat k /\
  forall j, 0 <= j < Z.of_nat k -> zget log j = Some (window ds tl ((j + 1) * bs - h) ((j + 1) * bs), output_of ds tl the_spy (Z.to_nat (j + 1))).
Proof.
  induction k as [|k (s & log & IH1 & IH2 & IH3)].
  - exists s0, []. split; [reflexivity|]. split; [reflexivity|]. intros; lia.
  - cbn [state_after]. rewrite IH1. set (w := window ds tl _ _). destruct (step s w) as [s1 o] eqn:Q.
    exists s1, (log ++ [(w, o)]). split; [cbn; rewrite Q; reflexivity|]. split; [rewrite zlen_app; change (zlen [(w, o)]) with 1; lia|].
    intros j Hj. rewrite zget_app. destruct (Z.ltb_spec j (zlen log)); [apply IH3; lia|]. assert (j = Z.of_nat k) as -> by lia. rewrite IH2, Z.sub_diag. cbn [zget].
    unfold output_of. replace (Z.to_nat (Z.of_nat k + 1)) with (Datatypes.S k) by lia. replace (Datatypes.S k - 1)%nat with k by lia. rewrite IH1.
    replace (Z.of_nat k + 1) with (Z.of_nat (Datatypes.S k)) by lia. cbn [pr_step pr_bs pr_hist the_spy spy fst snd]. fold w. 
    change (pr_bs the_spy) with bs in w. change (pr_hist the_spy) with h in w. fold w. rewrite Q. reflexivity.
Qed.
Lemma window_get tl a b nm d : dget ds nm = Some d -> dget (window ds tl a b) nm = Some (map (tl nm) (zrange a b)).
Proof. unfold window. generalize ds. induction d0 as [|[k e] l IH]; cbn [dget map fst]; [discriminate|]. destruct (String.eqb_spec nm k); auto. subst; auto. Qed.

(** the final state of the processor and its log *)
Lemma final_log : exists p s log, sm_procs st = [p] /\ pr_state p = ((s, log) : PS) /\ zlen log = (tot_samples i + bs) / bs /\
  forall j, 0 <= j < zlen log -> zget log j = Some (window ds sg ((j + 1) * bs - h) ((j + 1) * bs), output_of ds sg the_spy (Z.to_nat (j + 1))).
Proof.
  destruct (proc_final HX HD HR) as (_ & _ & P). pose proof (run_longer HX HD HR) as HL. pose proof sizes as Hs.
  assert (Hn : Z.of_nat (run_length i procs) = tot_samples i + bs).
  { unfold run_length in *. cbn [max_block_size map fold_left pr_bs the_spy spy] in *. lia. }
  rewrite Hn in P. cbn [map] in P. change (pr_bs the_spy) with bs in P. destruct (spy_after sg (Z.to_nat ((tot_samples i + bs) / bs))) as (s & log & L1 & L2 & L3).
  eexists _, s, log. split; [exact P|]. cbn [pr_state]. split; [exact L1|]. assert (0 <= (tot_samples i + bs) / bs) by (apply Z.div_pos; lia). split; [lia|]. intros j Hj. apply L3. lia.
Qed.

(** C06.  The number of calls, and that they cover all samples *)
Theorem C06_calls : exists p s log, sm_procs st = [p] /\ pr_state p = ((s, log) : PS) /\
  zlen log = (tot_samples i + bs) / bs /\ tot_samples i <= zlen log * bs.
Proof.
  destruct final_log as (p & s & log & A & B & C & _). exists p, s, log. pose proof sizes. split; auto. split; auto. split; auto. rewrite C.
  rewrite Z.add_comm. replace (bs + tot_samples i) with (tot_samples i + 1 * bs) by lia. rewrite Z.div_add by lia. nia.
Qed.
(** the state that a diagnostic is handed at time step b (see C12_save_calls): the calls made by then are those at
    the steps block_size - 1, 2 * block_size - 1, ... up to b *)
Theorem C06_steps b : 0 <= b -> exists s log, proc_state i c procs b = Some ((s, log) : PS) /\ zlen log = (b + 1) / bs.
Proof.
  intros Hb. cbn [proc_state]. change (pr_bs the_spy) with bs. destruct (spy_after sg (Z.to_nat ((b + 1) / bs))) as (s & log & L1 & L2 & _). exists s, log. rewrite L1. split; auto.
  rewrite L2. apply Z2Nat.id. pose proof sizes. apply Z.div_pos; lia.
Qed.

(** C03.  [nm] is a signal with [num] channels recorded by the diagnostic dn.  Call number k finds in its window of h
    samples the recorded samples k * bs - h .. k * bs - 1. *)
Theorem C03_window dn nm num : records i diags dn nm num -> dget ds nm = Some num -> 0 <= num ->
  exists x p s log, recording i st dn x /\ sm_procs st = [p] /\ pr_state p = ((s, log) : PS) /\ zlen log = (tot_samples i + bs) / bs /\
    forall k, 1 <= k <= zlen log -> exists w o, zget log (k - 1) = Some (w, o) /\ dget w nm = Some (map x (zrange (k * bs - h) (k * bs))).
Proof.
  intros Hr Hn Hp. destruct final_log as (p & s & log & A & B & C & D). exists (sg nm), p, s, log. split; [eapply recorded_signal; eauto|].
  do 3 (split; auto). intros k Hk. eexists _, _. split; [rewrite D by lia; reflexivity|]. replace (k - 1 + 1) with k by lia. apply window_get with (d := num). auto.
Qed.
(** C04.  [nm] is a controllable source or a signal of the processor's own.  What call k returned for it is
    recorded as samples k * bs .. (k + 1) * bs - 1 (zero if the call returned nothing for it); zero before
    the first block. *)
Theorem C04_output dn nm num : processor_signal i c nm -> records i diags dn nm num -> dget ds nm = Some num -> 0 <= num ->
  exists x p s log, recording i st dn x /\ sm_procs st = [p] /\ pr_state p = ((s, log) : PS) /\ zlen log = (tot_samples i + bs) / bs /\
    (forall t, t < bs -> x t = zeros num) /\
    forall k j, 1 <= k <= zlen log -> 0 <= j < bs -> exists w o, zget log (k - 1) = Some (w, o) /\
      x (k * bs + j) = match dget o nm with Some y => shown num y j | None => zeros num end.
Proof.
  intros Hps Hr Hn Hp. destruct final_log as (p & s & log & A & B & C & D). exists (sg nm), p, s, log. split; [eapply recorded_signal; eauto|].
  do 3 (split; auto). pose proof sizes as Hs. pose proof (run_longer HX HD HR) as HL.
  assert (Hsil : silent ds nm = zeros num) by (unfold silent, silence; rewrite Hn; auto).
  assert (HN : Z.of_nat (run_length i procs) = tot_samples i + bs).
  { unfold run_length in *. cbn [max_block_size map fold_left pr_bs the_spy spy] in *. lia. }
  split.
  - intros t Ht. rewrite (written_law HX HD HR t Hps). unfold written. change (pr_bs the_spy) with bs. destruct (Z.leb_spec 1 (t / bs)); auto. exfalso. nia.
  - intros k j Hk Hj. eexists _, _. split; [rewrite D by lia; reflexivity|]. rewrite (written_law HX HD HR _ Hps). unfold written. change (pr_bs the_spy) with bs.
    assert ((k * bs + j) / bs = k) as -> by (symmetry; apply Z.div_unique with (r := j); lia). replace (k - 1 + 1) with k by lia. rewrite HN.
    assert (k * bs <= tot_samples i + bs). { rewrite C in Hk. assert ((tot_samples i + bs) / bs * bs <= tot_samples i + bs) by (rewrite Z.mul_comm; apply Z.mul_div_le; lia). nia. }
    destruct (Z.leb_spec 1 k); [|lia]. destruct (Z.leb_spec (k * bs) (tot_samples i + bs)); [|lia]. cbn [andb]. replace (k * bs + j - k * bs) with j by lia. rewrite Hn, Hsil. auto.
Qed.
End Run.

(* ------------------------------------------------------------------ C21 *)
Section Debug.
Context {E : AEnv} {DE : DEnv}.
Variables D0 Out0 : Type.
Variable dsave0 : D0 -> option debug_state -> dict (list frame) -> Z * Z -> res D0.
Variable dout0 : D0 -> Z -> res Out0.
Local Instance DbS : SEnv := full dsave0 dout0.
(** DebugProcessor(sim_info, arrays, bs) for a microphone array with nm and a loudspeaker array with nl elements *)
Definition debug (tot bs nm nl : Z) : @proc E DbS :=
  @mkProc E DbS bs bs [] (debug_process tot bs) (debug_init nm nl tot).

(** the first m columns filled with f, zero after *)
Definition filled (tot n : Z) (f : Z -> frame) (m : Z) : list frame :=
  map f (zrange 0 (Z.min tot m)) ++ zrep (tot - Z.min tot m) (zeros n).
Lemma filled_step tot n f m : 0 <= m < tot -> zset (filled tot n f m) m (f m) = filled tot n f (m + 1).
Proof.
  intros Hm. unfold filled. rewrite !Z.min_r by lia. apply zget_ext. intros j. rewrite zget_zset, !zget_app, !zlen_app, !zlen_map, !zlen_zrange, !zlen_zrep, !zget_map, !zget_zrange, !zget_zrep.
  destruct (Z.eqb_spec j m).
  - subst j. destruct (Z.ltb_spec m (Z.max 0 (m - 0) + Z.max 0 (tot - m))); [|lia]. destruct (Z.leb_spec 0 m); [|lia]. cbn [andb]. destruct (Z.ltb_spec m (Z.max 0 (m + 1 - 0))); [|lia].
    destruct (Z.ltb_spec m (m + 1 - 0)); [|lia]. cbn [option_map]. reflexivity.
  - cbn [andb]. destruct (Z.ltb_spec j (Z.max 0 (m - 0))), (Z.ltb_spec j (Z.max 0 (m + 1 - 0))); try lia.
    + destruct (Z.leb_spec 0 j), (Z.ltb_spec j (m - 0)), (Z.ltb_spec j (m + 1 - 0)); cbn [andb]; auto; lia.
    + destruct (Z.leb_spec 0 (j - Z.max 0 (m - 0))), (Z.ltb_spec (j - Z.max 0 (m - 0)) (tot - m)), (Z.leb_spec 0 (j - Z.max 0 (m + 1 - 0))), (Z.ltb_spec (j - Z.max 0 (m + 1 - 0)) (tot - (m + 1))); cbn [andb]; auto; lia.
Qed.
Lemma rounds tot n1 n2 f g : 0 <= tot -> forall k m s, 0 <= m -> s = mkDebug (dp_processed s) (Z.min tot m) (filled tot n1 f m) (filled tot n2 g m) ->
  fold_left (debug_round tot) (combine (zrange (dp_idx s) (dp_idx s + Z.of_nat k)) (combine (map f (zrange m (m + Z.of_nat k))) (map g (zrange m (m + Z.of_nat k))))) s =
  mkDebug (dp_processed s) (Z.min tot (m + Z.of_nat k)) (filled tot n1 f (m + Z.of_nat k)) (filled tot n2 g (m + Z.of_nat k)).
Proof.
  intros Ht. assert (Full : forall n h m, tot <= m -> filled tot n h m = filled tot n h tot) by (intros; unfold filled; rewrite !Z.min_l by lia; auto).
  (* past the end nothing is stored *)
  assert (Past : forall l s, Forall (fun r => tot <= fst r) l -> fold_left (debug_round tot) l s = s).
  { induction l as [|[a [x y]] l IH]; intros s HF; auto. inversion HF; subst. cbn [fold_left debug_round fst] in *. destruct (Z.ltb_spec a tot); [lia|]. auto. }
  assert (InF : forall (l : list Z) (r : list (frame * frame)) q, In q (combine l r) -> In (fst q) l) by (intros l r [a b] Hq; eapply in_combine_l; eauto).
  (* column index [a] is the time [m] as long as it is below tot *)
  assert (K : forall k m s, 0 <= m -> s = mkDebug (dp_processed s) (Z.min tot m) (filled tot n1 f m) (filled tot n2 g m) ->
    fold_left (debug_round tot) (combine (zrange m (m + Z.of_nat k)) (combine (map f (zrange m (m + Z.of_nat k))) (map g (zrange m (m + Z.of_nat k))))) s =
    mkDebug (dp_processed s) (Z.min tot (m + Z.of_nat k)) (filled tot n1 f (m + Z.of_nat k)) (filled tot n2 g (m + Z.of_nat k))).
  { induction k as [|k IH]; intros m s Hm Hs.
    - rewrite zrange_empty by lia. cbn [map combine fold_left]. rewrite Z.add_0_r. auto.
    - rewrite (@zrange_cons m) by lia. cbn [map combine fold_left]. replace (m + Z.of_nat (S k)) with (m + 1 + Z.of_nat k) by lia. rewrite IH; try lia.
      + f_equal. cbn [debug_round]. destruct (m <? tot); auto.
      + cbn [debug_round]. destruct (Z.ltb_spec m tot).
        * cbn [dp_processed]. rewrite Hs. cbn [dp_mic dp_ls dp_idx]. rewrite !filled_step by lia. f_equal; lia.
        * rewrite Hs. cbn [dp_processed]. rewrite !(Full _ _ (m + 1)), !(Full _ _ m) by lia. f_equal. lia. }
  intros k m s Hm Hs. destruct (Z.ltb_spec m tot).
  - assert (dp_idx s = m) as -> by (rewrite Hs; cbn [dp_idx]; lia). apply K; auto.
  - rewrite Past.
    + rewrite Hs at 1. rewrite !(Full _ _ (m + Z.of_nat k)), !(Full _ _ m) by lia. f_equal. lia.
    + apply Forall_forall. intros q Hq. apply InF in Hq. apply In_zrange in Hq. rewrite Hs in Hq. cbn [dp_idx] in Hq. lia.
Qed.

Variables (bs : Z) (i : info) (c : coll E) (diags : dict (diag D)) (st : sim) (a b : arr Pos Src).
Hypothesis Ha : the_array c "mic" a.
Hypothesis Hb : the_array c "loudspeaker" b.
Notation p0 := (debug (tot_samples i) bs (a_num a) (a_num b)).
Notation procs := [p0].
Hypothesis HT : 0 <= tot_samples i.
Hypothesis HX : experiment i c procs.
Hypothesis HD : good_diags i diags.
Hypothesis HR : run_simulation i c procs diags = Ok st.
Notation sg := (signals_of i c procs).
Notation ds := (dims_of i c procs).

Lemma debug_bs : 1 <= bs.
Proof. pose proof (ex_sizes HX) as (A & _). exact A. Qed.
Lemma debug_windows u v : dget (window ds sg u v) "mic" = Some (map (sg "mic"%string) (zrange u v)) /\
  dget (window ds sg u v) "loudspeaker" = Some (map (sg "loudspeaker"%string) (zrange u v)).
Proof.
  assert (W : forall nm d, dget ds nm = Some d -> dget (window ds sg u v) nm = Some (map (sg nm) (zrange u v))).
  { unfold window. generalize ds. intros l nm d. induction l as [|[k e] l IH]; cbn [dget map fst]; [discriminate|]. destruct (String.eqb_spec nm k); auto. subst; auto. }
  split; eapply W; eapply (array_dim HX HD HR); eassumption.
Qed.
Lemma debug_after k : state_after ds sg p0 k =
  (mkDebug (Z.of_nat k * bs) (Z.min (tot_samples i) (Z.of_nat k * bs))
    (filled (tot_samples i) (a_num a) (sg "mic"%string) (Z.of_nat k * bs)) (filled (tot_samples i) (a_num b) (sg "loudspeaker"%string) (Z.of_nat k * bs)) : PS).
Proof.
  induction k as [|k IH].
  - cbn. rewrite Z.mul_0_l, Z.min_r by lia. unfold filled. rewrite Z.min_r by lia. cbn. rewrite Z.sub_0_r. reflexivity.
  - cbn [state_after]. rewrite IH. change (pr_bs p0) with bs. change (pr_hist p0) with bs. cbn [pr_step debug].
    destruct (debug_windows (Z.of_nat (Datatypes.S k) * bs - bs) (Z.of_nat (Datatypes.S k) * bs)) as [W1 W2]. unfold debug_process. rewrite W1, W2. cbn [fst].
    pose proof debug_bs as Hbs. replace (Z.of_nat (Datatypes.S k) * bs) with (Z.of_nat k * bs + Z.of_nat (Z.to_nat bs)) by lia. replace (Z.of_nat k * bs + Z.of_nat (Z.to_nat bs) - bs) with (Z.of_nat k * bs) by lia.
    set (s := mkDebug (Z.of_nat k * bs) _ _ _). pose proof (@rounds (tot_samples i) (a_num a) (a_num b) (sg "mic"%string) (sg "loudspeaker"%string) HT (Z.to_nat bs) (Z.of_nat k * bs) s ltac:(nia) eq_refl) as K.
    replace (dp_idx s + Z.of_nat (Z.to_nat bs)) with (dp_idx s + bs) in K by lia. rewrite K. subst s. cbn [dp_processed dp_idx dp_mic dp_ls]. f_equal. lia.
Qed.
(** C21.  The processor's logs are the recordings of the two arrays, and the loudspeaker plays the microphone signal
    delayed by block_size (zero before). *)
Theorem C21_debug dm dl : is_mic a = true -> a_kind b = KCtrl -> a_num b = a_num a ->
  records i diags dm "mic" (a_num a) -> records i diags dl "loudspeaker" (a_num b) ->
  exists (x y : Z -> frame) p s, recording i st dm x /\ recording i st dl y /\ sm_procs st = [p] /\ pr_state p = (s : PS) /\
    dp_mic s = map x (zrange 0 (tot_samples i)) /\ dp_ls s = map y (zrange 0 (tot_samples i)) /\
    forall t, t < tot_samples i -> y t = if t <? bs then zeros (a_num b) else x (t - bs).
Proof.
  intros Hm Hl Hn R1 R2. destruct (proc_final HX HD HR) as (_ & _ & P). pose proof (run_longer HX HD HR) as HL. pose proof debug_bs as Hs.
  assert (HN : Z.of_nat (run_length i procs) = tot_samples i + bs) by (unfold run_length in *; cbn [max_block_size map fold_left pr_bs debug] in *; lia).
  rewrite HN in P. cbn [map] in P. change (pr_bs p0) with bs in P. rewrite debug_after in P.
  assert (Hk : tot_samples i <= Z.of_nat (Z.to_nat ((tot_samples i + bs) / bs)) * bs).
  { rewrite Z2Nat.id by (apply Z.div_pos; lia). replace (tot_samples i + bs) with (tot_samples i + 1 * bs) by lia. rewrite Z.div_add by lia. nia. }
  exists (sg "mic"%string), (sg "loudspeaker"%string). eexists _, _. split; [eapply (recorded_array HX HD HR); eauto|]. split; [eapply (recorded_array HX HD HR); eauto|].
  split; [exact P|]. split; [reflexivity|]. cbn [dp_mic dp_ls]. unfold filled. rewrite Z.min_l, Z.sub_diag by lia. change (zrep 0 (zeros (a_num a))) with (@nil (@frame E)). change (zrep 0 (zeros (a_num b))) with (@nil (@frame E)).
  rewrite !app_nil_r. do 2 (split; auto). intros t Ht.
  assert (Hps : processor_signal i c "loudspeaker").
  { destruct (ex_coll HX) as [_ K1 K2 K3 K4 _ _].
    assert (NF : ~ In "loudspeaker"%string (c_free c)). { rewrite K4. intros Hin. apply in_map_iff in Hin as ([k a'] & Q & Hin). apply filter_In in Hin as [Hin Hf]. cbn [fst snd] in *. subst k.
      assert (dget (c_arrays c) "loudspeaker" = Some a') as Q2 by (apply In_dget; auto; apply HX). unfold the_array in Hb. rewrite Hb in Q2. inversion Q2; subst a'. unfold is_free in Hf. rewrite Hl in Hf. discriminate Hf. }
    assert (NM : ~ In "loudspeaker"%string (c_mic c)). { rewrite K2. intros Hin. apply in_map_iff in Hin as ([k a'] & Q & Hin). apply filter_In in Hin as [Hin Hf]. cbn [fst snd] in *. subst k.
      assert (dget (c_arrays c) "loudspeaker" = Some a') as Q2 by (apply In_dget; auto; apply HX). unfold the_array in Hb. rewrite Hb in Q2. inversion Q2; subst a'. unfold is_mic in Hf. rewrite Hl in Hf. discriminate Hf. }
    split; auto. split; auto. intros Hc s m Hs' Hm'. destruct (run_facts HX HD HR) as (r & P' & H1 & Hb' & Hds & Hr & Es & C1 & C2 & C3 & HNm & _). apply (no_arr HNm Hc) with (a := b); auto. }
  rewrite (written_law HX HD HR t Hps). unfold written. change (pr_bs p0) with bs. assert (Hdb : dget ds "loudspeaker" = Some (a_num b)) by exact (array_dim HX HD HR Hb).
  assert (Hsil : silent ds "loudspeaker" = zeros (a_num b)) by (unfold silent, silence; rewrite Hdb; auto).
  destruct (Z.ltb_spec t bs); [destruct (Z.leb_spec 1 (t / bs)); auto; nia|]. destruct (Z.leb_spec 1 (t / bs)); [|nia]. destruct (Z.leb_spec (t / bs * bs) (Z.of_nat (run_length i procs))); [|nia]. cbn [andb].
  unfold output_of. rewrite debug_after. change (pr_bs p0) with bs. change (pr_hist p0) with bs. cbn [pr_step debug]. unfold debug_process.
  assert (1 <= t / bs) as Hq by auto. rewrite Z2Nat.id by lia.
  destruct (debug_windows (t / bs * bs - bs) (t / bs * bs)) as [W1 W2]. rewrite W1, W2. cbn [snd]. change (dget [("loudspeaker"%string, ?x)] "loudspeaker") with (Some x). cbv iota. rewrite Hdb.
  set (q := t / bs * bs) in *. assert (Hr : q <= t < q + bs) by (subst q; lia).
  assert (Z0 : zget (map (sg "mic"%string) (zrange (q - bs) q)) (t - q) = Some (sg "mic"%string (t - bs))).
  { rewrite zget_map, zget_zrange. destruct ((0 <=? t - q) && (t - q <? q - (q - bs))) eqn:Q; [|lia]. cbn [option_map]. do 2 f_equal. lia. }
  assert (W : zlen (sg "mic"%string (t - bs)) = a_num a).
  { rewrite (signal_width HX HD HR _ (t - bs) (array_dim HX HD HR Ha)). assert (0 <= a_num a) by (eapply (ex_counts HX); exact Ha). lia. }
  assert (K : shown (a_num a) (map (sg "mic"%string) (zrange (q - bs) q)) (t - q) = sg "mic"%string (t - bs)).
  { unfold shown. destruct (Z.eq_dec bs 1) as [Q|].
    - rewrite (@zrange_cons (q - bs)), (@zrange_empty (q - bs + 1)) by lia. cbn [map]. replace (t - bs) with (q - bs) in * by lia. apply shown_wide. auto.
    - rewrite (@zrange_cons (q - bs)), (@zrange_cons (q - bs + 1)) in * by lia. cbn [map] in *. etransitivity; [|apply (@shown_wide _ (a_num a)); exact W]. unfold frame in *. rewrite Z0. reflexivity. }
  etransitivity; [|exact K]. apply (f_equal (fun d => shown d _ _)). exact Hn.
Qed.
End Debug.

(* ------------------------------------------------------------------ Examples *)
Section Examples.
Local Open Scope string_scope.
Local Existing Instances demo demo_d spy_s.
Let i1 := run_info 10 5 false false.

Example C06_one_processor_example : 2 <= zlen [sspy 3 3; sspy 2 2].
Proof. cbn. lia. Qed.
(** a buffer of 4 samples is too small for a window of 3 samples and blocks of 3: the loop stops at an error *)
Example C06_loop_ends_example : exists st e, 0 <= sm_n st /\ sim_loop (run_info 4 5 false false) 3 (Z.to_nat (tot_samples (run_info 4 5 false false) + 3)) st = Err e.
Proof.
  destruct (@bind_is_ok _ _ (coll_of (run_info 4 5 false false) (room None)) (fun c => prepare_simulation (run_info 4 5 false false) c [sspy 3 3] [])) as (c & st & Hc & Hp); [vm_compute; reflexivity|].
  assert (K : get (c <- coll_of (run_info 4 5 false false) (room None) ;; prepare_simulation (run_info 4 5 false false) c [sspy 3 3] [])
    (fun st => (sm_n st, is_ok (sim_loop (run_info 4 5 false false) 3 (Z.to_nat (tot_samples (run_info 4 5 false false) + 3)) st))) = Some (0, false)) by (vm_compute; reflexivity).
  rewrite Hc in K. cbn [bind] in K. rewrite Hp in K. cbn [get] in K.
  pose proof (f_equal (fun o => match o with Some x => fst x | None => 1 end) K) as K1. pose proof (f_equal (fun o => match o with Some x => snd x | None => true end) K) as K2. clear K. cbv beta iota delta [fst snd] in K1, K2.
  exists st.
  destruct (sim_loop (run_info 4 5 false false) 3 (Z.to_nat (tot_samples (run_info 4 5 false false) + 3)) st) as [q|e] eqn:Q; [change (is_ok (Ok q : res (@sim demo spy_s)) = false) in K2; discriminate K2|].
  exists e. split; [rewrite K1; apply Z.le_refl|reflexivity].
Qed.

(** the hypotheses of C06, C03 and C04: window of 3 samples, blocks of 3 *)
Example C03_example : exists c diags st, 0 <= tot_samples i1 /\ experiment i1 c [the_spy no_save no_out 3 3 [] (play 3) 0] /\ good_diags i1 diags /\
  run_simulation i1 c [the_spy no_save no_out 3 3 [] (play 3) 0] diags = Ok st /\
  (forall nm, In nm ["mic"; "src"; "spk"] -> records i1 diags nm nm 1 /\ dget (dims_of i1 c [the_spy no_save no_out 3 3 [] (play 3) 0]) nm = Some 1) /\
  processor_signal i1 c "spk".
Proof.
  destruct (spy_meets i1 (room None) 3 3) as (c & d & st & Hc & Hd & Hs & A & B & C); [vm_compute; reflexivity|apply room_sized|cbn; lia|vm_compute; reflexivity|].
  pose proof (coll_is _ _ (fun c => (dims_of i1 c [sspy 3 3], c_free c, c_mic c)) Hc (ltac:(vm_compute; reflexivity))) as Q. injection Q as Q1 Q2 Q3.
  exists c, d, st. split; [cbn; lia|]. split; [exact A|]. split; [exact B|]. split; [exact C|]. split.
  - intros nm Hn. split; [apply spy_records; auto|]. change (dget (dims_of i1 c [sspy 3 3]) nm = Some 1). rewrite Q1. destruct Hn as [<-|[<-|[<-|[]]]]; reflexivity.
  - split; [rewrite Q2; intros [K|[]]; discriminate K|]. split; [rewrite Q3; intros [K|[]]; discriminate K|]. intros K. discriminate K.
Qed.
(** (12 + 3) / 3 = 5 calls, with the microphone samples -0..2, 3..5, 6..8, 9..11, 12..14 *)
Example C03_values : wins "mic" (spy_run i1 (room None) 3 3) =
  map (fun l => Some (map (fun x => [x]) l)) [[0; 0; 5]; [6; 7; 8]; [14; 16; 18]; [20; 27; 30]; [33; 36; 44]].
Proof. vm_compute; reflexivity. Qed.

(** the debug processor in a room with arrays of the names it asks for *)
Definition debug_room : list (arr Pos Src) := [one "mic" KMic 0 None; one "src" KFree 2 None; one "loudspeaker" KCtrl 1 None].
Definition debug_no_save (d : Empty_set) (_ : option debug_state) (_ : dict (list (@frame demo))) (_ : Z * Z) : res Empty_set := match d with end.
Definition debug_s : @SEnv demo := full debug_no_save no_out.
Definition debug_diags (i : info) : res (dict (diag (@D demo debug_s))) :=
  a <- (r <- record_signal "mic" 1 None (tot_samples i) ;; signal_diag_init i ANone None (DRecordSignal r : @D demo debug_s)) ;;
  b <- (r <- record_signal "loudspeaker" 1 None (tot_samples i) ;; signal_diag_init i ANone None (DRecordSignal r : @D demo debug_s)) ;;
  Ok [("m", a); ("l", b)].
Definition debug1 : @proc demo debug_s := debug debug_no_save no_out (tot_samples i1) 3 1 1.
Example C21_example : exists c diags st a b, the_array c "mic" a /\ the_array c "loudspeaker" b /\ 0 <= tot_samples i1 /\
  experiment i1 c [debug debug_no_save no_out (tot_samples i1) 3 (a_num a) (a_num b)] /\ good_diags i1 diags /\
  @run_simulation demo debug_s i1 c [debug debug_no_save no_out (tot_samples i1) 3 (a_num a) (a_num b)] diags = Ok st /\
  is_mic a = true /\ a_kind b = KCtrl /\ a_num b = a_num a /\ records (dsave0 := debug_no_save) (dout0 := no_out) i1 diags "m" "mic" (a_num a) /\ records (dsave0 := debug_no_save) (dout0 := no_out) i1 diags "l" "loudspeaker" (a_num b).
Proof.
  destruct (@bind_is_ok _ _ (coll_of i1 debug_room) (fun c => d <- debug_diags i1 ;; @run_simulation demo debug_s i1 c [debug1] d)) as (c & st & Hc & H); [vm_compute; reflexivity|].
  apply bind_ok in H as (d & Hd & H).
  pose proof (coll_is _ _ (fun c => c_arrays c) Hc (ltac:(vm_compute; reflexivity))) as Q1. cbv beta in Q1.
  assert (HG : get (debug_diags i1) (fun l => forallb (fun kd => diag_okb i1 (snd kd)) l) = Some true) by (vm_compute; reflexivity). rewrite Hd in HG. cbn [get] in HG.
  apply (f_equal (fun o => match o with Some b => b | None => false end)) in HG. cbv beta iota in HG.
  unfold debug_diags in Hd. apply bind_ok in Hd as (x & Hx & Hd). apply bind_ok in Hd as (y & Hy & Hd). injection Hd as Hd. subst d. apply bind_ok in Hx as (rx & Hx1 & Hx2). apply bind_ok in Hy as (ry & Hy1 & Hy2).
  exists c, [("m", x); ("l", y)], st. eexists. eexists. split; [unfold the_array; rewrite Q1; reflexivity|]. split; [unfold the_array; rewrite Q1; reflexivity|]. cbn [a_num].
  split; [cbn; lia|]. split.
  { apply (coll_experiment debug_s i1 debug_room c [debug1]); [repeat constructor; simpl; intros; auto; discriminate|exact Hc|cbn; lia|].
    repeat constructor. intros s w. cbn. unfold debug_process. destruct (dget w "mic"), (dget w "loudspeaker"); cbn; repeat constructor; intros []. }
  split; [apply good_of; [repeat constructor; simpl; intuition discriminate|exact HG]|]. split; [exact H|]. split; [reflexivity|]. split; [reflexivity|]. split; [reflexivity|].
  split; [exists ANone, rx, x|exists ANone, ry, y]; (split; [assumption|]; split; [assumption|reflexivity]).
Qed.
End Examples.

Print Assumptions C03_window.
Print Assumptions C04_output.
Print Assumptions C06_one_processor.
Print Assumptions C06_loop_ends.
Print Assumptions C06_calls.
Print Assumptions C06_steps.
Print Assumptions C21_debug.
