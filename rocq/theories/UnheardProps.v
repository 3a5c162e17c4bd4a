(** C145: sources whose path to a microphone has the type none. *)
Require Import Verif.PyBase Verif.PyLemmas Verif.ConfigModel Verif.ArrayModel Verif.ArraySpec Verif.ArrayProofs Verif.ArrayPaths Verif.LoggerModel Verif.LoggerSpec Verif.LoggerProofs
  Verif.SimModel Verif.SimSpec Verif.SimRefine Verif.SimRun Verif.SimDiag Verif.SimLoop Verif.SignalSpec Verif.SignalPass Verif.SignalRun Verif.SignalLaw Verif.SignalInv Verif.RunSpec Verif.RunLaw Verif.DiagRun
  Verif.DiagModel Verif.DiagSpec Verif.DiagProofs Verif.DiagCtorModel Verif.DiagCtorProofs Verif.SaveProps Verif.ProcModel Verif.Demo Verif.DemoRun Verif.DemoSpy Verif.SignalProps Verif.DemoFun Verif.CausalProps Verif.MotionProps Verif.GroupProps Verif.WayProps Verif.DirectProps.
Require Import Permutation Ring.
Set Implicit Arguments.
Arguments Z.add : simpl never.
Arguments Z.sub : simpl never.
Arguments Z.mul : simpl never.
Ltac Zify.zify_post_hook ::= Z.div_mod_to_equations.

Section Unheard.
Context {E : AEnv} {DE : DEnv}.
Notation arr := (arr Pos Src).
Variables PS0 D0 Out0 : Type.
Variable dsave0 : D0 -> option PS0 -> dict (list frame) -> Z * Z -> res D0.
Variable dout0 : D0 -> Z -> res Out0.
Local Instance UnS : SEnv := full dsave0 dout0.
(** samples are added and multiplied like exact numbers (rounding is not modelled) *)
Hypothesis Numbers : semi_ring_theory (v0 : V) v1 vadd vmul eq.
Add Ring VNumbers6 : Numbers.

Variables (i inf : info) (c0 c : coll E) (procs : list (@proc E UnS)) (diags : dict (diag D)) (st : sim).
Hypothesis O0 : coll_ok c0.
Hypothesis HS : setup_ir c0 inf = Ok c.
Hypothesis HX : experiment i c procs.
Hypothesis HD : good_diags i diags.
Hypothesis HR : run_simulation i c procs diags = Ok st.

(** the channels of the sources of which the path to m has a type other than none *)
Definition heard_by (m : string) : list speaker := filter (fun v => match lookup2 (c_ptypes c0) (fst v) m with Some ty => negb (String.eqb ty "none") | None => true end) (channels c0).
(** The high-pass filter turns impulse responses of zeros into impulse responses of zeros *)
Definition keeps_silence : Prop := forall p : path V, (forall k j n, coef p k j n = v0) -> forall k j n, coef (filter_rirs p (samplerate inf) (highpass_cutoff inf)) k j n = v0.

Lemma none_silent t s m p : (0 < highpass_cutoff inf -> keeps_silence) -> can_be_in_force inf c0 t s m p -> lookup2 (c_ptypes c0) s m = Some "none"%string -> forall k j n, coef p k j n = v0.
Proof.
  intros HF HP T. destruct HP as [(a & b & ty & g & g' & _ & _ & T' & (q & R & Q))|[T' _]]; [|congruence].
  assert (ty = "none"%string) by congruence. subst ty. assert (K : forall k j n, coef q k j n = v0).
  { intros k j n. inversion R; subst; try discriminate. unfold coef. destruct (_ && _ && _) eqn:L; [|reflexivity]. replace n with 0 by lia. auto. }
  subst p. destruct (Z.ltb_spec 0 (highpass_cutoff inf)) as [C|C]; [|exact K]. apply (HF C), K.
Qed.

(** C145.  A microphone array, moving or not, hears through paths that were made for the places of the arrays (or provided by
    the user) the channels of those sources whose path to it has another type than none, and nothing else: whatever the
    sources of type none play, no term of the sum depends on it. *)
Theorem C145_unheard m b dn : (0 < highpass_cutoff inf -> keeps_silence) -> In m (c_mic c0) -> the_array c0 m b -> mic_untouched procs m -> records i diags dn m (a_num b) ->
  exists P : Z -> string -> path V, (forall t s, 0 <= t < tot_samples i -> In s (c_src c0) -> can_be_in_force inf c0 t s m (P t s)) /\
  exists x : Z -> frame, recording i st dn x /\ forall t j, 0 <= t < tot_samples i -> 0 <= j < a_num b ->
    chan (x t) j = vsum (map (fun v => hears (P t (fst v)) (snd v) j (fun u => chan (signals_of i c procs (fst v) u) (snd v)) t) (heard_by m)).
Proof.
  intros HF Hm Hb Hu R. destruct (way_law Numbers inf O0 HS HX HD HR) as (P & F & L). pose proof (run_longer HX HD HR) as RL.
  exists (fun t s => P t s m). split. { intros t s Ht Hs. assert (B : 0 <= t <= Z.of_nat (run_length i procs)) by lia. exact (F t s m B Hs Hm). } exists (signals_of i c procs m).
  split; [eapply (recorded_array HX HD HR); eauto; eapply array_after; eauto|]. intros t j Ht Hj.
  assert (B : 0 <= t <= Z.of_nat (run_length i procs)) by lia. transitivity (vsum (map (fun v => hears (P t (fst v) m) (snd v) j (voice i c procs v) t) (channels c0))); [exact (L m b t j Hm Hb Hu B Hj)|].
  assert (Src : forall v, In v (channels c0) -> In (fst v) (c_src c0)).
  { intros v Hv. unfold channels in Hv. apply in_flat_map in Hv as (s & Hs & Hv). destruct (dget (c_arrays c0) s); [|destruct Hv]. apply in_map_iff in Hv as (k & <- & _). exact Hs. }
  unfold heard_by. clear L. induction (channels c0) as [|v l IH]; [reflexivity|]. cbn [map filter]. rewrite (sum_cons Numbers), IH by (intros; apply Src; right; auto).
  destruct (lookup2 (c_ptypes c0) (fst v) m) as [ty|] eqn:T; [destruct (String.eqb_spec ty "none")|]; cbn [negb map]; try (rewrite (sum_cons Numbers); reflexivity).
  subst ty. replace (hears (P t (fst v) m) (snd v) j (voice i c procs v) t) with (v0 : V); [ring|]. symmetry. unfold hears. apply (sum_none Numbers), Forall_forall. intros n _.
  rewrite (@none_silent t (fst v) m _ HF (F t (fst v) m B (Src v (or_introl eq_refl)) Hm) T). ring.
Qed.
(** If all of its paths have the type none, it records silence. *)
Theorem C145_silence m b dn : (0 < highpass_cutoff inf -> keeps_silence) -> In m (c_mic c0) -> the_array c0 m b -> mic_untouched procs m -> records i diags dn m (a_num b) ->
  (forall s, In s (c_src c0) -> lookup2 (c_ptypes c0) s m = Some "none"%string) ->
  exists x : Z -> frame, recording i st dn x /\ forall t j, 0 <= t < tot_samples i -> 0 <= j < a_num b -> chan (x t) j = v0.
Proof.
  intros HF Hm Hb Hu R HT. destruct (C145_unheard HF Hm Hb Hu R) as (P & _ & x & X & L). exists x. split; [exact X|]. intros t j Ht Hj. rewrite (L t j Ht Hj).
  replace (heard_by m) with (@nil speaker); [apply (sum_nil (E := E))|]. symmetry. unfold heard_by, channels. induction (c_src c0) as [|s l IH]; [reflexivity|]. cbn [flat_map]. rewrite filter_app, IH, app_nil_r by (intros; apply HT; right; auto).
  destruct (dget (c_arrays c0) s); [|reflexivity]. induction (zrange 0 (a_num a)) as [|k r IHr]; [reflexivity|]. cbn [map filter fst]. rewrite HT by (left; reflexivity). exact IHr.
Qed.
End Unheard.

(* ------------------------------------------------------------------ Examples *)
Section Examples.
Local Open Scope string_scope.
Local Existing Instances fdemo fdemo_d fdemo_s.
(** the hypotheses, with a high-pass filter, which is the identity in this world; the generator noise is not heard *)
Example C145_unheard_meets : semi_ring_theory 0%Z 1%Z Z.add Z.mul eq /\ (0 < highpass_cutoff dfilter)%Z /\ keeps_silence (E := fdemo) dfilter /\ exists c0 c d st b, coll_ok c0 /\ setup_ir c0 dfilter = Ok c /\
  experiment dfilter c [fecho 3 5] /\ good_diags dfilter d /\ run_simulation dfilter c [fecho 3 5] d = Ok st /\ In "mic" (c_mic c0) /\ the_array c0 "mic" b /\ mic_untouched [fecho 3 5] "mic" /\ records dfilter d "mic" "mic" (a_num b) /\
  heard_by (E := fdemo) c0 "mic" = [("src", 0%Z); ("spk", 0%Z)].
Proof.
  split; [constructor; intros; ring|]. split; [reflexivity|]. split; [intros p K; exact K|].
  assert (H : is_ok (drun_of darrays "direct" "none" "direct" [fecho 3 5] dfilter dnames) = true) by (vm_compute; reflexivity).
  assert (W : Forall (fun p : @proc fdemo fdemo_s => forall s w, NoDup (dkeys (snd (pr_step p s w)))) [fecho 3 5]).
  { constructor; [|constructor]. intros s w. cbn. destruct (dget w "mic"); cbn; repeat constructor. intros []. }
  assert (S : Forall (sized (fun _ => 1%Z)) darrays) by (repeat constructor; simpl; intros; auto; discriminate).
  assert (N : NoDup dnames) by (repeat constructor; simpl; intuition discriminate).
  assert (U : supported dfilter [fecho 3 5]) by (cbn; lia).
  assert (G0 : get (frecorders dfilter dnames) (fun l => forallb (fun kd => diag_okb dfilter (snd kd)) l) = Some true) by (vm_compute; reflexivity).
  destruct (@drun_meets darrays "direct" "none" "direct" [fecho 3 5] dfilter dnames H S U W N G0) as (c0 & c & d & st & H0 & O & Hc & Hd & A & B & C & Q). clear H S U W N G0.
  destruct (@direct_case dfilter c0 d H0 Hd) as (b & P1 & P2 & P3 & P4 & P5 & P6 & P7 & P8 & P9 & _). destruct (facts H0) as (_ & _ & _ & Q4).
  exists c0, c, d, st, b. repeat (split; [assumption|]). unfold heard_by. rewrite P8, Q4. reflexivity.
Qed.
(** another signal of the generator that is not heard changes its own recording, not that of the microphone *)
Let up (t : Z) : Z := (t + 5)%Z.
Let away (t : Z) : Z := (t / 2)%Z.
Let loud (t : Z) : Z := (100 * t)%Z.
Definition louder : list (arr Pos Src) := [fone "mic" KMic 0 (Some away) None; fone "src" KFree 0 None (Some up); fone "noise" KFree 3 None (Some loud); fone "spk" KCtrl 1 None None].
Notation with_noise l ty := (drun_of l "direct" ty "ism" [fecho 3 5] dinfo dnames).
Example C145_values : frecs (with_noise darrays "none") ["mic"] = frecs (with_noise louder "none") ["mic"] /\ frecs (with_noise darrays "none") ["noise"] <> frecs (with_noise louder "none") ["noise"] /\
  frecs (with_noise darrays "ism") ["mic"] <> frecs (with_noise louder "ism") ["mic"].
Proof. split; [vm_compute; reflexivity|]. split; vm_compute; discriminate. Qed.
(** a run in which nothing is heard, although all sources play *)
Example C145_silence_values : frecs (drun_of darrays "none" "none" "none" [fecho 3 5] dinfo dnames) ["mic"] = [Some (repeat (Some [0%Z]) 12)] /\ frecs (drun_of darrays "none" "none" "none" [fecho 3 5] dinfo dnames) ["src"] <> [Some (repeat (Some [0%Z]) 12)].
Proof. split; vm_compute; [reflexivity|discriminate]. Qed.
Example C145_silence_meets : get (with_types darrays "none" "none" "none") (fun c0 => forallb (fun s => match lookup2 (c_ptypes c0) s "mic" with Some ty => String.eqb ty "none" | None => false end) (c_src c0)) = Some true /\
  is_ok (drun_of darrays "none" "none" "none" [fecho 3 5] dinfo dnames) = true.
Proof. split; vm_compute; reflexivity. Qed.
End Examples.
Print Assumptions C145_unheard.
Print Assumptions C145_silence.
