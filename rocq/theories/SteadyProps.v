(** C134: what a microphone records of sinusoids, and the frequency responses that get_freq_paths computes. *)
Require Import Verif.PyBase Verif.PyLemmas Verif.ConfigModel Verif.ArrayModel Verif.ArraySpec Verif.ArrayProofs Verif.ArrayPaths Verif.LoggerModel Verif.LoggerSpec Verif.LoggerProofs
  Verif.SimModel Verif.SimSpec Verif.SimRefine Verif.SimRun Verif.SimDiag Verif.SimLoop Verif.SignalSpec Verif.SignalPass Verif.SignalRun Verif.SignalLaw Verif.SignalInv Verif.RunSpec Verif.RunLaw Verif.DiagRun
  Verif.DiagModel Verif.DiagSpec Verif.DiagProofs Verif.DiagCtorModel Verif.DiagCtorProofs Verif.SaveProps Verif.ProcModel Verif.Demo Verif.DemoRun Verif.DemoSpy Verif.SignalProps Verif.DemoFun Verif.CausalProps Verif.MotionProps Verif.GroupProps Verif.WayProps Verif.DirectProps.
Require Verif.FreqModel Verif.FreqProps.
From Coq Require Import Reals Lra.
Require Import Ring.
Set Implicit Arguments.
Local Open Scope Z_scope.

Section Steady.
Context {E : AEnv} {DE : DEnv}.
Notation arr := (arr Pos Src).
Variables PS0 D0 Out0 : Type.
Variable dsave0 : D0 -> option PS0 -> dict (list frame) -> Z * Z -> res D0.
Variable dout0 : D0 -> Z -> res Out0.
Local Instance StS : SEnv := full dsave0 dout0.
(** samples are added and multiplied like exact numbers (rounding is not modelled), and are real numbers *)
Hypothesis Numbers : semi_ring_theory (v0 : V) v1 vadd vmul eq.
Variable val : V -> R.
Definition reals : Prop := val v0 = 0%R /\ (forall a b, val (vadd a b) = (val a + val b)%R) /\ (forall a b, val (vmul a b) = (val a * val b)%R).
(** the paths of a collection, as get_freq_paths reads them *)
Definition real_paths (c : coll E) : dict (dict (FreqModel.arr3 R)) :=
  map (fun sp => (fst sp, map (fun mp => (fst mp, FreqModel.mkArr (p_ns (snd mp)) (p_nm (snd mp)) (p_len (snd mp)) (fun k j n => val (p_at (snd mp) k j n)))) (snd sp))) (c_paths c).
(** the answer for frequency f, from channel k of source s to channel j of microphone m *)
Definition answer (fp : dict (dict (FreqModel.arr3 FreqModel.cplx))) (f : Z) (s m : string) (k j : Z) : R * R :=
  match dget fp s with Some d => match dget d m with Some F => FreqModel.at3 F f j k | None => (0%R, 0%R) end | None => (0%R, 0%R) end.
Fixpoint sum_of {A} (f : A -> R) (l : list A) : R := match l with [] => 0%R | x :: r => (f x + sum_of f r)%R end.

Lemma val_sum l : reals -> val (vsum l) = FreqModel.rsum (map val l).
Proof.
  intros (R0 & RA & _). unfold vsum. assert (K : forall l z, val (fold_left vadd l z) = (val z + FreqModel.rsum (map val l))%R).
  { clear l. induction l as [|x l IH]; intros z; cbn [fold_left map FreqModel.rsum fold_right]; [lra|]. rewrite IH, RA. unfold FreqModel.rsum. lra. }
  rewrite K, R0. lra.
Qed.
Lemma real_paths_get c s m : FreqProps.path_of (real_paths c) s m = option_map (fun p => FreqModel.mkArr (p_ns p) (p_nm p) (p_len p) (fun k j n => val (p_at p k j n))) (lookup2 (c_paths c) s m).
Proof.
  unfold FreqProps.path_of, real_paths, lookup2. rewrite (dget_map (fun d : dict (path V) => map (fun mp => (fst mp, FreqModel.mkArr (p_ns (snd mp)) (p_nm (snd mp)) (p_len (snd mp)) (fun k j n => val (p_at (snd mp) k j n)))) d)).
  destruct (dget (c_paths c) s) as [d|]; cbn [option_map]; [|reflexivity]. rewrite (dget_map (fun p : path V => FreqModel.mkArr (p_ns p) (p_nm p) (p_len p) (fun k j n => val (p_at p k j n)))). reflexivity.
Qed.

Variables (i : info) (c : coll E) (procs : list (@proc E StS)) (diags : dict (diag D)) (st : sim).
Hypothesis HX : experiment i c procs.
Hypothesis HD : good_diags i diags.
Hypothesis HR : run_simulation i c procs diags = Ok st.
(** C134.  Nothing moves, no impulse response is longer than L, and L <= n.  From time t0 on every channel v that m can hear plays the sinusoid of amplitude A v and phase phi v whose frequency is entry f of the frequencies
    that get_freq_paths returns.  Then from time t0 + L - 1 on the microphone records the sum of the same sinusoids, each multiplied by the complex number that get_freq_paths returns for it. *)
Theorem C134_steady m b dn n sr f t0 L A phi : reals -> stationary c -> In m (c_mic c) -> the_array c m b -> mic_untouched procs m -> 0 < n -> Z.Even n -> (0 < sr)%R ->
  (forall s m, In s (c_src c) -> In m (c_mic c) -> lookup2 (c_paths c) s m <> None) -> (forall s, In s (c_src c) -> p_len (path_of c s m) <= L) -> L <= n -> 0 <= f <= n / 2 ->
  (forall v, In v (speakers c m) -> exists x, plays i c procs v x /\ forall u, t0 <= u -> val (x u) = (A v * cos (2 * PI * (IZR f * sr / IZR n) * (IZR u / sr) + phi v))%R) ->
  records i diags dn m (a_num b) ->
  exists y fp freqs, recording i st dn y /\ FreqModel.get_freq_paths (c_src c) (c_mic c) (real_paths c) n sr = Ok (fp, freqs) /\ zget freqs f = Some (IZR f * sr / IZR n)%R /\
    forall t j, 0 <= j < a_num b -> t0 + L - 1 <= t -> 0 <= t < tot_samples i -> let w := (2 * PI * (IZR f * sr / IZR n) * (IZR t / sr))%R in
      val (chan (y t) j) = sum_of (fun v => let '(re, im) := answer fp f (fst v) m (snd v) j in A v * (re * cos (w + phi v) - im * sin (w + phi v)))%R (speakers c m).
Proof.
  intros RV S Hm Hb Hu Hn He Hs HP HL HLn Hf HV R. assert (P' : forall s m, In s (c_src c) -> In m (c_mic c) -> FreqProps.path_of (real_paths c) s m <> None).
  { intros s m' I J. rewrite real_paths_get. specialize (HP s m' I J). destruct (lookup2 (c_paths c) s m'); [discriminate|congruence]. }
  destruct (FreqProps.C87_responses (c_src c) (c_mic c) (real_paths c) Hn He Hs P') as (fp & freqs & G & _ & GF & _ & GR).
  exists (signals_of i c procs m), fp, freqs. split; [eapply (recorded_array HX HD HR); eauto|]. split; [exact G|]. split; [apply GF; exact Hf|]. clear G. intros t j Hj Ht Ht2 w.
  pose proof (run_longer HX HD HR) as RL. assert (B : 0 <= t <= Z.of_nat (run_length i procs)) by lia.
  assert (K : signals_of i c procs m t = map (fun j => vsum (map (fun v => heard c m v (voice i c procs v) t j) (speakers c m))) (zrange 0 (a_num b))) by exact (mic_hears Numbers HX HD HR S Hm Hb Hu B).
  rewrite K. unfold chan. rewrite zget_map, zget_zrange. replace ((0 <=? j) && (j <? a_num b - 0))%bool with true by lia. cbn [option_map]. replace (0 + j) with j by lia. rewrite val_sum by exact RV. rewrite map_map.
  assert (SP : forall v, In v (speakers c m) -> In (fst v) (c_src c)). { intros v Hv. unfold speakers in Hv. apply in_flat_map in Hv as (s & Is & Hv). apply in_map_iff in Hv as (k & <- & _). exact Is. }
  assert (EACH : forall v, In v (speakers c m) -> val (heard c m v (voice i c procs v) t j) = (let '(re, im) := answer fp f (fst v) m (snd v) j in A v * (re * cos (w + phi v) - im * sin (w + phi v)))%R).
  2:{ clear -EACH. induction (speakers c m) as [|v l IH]; [reflexivity|]. cbn [map FreqModel.rsum fold_right sum_of]. rewrite EACH by (left; reflexivity). f_equal. apply IH. intros v' H. apply EACH. right. exact H. }
  intros v Hv. pose proof (SP v Hv) as Is. destruct (GR (fst v) m Is Hm) as (pa & F & E1 & E2 & _ & _ & _ & RS). unfold answer. unfold FreqProps.path_of in E2. destruct (dget fp (fst v)) as [d|]; [|discriminate]. rewrite E2.
  rewrite real_paths_get in E1. assert (QP : exists p, lookup2 (c_paths c) (fst v) m = Some p /\ path_of c (fst v) m = p) by (unfold path_of; destruct (lookup2 (c_paths c) (fst v) m) as [p|] eqn:Q; [eauto|discriminate]).
  destruct QP as (p & QP & QP2). rewrite QP in E1. cbn [option_map] in E1. injection E1 as E1. specialize (HL _ Is). rewrite QP2 in HL.
  specialize (RS f j (snd v) t Hf). cbv beta zeta in RS. rewrite !GF in RS by exact Hf. rewrite <- E1 in RS. cbn [FreqModel.at3 FreqModel.dim2] in RS. destruct (FreqModel.at3 F f j (snd v)) as [re im]. rewrite Z.min_l in RS by lia.
  set (om := (2 * PI * (IZR f * sr / IZR n) / sr)%R) in *. destruct (HV v Hv) as (x & X & HXv).
  assert (W : forall u, (2 * PI * (IZR f * sr / IZR n) * (IZR u / sr))%R = (om * IZR u)%R) by (intros u; unfold om, Rdiv; ring).
  unfold heard. rewrite QP2, val_sum by exact RV. rewrite map_map. destruct RV as (R0 & RA & RM).
  transitivity (FreqModel.sumz 0 (p_len p) (fun k => val (p_at p (snd v) j k) * (A v * cos (om * (IZR t - IZR k) + phi v))))%R.
  { unfold FreqModel.sumz. f_equal. apply map_ext_in. intros k Hk. apply In_zrange in Hk. rewrite RM. f_equal.
    - unfold tap. rewrite QP2. replace ((0 <=? k) && (k <? p_len p))%bool with true by lia. reflexivity.
    - assert (U : t - k <= Z.of_nat (run_length i procs)) by lia. assert (Y : voice i c procs v (t - k) = x (t - k)) by exact (plays_voice HX HD HR X U). rewrite Y, HXv by lia. rewrite W, minus_IZR. reflexivity. }
  destruct RS as [RC RSn]. unfold w. rewrite W.
  rewrite (FreqProps.sumz_ext 0 (p_len p) _ (fun k => A v * cos (phi v) * (val (p_at p (snd v) j k) * cos (om * (IZR t - IZR k))) + (- A v * sin (phi v)) * (val (p_at p (snd v) j k) * sin (om * (IZR t - IZR k)))))%R.
  - rewrite FreqProps.sumz_add, !FreqProps.sumz_scale. rewrite RC, RSn, cos_plus, sin_plus. ring.
  - intros k _. rewrite cos_plus. ring.
Qed.
End Steady.

(* ------------------------------------------------------------------ Examples *)
Section Examples.
Local Open Scope string_scope.
Local Existing Instances fdemo fdemo_d fdemo_s.
(** two sources that play a sinusoid with a period of four samples, one from time 2 on only, and one microphone; nothing moves *)
Let near_wave (t : Z) : Z := (let r := t mod 4 in if r =? 0 then 2 else if r =? 2 then -2 else 0)%Z.
Let far_wave (t : Z) : Z := (if t <? 2 then 10 else let r := t mod 4 in if r =? 1 then 3 else if r =? 3 then -3 else 0)%Z.
Definition warrays : list (arr Pos Src) := [fone "mic" KMic 0 None None; fone "near" KFree 1 None (Some near_wave); fone "far" KFree 3 None (Some far_wave)].
Definition wamp (v : speaker) : R := if String.eqb (fst v) "near" then 2%R else 3%R.
Definition wphase (v : speaker) : R := if String.eqb (fst v) "near" then 0%R else (- (PI / 2))%R.
Notation noproc := ([] : list (@proc fdemo fdemo_s)).
Definition wnames := ["mic"].
Definition steady_case (c : coll fdemo) (d : dict (diag (@D fdemo fdemo_s))) (st : @sim fdemo fdemo_s) b : Prop := experiment dinfo c noproc /\ good_diags dinfo d /\ run_simulation dinfo c noproc d = Ok st /\
  @reals fdemo IZR /\ stationary c /\ In "mic" (c_mic c) /\ the_array c "mic" b /\ mic_untouched noproc "mic" /\ (forall s m, In s (c_src c) -> In m (c_mic c) -> lookup2 (c_paths c) s m <> None) /\
  (forall s, In s (c_src c) -> (p_len (path_of c s "mic") <= 4)%Z) /\
  (forall v, In v (speakers c "mic") -> exists x, plays dinfo c noproc v x /\ forall u, (2 <= u)%Z -> IZR (x u) = (wamp v * cos (2 * PI * (IZR 1 * 4 / IZR 4) * (IZR u / 4) + wphase v))%R) /\
  speakers c "mic" = [("near", 0%Z); ("far", 0%Z)] /\ records dinfo d "mic" "mic" (a_num b).
Lemma quarter u : (0 <= u)%Z -> exists r, (u mod 4 = r)%Z /\ (0 <= r < 4)%Z /\ cos (2 * PI * (IZR 1 * 4 / IZR 4) * (IZR u / 4)) = cos (IZR r * (PI / 2)) /\ sin (2 * PI * (IZR 1 * 4 / IZR 4) * (IZR u / 4)) = sin (IZR r * (PI / 2)).
Proof.
  intros Hu. exists (u mod 4)%Z. split; [reflexivity|]. split; [apply Z.mod_pos_bound; lia|]. assert (Q : (2 * PI * (IZR 1 * 4 / IZR 4) * (IZR u / 4) = IZR (u mod 4) * (PI / 2) + 2 * INR (Z.to_nat (u / 4)) * PI)%R).
  { rewrite INR_IZR_INZ, Z2Nat.id by (apply Z.div_pos; lia). rewrite (Z.div_mod u 4) at 1 by lia. rewrite plus_IZR, mult_IZR. field. }
  rewrite Q. split; [apply cos_period|apply sin_period].
Qed.
Lemma near_is u : (0 <= u)%Z -> IZR (near_wave u) = (2 * cos (2 * PI * (IZR 1 * 4 / IZR 4) * (IZR u / 4) + 0))%R.
Proof.
  intros Hu. rewrite Rplus_0_r. destruct (quarter Hu) as (r & Q & Hr & -> & _). unfold near_wave. cbv zeta. rewrite Q. assert (K : r = 0 \/ r = 1 \/ r = 2 \/ r = 3) by lia. destruct K as [->|[->|[->| ->]]]; cbn [Z.eqb Pos.eqb].
  - rewrite Rmult_0_l, cos_0. lra.
  - rewrite Rmult_1_l, cos_PI2. lra.
  - replace (2 * (PI / 2))%R with PI by field. rewrite cos_PI. lra.
  - rewrite cos_3PI2. lra.
Qed.
Lemma far_is u : (2 <= u)%Z -> IZR (far_wave u) = (3 * cos (2 * PI * (IZR 1 * 4 / IZR 4) * (IZR u / 4) + - (PI / 2)))%R.
Proof.
  intros Hu. replace (2 * PI * (IZR 1 * 4 / IZR 4) * (IZR u / 4) + - (PI / 2))%R with (- (PI / 2 - 2 * PI * (IZR 1 * 4 / IZR 4) * (IZR u / 4)))%R by ring. rewrite cos_neg, cos_shift. assert (H0 : (0 <= u)%Z) by lia.
  destruct (quarter H0) as (r & Q & Hr & _ & ->). unfold far_wave. cbv zeta. replace (u <? 2)%Z with false by lia. rewrite Q. assert (K : r = 0 \/ r = 1 \/ r = 2 \/ r = 3) by lia. destruct K as [->|[->|[->| ->]]]; cbn [Z.eqb Pos.eqb].
  - rewrite Rmult_0_l, sin_0. lra.
  - rewrite Rmult_1_l, sin_PI2. lra.
  - replace (2 * (PI / 2))%R with PI by field. rewrite sin_PI. lra.
  - rewrite sin_3PI2. lra.
Qed.
Unset Implicit Arguments.
Lemma steady_of c d : fcoll dinfo warrays = Ok c -> frecorders dinfo wnames = Ok d ->
  exists b, stationary c /\ In "mic" (c_mic c) /\ the_array c "mic" b /\ mic_untouched noproc "mic" /\ (forall s m, In s (c_src c) -> In m (c_mic c) -> lookup2 (c_paths c) s m <> None) /\
  (forall s, In s (c_src c) -> (p_len (path_of c s "mic") <= 4)%Z) /\
  (forall v, In v (speakers c "mic") -> exists x, plays dinfo c noproc v x /\ forall u, (2 <= u)%Z -> IZR (x u) = (wamp v * cos (2 * PI * (IZR 1 * 4 / IZR 4) * (IZR u / 4) + wphase v))%R) /\
  speakers c "mic" = [("near", 0%Z); ("far", 0%Z)] /\ records dinfo d "mic" "mic" (a_num b).
Proof.
  intros H0 Hd. destruct (frecorders_get _ _ _ Hd) as [_ K]. clear Hd.
  assert (F : forall A (f : coll fdemo -> A) x, get (fcoll dinfo warrays) f = Some x -> f c = x). { intros T f x G. exact (fcoll_is _ _ _ _ f x H0 G). }
  assert (Q1 : c_arrays c = map (fun a => (a_name a, a)) warrays) by (apply F; vm_compute; reflexivity). assert (Q2 : c_src c = ["near"; "far"]) by (apply F; vm_compute; reflexivity).
  assert (Q3 : c_mic c = ["mic"]) by (apply F; vm_compute; reflexivity). assert (Q4 : c_free c = ["near"; "far"]) by (apply F; vm_compute; reflexivity).
  assert (Q5 : map (fun s => p_len (path_of c s "mic")) ["near"; "far"] = [4%Z; 4%Z]) by (apply (F _ (fun c => map (fun s => p_len (path_of c s "mic")) ["near"; "far"])); vm_compute; reflexivity).
  assert (Q7 : map (fun s => match lookup2 (c_paths c) s "mic" with Some _ => true | None => false end) ["near"; "far"] = [true; true]) by (apply (F _ (fun c => map (fun s => match lookup2 (c_paths c) s "mic" with Some _ => true | None => false end) ["near"; "far"])); vm_compute; reflexivity).
  assert (Q6 : speakers c "mic" = [("near", 0%Z); ("far", 0%Z)]) by (apply (F _ (fun c => speakers c "mic")); vm_compute; reflexivity). clear F H0.
  assert (Pl : forall s k g, In s ["near"; "far"] -> the_array c s (fone s KFree k None (Some g)) -> plays dinfo c noproc (s, 0%Z) (fun t => if (t <? 0)%Z then 0%Z else g t)).
  { intros s k g Hs Ha. left. cbn [fst snd]. split; [rewrite Q4; exact Hs|]. exists (fone s KFree k None (Some g)), (0%Z, g). split; [exact Ha|]. split; [reflexivity|].
    intros t. change (first_request (early_start dinfo)) with 1%Z. change (a_num (fone s KFree k None (Some g))) with 1%Z. rewrite fplays. destruct (t <? 0)%Z; reflexivity. }
  eexists. split. { intros k a Ha. unfold the_array in Ha. rewrite Q1 in Ha. cbn [map warrays fone a_name dget] in Ha. repeat (destruct (String.eqb _ _); [injection Ha as <-; reflexivity|]). discriminate Ha. }
  split; [rewrite Q3; left; reflexivity|]. split; [unfold the_array; rewrite Q1; reflexivity|]. split; [constructor|].
  split. { intros s m Hs Hm. rewrite Q2 in Hs. rewrite Q3 in Hm. cbn [map] in Q7. injection Q7 as E1 E2. destruct Hm as [<-|[]]. destruct Hs as [<-|[<-|[]]]; intros N; pose proof (f_equal (fun o => match o with Some _ => true | None => false end) N) as X; [pose proof (eq_trans (eq_sym E1) X) as Y|pose proof (eq_trans (eq_sym E2) X) as Y]; discriminate Y. }
  split. { intros s Hs. rewrite Q2 in Hs. cbn [map] in Q5. injection Q5 as E1 E2. destruct Hs as [<-|[<-|[]]]; apply Z.eq_le_incl; [exact E1|exact E2]. }
  split; [|split; [exact Q6|apply K; left; reflexivity]].
  intros v Hv. rewrite Q6 in Hv. destruct Hv as [<-|[<-|[]]].
  - exists (fun t => if (t <? 0)%Z then 0%Z else near_wave t). split; [apply (Pl "near" 1%Z near_wave); [left; reflexivity|unfold the_array; rewrite Q1; reflexivity]|].
    intros u Hu. replace (u <? 0)%Z with false by lia. cbn [wamp wphase fst String.eqb Ascii.eqb Bool.eqb]. apply near_is. lia.
  - exists (fun t => if (t <? 0)%Z then 0%Z else far_wave t). split; [apply (Pl "far" 3%Z far_wave); [right; left; reflexivity|unfold the_array; rewrite Q1; reflexivity]|].
    intros u Hu. replace (u <? 0)%Z with false by lia. cbn [wamp wphase fst String.eqb Ascii.eqb Bool.eqb]. apply far_is. lia.
Qed.
Lemma steady_meets : is_ok (frun dinfo warrays [] wnames) = true -> get (frecorders dinfo wnames) (fun l => forallb (fun kd => diag_okb dinfo (snd kd)) l) = Some true -> supported dinfo noproc ->
  exists c d st b, steady_case c d st b.
Proof.
  intros H1 H3 H2. assert (S : Forall (sized (fun _ => 1%Z)) warrays) by (clear; repeat constructor; simpl; intros; auto; discriminate).
  assert (N : NoDup wnames) by (clear; repeat constructor; simpl; intuition discriminate).
  destruct (frun_meets dinfo warrays [] wnames H1 S H2 N H3) as (c & d & st & Hc & Hd & A & B & C). clear H1 H3. destruct (steady_of c d Hc Hd) as (b & P).
  exists c, d, st, b. split; [exact A|]. split; [exact B|]. split; [exact C|]. split; [split; [reflexivity|split; intros; [apply plus_IZR|apply mult_IZR]]|exact P].
Qed.
Example C134_steady_meets : exists c d st b, steady_case c d st b.
Proof. apply steady_meets; [vm_compute; reflexivity|vm_compute; reflexivity|]. cbn. lia. Qed.
(** a sinusoid from 5 = 2 + 4 - 1 on, not before *)
Example C134_values : frecs (frun dinfo warrays [] wnames) ["mic"] = [Some (map (fun x => Some [x]) [0; 2; 0; 8; 10; 2; -3; -2; 3; 2; -3; -2]%Z)].
Proof. vm_compute. reflexivity. Qed.
End Examples.
Print Assumptions C134_steady.
