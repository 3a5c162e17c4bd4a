(** C128, C129: sound takes time, dies out, and periodic sources are recorded as periodic signals. *)
Require Import Verif.PyBase Verif.PyLemmas Verif.ConfigModel Verif.ArrayModel Verif.ArraySpec Verif.ArrayProofs Verif.ArrayPaths Verif.LoggerModel Verif.LoggerSpec Verif.LoggerProofs
  Verif.SimModel Verif.SimSpec Verif.SimRefine Verif.SimRun Verif.SimDiag Verif.SimLoop Verif.SignalSpec Verif.SignalPass Verif.SignalRun Verif.SignalLaw Verif.SignalInv Verif.RunSpec Verif.RunLaw Verif.DiagRun
  Verif.DiagModel Verif.DiagSpec Verif.DiagProofs Verif.DiagCtorModel Verif.DiagCtorProofs Verif.SaveProps Verif.ProcModel Verif.Demo Verif.DemoRun Verif.DemoSpy Verif.SignalProps Verif.DemoFun Verif.CausalProps Verif.MotionProps Verif.GroupProps Verif.WayProps Verif.DirectProps.
Require Import Permutation Ring.
Set Implicit Arguments.
Arguments Z.add : simpl never.
Arguments Z.sub : simpl never.
Arguments Z.mul : simpl never.
Local Open Scope Z_scope.

Section Decay.
Context {E : AEnv} {DE : DEnv}.
Notation arr := (arr Pos Src).
Variables PS0 D0 Out0 : Type.
Variable dsave0 : D0 -> option PS0 -> dict (list frame) -> Z * Z -> res D0.
Variable dout0 : D0 -> Z -> res Out0.
Local Instance DeS : SEnv := full dsave0 dout0.
(** samples are added and multiplied like exact numbers (rounding is not modelled) *)
Hypothesis Numbers : semi_ring_theory (v0 : V) v1 vadd vmul eq.
Add Ring VNumbers8 : Numbers.

Section Silence.
Variables (i inf : info) (c0 c : coll E) (procs : list (@proc E DeS)) (diags : dict (diag D)) (st : sim).
Hypothesis O0 : coll_ok c0.
Hypothesis HS : setup_ir c0 inf = Ok c.
Hypothesis HX : experiment i c procs.
Hypothesis HD : good_diags i diags.
Hypothesis HR : run_simulation i c procs diags = Ok st.
(** C128.  Arrays may move.  The impulse responses that can be in force at time t from channel v to channel j of the microphone are zero but for the coefficients first v, ..., last v - 1.
    If every channel v is silent at the times t - last v + 1, ..., t - first v, then the sample recorded at time t is zero. *)
Theorem C128_silence m b j t dn first last : In m (c_mic c0) -> the_array c0 m b -> mic_untouched procs m -> 0 <= j < a_num b -> 0 <= t < tot_samples i ->
  (forall v p n, In v (channels c0) -> can_be_in_force inf c0 t (fst v) m p -> n < first v \/ last v <= n -> coef p (snd v) j n = v0) ->
  (forall v, In v (channels c0) -> exists x, plays i c procs v x /\ forall u, t - last v < u <= t - first v -> x u = v0) ->
  records i diags dn m (a_num b) -> exists x, recording i st dn x /\ chan (x t) j = v0.
Proof.
  intros Hm Hb Hu Hj Ht W Q R. exists (signals_of i c procs m). split.
  { eapply (recorded_array HX HD HR); [exact R|]. destruct (setup_ir_ok _ O0 HS) as (_ & _ & _ & _ & _ & _ & _ & A & _). pose proof (sa_arrays A) as K. cbn [set_info c_arrays] in K. unfold the_array in *. congruence. }
  destruct (way_law Numbers inf O0 HS HX HD HR) as (P & F & L). pose proof (run_longer HX HD HR) as RL. assert (B : 0 <= t <= Z.of_nat (run_length i procs)) by lia.
  assert (K : chan (signals_of i c procs m t) j = vsum (map (fun v => hears (P t (fst v) m) (snd v) j (voice i c procs v) t) (channels c0))) by exact (L m b t j Hm Hb Hu B Hj).
  rewrite K. apply (sum_none Numbers), Forall_forall. intros v Hv. unfold hears. apply (sum_none Numbers), Forall_forall. intros n Hn. apply In_zrange in Hn.
  assert (Hs : In (fst v) (c_src c0)). { unfold channels in Hv. apply in_flat_map in Hv as (s & Hs & Hv). destruct (dget (c_arrays c0) s); [|destruct Hv]. apply in_map_iff in Hv as (k & <- & _). exact Hs. }
  assert (Fv : can_be_in_force inf c0 t (fst v) m (P t (fst v) m)) by exact (F t (fst v) m B Hs Hm).
  destruct (Z_lt_le_dec n (first v)) as [N|N]; [rewrite (W v _ n Hv Fv (or_introl N)); ring|]. destruct (Z_lt_le_dec n (last v)) as [N'|N']; [|rewrite (W v _ n Hv Fv (or_intror N')); ring].
  destruct (Q v Hv) as (x & X & Z0). assert (U : t - n <= Z.of_nat (run_length i procs)) by lia. assert (Y : voice i c procs v (t - n) = x (t - n)) by exact (plays_voice HX HD HR X U). rewrite Y, Z0 by lia. ring.
Qed.
End Silence.

Section Periodic.
Variables (i : info) (c : coll E) (procs : list (@proc E DeS)) (diags : dict (diag D)) (st : sim).
Hypothesis HX : experiment i c procs.
Hypothesis HD : good_diags i diags.
Hypothesis HR : run_simulation i c procs diags = Ok st.
(** C129.  Nothing moves.  If all sources have the period T from time t0 on, and no impulse response is longer than L, the microphone has the period T from time t0 + L - 1 on. *)
Theorem C129_periodic m b dn T t0 L : stationary c -> In m (c_mic c) -> the_array c m b -> mic_untouched procs m -> 0 <= T ->
  (forall s, In s (c_src c) -> p_len (path_of c s m) <= L) ->
  (forall v, In v (speakers c m) -> exists x, plays i c procs v x /\ forall u, t0 <= u -> x (u + T) = x u) ->
  records i diags dn m (a_num b) -> exists y, recording i st dn y /\ forall t, 0 <= t -> t0 + L - 1 <= t -> t + T < tot_samples i -> y (t + T) = y t.
Proof.
  intros S Hm Hb Hu HT HL HP R. exists (signals_of i c procs m). split; [eapply (recorded_array HX HD HR); eauto|]. intros t Ht Ht0 HN.
  pose proof (run_longer HX HD HR) as RL. assert (B : 0 <= t <= Z.of_nat (run_length i procs)) by lia. assert (B' : 0 <= t + T <= Z.of_nat (run_length i procs)) by lia.
  pose proof (mic_hears Numbers HX HD HR S Hm Hb Hu B) as K1. pose proof (mic_hears Numbers HX HD HR S Hm Hb Hu B') as K2. etransitivity; [exact K2|]. etransitivity; [|symmetry; exact K1].
  apply map_ext_in. intros j _. f_equal. apply map_ext_in. intros v Hv. unfold heard. f_equal. apply map_ext_in. intros n Hn. apply In_zrange in Hn. f_equal.
  assert (Hs : In (fst v) (c_src c)). { unfold speakers in Hv. apply in_flat_map in Hv as (s & Hs & Hv). apply in_map_iff in Hv as (k & <- & _). exact Hs. }
  specialize (HL _ Hs). destruct (HP v Hv) as (x & X & Per).
  assert (U1 : t - n <= Z.of_nat (run_length i procs)) by lia. assert (U2 : t + T - n <= Z.of_nat (run_length i procs)) by lia.
  assert (Y1 : voice i c procs v (t - n) = x (t - n)) by exact (plays_voice HX HD HR X U1). assert (Y2 : voice i c procs v (t + T - n) = x (t + T - n)) by exact (plays_voice HX HD HR X U2).
  etransitivity; [exact Y2|]. etransitivity; [|symmetry; exact Y1]. replace (t + T - n) with (t - n + T) by lia. apply Per. lia.
Qed.
End Periodic.
End Decay.

(* ------------------------------------------------------------------ Examples *)
Section Examples.
Local Open Scope string_scope.
Local Existing Instances fdemo fdemo_d fdemo_s.
Let pulse (t : Z) : Z := if (t <? 4)%Z then (t + 5)%Z else 0%Z.
Let away (t : Z) : Z := (t / 2)%Z.
Let other (t : Z) : Z := (t + 1)%Z.
(** a moving microphone, a generator that plays 5, 6, 7, 8 and nothing more, another one that cannot be heard and a loudspeaker that cannot be heard *)
Definition parrays : list (arr Pos Src) := [fone "mic" KMic 0 (Some away) None; fone "src" KFree 0 None (Some pulse); fone "noise" KFree 3 None (Some other); fone "spk" KCtrl 1 None None].
Definition pfirst (v : speaker) : Z := if String.eqb (fst v) "src" then 2%Z else 0%Z.
Definition plast (v : speaker) : Z := if String.eqb (fst v) "src" then 3%Z else 0%Z.
Notation prun := (drun_of parrays "ism" "none" "none" [fecho 3 5]).
Definition silence_case (c0 c : coll fdemo) (d : dict (diag (@D fdemo fdemo_s))) st b : Prop := coll_ok c0 /\ setup_ir c0 dinfo = Ok c /\ experiment dinfo c [fecho 3 5] /\ good_diags dinfo d /\
  run_simulation dinfo c [fecho 3 5] d = Ok st /\ In "mic" (c_mic c0) /\ the_array c0 "mic" b /\ a_num b = 1%Z /\ a_traj b <> None /\ mic_untouched [fecho 3 5] "mic" /\
  (forall v p n, In v (channels c0) -> can_be_in_force dinfo c0 7 (fst v) "mic" p -> (n < pfirst v \/ plast v <= n)%Z -> coef p (snd v) 0 n = v0) /\
  (forall v, In v (channels c0) -> exists x, plays dinfo c [fecho 3 5] v x /\ forall u, (7 - plast v < u <= 7 - pfirst v)%Z -> x u = v0) /\ records dinfo d "mic" "mic" (a_num b).
Lemma pfacts c0 : with_types parrays "ism" "none" "none" = Ok c0 ->
  c_arrays c0 = map (fun a => (a_name a, a)) parrays /\ c_src c0 = ["src"; "noise"; "spk"] /\ c_free c0 = ["src"; "noise"] /\ c_mic c0 = ["mic"] /\ c_ptypes c0 = [("src", [("mic", "ism")]); ("noise", [("mic", "none")]); ("spk", [("mic", "none")])].
Proof.
  intros H0. assert (F : forall A (f : coll fdemo -> A) x, get (with_types parrays "ism" "none" "none") f = Some x -> f c0 = x). { intros T f x K. rewrite H0 in K. cbn [get] in K. injection K as K. exact K. }
  split; [|split; [|split; [|split]]]; apply F; vm_compute; reflexivity.
Qed.
Unset Implicit Arguments.
Lemma silence_of (c0 c : coll fdemo) d : with_types parrays "ism" "none" "none" = Ok c0 -> coll_ok c0 -> setup_ir c0 dinfo = Ok c -> frecorders dinfo ["mic"] = Ok d ->
  exists b, In "mic" (c_mic c0) /\ the_array c0 "mic" b /\ a_num b = 1%Z /\ a_traj b <> None /\ mic_untouched [fecho 3 5] "mic" /\
  (forall v p n, In v (channels c0) -> can_be_in_force dinfo c0 7 (fst v) "mic" p -> (n < pfirst v \/ plast v <= n)%Z -> coef p (snd v) 0 n = v0) /\
  (forall v, In v (channels c0) -> exists x, plays dinfo c [fecho 3 5] v x /\ forall u, (7 - plast v < u <= 7 - pfirst v)%Z -> x u = v0) /\ records dinfo d "mic" "mic" (a_num b).
Proof.
  intros H0 O Hc Hd. destruct (pfacts H0) as (Q1 & Q2 & Q5 & Q3 & Q4). clear H0. destruct (frecorders_get _ _ _ Hd) as [_ K]. clear Hd.
  assert (CH : channels c0 = [("src", 0%Z); ("noise", 0%Z); ("spk", 0%Z)]) by (unfold channels; rewrite Q1, Q2; reflexivity).
  eexists. split; [rewrite Q3; left; reflexivity|]. split; [unfold the_array; rewrite Q1; reflexivity|]. split; [reflexivity|]. split; [discriminate|].
  split. { constructor; [|constructor]. intros s w. cbn. destruct (dget w "mic"); reflexivity. }
  split; [|split].
  - intros v p n Hv [(a & b & ty & g & g' & A & B & T & (q & R & Q))|[T _]] Hn; rewrite CH in Hv; rewrite Q4 in T; unfold the_array in *; rewrite ?Q1 in *; destruct Hv as [<-|[<-|[<-|[]]]]; cbn [fst snd] in *; try discriminate T;
      cbn [map parrays fone a_name dget String.eqb Ascii.eqb Bool.eqb] in A, B; injection A as <-; injection B as <-; injection T as <-; change (0 <? highpass_cutoff dinfo)%Z with false in Q; cbv iota in Q; subst q;
      inversion R as [p' N1 N2 N3 N4| | |p' g2 S D I]; subst.
    + cbn [ism3d fdemo] in I. injection I as <- <-. unfold coef. cbn [p_ns p_nm p_len p_at]. destruct (_ && _ && _)%bool; [|reflexivity].
      match goal with |- (if (n =? ?x)%Z then _ else _) = _ => change x with 2%Z end. cbn [pfirst plast fst String.eqb Ascii.eqb Bool.eqb] in Hn. unfold pfirst, plast in Hn. cbn in Hn. destruct (Z.eqb_spec n 2); [lia|reflexivity].
    + unfold coef. destruct (_ && _ && _)%bool; [apply N4|reflexivity].
    + unfold coef. destruct (_ && _ && _)%bool; [apply N4|reflexivity].
  - intros v Hv. rewrite CH in Hv. destruct Hv as [<-|Hv].
    + exists (fun t => if (t <? 0)%Z then 0%Z else pulse t). split.
      * destruct (setup_ir_ok _ O Hc) as (_ & _ & _ & _ & _ & _ & _ & A & _). pose proof (sa_arrays A) as K1. pose proof (sa_free A) as K2. cbn [set_info c_arrays c_free] in K1, K2.
        left. cbn [fst snd]. split; [rewrite K2, Q5; left; reflexivity|]. exists (fone "src" KFree 0 None (Some pulse)), (0%Z, pulse). split; [unfold the_array; rewrite K1, Q1; reflexivity|]. split; [reflexivity|].
        intros t. change (first_request (early_start dinfo)) with 1%Z. change (a_num (fone "src" KFree 0 None (Some pulse))) with 1%Z. rewrite fplays. destruct (t <? 0)%Z; reflexivity.
      * intros u Hu. unfold pfirst, plast in Hu. cbn in Hu. replace u with 5%Z by lia. reflexivity.
    + exists (fun t => chan (signals_of dinfo c [fecho 3 5] (fst v) t) (snd v)). split; [right; reflexivity|]. intros u Hu. destruct Hv as [<-|[<-|[]]]; unfold pfirst, plast in Hu; cbn in Hu; lia.
  - apply K. left. reflexivity.
Qed.
Lemma silence_meets : is_ok (prun dinfo ["mic"]) = true -> supported dinfo [fecho 3 5] -> get (frecorders dinfo ["mic"]) (fun l => forallb (fun kd => diag_okb dinfo (snd kd)) l) = Some true -> exists c0 c d st b, silence_case c0 c d st b.
Proof.
  intros H1 H2 H3. assert (W : Forall (fun p : @proc fdemo fdemo_s => forall s w, NoDup (dkeys (snd (pr_step p s w)))) [fecho 3 5]).
  { clear. constructor; [|constructor]. intros s w. cbn. destruct (dget w "mic"); cbn; repeat constructor. intros []. }
  assert (S : Forall (sized (fun _ => 1%Z)) parrays) by (clear; repeat constructor; simpl; intros; auto; discriminate).
  assert (N : NoDup ["mic"]) by (clear; repeat constructor; simpl; intuition discriminate).
  destruct (@drun_meets parrays "ism" "none" "none" [fecho 3 5] dinfo ["mic"] H1 S H2 W N H3) as (c0 & c & d & st & H0 & O & Hc & Hd & A & B & C & _). clear H1 H3.
  destruct (silence_of c0 c d H0 O Hc Hd) as (b & P). exists c0, c, d, st, b. split; [exact O|]. split; [exact Hc|]. split; [exact A|]. split; [exact B|]. split; [exact C|]. exact P.
Qed.
Example C128_silence_meets : (0 <= 7 < tot_samples dinfo)%Z /\ exists c0 c d st b, silence_case c0 c d st b.
Proof. split; [cbn; lia|]. apply silence_meets; [vm_compute; reflexivity|cbn; lia|vm_compute; reflexivity]. Qed.
(** the pulse is heard at once, then, after the microphone has moved, two samples late, and then nothing more *)
Example C128_values : frecs (prun dinfo ["mic"]) ["mic"] = [Some (map (fun x => Some [x]) [5; 6; 7; 8; 0; 8; 0; 0; 0; 0; 0; 0]%Z)].
Proof. vm_compute. reflexivity. Qed.

(** two sources of period 3 and one microphone, nothing moves; one of the sources starts to be periodic at time 2 only *)
Let tune (t : Z) : Z := (t mod 3)%Z.
Let later (t : Z) : Z := if (t <? 2)%Z then 10%Z else (t mod 3)%Z.
Definition tarrays : list (arr Pos Src) := [fone "mic" KMic 0 None None; fone "near" KFree 1 None (Some tune); fone "far" KFree 3 None (Some later)].
Notation noproc := ([] : list (@proc fdemo fdemo_s)).
Definition tnames := ["mic"].
Definition periodic_case (c : coll fdemo) (d : dict (diag (@D fdemo fdemo_s))) (st : @sim fdemo fdemo_s) b : Prop := experiment dinfo c noproc /\ good_diags dinfo d /\ run_simulation dinfo c noproc d = Ok st /\
  stationary c /\ In "mic" (c_mic c) /\ the_array c "mic" b /\ mic_untouched noproc "mic" /\ (forall s, In s (c_src c) -> (p_len (path_of c s "mic") <= 4)%Z) /\
  (forall v, In v (speakers c "mic") -> exists x, plays dinfo c noproc v x /\ forall u, (2 <= u)%Z -> x (u + 3)%Z = x u) /\ records dinfo d "mic" "mic" (a_num b).
Lemma periodic_of c d : fcoll dinfo tarrays = Ok c -> frecorders dinfo tnames = Ok d ->
  exists b, stationary c /\ In "mic" (c_mic c) /\ the_array c "mic" b /\ mic_untouched noproc "mic" /\ (forall s, In s (c_src c) -> (p_len (path_of c s "mic") <= 4)%Z) /\
  (forall v, In v (speakers c "mic") -> exists x, plays dinfo c noproc v x /\ forall u, (2 <= u)%Z -> x (u + 3)%Z = x u) /\ records dinfo d "mic" "mic" (a_num b).
Proof.
  intros H0 Hd. destruct (frecorders_get _ _ _ Hd) as [_ K]. clear Hd.
  assert (F : forall A (f : coll fdemo -> A) x, get (fcoll dinfo tarrays) f = Some x -> f c = x). { intros T f x G. exact (fcoll_is _ _ _ _ f x H0 G). }
  assert (Q1 : c_arrays c = map (fun a => (a_name a, a)) tarrays) by (apply F; vm_compute; reflexivity). assert (Q2 : c_src c = ["near"; "far"]) by (apply F; vm_compute; reflexivity).
  assert (Q3 : c_mic c = ["mic"]) by (apply F; vm_compute; reflexivity). assert (Q4 : c_free c = ["near"; "far"]) by (apply F; vm_compute; reflexivity).
  assert (Q5 : map (fun s => p_len (path_of c s "mic")) ["near"; "far"] = [4%Z; 4%Z]) by (apply (F _ (fun c => map (fun s => p_len (path_of c s "mic")) ["near"; "far"])); vm_compute; reflexivity).
  assert (Q6 : speakers c "mic" = [("near", 0%Z); ("far", 0%Z)]) by (apply (F _ (fun c => speakers c "mic")); vm_compute; reflexivity). clear F H0.
  assert (Pl : forall s k g, In s ["near"; "far"] -> the_array c s (fone s KFree k None (Some g)) -> plays dinfo c noproc (s, 0%Z) (fun t => if (t <? 0)%Z then 0%Z else g t)).
  { intros s k g Hs Ha. left. cbn [fst snd]. split; [rewrite Q4; exact Hs|]. exists (fone s KFree k None (Some g)), (0%Z, g). split; [exact Ha|]. split; [reflexivity|].
    intros t. change (first_request (early_start dinfo)) with 1%Z. change (a_num (fone s KFree k None (Some g))) with 1%Z. rewrite fplays. destruct (t <? 0)%Z; reflexivity. }
  eexists. split. { intros k a Ha. unfold the_array in Ha. rewrite Q1 in Ha. cbn [map tarrays fone a_name dget] in Ha. repeat (destruct (String.eqb _ _); [injection Ha as <-; reflexivity|]). discriminate Ha. }
  split; [rewrite Q3; left; reflexivity|]. split; [unfold the_array; rewrite Q1; reflexivity|]. split; [constructor|].
  split. { intros s Hs. rewrite Q2 in Hs. cbn [map] in Q5. injection Q5 as E1 E2. destruct Hs as [<-|[<-|[]]]; apply Z.eq_le_incl; [exact E1|exact E2]. }
  split; [|apply K; left; reflexivity].
  intros v Hv. rewrite Q6 in Hv. destruct Hv as [<-|[<-|[]]].
  - exists (fun t => if (t <? 0)%Z then 0%Z else tune t). split; [apply (Pl "near" 1%Z tune); [left; reflexivity|unfold the_array; rewrite Q1; reflexivity]|].
    intros u Hu. replace (u + 3 <? 0)%Z with false by lia. replace (u <? 0)%Z with false by lia. unfold tune. replace (u + 3)%Z with (u + 1 * 3)%Z by lia. apply Z_mod_plus_full.
  - exists (fun t => if (t <? 0)%Z then 0%Z else later t). split; [apply (Pl "far" 3%Z later); [right; left; reflexivity|unfold the_array; rewrite Q1; reflexivity]|].
    intros u Hu. replace (u + 3 <? 0)%Z with false by lia. replace (u <? 0)%Z with false by lia. unfold later. replace (u + 3 <? 2)%Z with false by lia. replace (u <? 2)%Z with false by lia. replace (u + 3)%Z with (u + 1 * 3)%Z by lia. apply Z_mod_plus_full.
Qed.
Lemma periodic_meets : is_ok (frun dinfo tarrays [] tnames) = true -> get (frecorders dinfo tnames) (fun l => forallb (fun kd => diag_okb dinfo (snd kd)) l) = Some true -> supported dinfo noproc ->
  exists c d st b, periodic_case c d st b.
Proof.
  intros H1 H3 H2. assert (S : Forall (sized (fun _ => 1%Z)) tarrays) by (clear; repeat constructor; simpl; intros; auto; discriminate).
  assert (N : NoDup tnames) by (clear; repeat constructor; simpl; intuition discriminate).
  destruct (frun_meets dinfo tarrays [] tnames H1 S H2 N H3) as (c & d & st & Hc & Hd & A & B & C). clear H1 H3. destruct (periodic_of c d Hc Hd) as (b & P).
  exists c, d, st, b. split; [exact A|]. split; [exact B|]. split; [exact C|exact P].
Qed.
Example C129_periodic_meets : exists c d st b, periodic_case c d st b.
Proof. apply periodic_meets; [vm_compute; reflexivity|vm_compute; reflexivity|]. cbn. lia. Qed.
(** periodic from 5 = 2 + 4 - 1 on, not before *)
Example C129_values : frecs (frun dinfo tarrays [] tnames) ["mic"] = [Some (map (fun x => Some [x]) [0; 0; 1; 12; 10; 3; 2; 1; 3; 2; 1; 3]%Z)].
Proof. vm_compute. reflexivity. Qed.
End Examples.
Print Assumptions C128_silence.
Print Assumptions C129_periodic.
