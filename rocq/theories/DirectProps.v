(** C125: microphones with direct paths. *)
Require Import Verif.PyBase Verif.PyLemmas Verif.ConfigModel Verif.ArrayModel Verif.ArraySpec Verif.ArrayProofs Verif.ArrayPaths Verif.LoggerModel Verif.LoggerSpec Verif.LoggerProofs
  Verif.SimModel Verif.SimSpec Verif.SimRefine Verif.SimRun Verif.SimDiag Verif.SimLoop Verif.SignalSpec Verif.SignalPass Verif.SignalRun Verif.SignalLaw Verif.SignalInv Verif.RunSpec Verif.RunLaw Verif.DiagRun
  Verif.DiagModel Verif.DiagSpec Verif.DiagProofs Verif.DiagCtorModel Verif.DiagCtorProofs Verif.SaveProps Verif.ProcModel Verif.Demo Verif.DemoRun Verif.DemoSpy Verif.SignalProps Verif.DemoFun Verif.CausalProps Verif.MotionProps Verif.GroupProps Verif.WayProps.
Require Import Permutation Ring.
Set Implicit Arguments.
Arguments Z.add : simpl never.
Arguments Z.sub : simpl never.
Arguments Z.mul : simpl never.
Ltac Zify.zify_post_hook ::= Z.div_mod_to_equations.

Section Direct.
Context {E : AEnv} {DE : DEnv}.
Notation arr := (arr Pos Src).
Variables PS0 D0 Out0 : Type.
Variable dsave0 : D0 -> option PS0 -> dict (list frame) -> Z * Z -> res D0.
Variable dout0 : D0 -> Z -> res Out0.
Local Instance DiS : SEnv := full dsave0 dout0.
(** samples are added and multiplied like exact numbers (rounding is not modelled) *)
Hypothesis Numbers : semi_ring_theory (v0 : V) v1 vadd vmul eq.
Add Ring VNumbers5 : Numbers.

Variables (i inf : info) (c0 c : coll E) (procs : list (@proc E DiS)) (diags : dict (diag D)) (st : sim).
Hypothesis O0 : coll_ok c0.
Hypothesis HS : setup_ir c0 inf = Ok c.
Hypothesis HX : experiment i c procs.
Hypothesis HD : good_diags i diags.
Hypothesis HR : run_simulation i c procs diags = Ok st.

(** the sources of which the path to m has this type *)
Definition sources_with (ty m : string) : list string := filter (fun s => match lookup2 (c_ptypes c0) s m with Some t => String.eqb t ty | None => false end) (c_src c0).
(** The high-pass filter keeps the shape of impulse responses, and multiplies their first sample by [h0], as causal filters do *)
Definition first_sample (h0 : V) : Prop := forall p k j, p_ns (filter_rirs p (samplerate inf) (highpass_cutoff inf)) = p_ns p /\ p_nm (filter_rirs p (samplerate inf) (highpass_cutoff inf)) = p_nm p /\
  p_len (filter_rirs p (samplerate inf) (highpass_cutoff inf)) = p_len p /\ p_at (filter_rirs p (samplerate inf) (highpass_cutoff inf)) k j 0 = vmul h0 (p_at p k j 0).

Lemma hears_now p k j x t : p_len p = 1 -> hears p k j x t = vmul (coef p k j 0) (x t).
Proof. intros L. unfold hears. rewrite L. rewrite (@zrange_cons 0 1), (@zrange_empty (0 + 1) 1) by lia. cbn [map]. rewrite (sum_cons Numbers), (sum_nil (E := E)). replace (t - 0) with t by lia. ring. Qed.
Lemma sum_single (f : Z -> V) n j : 0 <= j < n -> vsum (map (fun k => if k =? j then f k else v0) (zrange 0 n)) = f j.
Proof.
  intros H. rewrite (@zrange_app 0 j n), (@zrange_cons j n) by lia. rewrite map_app, (sum_app Numbers). cbn [map]. rewrite (sum_cons Numbers), Z.eqb_refl.
  rewrite (sum_none Numbers (fun k => if k =? j then f k else v0) (l := zrange 0 j)), (sum_none Numbers (fun k => if k =? j then f k else v0) (l := zrange (j + 1) n)); [ring| |];
    apply Forall_forall; intros k K; apply In_zrange in K; replace (k =? j) with false by lia; reflexivity.
Qed.
(** what the paths of these two types do to a source, if [h0] is the first sample of the filter, 1 without one *)
Lemma direct_heard h0 m b t j s (p : path V) : (0 < highpass_cutoff inf -> first_sample h0) -> (highpass_cutoff inf <= 0 -> h0 = v1) ->
  the_array c0 m b -> 0 <= j < a_num b -> can_be_in_force inf c0 t s m p -> In s (c_src c0) ->
  lookup2 (c_ptypes c0) s m = Some "none"%string \/ lookup2 (c_ptypes c0) s m = Some "direct"%string -> forall y : Z -> Z -> V,
  exists a, the_array c0 s a /\ vsum (map (fun k => hears p k j (y k) t) (zrange 0 (a_num a))) =
    if match lookup2 (c_ptypes c0) s m with Some ty => String.eqb ty "direct" | None => false end then vmul h0 (y j t) else v0.
Proof.
  intros HF HN Hb Hj HP Hs HT y. destruct HP as [(a & b1 & ty & g & g' & A & B & T & (q & R & Q))|[T _]]; [|destruct HT as [HT|HT]; rewrite T in HT; discriminate].
  assert (b1 = b) by (unfold the_array in *; congruence). subst b1. exists a. split; [exact A|].
  assert (S : p_len q = 1 -> p_ns p = p_ns q /\ p_nm p = p_nm q /\ p_len p = 1 /\ forall k l, p_at p k l 0 = vmul h0 (p_at q k l 0)).
  { intros L. subst p. destruct (Z.ltb_spec 0 (highpass_cutoff inf)) as [C|C].
    - specialize (HF C). destruct (HF q 0 0) as (F1 & F2 & F3 & _). split; [exact F1|]. split; [exact F2|]. split; [congruence|]. intros k l. apply HF.
    - rewrite (HN C). repeat split; auto. intros. ring. }
  rewrite T in HT |- *. destruct HT as [HT|HT]; injection HT as ->; inversion R; subst; cbn [String.eqb Ascii.eqb Bool.eqb].
  - destruct S as (S1 & S2 & S3 & S4); [assumption|]. apply (sum_none Numbers), Forall_forall. intros k _. rewrite hears_now by assumption. unfold coef. destruct (_ && _ && _); [|ring]. rewrite S4. replace (p_at q k j 0) with (v0 : V) by congruence. ring.
  - destruct S as (S1 & S2 & S3 & S4); [assumption|]. rewrite !at_time_num in *.
    transitivity (vsum (map (fun k => if k =? j then vmul h0 (y k t) else v0) (zrange 0 (a_num a)))); [|apply (sum_single (fun k => vmul h0 (y k t))); lia].
    f_equal. apply map_ext_in. intros k K. apply In_zrange in K. rewrite hears_now by assumption. unfold coef. rewrite S3. replace (_ && _ && _) with true by lia. rewrite S4.
    match goal with H : forall s m, p_at q s m 0 = _ |- _ => rewrite H end. destruct (k =? j); ring.
Qed.
Lemma direct_law h0 m b t j : (0 < highpass_cutoff inf -> first_sample h0) -> (highpass_cutoff inf <= 0 -> h0 = v1) ->
  In m (c_mic c0) -> the_array c0 m b -> mic_untouched procs m -> 0 <= t < tot_samples i -> 0 <= j < a_num b ->
  (forall s, In s (c_src c0) -> lookup2 (c_ptypes c0) s m = Some "none"%string \/ lookup2 (c_ptypes c0) s m = Some "direct"%string) ->
  chan (signals_of i c procs m t) j = vmul h0 (vsum (map (fun s => chan (signals_of i c procs s t) j) (sources_with "direct" m))).
Proof.
  intros HF HN Hm Hb Hu Ht Hj HT. destruct (way_law Numbers inf O0 HS HX HD HR) as (P & F & L). pose proof (run_longer HX HD HR) as RL. assert (B : 0 <= t <= Z.of_nat (run_length i procs)) by lia. transitivity (vsum (map (fun v => hears (P t (fst v) m) (snd v) j (voice i c procs v) t) (channels c0))); [exact (L m b t j Hm Hb Hu B Hj)|].
  unfold channels. rewrite (sum_flat Numbers).
  transitivity (vsum (map (fun s => if match lookup2 (c_ptypes c0) s m with Some ty => String.eqb ty "direct" | None => false end then vmul h0 (chan (signals_of i c procs s t) j) else v0) (c_src c0))).
  - f_equal. apply map_ext_in. intros s Hs. destruct (@direct_heard h0 m b t j s (P t s m) HF HN Hb Hj (F t s m B Hs Hm) Hs (HT s Hs) (fun k u => voice i c procs (s, k) u)) as (a & A & Q).
    unfold the_array in A. rewrite A, map_map. exact Q.
  - unfold sources_with. clear HT F L. induction (c_src c0) as [|s l IH]; [cbn [map filter]; rewrite (sum_nil (E := E)); ring|]. cbn [map filter]. rewrite (sum_cons Numbers), IH.
    destruct (match lookup2 (c_ptypes c0) s m with Some ty => String.eqb ty "direct" | None => false end); cbn [map]; [rewrite (sum_cons Numbers)|]; ring.
Qed.

Lemma array_after k a : the_array c0 k a -> the_array c k a.
Proof. intros H. destruct (setup_ir_ok _ O0 HS) as (_ & _ & _ & _ & _ & _ & _ & A & _). pose proof (sa_arrays A) as Q. cbn [set_info c_arrays] in Q. unfold the_array in *. congruence. Qed.

Section Recorded.
Variables (m : string) (b : arr) (dn : string -> string).
Hypothesis Hm : In m (c_mic c0).
Hypothesis Hb : the_array c0 m b.
Hypothesis Hu : mic_untouched procs m.
Hypothesis types : forall s, In s (c_src c0) -> lookup2 (c_ptypes c0) s m = Some "none"%string \/ lookup2 (c_ptypes c0) s m = Some "direct"%string.
Hypothesis Rm : records i diags (dn m) m (a_num b).
Hypothesis Rs : forall s a, In s (c_src c0) -> the_array c0 s a -> records i diags (dn s) s (a_num a).
(** C125.  Without a high-pass filter, a microphone array all of whose paths are direct or none, moving or not, records at
    every time in each channel the sum of what the sources with direct paths play in the same channel at the same time. *)
Theorem C125_direct : highpass_cutoff inf <= 0 -> exists x : string -> Z -> frame, recording i st (dn m) (x m) /\ (forall s, In s (c_src c0) -> recording i st (dn s) (x s)) /\
  forall t j, 0 <= t < tot_samples i -> 0 <= j < a_num b -> chan (x m t) j = vsum (map (fun s => chan (x s t) j) (sources_with "direct" m)).
Proof.
  intros HN. exists (signals_of i c procs). split; [eapply (recorded_array HX HD HR); eauto; apply array_after; auto|]. split.
  { intros s Hs. destruct (src_array O0 s Hs) as (a & A & _). eapply (recorded_array HX HD HR); [eapply Rs; eauto|apply array_after; auto]. }
  intros t j Ht Hj. rewrite (@direct_law v1 m b t j) by (auto; lia). ring.
Qed.
(** With a high-pass filter, it records that sum times the first sample of the filter's response: the rest of the response is
    cut off with the path, which is one sample long. *)
Theorem C125_highpass h0 : 0 < highpass_cutoff inf -> first_sample h0 -> exists x : string -> Z -> frame, recording i st (dn m) (x m) /\ (forall s, In s (c_src c0) -> recording i st (dn s) (x s)) /\
  forall t j, 0 <= t < tot_samples i -> 0 <= j < a_num b -> chan (x m t) j = vmul h0 (vsum (map (fun s => chan (x s t) j) (sources_with "direct" m))).
Proof.
  intros HN HF. exists (signals_of i c procs). split; [eapply (recorded_array HX HD HR); eauto; apply array_after; auto|]. split.
  { intros s Hs. destruct (src_array O0 s Hs) as (a & A & _). eapply (recorded_array HX HD HR); [eapply Rs; eauto|apply array_after; auto]. }
  intros t j Ht Hj. rewrite (@direct_law h0 m b t j) by (auto; lia). reflexivity.
Qed.
End Recorded.
End Direct.

(* ------------------------------------------------------------------ Examples *)
Section Examples.
Local Open Scope string_scope.
Local Existing Instances fdemo fdemo_d fdemo_s.
Let up (t : Z) : Z := (t + 5)%Z.
Let away (t : Z) : Z := (t / 2)%Z.
(** a moving microphone, two generators and a loudspeaker; one of the generators cannot be heard *)
Definition darrays : list (arr Pos Src) := [fone "mic" KMic 0 (Some away) None; fone "src" KFree 0 None (Some up); fone "noise" KFree 3 None (Some up); fone "spk" KCtrl 1 None None].
Definition with_types (l : list (arr Pos Src)) (ty1 ty2 ty3 : string) : res (coll fdemo) := c <- add_all (empty_coll (0%Z : G)) l ;; c <- set_path_type c "src" "mic" ty1 ;; c <- set_path_type c "noise" "mic" ty2 ;;
  c <- set_path_type c "spk" "mic" ty3 ;; set_default_path_type c "ism".
Lemma with_types_built l ty1 ty2 ty3 c0 : Forall (sized (fun _ => 1%Z)) l -> with_types l ty1 ty2 ty3 = Ok c0 -> built (sized (fun _ => 1%Z)) c0.
Proof.
  intros F H0. unfold with_types in H0. apply bind_ok in H0 as (c1 & K1 & H0). apply bind_ok in H0 as (c2 & K2 & H0). apply bind_ok in H0 as (c3 & K3 & H0). apply bind_ok in H0 as (c4 & K4 & K5).
  eapply built_default; [|exact K5]. eapply built_type; [|exact K4]. eapply built_type; [|exact K3]. eapply built_type; [|exact K2].
  assert (K : forall l (c c' : coll fdemo), Forall (sized (fun _ => 1%Z)) l -> built (sized (fun _ => 1%Z)) c -> add_all c l = Ok c' -> built (sized (fun _ => 1%Z)) c').
  { unfold add_all. clear. induction l as [|a l IH]; simpl; intros c c' F B H; [inversion H; subst; auto|]. inversion F; subst.
    apply bind_ok in H as (c5 & H5 & H). destruct (add_array c a) as [c6 [u|]] eqn:Q; inversion H5; subst. apply (IH c5 c'); auto. eapply built_add; eauto. }
  eapply K; [exact F|constructor|exact K1].
Qed.
Definition drun_of (l : list (arr Pos Src)) (ty1 ty2 ty3 : string) (ps : list (@proc fdemo fdemo_s)) (i : info) (names : list string) : res (@sim fdemo fdemo_s) :=
  c <- with_types l ty1 ty2 ty3 ;; c <- setup_ir c i ;; d <- frecorders i names ;; run_simulation i c ps d.
Lemma drun_meets l ty1 ty2 ty3 ps i names : is_ok (drun_of l ty1 ty2 ty3 ps i names) = true -> Forall (sized (fun _ => 1%Z)) l -> supported i ps -> Forall (fun p => forall s w, NoDup (dkeys (snd (pr_step p s w)))) ps -> NoDup names ->
  get (frecorders i names) (fun l => forallb (fun kd => diag_okb i (snd kd)) l) = Some true ->
  exists c0 c d st, with_types l ty1 ty2 ty3 = Ok c0 /\ coll_ok c0 /\ setup_ir c0 i = Ok c /\ frecorders i names = Ok d /\ experiment i c ps /\ good_diags i d /\ run_simulation i c ps d = Ok st /\ drun_of l ty1 ty2 ty3 ps i names = Ok st.
Proof.
  intros H F HS HW HN HG. apply is_ok_ex in H as [st H]. pose proof H as HZ. unfold drun_of in H. apply bind_ok in H as (c0 & H0 & H). apply bind_ok in H as (c & Hc & H). apply bind_ok in H as (d & Hd & H).
  pose proof (with_types_built _ _ _ F H0) as B0.
  exists c0, c, d, st. split; [exact H0|]. split; [eapply built_ok; exact B0|]. split; [exact Hc|]. split; [exact Hd|]. split; [|split; [|split; [exact H|exact HZ]]].
  - assert (B : built (sized (fun _ => 1%Z)) c) by (eapply built_setup; [exact B0|exact Hc]). assert (G0 : @generators_shaped fdemo (fun _ => 1%Z)) by (split; simpl; intros; auto; match goal with K : Ok _ = Ok _ |- _ => inversion K; subst; auto end).
    destruct (built_shaped (Q := sized (fun _ => 1%Z)) G0 (fun a H => H) B) as (Hsz & Sh & _). constructor; auto.
    + eapply built_ok; eauto.
    + intros k a Ha. destruct (Hsz _ _ Ha). lia.
  - split; [destruct (frecorders_get _ _ _ Hd) as [-> _]; exact HN|]. intros nm x Hx. apply fdiag_okb_ok. rewrite Hd in HG. cbn [get] in HG.
    assert (K : forallb (fun kd => diag_okb i (snd kd)) d = true) by exact (f_equal (fun o => match o with Some b => b | None => false end) HG). rewrite forallb_forall in K. apply (K (nm, x)). apply dget_In. exact Hx.
Qed.
Notation drun := (drun_of darrays "direct" "none" "direct" [fecho 3 5]).
Definition dnames := ["mic"; "src"; "noise"; "spk"].
Definition dinfo := run_info 10 5 false true.
(** the same with a high-pass filter, which is the identity in this world *)
Definition dfilter : info := mkInfo 12 10 5 false true 4 100 343 3 "ism" [1; 1; 1]%Z [0; 0; 0]%Z 1 4 false 0 50 6 "npz" 2 false.
Lemma facts c0 : with_types darrays "direct" "none" "direct" = Ok c0 ->
  c_arrays c0 = map (fun a => (a_name a, a)) darrays /\ c_src c0 = ["src"; "noise"; "spk"] /\ c_mic c0 = ["mic"] /\ c_ptypes c0 = [("src", [("mic", "direct")]); ("noise", [("mic", "none")]); ("spk", [("mic", "direct")])].
Proof.
  intros H0. assert (F : forall A (f : coll fdemo -> A) x, get (with_types darrays "direct" "none" "direct") f = Some x -> f c0 = x). { intros T f x K. rewrite H0 in K. cbn [get] in K. injection K as K. exact K. }
  split; [|split; [|split]]; apply F; vm_compute; reflexivity.
Qed.
Lemma direct_case i c0 d : with_types darrays "direct" "none" "direct" = Ok c0 -> frecorders i dnames = Ok d ->
  exists b, In "mic" (c_mic c0) /\ the_array c0 "mic" b /\ a_num b = 1%Z /\ a_traj b <> None /\ mic_untouched [fecho 3 5] "mic" /\
  (forall s, In s (c_src c0) -> lookup2 (c_ptypes c0) s "mic" = Some "none" \/ lookup2 (c_ptypes c0) s "mic" = Some "direct") /\ sources_with c0 "direct" "mic" = ["src"; "spk"] /\ channels c0 = [("src", 0%Z); ("noise", 0%Z); ("spk", 0%Z)] /\
  records i d "mic" "mic" (a_num b) /\ (forall s a, In s (c_src c0) -> the_array c0 s a -> records i d s s (a_num a)).
Proof.
  intros H0 Hd. destruct (facts H0) as (Q1 & Q2 & Q3 & Q4). clear H0. destruct (frecorders_get _ _ _ Hd) as [_ K]. clear Hd.
  eexists. split; [rewrite Q3; left; reflexivity|]. split; [unfold the_array; rewrite Q1; reflexivity|]. split; [reflexivity|]. split; [discriminate|].
  split. { constructor; [|constructor]. intros s w. cbn. destruct (dget w "mic"); reflexivity. }
  split. { intros s Hs. rewrite Q2 in Hs. rewrite Q4. destruct Hs as [<-|[<-|[<-|[]]]]; [right|left|right]; reflexivity. }
  split; [unfold sources_with; rewrite Q2, Q4; reflexivity|]. split; [unfold channels; rewrite Q1, Q2; reflexivity|]. split; [apply K; cbn; auto|].
  intros s a Hs Ha. rewrite Q2 in Hs. unfold the_array in Ha. rewrite Q1 in Ha. destruct Hs as [<-|[<-|[<-|[]]]]; cbn [map darrays fone a_name dget String.eqb Ascii.eqb Bool.eqb] in Ha; injection Ha as <-; apply K; cbn; auto.
Qed.
(** the hypotheses of both theorems but those about the filter *)
Definition direct_setting (i : info) (c0 c : coll fdemo) (d : dict (diag (@D fdemo fdemo_s))) st b : Prop := coll_ok c0 /\ setup_ir c0 i = Ok c /\ experiment i c [fecho 3 5] /\ good_diags i d /\
  run_simulation i c [fecho 3 5] d = Ok st /\ frecs (Ok st) dnames = frecs (drun i dnames) dnames /\ In "mic" (c_mic c0) /\ the_array c0 "mic" b /\ a_num b = 1%Z /\ a_traj b <> None /\ mic_untouched [fecho 3 5] "mic" /\
  (forall s, In s (c_src c0) -> lookup2 (c_ptypes c0) s "mic" = Some "none" \/ lookup2 (c_ptypes c0) s "mic" = Some "direct") /\ sources_with c0 "direct" "mic" = ["src"; "spk"] /\ channels c0 = [("src", 0%Z); ("noise", 0%Z); ("spk", 0%Z)] /\
  records i d "mic" "mic" (a_num b) /\ (forall s a, In s (c_src c0) -> the_array c0 s a -> records i d s s (a_num a)).
Definition direct_hypotheses (i : info) : Prop := exists c0 c d st b, direct_setting i c0 c d st b.
Unset Implicit Arguments.
Lemma direct_meets i : is_ok (drun i dnames) = true -> supported i [fecho 3 5] -> get (frecorders i dnames) (fun l => forallb (fun kd => diag_okb i (snd kd)) l) = Some true -> direct_hypotheses i.
Proof.
  intros H1 H2 H3. assert (W : Forall (fun p : @proc fdemo fdemo_s => forall s w, NoDup (dkeys (snd (pr_step p s w)))) [fecho 3 5]).
  { clear. constructor; [|constructor]. intros s w. cbn. destruct (dget w "mic"); cbn; repeat constructor. intros []. }
  assert (S : Forall (sized (fun _ => 1%Z)) darrays) by (clear; repeat constructor; simpl; intros; auto; discriminate).
  assert (N : NoDup dnames) by (clear; repeat constructor; simpl; intuition discriminate).
  destruct (@drun_meets darrays "direct" "none" "direct" [fecho 3 5] i dnames H1 S H2 W N H3) as (c0 & c & d & st & H0 & O & Hc & Hd & A & B & C & Q).
  destruct (@direct_case i c0 d H0 Hd) as (b & P). exists c0, c, d, st, b. split; [exact O|]. split; [exact Hc|]. split; [exact A|]. split; [exact B|]. split; [exact C|]. split; [rewrite Q; reflexivity|exact P].
Qed.
Example C125_direct_meets : semi_ring_theory 0%Z 1%Z Z.add Z.mul eq /\ (highpass_cutoff dinfo <= 0)%Z /\ direct_hypotheses dinfo.
Proof. split; [constructor; intros; ring|]. split; [vm_compute; discriminate|]. apply direct_meets; [vm_compute; reflexivity|cbn; lia|vm_compute; reflexivity]. Qed.
Example C125_highpass_meets : (0 < highpass_cutoff dfilter)%Z /\ first_sample (E := fdemo) dfilter 1%Z /\ direct_hypotheses dfilter.
Proof.
  split; [reflexivity|]. split; [intros p k j; split; [reflexivity|]; split; [reflexivity|]; split; [reflexivity|]; symmetry; apply Z.mul_1_l|]. apply direct_meets; [vm_compute; reflexivity|cbn; lia|vm_compute; reflexivity].
Qed.
(** what is recorded: the first row is the sum of the other two *)
Example C125_values : frecs (drun dinfo dnames) ["mic"; "src"; "spk"] = [Some [Some [5]; Some [6]; Some [7]; Some [13]; Some [15]; Some [17]; Some [24]; Some [27]; Some [30]; Some [38]; Some [42]; Some [46]]; Some [Some [5]; Some [6]; Some [7]; Some [8]; Some [9]; Some [10]; Some [11]; Some [12]; Some [13]; Some [14]; Some [15]; Some [16]]; Some [Some [0]; Some [0]; Some [0]; Some [5]; Some [6]; Some [7]; Some [13]; Some [15]; Some [17]; Some [24]; Some [27]; Some [30]]].
Proof. vm_compute. reflexivity. Qed.
End Examples.
Print Assumptions C125_direct.
Print Assumptions C125_highpass.
