(** C137: a pulse is answered by the impulse response in force. *)
Require Import Verif.PyBase Verif.PyLemmas Verif.ConfigModel Verif.ArrayModel Verif.ArraySpec Verif.ArrayProofs Verif.ArrayPaths Verif.LoggerModel Verif.LoggerSpec Verif.LoggerProofs
  Verif.SimModel Verif.SimSpec Verif.SimRefine Verif.SimRun Verif.SimDiag Verif.SimLoop Verif.SignalSpec Verif.SignalPass Verif.SignalRun Verif.SignalLaw Verif.SignalInv Verif.RunSpec Verif.RunLaw Verif.DiagRun
  Verif.DiagModel Verif.DiagSpec Verif.DiagProofs Verif.DiagCtorModel Verif.DiagCtorProofs Verif.SaveProps Verif.ProcModel Verif.Demo Verif.DemoRun Verif.DemoSpy Verif.SignalProps Verif.DemoFun Verif.CausalProps Verif.MotionProps Verif.GroupProps Verif.WayProps Verif.DirectProps Verif.MeasureProps.
Require Import Permutation Ring.
Set Implicit Arguments.
Arguments Z.add : simpl never.
Arguments Z.sub : simpl never.
Arguments Z.mul : simpl never.
Local Open Scope Z_scope.

Section Pulse.
Context {E : AEnv} {DE : DEnv}.
Notation arr := (arr Pos Src).
Variables PS0 D0 Out0 : Type.
Variable dsave0 : D0 -> option PS0 -> dict (list frame) -> Z * Z -> res D0.
Variable dout0 : D0 -> Z -> res Out0.
Local Instance PuS : SEnv := full dsave0 dout0.
(** samples are added and multiplied like exact numbers (rounding is not modelled) *)
Hypothesis Numbers : semi_ring_theory (v0 : V) v1 vadd vmul eq.
Add Ring VNumbers10 : Numbers.
Variables (i inf : info) (c0 c : coll E) (procs : list (@proc E PuS)) (diags : dict (diag D)) (st : sim).
Hypothesis O0 : coll_ok c0.
Hypothesis HS : setup_ir c0 inf = Ok c.
Hypothesis HX : experiment i c procs.
Hypothesis HD : good_diags i diags.
Hypothesis HR : run_simulation i c procs diags = Ok st.
Lemma channels_once : NoDup (channels c0).
Proof.
  unfold channels. pose proof (NoDup_src O0) as ND. induction ND as [|s l N _ IH]; cbn [flat_map]; [constructor|]. apply NoDup_app_intro; [|exact IH|].
  - destruct (dget (c_arrays c0) s); [|constructor]. apply FinFun.Injective_map_NoDup; [congruence|apply NoDup_zrange].
  - intros v H1 H2. apply in_flat_map in H2 as (s' & I & H2). destruct (dget (c_arrays c0) s); [|destruct H1]. destruct (dget (c_arrays c0) s'); [|destruct H2]. apply in_map_iff in H1 as (k & <- & _). apply in_map_iff in H2 as (k' & Q & _). injection Q as -> _. contradiction.
Qed.
(** C137.  Arrays may move.  Channel w plays a at time t0 and nothing at other times; every other channel is silent up to time t or cannot be heard at time t.
    Then the sample recorded at time t is a times coefficient t - t0 of an impulse response that can be in force from w at time t: one made for the places that both arrays have at time t, or the one provided by the user.  Before t0 it is zero. *)
Theorem C137_pulse m b w j t dn a t0 : In m (c_mic c0) -> the_array c0 m b -> mic_untouched procs m -> 0 <= j < a_num b -> 0 <= t < tot_samples i -> In w (channels c0) ->
  (exists x, plays i c procs w x /\ x t0 = a /\ forall u, u <> t0 -> x u = v0) ->
  (forall v, In v (channels c0) -> v <> w -> (exists x, plays i c procs v x /\ forall u, u <= t -> x u = v0) \/ forall p n, can_be_in_force inf c0 t (fst v) m p -> coef p (snd v) j n = v0) ->
  records i diags dn m (a_num b) -> exists y p, recording i st dn y /\ can_be_in_force inf c0 t (fst w) m p /\ chan (y t) j = vmul (coef p (snd w) j (t - t0)) a /\ (t < t0 -> chan (y t) j = v0).
Proof.
  intros Hm Hb Hu Hj Ht Hw (x & X & Xa & X0) Q R. destruct (way_law Numbers inf O0 HS HX HD HR) as (P & F & L). exists (signals_of i c procs m), (P t (fst w) m). split.
  { eapply (recorded_array HX HD HR); [exact R|]. destruct (setup_ir_ok _ O0 HS) as (_ & _ & _ & _ & _ & _ & _ & A & _). pose proof (sa_arrays A) as K. cbn [set_info c_arrays] in K. unfold the_array in *. congruence. }
  assert (SP : forall v, In v (channels c0) -> In (fst v) (c_src c0)). { intros v Hv. unfold channels in Hv. apply in_flat_map in Hv as (s & Hs & Hv). destruct (dget (c_arrays c0) s); [|destruct Hv]. apply in_map_iff in Hv as (k & <- & _). exact Hs. }
  pose proof (run_longer HX HD HR) as RL. assert (B : 0 <= t <= Z.of_nat (run_length i procs)) by lia.
  assert (Fw : forall v, In v (channels c0) -> can_be_in_force inf c0 t (fst v) m (P t (fst v) m)) by (intros v Hv; exact (F t (fst v) m B (SP v Hv) Hm)). split; [exact (Fw w Hw)|].
  assert (K : chan (signals_of i c procs m t) j = vsum (map (fun v => hears (P t (fst v) m) (snd v) j (voice i c procs v) t) (channels c0))) by exact (L m b t j Hm Hb Hu B Hj).
  assert (G : chan (signals_of i c procs m t) j = vmul (coef (P t (fst w) m) (snd w) j (t - t0)) a).
  { etransitivity; [exact K|]. rewrite (@sum_single E Numbers _ _ (channels c0) w channels_once Hw).
    - unfold hears. set (p := P t (fst w) m). destruct (Z_lt_le_dec (t - t0) 0) as [N|N]; [|destruct (Z_lt_le_dec (t - t0) (p_len p)) as [N'|N']].
      + rewrite (sum_none Numbers). { unfold coef. replace (0 <=? t - t0) with false by lia. rewrite !andb_false_r. cbn [andb]. rewrite ?andb_false_r. ring. }
        apply Forall_forall. intros n Hn. apply In_zrange in Hn. assert (U : t - n <= Z.of_nat (run_length i procs)) by lia. assert (Y : voice i c procs w (t - n) = x (t - n)) by exact (plays_voice HX HD HR X U). rewrite Y, X0 by lia. ring.
      + rewrite (@sum_single E Numbers _ _ (zrange 0 (p_len p)) (t - t0) (NoDup_zrange _ _)).
        * assert (U : t - (t - t0) <= Z.of_nat (run_length i procs)) by lia. assert (Y : voice i c procs w (t - (t - t0)) = x (t - (t - t0))) by exact (plays_voice HX HD HR X U). rewrite Y. replace (t - (t - t0)) with t0 by lia. rewrite Xa. reflexivity.
        * apply In_zrange. lia.
        * intros n Hn N2. apply In_zrange in Hn. assert (U : t - n <= Z.of_nat (run_length i procs)) by lia. assert (Y : voice i c procs w (t - n) = x (t - n)) by exact (plays_voice HX HD HR X U). rewrite Y, X0 by lia. ring.
      + rewrite (sum_none Numbers). { unfold coef. replace (t - t0 <? p_len p) with false by lia. rewrite !andb_false_r. ring. }
        apply Forall_forall. intros n Hn. apply In_zrange in Hn. assert (U : t - n <= Z.of_nat (run_length i procs)) by lia. assert (Y : voice i c procs w (t - n) = x (t - n)) by exact (plays_voice HX HD HR X U). rewrite Y, X0 by lia. ring.
    - intros v Hv Hne. unfold hears. apply (sum_none Numbers), Forall_forall. intros n Hn. apply In_zrange in Hn. destruct (Q v Hv Hne) as [(z & Pz & Z0)|H].
      + assert (U : t - n <= Z.of_nat (run_length i procs)) by lia. assert (Y : voice i c procs v (t - n) = z (t - n)) by exact (plays_voice HX HD HR Pz U). rewrite Y, Z0 by lia. ring.
      + rewrite (H _ n (Fw v Hv)). ring. }
  split; [exact G|]. intros N. rewrite G. unfold coef. replace (0 <=? t - t0) with false by lia. cbn [andb]. rewrite !andb_false_r. ring.
Qed.
End Pulse.

(* ------------------------------------------------------------------ Examples *)
Section Examples.
Local Open Scope string_scope.
Local Existing Instances fdemo fdemo_d fdemo_s.
Let single (t : Z) : Z := if (t =? 5)%Z then 7%Z else 0%Z.
Let away (t : Z) : Z := (t / 2)%Z.
Let other (t : Z) : Z := (t + 1)%Z.
(** a moving microphone, a generator that plays 7 at time 5 and nothing else, another one that cannot be heard and a loudspeaker that cannot be heard *)
Definition uarrays : list (arr Pos Src) := [fone "mic" KMic 0 (Some away) None; fone "src" KFree 0 None (Some single); fone "noise" KFree 3 None (Some other); fone "spk" KCtrl 1 None None].
Notation urun := (drun_of uarrays "ism" "none" "none" [fecho 3 5]).
Definition pulse_case (c0 c : coll fdemo) (d : dict (diag (@D fdemo fdemo_s))) st b : Prop := coll_ok c0 /\ setup_ir c0 dinfo = Ok c /\ experiment dinfo c [fecho 3 5] /\ good_diags dinfo d /\
  run_simulation dinfo c [fecho 3 5] d = Ok st /\ In "mic" (c_mic c0) /\ the_array c0 "mic" b /\ a_num b = 1%Z /\ a_traj b <> None /\ mic_untouched [fecho 3 5] "mic" /\ In ("src", 0%Z) (channels c0) /\
  (exists x, plays dinfo c [fecho 3 5] ("src", 0%Z) x /\ x 5%Z = 7%Z /\ forall u, u <> 5%Z -> x u = v0) /\
  (forall v, In v (channels c0) -> v <> ("src", 0%Z) -> (exists x, plays dinfo c [fecho 3 5] v x /\ forall u, (u <= 7)%Z -> x u = v0) \/ forall p n, can_be_in_force dinfo c0 7 (fst v) "mic" p -> coef p (snd v) 0 n = v0) /\ records dinfo d "mic" "mic" (a_num b).
Lemma ufacts c0 : with_types uarrays "ism" "none" "none" = Ok c0 ->
  c_arrays c0 = map (fun a => (a_name a, a)) uarrays /\ c_src c0 = ["src"; "noise"; "spk"] /\ c_free c0 = ["src"; "noise"] /\ c_mic c0 = ["mic"] /\ c_ptypes c0 = [("src", [("mic", "ism")]); ("noise", [("mic", "none")]); ("spk", [("mic", "none")])].
Proof.
  intros H0. assert (F : forall A (f : coll fdemo -> A) x, get (with_types uarrays "ism" "none" "none") f = Some x -> f c0 = x). { intros T f x K. rewrite H0 in K. cbn [get] in K. injection K as K. exact K. }
  split; [|split; [|split; [|split]]]; apply F; vm_compute; reflexivity.
Qed.
Unset Implicit Arguments.
Lemma pulse_of (c0 c : coll fdemo) d : with_types uarrays "ism" "none" "none" = Ok c0 -> coll_ok c0 -> setup_ir c0 dinfo = Ok c -> frecorders dinfo ["mic"] = Ok d ->
  exists b, In "mic" (c_mic c0) /\ the_array c0 "mic" b /\ a_num b = 1%Z /\ a_traj b <> None /\ mic_untouched [fecho 3 5] "mic" /\ In ("src", 0%Z) (channels c0) /\
  (exists x, plays dinfo c [fecho 3 5] ("src", 0%Z) x /\ x 5%Z = 7%Z /\ forall u, u <> 5%Z -> x u = v0) /\
  (forall v, In v (channels c0) -> v <> ("src", 0%Z) -> (exists x, plays dinfo c [fecho 3 5] v x /\ forall u, (u <= 7)%Z -> x u = v0) \/ forall p n, can_be_in_force dinfo c0 7 (fst v) "mic" p -> coef p (snd v) 0 n = v0) /\ records dinfo d "mic" "mic" (a_num b).
Proof.
  intros H0 O Hc Hd. destruct (ufacts H0) as (Q1 & Q2 & Q5 & Q3 & Q4). clear H0. destruct (frecorders_get _ _ _ Hd) as [_ K]. clear Hd.
  assert (CH : channels c0 = [("src", 0%Z); ("noise", 0%Z); ("spk", 0%Z)]) by (unfold channels; rewrite Q1, Q2; reflexivity).
  eexists. split; [rewrite Q3; left; reflexivity|]. split; [unfold the_array; rewrite Q1; reflexivity|]. split; [reflexivity|]. split; [discriminate|].
  split. { constructor; [|constructor]. intros s w. cbn. destruct (dget w "mic"); reflexivity. }
  split; [rewrite CH; left; reflexivity|]. split; [|split].
  - exists (fun t => if (t <? 0)%Z then 0%Z else single t). split; [|split; [reflexivity|]].
    + destruct (setup_ir_ok _ O Hc) as (_ & _ & _ & _ & _ & _ & _ & A & _). pose proof (sa_arrays A) as K1. pose proof (sa_free A) as K2. cbn [set_info c_arrays c_free] in K1, K2.
      left. cbn [fst snd]. split; [rewrite K2, Q5; left; reflexivity|]. exists (fone "src" KFree 0 None (Some single)), (0%Z, single). split; [unfold the_array; rewrite K1, Q1; reflexivity|]. split; [reflexivity|].
      intros t. change (first_request (early_start dinfo)) with 1%Z. change (a_num (fone "src" KFree 0 None (Some single))) with 1%Z. rewrite fplays. destruct (t <? 0)%Z; reflexivity.
    + intros u Hu. unfold single. destruct (u <? 0)%Z; [reflexivity|]. replace (u =? 5)%Z with false by lia. reflexivity.
  - intros v Hv Hne. right. rewrite CH in Hv. destruct Hv as [<-|Hv]; [congruence|]. intros p n [(a & b & ty & g & g' & A & B & T & (q & R & Q))|[T _]]; rewrite Q4 in T; unfold the_array in *; rewrite ?Q1 in *; destruct Hv as [<-|[<-|[]]]; cbn [fst snd] in *; try discriminate T;
      cbn [map uarrays fone a_name dget String.eqb Ascii.eqb Bool.eqb] in A, B; injection A as <-; injection B as <-; injection T as <-; change (0 <? highpass_cutoff dinfo)%Z with false in Q; cbv iota in Q; subst q;
      inversion R as [p' N1 N2 N3 N4| | |p' g2 S D I]; subst; unfold coef; destruct (_ && _ && _)%bool; [apply N4|reflexivity|apply N4|reflexivity].
  - apply K. left. reflexivity.
Qed.
Lemma pulse_meets : is_ok (urun dinfo ["mic"]) = true -> supported dinfo [fecho 3 5] -> get (frecorders dinfo ["mic"]) (fun l => forallb (fun kd => diag_okb dinfo (snd kd)) l) = Some true -> exists c0 c d st b, pulse_case c0 c d st b.
Proof.
  intros H1 H2 H3. assert (W : Forall (fun p : @proc fdemo fdemo_s => forall s w, NoDup (dkeys (snd (pr_step p s w)))) [fecho 3 5]).
  { clear. constructor; [|constructor]. intros s w. cbn. destruct (dget w "mic"); cbn; repeat constructor. intros []. }
  assert (S : Forall (sized (fun _ => 1%Z)) uarrays) by (clear; repeat constructor; simpl; intros; auto; discriminate).
  assert (N : NoDup ["mic"]) by (clear; repeat constructor; simpl; intuition discriminate).
  destruct (@drun_meets uarrays "ism" "none" "none" [fecho 3 5] dinfo ["mic"] H1 S H2 W N H3) as (c0 & c & d & st & H0 & O & Hc & Hd & A & B & C & _). clear H1 H3.
  destruct (pulse_of c0 c d H0 O Hc Hd) as (b & P). exists c0, c, d, st, b. split; [exact O|]. split; [exact Hc|]. split; [exact A|]. split; [exact B|]. split; [exact C|]. exact P.
Qed.
Example C137_pulse_meets : (0 <= 7 < tot_samples dinfo)%Z /\ exists c0 c d st b, pulse_case c0 c d st b.
Proof. split; [cbn; lia|]. apply pulse_meets; [vm_compute; reflexivity|cbn; lia|vm_compute; reflexivity]. Qed.
(** the pulse of time 5 is heard at time 7, as the impulse response of the place at time 7 says *)
Example C137_values : frecs (urun dinfo ["mic"]) ["mic"] = [Some (map (fun x => Some [x]) [0; 0; 0; 0; 0; 0; 0; 7; 0; 0; 0; 0]%Z)].
Proof. vm_compute. reflexivity. Qed.
End Examples.
Print Assumptions C137_pulse.
