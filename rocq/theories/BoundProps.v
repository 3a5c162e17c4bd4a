(** C126: how loud microphones can be. *)
Require Import Reals Lra.
Require Import Verif.PyBase Verif.PyLemmas Verif.ConfigModel Verif.ArrayModel Verif.ArraySpec Verif.ArrayProofs Verif.ArrayPaths Verif.LoggerModel Verif.LoggerSpec Verif.LoggerProofs
  Verif.SimModel Verif.SimSpec Verif.SimRefine Verif.SimRun Verif.SimDiag Verif.SimLoop Verif.SignalSpec Verif.SignalPass Verif.SignalRun Verif.SignalLaw Verif.SignalInv Verif.RunSpec Verif.RunLaw Verif.DiagRun
  Verif.DiagModel Verif.DiagSpec Verif.DiagProofs Verif.DiagCtorModel Verif.DiagCtorProofs Verif.SaveProps Verif.ProcModel Verif.Demo Verif.DemoRun Verif.DemoSpy Verif.SignalProps Verif.DemoFun Verif.CausalProps Verif.MotionProps Verif.GroupProps Verif.WayProps Verif.DirectProps.
Require Import Permutation Ring.
Set Implicit Arguments.
Arguments Z.add : simpl never.
Arguments Z.sub : simpl never.
Arguments Z.mul : simpl never.
Local Open Scope Z_scope.

Section Bound.
Context {E : AEnv} {DE : DEnv}.
Notation arr := (arr Pos Src).
Variables PS0 D0 Out0 : Type.
Variable dsave0 : D0 -> option PS0 -> dict (list frame) -> Z * Z -> res D0.
Variable dout0 : D0 -> Z -> res Out0.
Local Instance BoS : SEnv := full dsave0 dout0.
(** samples are added and multiplied like exact numbers (rounding is not modelled) *)
Hypothesis Numbers : semi_ring_theory (v0 : V) v1 vadd vmul eq.
(** the absolute value of a sample *)
Variable abs : V -> R.
Hypothesis abs_zero : abs v0 = 0%R.
Hypothesis abs_add : forall a b, (abs (vadd a b) <= abs a + abs b)%R.
Hypothesis abs_mul : forall a b, (abs (vmul a b) <= abs a * abs b)%R.
Hypothesis abs_pos : forall a, (0 <= abs a)%R.
Fixpoint total (l : list R) : R := match l with [] => 0 | x :: l => x + total l end%R.

Lemma abs_sum l : (abs (vsum l) <= total (map abs l))%R.
Proof. induction l as [|a l IH]; cbn [map total]; [rewrite (sum_nil (E := E)), abs_zero; lra|]. rewrite (sum_cons Numbers). pose proof (abs_add a (vsum l)). lra. Qed.
Lemma total_le {A} (f g : A -> R) l : (forall a, In a l -> (f a <= g a)%R) -> (total (map f l) <= total (map g l))%R.
Proof. induction l as [|a l IH]; intros H; cbn [map total]; [lra|]. pose proof (H a (or_introl eq_refl)). pose proof (IH (fun b Hb => H b (or_intror Hb))). lra. Qed.
Lemma total_scale {A} (f : A -> R) k l : total (map (fun a => f a * k)%R l) = (total (map f l) * k)%R.
Proof. induction l as [|a l IH]; cbn [map total]; [lra|]. rewrite IH. lra. Qed.

(** the sum of the absolute values of an impulse response *)
Definition gain (p : path V) (k j : Z) : R := total (map (fun n => abs (coef p k j n)) (zrange 0 (p_len p))).
Lemma heard_bound p k j x t A : (forall u, u <= t -> (abs (x u) <= A)%R) -> (abs (hears p k j x t) <= gain p k j * A)%R.
Proof.
  intros H. unfold hears, gain. eapply Rle_trans; [apply abs_sum|]. rewrite map_map, <- total_scale. apply total_le. intros n Hn. apply In_zrange in Hn.
  eapply Rle_trans; [apply abs_mul|]. apply Rmult_le_compat_l; [apply abs_pos|]. apply H. lia.
Qed.

Variables (i inf : info) (c0 c : coll E) (procs : list (@proc E BoS)) (diags : dict (diag D)) (st : sim).
Hypothesis O0 : coll_ok c0.
Hypothesis HS : setup_ir c0 inf = Ok c.
Hypothesis HX : experiment i c procs.
Hypothesis HD : good_diags i diags.
Hypothesis HR : run_simulation i c procs diags = Ok st.
Variables (m : string) (b : arr) (j t : Z).
Hypothesis Hm : In m (c_mic c0).
Hypothesis Hb : the_array c0 m b.
Hypothesis Hu : mic_untouched procs m.
Hypothesis Hj : 0 <= j < a_num b.
Hypothesis Ht : 0 <= t < tot_samples i.
(** [H v] bounds the gains of all the paths that can be in force at time t from the channel v *)
Variable H : speaker -> R.
Hypothesis gains : forall v p, In v (channels c0) -> can_be_in_force inf c0 t (fst v) m p -> (gain p (snd v) j <= H v)%R.

Lemma bound_law A : (forall v, In v (channels c0) -> (0 <= A v)%R) -> (forall v u, In v (channels c0) -> u <= t -> (abs (voice i c procs v u) <= A v)%R) ->
  (abs (chan (signals_of i c procs m t) j) <= total (map (fun v => H v * A v)%R (channels c0)))%R.
Proof.
  intros A0 HA. destruct (way_law Numbers inf O0 HS HX HD HR) as (P & F & L). pose proof (run_longer HX HD HR) as RL. assert (B : 0 <= t <= Z.of_nat (run_length i procs)) by lia.
  assert (Q : chan (signals_of i c procs m t) j = vsum (map (fun v => hears (P t (fst v) m) (snd v) j (voice i c procs v) t) (channels c0))) by exact (L m b t j Hm Hb Hu B Hj).
  rewrite Q. eapply Rle_trans; [apply abs_sum|]. rewrite map_map. apply total_le. intros v Hv.
  assert (Hs : In (fst v) (c_src c0)). { unfold channels in Hv. apply in_flat_map in Hv as (s & Hs & Hv). destruct (dget (c_arrays c0) s); [|destruct Hv]. apply in_map_iff in Hv as (k & <- & _). exact Hs. }
  eapply Rle_trans; [apply (@heard_bound (P t (fst v) m) (snd v) j (voice i c procs v) t (A v)); intros u U; apply HA; auto|]. apply Rmult_le_compat_r; [auto|]. apply gains; [exact Hv|exact (F t (fst v) m B Hs Hm)].
Qed.
Lemma array_then k a : the_array c0 k a -> the_array c k a.
Proof. intros K. destruct (setup_ir_ok _ O0 HS) as (_ & _ & _ & _ & _ & _ & _ & A & _). pose proof (sa_arrays A) as Q. cbn [set_info c_arrays] in Q. unfold the_array in *. congruence. Qed.
(** C126.  If no channel v plays anything louder than [A v] until time t, the sample that is recorded at time t is not louder than the sum of the gains times the loudness. *)
Theorem C126_bounded A dn : (forall v, In v (channels c0) -> (0 <= A v)%R) ->
  (forall v, In v (channels c0) -> exists x, plays i c procs v x /\ forall u, u <= t -> (abs (x u) <= A v)%R) -> records i diags dn m (a_num b) ->
  exists x, recording i st dn x /\ (abs (chan (x t) j) <= total (map (fun v => H v * A v)%R (channels c0)))%R.
Proof.
  intros A0 HA R. exists (signals_of i c procs m). split; [eapply (recorded_array HX HD HR); [exact R|apply array_then; exact Hb]|]. apply bound_law; [exact A0|].
  intros v u Hv Hle. destruct (HA v Hv) as (x & X & Q). pose proof (run_longer HX HD HR). assert (B : u <= Z.of_nat (run_length i procs)) by lia.
  assert (Y : voice i c procs v u = x u) by exact (plays_voice HX HD HR X B). rewrite Y. auto.
Qed.
(** If the sources start at time 0, it is enough that the recordings of the sources are bounded. *)
Lemma recorded_plays A dn : start_sources_before_0 i = false -> (forall v, In v (channels c0) -> (0 <= A v)%R) -> (forall s a, In s (c_src c0) -> the_array c0 s a -> records i diags (dn s) s (a_num a)) ->
  (forall s x k u, In s (c_src c0) -> recording i st (dn s) x -> In (s, k) (channels c0) -> 0 <= u <= t -> (abs (chan (x u) k) <= A (s, k))%R) ->
  forall v, In v (channels c0) -> exists x, plays i c procs v x /\ forall u, u <= t -> (abs (x u) <= A v)%R.
Proof.
  intros HE A0 RS HA [s k] Hv. exists (voice i c procs (s, k)). split; [right; reflexivity|].
  intros u Hle. assert (Hs : In s (c_src c0)). { unfold channels in Hv. apply in_flat_map in Hv as (s' & Hs & Hv). destruct (dget (c_arrays c0) s'); [|destruct Hv]. apply in_map_iff in Hv as (k' & Q & _). injection Q as <- _. exact Hs. }
  destruct (src_array O0 s Hs) as (a & Ha & _). destruct (Z_lt_le_dec u 0) as [N|N].
  - assert (Hs' : In s (c_src c)). { destruct (setup_ir_ok _ O0 HS) as (_ & _ & _ & _ & _ & _ & _ & A1 & _). pose proof (sa_src A1) as Q. cbn [set_info c_src] in Q. congruence. }
    assert (Z0 : signals_of i c procs s u = zeros (a_num a)). { apply (source_before_start HX HD HR) with (s := s); auto; [apply array_then; exact Ha|]. unfold early_start. rewrite HE. simpl. lia. }
    assert (Z1 : chan (zeros (a_num a) : frame) k = v0). { unfold chan. destruct (zget (zeros (a_num a) : frame) k) as [z|] eqn:G; [|reflexivity]. apply zget_In in G. unfold zeros in G. apply repeat_spec in G. auto. }
    assert (Z2 : voice i c procs (s, k) u = v0) by exact (eq_trans (f_equal (fun f => chan f k) Z0) Z1). rewrite Z2, abs_zero. apply (A0 (s, k)). exact Hv.
  - apply (HA s (signals_of i c procs s) k u Hs); auto. eapply (recorded_array HX HD HR); [eapply RS; eauto|apply array_then; exact Ha].
Qed.
Theorem C126_recorded A dn : start_sources_before_0 i = false -> (forall v, In v (channels c0) -> (0 <= A v)%R) ->
  records i diags (dn m) m (a_num b) -> (forall s a, In s (c_src c0) -> the_array c0 s a -> records i diags (dn s) s (a_num a)) ->
  (forall s x k u, In s (c_src c0) -> recording i st (dn s) x -> In (s, k) (channels c0) -> 0 <= u <= t -> (abs (chan (x u) k) <= A (s, k))%R) ->
  exists x, recording i st (dn m) x /\ (abs (chan (x t) j) <= total (map (fun v => H v * A v)%R (channels c0)))%R.
Proof. intros HE A0 R RS HA. apply C126_bounded; auto. apply (recorded_plays A dn); auto. Qed.
End Bound.

(* ------------------------------------------------------------------ Example *)
(** the run of C125, in which the bound is attained: at time 11 the microphone records 46 = 16 + 30 *)
Section Example_.
Local Open Scope string_scope.
Local Existing Instances fdemo fdemo_d fdemo_s.
Definition zabs (z : @V fdemo) : R := IZR (Z.abs z).
Definition dgain (v : speaker) : R := if String.eqb (fst v) "noise" then 0%R else 1%R.
Definition dloud (v : speaker) : R := if String.eqb (fst v) "spk" then 30%R else 16%R.
Lemma zabs_ok : zabs (v0 : V) = 0%R /\ (forall a b : V, (zabs (vadd a b) <= zabs a + zabs b)%R) /\ (forall a b : V, (zabs (vmul a b) <= zabs a * zabs b)%R) /\ (forall a : V, (0 <= zabs a)%R).
Proof.
  split; [reflexivity|]. split; [|split]; unfold zabs; cbn.
  - intros a b. rewrite <- plus_IZR. apply IZR_le. lia.
  - intros a b. rewrite <- mult_IZR. apply IZR_le. rewrite Z.abs_mul. lia.
  - intros a. apply IZR_le. lia.
Qed.
Lemma direct_gain (c0 : coll fdemo) t s m p : (lookup2 (c_ptypes c0) s m = Some "none" \/ lookup2 (c_ptypes c0) s m = Some "direct") -> can_be_in_force dinfo c0 t s m p ->
  (gain zabs p 0 0 <= (if match lookup2 (c_ptypes c0) s m with Some ty => String.eqb ty "direct" | None => false end then 1 else 0))%R.
Proof.
  intros HT [(a & b & ty & g & g' & A & B & T & (q & R & Q))|[T _]]; [|destruct HT as [HT|HT]; rewrite T in HT; discriminate].
  change (0 <? highpass_cutoff dinfo)%Z with false in Q. cbv iota in Q. subst q. rewrite T in HT |- *. unfold gain, zabs.
  destruct HT as [HT|HT]; injection HT as ->; inversion R; subst; cbn [String.eqb Ascii.eqb Bool.eqb];
    match goal with L : p_len p = _ |- _ => rewrite L end; change (zrange 0 1) with [0%Z]; cbn [map total]; unfold coef; destruct (_ && _ && _); cbn; try lra;
    match goal with L : forall s m, _ |- _ => rewrite L; cbn; lra | L : forall s m n, _ |- _ => rewrite L; cbn; lra end.
Qed.
Definition bound_case (st : @sim fdemo fdemo_s) (c0 : coll fdemo) : Prop :=
  (forall v p, In v (channels c0) -> can_be_in_force dinfo c0 11 (fst v) "mic" p -> (gain zabs p (snd v) 0 <= dgain v)%R) /\
  (forall v, In v (channels c0) -> (0 <= dloud v)%R) /\
  (forall s x k u, In s (c_src c0) -> recording dinfo st s x -> In (s, k) (channels c0) -> (0 <= u <= 11)%Z -> (zabs (chan (x u) k) <= dloud (s, k))%R) /\
  total (map (fun v => dgain v * dloud v)%R (channels c0)) = 46%R.
Unset Implicit Arguments.
Lemma recorded_values (st : @sim fdemo fdemo_s) nm x l : recording dinfo st nm x -> frecs (Ok st) [nm] = [Some (map (fun y => Some [y]) l)] -> forall u, (0 <= u < 12)%Z -> exists y, In y l /\ x u = [y].
Proof.
  intros (dd & r & D1 & D2 & D3) F u Hr. change (tot_samples dinfo) with 12%Z in D3. unfold frecs in F. cbn [map] in F. injection F as F.
  assert (Q : Some (rs_data r) = Some (map (fun y => Some [y]) l)).
  { etransitivity; [|exact F]. symmetry. etransitivity; [exact (f_equal (fun o => match o with Some d => match d_pl d with DRecordSignal r => Some (rs_data r) | _ => None end | None => None end) D1)|].
    exact (f_equal (fun p => match p with DRecordSignal r => Some (rs_data r) | _ => None end) D2). }
  injection Q as L. rewrite D3 in L. assert (U : In u (zrange 0 12)) by (apply In_zrange; lia). apply in_map with (f := fun t => Some (x t)) in U. rewrite L in U. apply in_map_iff in U as (y & E & I). exists y. split; [exact I|congruence].
Qed.
Lemma bound_meets c0 c d st b : direct_setting dinfo c0 c d st b -> bound_case st c0.
Proof.
  intros (_ & _ & _ & _ & _ & FR & _ & _ & _ & _ & _ & TY & SW & CH & _).
  assert (G : frecs (drun_of darrays "direct" "none" "direct" [fecho 3 5] dinfo dnames) dnames = map (fun l => Some (map (fun x => Some [x]) l))
    [[5; 6; 7; 13; 15; 17; 24; 27; 30; 38; 42; 46]; [5; 6; 7; 8; 9; 10; 11; 12; 13; 14; 15; 16]; [5; 6; 7; 8; 9; 10; 11; 12; 13; 14; 15; 16]; [0; 0; 0; 5; 6; 7; 13; 15; 17; 24; 27; 30]]%Z) by (vm_compute; reflexivity).
  rewrite G in FR. clear G. unfold bound_case. rewrite CH. split; [|split; [|split]].
  - intros v p Hv F. assert (Hs : In (fst v) (c_src c0)).
    { assert (Hv' : In v (channels c0)) by (rewrite CH; exact Hv). unfold channels in Hv'. apply in_flat_map in Hv' as (s & Hs & Hv'). destruct (dget (c_arrays c0) s); [|destruct Hv']. apply in_map_iff in Hv' as (k & <- & _). exact Hs. }
    assert (K : snd v = 0%Z) by (destruct Hv as [<-|[<-|[<-|[]]]]; reflexivity). rewrite K. eapply Rle_trans; [exact (direct_gain (TY _ Hs) F)|].
    destruct (match lookup2 (c_ptypes c0) (fst v) "mic" with Some ty => String.eqb ty "direct" | None => false end) eqn:Q.
    + assert (I : In (fst v) (sources_with c0 "direct" "mic")) by (apply filter_In; split; [exact Hs|exact Q]). rewrite SW in I. unfold dgain. destruct I as [<-|[<-|[]]]; cbn; lra.
    + unfold dgain. destruct (_ =? _)%string; lra.
  - intros v _. unfold dloud. destruct (_ =? _)%string; lra.
  - intros s x k u Hs X Hv Hr. unfold frecs, dnames in FR. cbn [map] in FR. injection FR as F1 F2 F3 F4. pose proof (fun l F => recorded_values st s x l X F u ltac:(lia)) as Y. clear X.
    unfold zabs, dloud. destruct Hv as [Q|[Q|[Q|[]]]]; injection Q as <- <-.
    + destruct (Y [5; 6; 7; 8; 9; 10; 11; 12; 13; 14; 15; 16]%Z (f_equal (fun a => [a]) F2)) as (y & I & ->). cbn. apply IZR_le. cbn in I. intuition lia.
    + destruct (Y [5; 6; 7; 8; 9; 10; 11; 12; 13; 14; 15; 16]%Z (f_equal (fun a => [a]) F3)) as (y & I & ->). cbn. apply IZR_le. cbn in I. intuition lia.
    + destruct (Y [0; 0; 0; 5; 6; 7; 13; 15; 17; 24; 27; 30]%Z (f_equal (fun a => [a]) F4)) as (y & I & ->). cbn. apply IZR_le. cbn in I. intuition lia.
  - cbn. lra.
Qed.
Example C126_recorded_meets : start_sources_before_0 dinfo = false /\ exists c0 c d st b, direct_setting dinfo c0 c d st b /\ bound_case st c0.
Proof. split; [reflexivity|]. destruct C125_direct_meets as (_ & _ & c0 & c & d & st & b & H). exists c0, c, d, st, b. split; [exact H|]. eapply bound_meets. exact H. Qed.
Example C126_bounded_meets : exists c0 c d st b, direct_setting dinfo c0 c d st b /\ bound_case st c0 /\
  forall v, In v (channels c0) -> exists x, plays dinfo c [fecho 3 5] v x /\ forall u, (u <= 11)%Z -> (zabs (x u) <= dloud v)%R.
Proof.
  destruct C126_recorded_meets as (HE & c0 & c & d & st & b & S & B). exists c0, c, d, st, b. split; [exact S|]. split; [exact B|].
  destruct S as (O & HS & HX & HD & HR & _ & _ & _ & _ & _ & _ & _ & _ & _ & _ & RS). destruct B as (_ & A0 & HA & _). destruct zabs_ok as (Z0 & _).
  exact (recorded_plays zabs Z0 dinfo O HS HX HD HR (t := 11%Z) dloud (fun s => s) HE A0 RS HA).
Qed.
End Example_.
Print Assumptions C126_bounded.
Print Assumptions C126_recorded.
