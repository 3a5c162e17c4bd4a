(** C139: impulse responses are measured by playing a sequence with two values. *)
Require Import Verif.PyBase Verif.PyLemmas Verif.ConfigModel Verif.ArrayModel Verif.ArraySpec Verif.ArrayProofs Verif.ArrayPaths Verif.LoggerModel Verif.LoggerSpec Verif.LoggerProofs
  Verif.SimModel Verif.SimSpec Verif.SimRefine Verif.SimRun Verif.SimDiag Verif.SimLoop Verif.SignalSpec Verif.SignalPass Verif.SignalRun Verif.SignalLaw Verif.SignalInv Verif.RunSpec Verif.RunLaw Verif.DiagRun
  Verif.DiagModel Verif.DiagSpec Verif.DiagProofs Verif.DiagCtorModel Verif.DiagCtorProofs Verif.SaveProps Verif.ProcModel Verif.Demo Verif.DemoRun Verif.DemoSpy Verif.SignalProps Verif.DemoFun Verif.CausalProps Verif.MotionProps Verif.GroupProps Verif.WayProps Verif.DirectProps Verif.MeasureProps.
Require Import Permutation Ring.
Set Implicit Arguments.
Arguments Z.add : simpl never.
Arguments Z.sub : simpl never.
Arguments Z.mul : simpl never.
Local Open Scope Z_scope.

Section Mls.
Context {E : AEnv} {DE : DEnv}.
Notation arr := (arr Pos Src).
Variables PS0 D0 Out0 : Type.
Variable dsave0 : D0 -> option PS0 -> dict (list frame) -> Z * Z -> res D0.
Variable dout0 : D0 -> Z -> res Out0.
Local Instance MlS : SEnv := full dsave0 dout0.
(** samples are added and multiplied like exact numbers (rounding is not modelled) *)
Hypothesis Numbers : semi_ring_theory (v0 : V) v1 vadd vmul eq.
Add Ring VNumbers10 : Numbers.
(** a sequence with two levels: it has the period T, and the products with itself add up to off + d, those with itself at another time of the period to off.
    A sequence of maximal length T = 2^n - 1 with the values 1 and -1 has off = -1 and d = T + 1; a perfect sequence has off = 0 *)
Definition two_level (ref : Z -> V) (T : Z) (d off : V) : Prop := (forall u, ref (u + T) = ref u) /\ forall e, 0 <= e < T -> total (fun u => vmul (ref (u + e)) (ref u)) 0 T = if e =? 0 then vadd off d else off.
(** the sum of all coefficients of the impulse responses to a channel of a microphone *)
Definition all_taps (c : coll E) (m : string) (j : Z) : V := vsum (map (fun v => vsum (map (fun k => tap c m v j k) (zrange 0 (p_len (path_of c (fst v) m))))) (speakers c m)).
(** the products of such a sequence with itself, at two times of the period *)
Lemma two_level_at ref T d off x p q : two_level ref T d off -> 0 < T -> 0 <= p < T -> 0 <= q < T -> total (fun u => vmul (ref (u - p)) (ref (u - q))) x (x + T) = vadd off (if p =? q then d else v0).
Proof.
  intros [P R] HT Hp Hq. rewrite (total_period dout0 Numbers _ (T := T) x (0 + q) HT). 2:{ intros u. replace (u + T - p) with (u - p + T) by lia. replace (u + T - q) with (u - q + T) by lia. rewrite !P. reflexivity. }
  replace (0 + q + T) with (T + q) by lia. rewrite (total_shift dout0). destruct (Z_le_gt_dec p q) as [L|L].
  - transitivity (total (fun u => vmul (ref (u + (q - p))) (ref u)) 0 T); [apply sum_ext; intros u _; f_equal; f_equal; lia|]. rewrite R by lia. destruct (Z.eqb_spec (q - p) 0), (Z.eqb_spec p q); try lia; ring.
  - transitivity (total (fun u => vmul (ref (u + (q - p + T))) (ref u)) 0 T). { apply sum_ext. intros u _. f_equal; [rewrite <- (P (u + q - p)); f_equal; lia|f_equal; lia]. }
    rewrite R by lia. destruct (Z.eqb_spec (q - p + T) 0), (Z.eqb_spec p q); try lia; ring.
Qed.

Variables (i : info) (c : coll E) (procs : list (@proc E MlS)) (diags : dict (diag D)) (st : sim).
Hypothesis HX : experiment i c procs.
Hypothesis HD : good_diags i diags.
Hypothesis HR : run_simulation i c procs diags = Ok st.
(** C139.  Nothing moves, and no impulse response is longer than L.  From time t0 on every channel v plays the same sequence with two levels, delayed by delay v, so that the parts delay v, ..., delay v + L - 1 of its period T do not overlap.
    Then, in any period that is recorded after time t0 + L - 1, the products of the microphone with the sequence delayed by delay w + n add up to d times the coefficient n of the impulse response from channel w, plus off times the sum of all coefficients;
    and the samples of the microphone in such a period add up to this sum of all coefficients times the sum of the sequence. *)
Theorem C139_two_level m b dn T t0 L ref d off delay : stationary c -> In m (c_mic c) -> the_array c m b -> mic_untouched procs m ->
  (forall s, In s (c_src c) -> p_len (path_of c s m) <= L) -> two_level ref T d off -> 0 < T ->
  (forall v, In v (speakers c m) -> 0 <= delay v /\ delay v + L <= T) ->
  (forall v w, In v (speakers c m) -> In w (speakers c m) -> v <> w -> delay v + L <= delay w \/ delay w + L <= delay v) ->
  (forall v, In v (speakers c m) -> exists x, plays i c procs v x /\ forall u, t0 <= u -> x u = ref (u - delay v)) ->
  records i diags dn m (a_num b) -> exists y, recording i st dn y /\ forall j t, 0 <= j < a_num b -> 0 <= t -> t0 + L - 1 <= t -> t + T <= tot_samples i ->
    total (fun u => chan (y u) j) t (t + T) = vmul (all_taps c m j) (total ref 0 T) /\
    forall w n, In w (speakers c m) -> 0 <= n < L -> total (fun u => vmul (chan (y u) j) (ref (u - (delay w + n)))) t (t + T) = vadd (vmul (tap c m w j n) d) (vmul (all_taps c m j) off).
Proof.
  intros S Hm Hb Hu HL HP HT D1 D2 HV R. exists (signals_of i c procs m). split; [eapply (recorded_array HX HD HR); eauto|]. intros j t Hj Ht Ht0 HN. pose proof (run_longer HX HD HR) as RL.
  assert (SP : forall v, In v (speakers c m) -> In (fst v) (c_src c)). { intros v Hv. unfold speakers in Hv. apply in_flat_map in Hv as (s & Is & Hv). apply in_map_iff in Hv as (k & <- & _). exact Is. }
  assert (M : forall u, t <= u < t + T -> chan (signals_of i c procs m u) j = vsum (map (fun v => vsum (map (fun k => vmul (tap c m v j k) (ref (u - (delay v + k)))) (zrange 0 (p_len (path_of c (fst v) m))))) (speakers c m))).
  { intros u Hu'. assert (B : 0 <= u <= Z.of_nat (run_length i procs)) by lia.
    assert (K : signals_of i c procs m u = map (fun j => vsum (map (fun v => heard c m v (voice i c procs v) u j) (speakers c m))) (zrange 0 (a_num b))) by exact (mic_hears Numbers HX HD HR S Hm Hb Hu B).
    rewrite K. unfold chan. rewrite zget_map, zget_zrange. replace ((0 <=? j) && (j <? a_num b - 0))%bool with true by lia. cbn [option_map]. replace (0 + j) with j by lia.
    apply sum_ext. intros v Hv. unfold heard. apply sum_ext. intros k Hk. apply In_zrange in Hk. specialize (HL _ (SP v Hv)). destruct (HV v Hv) as (x & X & Per).
    assert (U : u - k <= Z.of_nat (run_length i procs)) by lia. assert (Y : voice i c procs v (u - k) = x (u - k)) by exact (plays_voice HX HD HR X U). rewrite Y, Per by lia. replace (u - k - delay v) with (u - (delay v + k)) by lia. reflexivity. }
  split.
  - transitivity (total (fun u => vsum (map (fun v => vsum (map (fun k => vmul (tap c m v j k) (ref (u - (delay v + k)))) (zrange 0 (p_len (path_of c (fst v) m))))) (speakers c m))) t (t + T)).
    { apply sum_ext. intros u Hu'. apply In_zrange in Hu'. apply M. lia. }
    unfold total at 1, all_taps. rewrite (sum_swap Numbers), (sum_times Numbers). apply sum_ext. intros v Hv. rewrite (sum_swap Numbers), (sum_times Numbers). apply sum_ext. intros k _. rewrite <- (times_sum Numbers). f_equal.
    destruct HP as [P _]. change (total (fun u => ref (u - (delay v + k))) t (t + T) = total ref 0 T).
    rewrite (total_period dout0 Numbers _ (T := T) t (0 + (delay v + k)) HT). 2:{ intros u. replace (u + T - (delay v + k)) with (u - (delay v + k) + T) by lia. apply P. }
    replace (0 + (delay v + k) + T) with (T + (delay v + k)) by lia. rewrite (total_shift dout0). apply sum_ext. intros u _. f_equal. lia.
  - intros w n Hw Hn. destruct (D1 w Hw) as [Dw1 Dw2].
    transitivity (vsum (map (fun v => vsum (map (fun k => vadd (vmul (tap c m v j k) (if delay v + k =? delay w + n then d else v0)) (vmul (tap c m v j k) off)) (zrange 0 (p_len (path_of c (fst v) m))))) (speakers c m))).
    + transitivity (total (fun u => vsum (map (fun v => vsum (map (fun k => vmul (tap c m v j k) (vmul (ref (u - (delay v + k))) (ref (u - (delay w + n))))) (zrange 0 (p_len (path_of c (fst v) m))))) (speakers c m))) t (t + T)).
      * apply sum_ext. intros u Hu'. apply In_zrange in Hu'. rewrite M by lia. rewrite (sum_times Numbers). apply sum_ext. intros v Hv. rewrite (sum_times Numbers). apply sum_ext. intros k Hk. ring.
      * unfold total at 1. rewrite (sum_swap Numbers). apply sum_ext. intros v Hv. rewrite (sum_swap Numbers). apply sum_ext. intros k Hk. apply In_zrange in Hk. rewrite <- (times_sum Numbers). destruct (D1 v Hv) as [Dv1 Dv2]. specialize (HL _ (SP v Hv)).
        change (vmul (tap c m v j k) (total (fun u => vmul (ref (u - (delay v + k))) (ref (u - (delay w + n)))) t (t + T)) = vadd (vmul (tap c m v j k) (if delay v + k =? delay w + n then d else v0)) (vmul (tap c m v j k) off)).
        rewrite (@two_level_at ref T d off t (delay v + k) (delay w + n) HP) by lia. ring.
    + transitivity (vadd (vsum (map (fun v => vsum (map (fun k => vmul (tap c m v j k) (if delay v + k =? delay w + n then d else v0)) (zrange 0 (p_len (path_of c (fst v) m))))) (speakers c m))) (vmul (all_taps c m j) off)).
      { unfold all_taps. rewrite (sum_times Numbers), <- (sum_plus Numbers). apply sum_ext. intros v _. rewrite (sum_times Numbers), <- (sum_plus Numbers). reflexivity. }
      f_equal. rewrite (@sum_single E Numbers _ _ (speakers c m) w (speakers_once HX m) Hw).
      * destruct (Z_lt_le_dec n (p_len (path_of c (fst w) m))) as [Q|Q].
        -- rewrite (@sum_single E Numbers _ _ (zrange 0 (p_len (path_of c (fst w) m))) n (NoDup_zrange _ _)); [rewrite Z.eqb_refl; reflexivity|apply In_zrange; lia|]. intros k _ Hk. replace (delay w + k =? delay w + n) with false by lia. ring.
        -- unfold tap at 2. cbv zeta. replace ((0 <=? n) && (n <? p_len (path_of c (fst w) m)))%bool with false by lia. rewrite (sum_none Numbers); [ring|]. apply Forall_forall. intros k Hk. apply In_zrange in Hk. replace (delay w + k =? delay w + n) with false by lia. ring.
      * intros v Hv Hne. apply (sum_none Numbers), Forall_forall. intros k Hk. apply In_zrange in Hk. specialize (HL _ (SP v Hv)). specialize (D2 v w Hv Hw Hne). replace (delay v + k =? delay w + n) with false by lia. ring.
Qed.
End Mls.

(* ------------------------------------------------------------------ Examples *)
Section Examples.
Local Open Scope string_scope.
Local Existing Instances fdemo fdemo_d fdemo_s.
(** the configuration of the other demonstrations, with twenty samples *)
Definition linfo : info := mkInfo 20 10 5 false true 4 100 343 3 "ism" [1; 1; 1]%Z [0; 0; 0]%Z 1 4 false 0 0 6 "npz" 2 false.
(** two sources that play a sequence with the values 1 and -1 of period eleven (the squares modulo eleven), one of them four samples later, and one microphone; nothing moves *)
Definition lseq (t : Z) : Z := (let r := t mod 11 in if existsb (Z.eqb r) [0; 1; 3; 4; 5; 9] then 1 else -1)%Z.
Definition ldelay (v : speaker) : Z := if String.eqb (fst v) "near" then 0%Z else 4%Z.
Definition larrays : list (arr Pos Src) := [fone "mic" KMic 0 None None; fone "near" KFree 1 None (Some lseq); fone "far" KFree 3 None (Some (fun t => lseq (t - 4)))].
Notation noproc := ([] : list (@proc fdemo fdemo_s)).
Definition lnames := ["mic"].
Lemma lseq_levels : @two_level fdemo lseq 11 12%Z (-1)%Z.
Proof.
  split.
  - intros u. unfold lseq. replace (u + 11)%Z with (u + 1 * 11)%Z by lia. rewrite Z_mod_plus_full. reflexivity.
  - intros e He. assert (K : In e (zrange 0 11)) by (apply In_zrange; lia). cbn in K. repeat (destruct K as [<-|K]; [vm_compute; reflexivity|]). destruct K.
Qed.
Definition mls_case (c : coll fdemo) (d : dict (diag (@D fdemo fdemo_s))) (st : @sim fdemo fdemo_s) b : Prop := experiment linfo c noproc /\ good_diags linfo d /\ run_simulation linfo c noproc d = Ok st /\
  stationary c /\ In "mic" (c_mic c) /\ the_array c "mic" b /\ mic_untouched noproc "mic" /\ (forall s, In s (c_src c) -> (p_len (path_of c s "mic") <= 4)%Z) /\ @two_level fdemo lseq 11 12%Z (-1)%Z /\
  (forall v, In v (speakers c "mic") -> (0 <= ldelay v /\ ldelay v + 4 <= 11)%Z) /\
  (forall v w, In v (speakers c "mic") -> In w (speakers c "mic") -> v <> w -> (ldelay v + 4 <= ldelay w \/ ldelay w + 4 <= ldelay v)%Z) /\
  (forall v, In v (speakers c "mic") -> exists x, plays linfo c noproc v x /\ forall u, (0 <= u)%Z -> x u = lseq (u - ldelay v)) /\
  speakers c "mic" = [("near", 0%Z); ("far", 0%Z)] /\ records linfo d "mic" "mic" (a_num b) /\ (a_num b = 1 /\ 0 <= 3 /\ 0 + 4 - 1 <= 3 /\ 3 + 11 <= tot_samples linfo)%Z.
Unset Implicit Arguments.
Lemma mls_of c d : fcoll linfo larrays = Ok c -> frecorders linfo lnames = Ok d ->
  exists b, stationary c /\ In "mic" (c_mic c) /\ the_array c "mic" b /\ mic_untouched noproc "mic" /\ (forall s, In s (c_src c) -> (p_len (path_of c s "mic") <= 4)%Z) /\
  (forall v, In v (speakers c "mic") -> exists x, plays linfo c noproc v x /\ forall u, (0 <= u)%Z -> x u = lseq (u - ldelay v)) /\
  speakers c "mic" = [("near", 0%Z); ("far", 0%Z)] /\ records linfo d "mic" "mic" (a_num b) /\ a_num b = 1%Z.
Proof.
  intros H0 Hd. destruct (frecorders_get _ _ _ Hd) as [_ K]. clear Hd.
  assert (F : forall A (f : coll fdemo -> A) x, get (fcoll linfo larrays) f = Some x -> f c = x). { intros T f x G. exact (fcoll_is _ _ _ _ f x H0 G). }
  assert (Q1 : c_arrays c = map (fun a => (a_name a, a)) larrays) by (apply F; vm_compute; reflexivity). assert (Q2 : c_src c = ["near"; "far"]) by (apply F; vm_compute; reflexivity).
  assert (Q3 : c_mic c = ["mic"]) by (apply F; vm_compute; reflexivity). assert (Q4 : c_free c = ["near"; "far"]) by (apply F; vm_compute; reflexivity).
  assert (Q5 : map (fun s => p_len (path_of c s "mic")) ["near"; "far"] = [4%Z; 4%Z]) by (apply (F _ (fun c => map (fun s => p_len (path_of c s "mic")) ["near"; "far"])); vm_compute; reflexivity).
  assert (Q6 : speakers c "mic" = [("near", 0%Z); ("far", 0%Z)]) by (apply (F _ (fun c => speakers c "mic")); vm_compute; reflexivity). clear F H0.
  assert (Pl : forall s k g, In s ["near"; "far"] -> the_array c s (fone s KFree k None (Some g)) -> plays linfo c noproc (s, 0%Z) (fun t => if (t <? 0)%Z then 0%Z else g t)).
  { intros s k g Hs Ha. left. cbn [fst snd]. split; [rewrite Q4; exact Hs|]. exists (fone s KFree k None (Some g)), (0%Z, g). split; [exact Ha|]. split; [reflexivity|].
    intros t. change (first_request (early_start linfo)) with 1%Z. change (a_num (fone s KFree k None (Some g))) with 1%Z. rewrite fplays. destruct (t <? 0)%Z; reflexivity. }
  eexists. split. { intros k a Ha. unfold the_array in Ha. rewrite Q1 in Ha. cbn [map larrays fone a_name dget] in Ha. repeat (destruct (String.eqb _ _); [injection Ha as <-; reflexivity|]). discriminate Ha. }
  split; [rewrite Q3; left; reflexivity|]. split; [unfold the_array; rewrite Q1; reflexivity|]. split; [constructor|].
  split. { intros s Hs. rewrite Q2 in Hs. cbn [map] in Q5. injection Q5 as E1 E2. destruct Hs as [<-|[<-|[]]]; apply Z.eq_le_incl; [exact E1|exact E2]. }
  split; [|split; [exact Q6|split; [apply K; left; reflexivity|reflexivity]]].
  intros v Hv. rewrite Q6 in Hv. destruct Hv as [<-|[<-|[]]].
  - exists (fun t => if (t <? 0)%Z then 0%Z else lseq t). split; [apply (Pl "near" 1%Z lseq); [left; reflexivity|unfold the_array; rewrite Q1; reflexivity]|].
    intros u Hu. replace (u <? 0)%Z with false by lia. unfold ldelay. cbn [fst String.eqb Ascii.eqb Bool.eqb]. f_equal. lia.
  - exists (fun t => if (t <? 0)%Z then 0%Z else lseq (t - 4)). split; [apply (Pl "far" 3%Z (fun t => lseq (t - 4))); [right; left; reflexivity|unfold the_array; rewrite Q1; reflexivity]|].
    intros u Hu. replace (u <? 0)%Z with false by lia. reflexivity.
Qed.
Lemma mls_meets : is_ok (frun linfo larrays [] lnames) = true -> get (frecorders linfo lnames) (fun l => forallb (fun kd => diag_okb linfo (snd kd)) l) = Some true -> supported linfo noproc ->
  exists c d st b, mls_case c d st b.
Proof.
  intros H1 H3 H2. assert (S : Forall (sized (fun _ => 1%Z)) larrays) by (clear; repeat constructor; simpl; intros; auto; discriminate).
  assert (N : NoDup lnames) by (clear; repeat constructor; simpl; intuition discriminate).
  destruct (frun_meets linfo larrays [] lnames H1 S H2 N H3) as (c & d & st & Hc & Hd & A & B & C). clear H1 H3. destruct (mls_of c d Hc Hd) as (b & P1 & P2 & P3 & P4 & P5 & P6 & P7 & P8 & P9).
  exists c, d, st, b. repeat (split; [assumption|]). split; [exact lseq_levels|]. split.
  { intros v _. unfold ldelay. destruct (String.eqb _ _); lia. } split.
  { intros v w Hv Hw Hne. rewrite P7 in Hv, Hw. destruct Hv as [<-|[<-|[]]], Hw as [<-|[<-|[]]]; try congruence; unfold ldelay; cbn [fst String.eqb Ascii.eqb Bool.eqb]; lia. }
  split; [exact P6|]. split; [exact P7|]. split; [exact P8|]. split; [exact P9|]. cbn. lia.
Qed.
Example C139_two_level_meets : exists c d st b, mls_case c d st b.
Proof. apply mls_meets; [vm_compute; reflexivity|vm_compute; reflexivity|]. cbn. lia. Qed.
(** what is recorded, and what the products with the delayed sequences add up to from time 3 on: twelve times the coefficients of the two impulse responses, one after the other, minus the sum of all of them, which is two; the samples themselves add up to this sum *)
Definition lrecorded : list Z := match frecs (frun linfo larrays [] lnames) ["mic"] with [Some l] => map (fun o => match o with Some [x] => x | _ => 0%Z end) l | _ => [] end.
Example C139_values : map (fun d => fold_right Z.add 0%Z (map (fun u => (nth (Z.to_nat u) lrecorded 0 * lseq (u - d))%Z) (zrange 3 14))) (zrange 0 8) = [-2; 10; -2; -2; -2; -2; -2; 10]%Z /\ fold_right Z.add 0%Z (map (fun u => nth (Z.to_nat u) lrecorded 0%Z) (zrange 3 14)) = 2%Z.
Proof. vm_compute. split; reflexivity. Qed.
End Examples.
Print Assumptions C139_two_level.
