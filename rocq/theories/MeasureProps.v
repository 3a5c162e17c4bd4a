(** C136: impulse responses are measured by playing a perfect sequence. *)
Require Import Verif.PyBase Verif.PyLemmas Verif.ConfigModel Verif.ArrayModel Verif.ArraySpec Verif.ArrayProofs Verif.ArrayPaths Verif.LoggerModel Verif.LoggerSpec Verif.LoggerProofs
  Verif.SimModel Verif.SimSpec Verif.SimRefine Verif.SimRun Verif.SimDiag Verif.SimLoop Verif.SignalSpec Verif.SignalPass Verif.SignalRun Verif.SignalLaw Verif.SignalInv Verif.RunSpec Verif.RunLaw Verif.DiagRun
  Verif.DiagModel Verif.DiagSpec Verif.DiagProofs Verif.DiagCtorModel Verif.DiagCtorProofs Verif.SaveProps Verif.ProcModel Verif.Demo Verif.DemoRun Verif.DemoSpy Verif.SignalProps Verif.DemoFun Verif.CausalProps Verif.MotionProps Verif.GroupProps Verif.WayProps Verif.DirectProps.
Require Import Permutation Ring.
Set Implicit Arguments.
Arguments Z.add : simpl never.
Arguments Z.sub : simpl never.
Arguments Z.mul : simpl never.
Local Open Scope Z_scope.

Section Measure.
Context {E : AEnv} {DE : DEnv}.
Notation arr := (arr Pos Src).
Variables PS0 D0 Out0 : Type.
Variable dsave0 : D0 -> option PS0 -> dict (list frame) -> Z * Z -> res D0.
Variable dout0 : D0 -> Z -> res Out0.
Local Instance MeS : SEnv := full dsave0 dout0.
(** samples are added and multiplied like exact numbers (rounding is not modelled) *)
Hypothesis Numbers : semi_ring_theory (v0 : V) v1 vadd vmul eq.
Add Ring VNumbers9 : Numbers.
(** the sum of f over the times from, ..., until - 1 *)
Definition total (f : Z -> V) (from until : Z) : V := vsum (map f (zrange from until)).
(** a perfect sequence: it has the period T, and the products with itself add up to a, those with itself at another time of the period to zero *)
Definition perfect (ref : Z -> V) (T : Z) (a : V) : Prop := (forall u, ref (u + T) = ref u) /\ forall e, 0 <= e < T -> total (fun u => vmul (ref (u + e)) (ref u)) 0 T = if e =? 0 then a else v0.

Lemma sum_ext {A} (f g : A -> V) l : (forall x, In x l -> f x = g x) -> vsum (map f l) = vsum (map g l).
Proof. intros H. f_equal. apply map_ext_in. exact H. Qed.
Lemma sum_plus {A} (f g : A -> V) l : vsum (map (fun x => vadd (f x) (g x)) l) = vadd (vsum (map f l)) (vsum (map g l)).
Proof. induction l as [|x l IH]; cbn [map]; [rewrite !(sum_nil); ring|]. rewrite !(sum_cons Numbers), IH. ring. Qed.
Lemma sum_times {A} (f : A -> V) y l : vmul (vsum (map f l)) y = vsum (map (fun x => vmul (f x) y) l).
Proof. induction l as [|x l IH]; cbn [map]; [rewrite !(sum_nil); ring|]. rewrite !(sum_cons Numbers), <- IH. ring. Qed.
Lemma times_sum {A} (f : A -> V) y l : vmul y (vsum (map f l)) = vsum (map (fun x => vmul y (f x)) l).
Proof. induction l as [|x l IH]; cbn [map]; [rewrite !(sum_nil); ring|]. rewrite !(sum_cons Numbers), <- IH. ring. Qed.
Lemma sum_swap {A B} (f : A -> B -> V) l k : vsum (map (fun x => vsum (map (f x) k)) l) = vsum (map (fun y => vsum (map (fun x => f x y) l)) k).
Proof.
  induction l as [|x l IH]; cbn [map]. { symmetry. apply (sum_none Numbers), Forall_forall. reflexivity. }
  rewrite (sum_cons Numbers), IH, <- sum_plus. apply sum_ext. intros y _. rewrite (sum_cons Numbers). reflexivity.
Qed.
Lemma sum_single {A} (f : A -> V) l x : NoDup l -> In x l -> (forall y, In y l -> y <> x -> f y = v0) -> vsum (map f l) = f x.
Proof.
  induction l as [|y l IH]; intros ND I H; [destruct I|]. cbn [map]. rewrite (sum_cons Numbers). inversion_clear ND as [|? ? N ND']. destruct I as [->|I].
  - rewrite (sum_none Numbers f (l := l)); [ring|]. apply Forall_forall. intros y Hy. apply H; [right; exact Hy|]. intros ->. contradiction.
  - rewrite IH; auto; [|intros z Hz; apply H; right; exact Hz]. rewrite (H y); [ring|left; reflexivity|]. intros ->. contradiction.
Qed.
Lemma total_shift f k x y : total f (x + k) (y + k) = total (fun u => f (u + k)) x y.
Proof.
  unfold total. f_equal. rewrite <- (map_map (fun u => u + k) f). f_equal. destruct (Z_lt_le_dec x y) as [H|H]; [|rewrite !zrange_empty by lia; reflexivity].
  remember (Z.to_nat (y - x)) as n eqn:Hn. revert x Hn H. induction n as [|n IH]; intros x Hn H; [lia|]. rewrite (zrange_cons H). rewrite zrange_cons by lia. cbn [map]. f_equal.
  destruct (Z_lt_le_dec (x + 1) y) as [H'|H']; [|rewrite !zrange_empty by lia; reflexivity]. rewrite <- IH by lia. f_equal. lia.
Qed.
Lemma total_step f x T : 0 < T -> f (x + T) = f x -> total f (x + 1) (x + 1 + T) = total f x (x + T).
Proof.
  intros HT H. unfold total. rewrite (@zrange_app (x + 1) (x + T) (x + 1 + T)) by lia. rewrite (@zrange_cons (x + T) (x + 1 + T)) by lia. rewrite (zrange_empty (a := x + T + 1)) by lia. rewrite (@zrange_cons x (x + T)) by lia.
  rewrite map_app, (sum_app Numbers). cbn [map]. rewrite !(sum_cons Numbers), sum_nil, H. ring.
Qed.
Lemma total_period f T x y : 0 < T -> (forall u, f (u + T) = f u) -> total f x (x + T) = total f y (y + T).
Proof.
  intros HT H. assert (K : forall n x, total f (x + Z.of_nat n) (x + Z.of_nat n + T) = total f x (x + T)).
  { induction n as [|n IH]; intros z; [rewrite Z.add_0_r; reflexivity|]. replace (z + Z.of_nat (S n)) with (z + Z.of_nat n + 1) by lia. rewrite total_step by auto. apply IH. }
  destruct (Z_le_gt_dec x y) as [L|L].
  - symmetry. specialize (K (Z.to_nat (y - x)) x). rewrite Z2Nat.id in K by lia. replace (x + (y - x)) with y in K by lia. exact K.
  - specialize (K (Z.to_nat (x - y)) y). rewrite Z2Nat.id in K by lia. replace (y + (x - y)) with x in K by lia. exact K.
Qed.
(** the products of a perfect sequence with itself, at two times of the period *)
Lemma perfect_at ref T a x p q : perfect ref T a -> 0 < T -> 0 <= p < T -> 0 <= q < T -> total (fun u => vmul (ref (u - p)) (ref (u - q))) x (x + T) = if p =? q then a else v0.
Proof.
  intros [P R] HT Hp Hq. rewrite (@total_period _ T x (0 + q) HT). 2:{ intros u. replace (u + T - p) with (u - p + T) by lia. replace (u + T - q) with (u - q + T) by lia. rewrite !P. reflexivity. }
  replace (0 + q + T) with (T + q) by lia. rewrite total_shift. destruct (Z_le_gt_dec p q) as [L|L].
  - transitivity (total (fun u => vmul (ref (u + (q - p))) (ref u)) 0 T); [apply sum_ext; intros u _; f_equal; f_equal; lia|]. rewrite R by lia. destruct (Z.eqb_spec (q - p) 0), (Z.eqb_spec p q); try lia; reflexivity.
  - transitivity (total (fun u => vmul (ref (u + (q - p + T))) (ref u)) 0 T). { apply sum_ext. intros u _. f_equal; [rewrite <- (P (u + q - p)); f_equal; lia|f_equal; lia]. }
    rewrite R by lia. destruct (Z.eqb_spec (q - p + T) 0), (Z.eqb_spec p q); try lia; reflexivity.
Qed.

Variables (i : info) (c : coll E) (procs : list (@proc E MeS)) (diags : dict (diag D)) (st : sim).
Hypothesis HX : experiment i c procs.
Hypothesis HD : good_diags i diags.
Hypothesis HR : run_simulation i c procs diags = Ok st.
Lemma speakers_once m : NoDup (speakers c m).
Proof.
  unfold speakers. pose proof (NoDup_src (ex_coll HX)) as ND. induction ND as [|s l N _ IH]; cbn [flat_map]; [constructor|]. apply NoDup_app_intro; [apply FinFun.Injective_map_NoDup; [congruence|apply NoDup_zrange]|exact IH|].
  intros v H1 H2. apply in_map_iff in H1 as (k & <- & _). apply in_flat_map in H2 as (s' & I & H2). apply in_map_iff in H2 as (k' & Q & _). injection Q as -> _. contradiction.
Qed.
(** C136.  Nothing moves, and no impulse response is longer than L.  From time t0 on every channel v plays the same perfect sequence of period T, delayed by delay v, so that the parts delay v, ..., delay v + L - 1 of the period do not overlap.
    Then, in any period that is recorded after time t0 + L - 1, the products of the microphone with the sequence delayed by delay w + n add up to the coefficient n of the impulse response from channel w, times a. *)
Theorem C136_measured m b dn T t0 L ref a delay : stationary c -> In m (c_mic c) -> the_array c m b -> mic_untouched procs m ->
  (forall s, In s (c_src c) -> p_len (path_of c s m) <= L) -> perfect ref T a ->
  (forall v, In v (speakers c m) -> 0 <= delay v /\ delay v + L <= T) ->
  (forall v w, In v (speakers c m) -> In w (speakers c m) -> v <> w -> delay v + L <= delay w \/ delay w + L <= delay v) ->
  (forall v, In v (speakers c m) -> exists x, plays i c procs v x /\ forall u, t0 <= u -> x u = ref (u - delay v)) ->
  records i diags dn m (a_num b) -> exists y, recording i st dn y /\ forall w j n t, In w (speakers c m) -> 0 <= j < a_num b -> 0 <= n < L -> 0 <= t -> t0 + L - 1 <= t -> t + T <= tot_samples i ->
    total (fun u => vmul (chan (y u) j) (ref (u - (delay w + n)))) t (t + T) = vmul (tap c m w j n) a.
Proof.
  intros S Hm Hb Hu HL HP D1 D2 HV R. exists (signals_of i c procs m). split; [eapply (recorded_array HX HD HR); eauto|]. intros w j n t Hw Hj Hn Ht Ht0 HN. pose proof (run_longer HX HD HR) as RL.
  assert (SP : forall v, In v (speakers c m) -> In (fst v) (c_src c)). { intros v Hv. unfold speakers in Hv. apply in_flat_map in Hv as (s & Is & Hv). apply in_map_iff in Hv as (k & <- & _). exact Is. }
  destruct (D1 w Hw) as [Dw1 Dw2].
  transitivity (vsum (map (fun v => vsum (map (fun k => vmul (tap c m v j k) (if delay v + k =? delay w + n then a else v0)) (zrange 0 (p_len (path_of c (fst v) m))))) (speakers c m))).
  - transitivity (total (fun u => vsum (map (fun v => vsum (map (fun k => vmul (tap c m v j k) (vmul (ref (u - (delay v + k))) (ref (u - (delay w + n))))) (zrange 0 (p_len (path_of c (fst v) m))))) (speakers c m))) t (t + T)).
    + apply sum_ext. intros u Hu'. apply In_zrange in Hu'. assert (B : 0 <= u <= Z.of_nat (run_length i procs)) by lia.
      assert (K : signals_of i c procs m u = map (fun j => vsum (map (fun v => heard c m v (voice i c procs v) u j) (speakers c m))) (zrange 0 (a_num b))) by exact (mic_hears Numbers HX HD HR S Hm Hb Hu B).
      assert (K2 : chan (signals_of i c procs m u) j = vsum (map (fun v => heard c m v (voice i c procs v) u j) (speakers c m))).
      { rewrite K. unfold chan. rewrite zget_map, zget_zrange. replace ((0 <=? j) && (j <? a_num b - 0))%bool with true by lia. cbn [option_map]. replace (0 + j) with j by lia. reflexivity. }
      rewrite K2, sum_times. apply sum_ext. intros v Hv. unfold heard. rewrite sum_times. apply sum_ext. intros k Hk. apply In_zrange in Hk. specialize (HL _ (SP v Hv)). destruct (HV v Hv) as (x & X & Per).
      assert (U : u - k <= Z.of_nat (run_length i procs)) by lia. assert (Y : voice i c procs v (u - k) = x (u - k)) by exact (plays_voice HX HD HR X U). rewrite Y, Per by lia. replace (u - k - delay v) with (u - (delay v + k)) by lia. ring.
    + unfold total at 1. rewrite sum_swap. apply sum_ext. intros v Hv. rewrite sum_swap. apply sum_ext. intros k Hk. apply In_zrange in Hk. rewrite <- times_sum. f_equal. destruct (D1 v Hv) as [Dv1 Dv2]. specialize (HL _ (SP v Hv)).
      apply (@perfect_at ref T a t (delay v + k) (delay w + n) HP); lia.
  - rewrite (@sum_single _ _ (speakers c m) w (speakers_once m) Hw).
    + destruct (Z_lt_le_dec n (p_len (path_of c (fst w) m))) as [Q|Q].
      * rewrite (@sum_single _ _ (zrange 0 (p_len (path_of c (fst w) m))) n (NoDup_zrange _ _)); [rewrite Z.eqb_refl; reflexivity|apply In_zrange; lia|]. intros k _ Hk. replace (delay w + k =? delay w + n) with false by lia. ring.
      * unfold tap at 2. cbv zeta. replace ((0 <=? n) && (n <? p_len (path_of c (fst w) m)))%bool with false by lia. rewrite (sum_none Numbers); [ring|]. apply Forall_forall. intros k Hk. apply In_zrange in Hk. replace (delay w + k =? delay w + n) with false by lia. ring.
    + intros v Hv Hne. apply (sum_none Numbers), Forall_forall. intros k Hk. apply In_zrange in Hk. specialize (HL _ (SP v Hv)). specialize (D2 v w Hv Hw Hne). replace (delay v + k =? delay w + n) with false by lia. ring.
Qed.
End Measure.

(* ------------------------------------------------------------------ Examples *)
Section Examples.
Local Open Scope string_scope.
Local Existing Instances fdemo fdemo_d fdemo_s.
(** two sources that play a perfect sequence of period eight, one of them four samples later, and one microphone; nothing moves *)
Definition pseq (t : Z) : Z := (let r := t mod 8 in if r =? 0 then 1 else if r =? 2 then 1 else if r =? 4 then 1 else if r =? 6 then -1 else 0)%Z.
Definition pdelay (v : speaker) : Z := if String.eqb (fst v) "near" then 0%Z else 4%Z.
Definition marrays : list (arr Pos Src) := [fone "mic" KMic 0 None None; fone "near" KFree 1 None (Some pseq); fone "far" KFree 3 None (Some (fun t => pseq (t - 4)))].
Notation noproc := ([] : list (@proc fdemo fdemo_s)).
Definition mnames := ["mic"].
Lemma pseq_perfect : @perfect fdemo pseq 8 4%Z.
Proof.
  split.
  - intros u. unfold pseq. replace (u + 8)%Z with (u + 1 * 8)%Z by lia. rewrite Z_mod_plus_full. reflexivity.
  - intros e He. assert (K : (e = 0 \/ e = 1 \/ e = 2 \/ e = 3 \/ e = 4 \/ e = 5 \/ e = 6 \/ e = 7)%Z) by lia. repeat (destruct K as [->|K]; [vm_compute; reflexivity|]). subst. vm_compute. reflexivity.
Qed.
Definition measured_case (c : coll fdemo) (d : dict (diag (@D fdemo fdemo_s))) (st : @sim fdemo fdemo_s) b : Prop := experiment dinfo c noproc /\ good_diags dinfo d /\ run_simulation dinfo c noproc d = Ok st /\
  stationary c /\ In "mic" (c_mic c) /\ the_array c "mic" b /\ mic_untouched noproc "mic" /\ (forall s, In s (c_src c) -> (p_len (path_of c s "mic") <= 4)%Z) /\ @perfect fdemo pseq 8 4%Z /\
  (forall v, In v (speakers c "mic") -> (0 <= pdelay v /\ pdelay v + 4 <= 8)%Z) /\
  (forall v w, In v (speakers c "mic") -> In w (speakers c "mic") -> v <> w -> (pdelay v + 4 <= pdelay w \/ pdelay w + 4 <= pdelay v)%Z) /\
  (forall v, In v (speakers c "mic") -> exists x, plays dinfo c noproc v x /\ forall u, (0 <= u)%Z -> x u = pseq (u - pdelay v)) /\
  speakers c "mic" = [("near", 0%Z); ("far", 0%Z)] /\ records dinfo d "mic" "mic" (a_num b) /\ (a_num b = 1 /\ 0 <= 3 /\ 0 + 4 - 1 <= 3 /\ 3 + 8 <= tot_samples dinfo)%Z.
Unset Implicit Arguments.
Lemma measured_of c d : fcoll dinfo marrays = Ok c -> frecorders dinfo mnames = Ok d ->
  exists b, stationary c /\ In "mic" (c_mic c) /\ the_array c "mic" b /\ mic_untouched noproc "mic" /\ (forall s, In s (c_src c) -> (p_len (path_of c s "mic") <= 4)%Z) /\
  (forall v, In v (speakers c "mic") -> exists x, plays dinfo c noproc v x /\ forall u, (0 <= u)%Z -> x u = pseq (u - pdelay v)) /\
  speakers c "mic" = [("near", 0%Z); ("far", 0%Z)] /\ records dinfo d "mic" "mic" (a_num b) /\ a_num b = 1%Z.
Proof.
  intros H0 Hd. destruct (frecorders_get _ _ _ Hd) as [_ K]. clear Hd.
  assert (F : forall A (f : coll fdemo -> A) x, get (fcoll dinfo marrays) f = Some x -> f c = x). { intros T f x G. exact (fcoll_is _ _ _ _ f x H0 G). }
  assert (Q1 : c_arrays c = map (fun a => (a_name a, a)) marrays) by (apply F; vm_compute; reflexivity). assert (Q2 : c_src c = ["near"; "far"]) by (apply F; vm_compute; reflexivity).
  assert (Q3 : c_mic c = ["mic"]) by (apply F; vm_compute; reflexivity). assert (Q4 : c_free c = ["near"; "far"]) by (apply F; vm_compute; reflexivity).
  assert (Q5 : map (fun s => p_len (path_of c s "mic")) ["near"; "far"] = [4%Z; 4%Z]) by (apply (F _ (fun c => map (fun s => p_len (path_of c s "mic")) ["near"; "far"])); vm_compute; reflexivity).
  assert (Q6 : speakers c "mic" = [("near", 0%Z); ("far", 0%Z)]) by (apply (F _ (fun c => speakers c "mic")); vm_compute; reflexivity). clear F H0.
  assert (Pl : forall s k g, In s ["near"; "far"] -> the_array c s (fone s KFree k None (Some g)) -> plays dinfo c noproc (s, 0%Z) (fun t => if (t <? 0)%Z then 0%Z else g t)).
  { intros s k g Hs Ha. left. cbn [fst snd]. split; [rewrite Q4; exact Hs|]. exists (fone s KFree k None (Some g)), (0%Z, g). split; [exact Ha|]. split; [reflexivity|].
    intros t. change (first_request (early_start dinfo)) with 1%Z. change (a_num (fone s KFree k None (Some g))) with 1%Z. rewrite fplays. destruct (t <? 0)%Z; reflexivity. }
  eexists. split. { intros k a Ha. unfold the_array in Ha. rewrite Q1 in Ha. cbn [map marrays fone a_name dget] in Ha. repeat (destruct (String.eqb _ _); [injection Ha as <-; reflexivity|]). discriminate Ha. }
  split; [rewrite Q3; left; reflexivity|]. split; [unfold the_array; rewrite Q1; reflexivity|]. split; [constructor|].
  split. { intros s Hs. rewrite Q2 in Hs. cbn [map] in Q5. injection Q5 as E1 E2. destruct Hs as [<-|[<-|[]]]; apply Z.eq_le_incl; [exact E1|exact E2]. }
  split; [|split; [exact Q6|split; [apply K; left; reflexivity|reflexivity]]].
  intros v Hv. rewrite Q6 in Hv. destruct Hv as [<-|[<-|[]]].
  - exists (fun t => if (t <? 0)%Z then 0%Z else pseq t). split; [apply (Pl "near" 1%Z pseq); [left; reflexivity|unfold the_array; rewrite Q1; reflexivity]|].
    intros u Hu. replace (u <? 0)%Z with false by lia. unfold pdelay. cbn [fst String.eqb Ascii.eqb Bool.eqb]. f_equal. lia.
  - exists (fun t => if (t <? 0)%Z then 0%Z else pseq (t - 4)). split; [apply (Pl "far" 3%Z (fun t => pseq (t - 4))); [right; left; reflexivity|unfold the_array; rewrite Q1; reflexivity]|].
    intros u Hu. replace (u <? 0)%Z with false by lia. reflexivity.
Qed.
Lemma measured_meets : is_ok (frun dinfo marrays [] mnames) = true -> get (frecorders dinfo mnames) (fun l => forallb (fun kd => diag_okb dinfo (snd kd)) l) = Some true -> supported dinfo noproc ->
  exists c d st b, measured_case c d st b.
Proof.
  intros H1 H3 H2. assert (S : Forall (sized (fun _ => 1%Z)) marrays) by (clear; repeat constructor; simpl; intros; auto; discriminate).
  assert (N : NoDup mnames) by (clear; repeat constructor; simpl; intuition discriminate).
  destruct (frun_meets dinfo marrays [] mnames H1 S H2 N H3) as (c & d & st & Hc & Hd & A & B & C). clear H1 H3. destruct (measured_of c d Hc Hd) as (b & P1 & P2 & P3 & P4 & P5 & P6 & P7 & P8 & P9).
  exists c, d, st, b. repeat (split; [assumption|]). split; [exact pseq_perfect|]. split.
  { intros v _. unfold pdelay. destruct (String.eqb _ _); lia. } split.
  { intros v w Hv Hw Hne. rewrite P7 in Hv, Hw. destruct Hv as [<-|[<-|[]]], Hw as [<-|[<-|[]]]; try congruence; unfold pdelay; cbn [fst String.eqb Ascii.eqb Bool.eqb]; lia. }
  split; [exact P6|]. split; [exact P7|]. split; [exact P8|]. split; [exact P9|]. cbn. lia.
Qed.
Example C136_measured_meets : exists c d st b, measured_case c d st b.
Proof. apply measured_meets; [vm_compute; reflexivity|vm_compute; reflexivity|]. cbn. lia. Qed.
(** what is recorded, and what the products with the delayed sequences add up to from time 3 on: four times the coefficients of the two impulse responses, one after the other *)
Definition mrecorded : list Z := match frecs (frun dinfo marrays [] mnames) ["mic"] with [Some l] => map (fun o => match o with Some [x] => x | _ => 0%Z end) l | _ => [] end.
Example C136_values : map (fun d => fold_right Z.add 0%Z (map (fun u => (nth (Z.to_nat u) mrecorded 0 * pseq (u - d))%Z) (zrange 3 11))) (zrange 0 8) = [0; 4; 0; 0; 0; 0; 0; 4]%Z.
Proof. vm_compute. reflexivity. Qed.
End Examples.
Print Assumptions C136_measured.
