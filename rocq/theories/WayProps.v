(** C115, C116: moving and stationary microphones compared. *)
Require Import Verif.PyBase Verif.PyLemmas Verif.ConfigModel Verif.ArrayModel Verif.ArraySpec Verif.ArrayProofs Verif.ArrayPaths Verif.LoggerModel Verif.LoggerSpec Verif.LoggerProofs
  Verif.SimModel Verif.SimSpec Verif.SimRefine Verif.SimRun Verif.SimDiag Verif.SimLoop Verif.SignalSpec Verif.SignalPass Verif.SignalRun Verif.SignalLaw Verif.SignalInv Verif.RunSpec Verif.RunLaw Verif.DiagRun
  Verif.DiagModel Verif.DiagSpec Verif.DiagProofs Verif.DiagCtorModel Verif.DiagCtorProofs Verif.SaveProps Verif.ProcModel Verif.Demo Verif.DemoRun Verif.DemoSpy Verif.SignalProps Verif.DemoFun Verif.CausalProps Verif.MotionProps Verif.GroupProps.
Require Import Permutation Ring.
Set Implicit Arguments.
Arguments Z.add : simpl never.
Arguments Z.sub : simpl never.
Arguments Z.mul : simpl never.
Ltac Zify.zify_post_hook ::= Z.div_mod_to_equations.

Section Way.
Context {E : AEnv} {DE : DEnv}.
Notation arr := (arr Pos Src).
Variables PS0 D0 Out0 : Type.
Variable dsave0 : D0 -> option PS0 -> dict (list frame) -> Z * Z -> res D0.
Variable dout0 : D0 -> Z -> res Out0.
Local Instance WaS : SEnv := full dsave0 dout0.
(** samples are added and multiplied like exact numbers (rounding is not modelled) *)
Hypothesis Numbers : semi_ring_theory (v0 : V) v1 vadd vmul eq.
Add Ring VNumbers4 : Numbers.

(** coefficient n of the impulse response from channel k to channel j, zero outside *)
Definition coef (p : path V) (k j n : Z) : V :=
  if (0 <=? k) && (k <? p_ns p) && ((0 <=? j) && (j <? p_nm p)) && ((0 <=? n) && (n <? p_len p)) then p_at p k j n else v0.
(** all channels of all sources *)
Definition channels (c : coll E) : list speaker := flat_map (fun s => match dget (c_arrays c) s with Some a => map (pair s) (zrange 0 (a_num a)) | None => [] end) (c_src c).
(** the array at time t of a simulation: where it was placed at first, and from time 1 on where it was at the last update *)
Definition at_time (inf : info) (a : arr) (t : Z) : arr := if t <=? 0 then a else placed_at a (last_update (array_update_freq inf) t).
(** a path that can be in force between two arrays of the collection c0 at time t: one that is made for the places the arrays have, or the one that the user has provided *)
Definition can_be_in_force (inf : info) (c0 : coll E) (t : Z) (s m : string) (p : path V) : Prop :=
  (exists a b ty g g', the_array c0 s a /\ the_array c0 m b /\ lookup2 (c_ptypes c0) s m = Some ty /\ made_path inf g (at_time inf a t) (at_time inf b t) ty g' p) \/
  (lookup2 (c_ptypes c0) s m = Some "modified"%string /\ p = path_of c0 s m).

Lemma sum_upto (f : Z -> V) n n' : (forall x, 0 <= x -> n <= x \/ n' <= x -> f x = v0) -> vsum (map f (zrange 0 n)) = vsum (map f (zrange 0 n')).
Proof.
  assert (K : forall n n', n <= n' -> (forall x, 0 <= x -> n <= x -> f x = v0) -> vsum (map f (zrange 0 n')) = vsum (map f (zrange 0 n))).
  { clear n n'. intros n n' L H. destruct (Z_le_gt_dec n 0).
    - rewrite (@zrange_empty 0 n) by lia. apply (sum_none Numbers), Forall_forall. intros x Hx. apply In_zrange in Hx. apply H; lia.
    - rewrite (@zrange_app 0 n n') by lia. rewrite map_app, (sum_app Numbers). rewrite (sum_none Numbers f (l := zrange n n')); [ring|]. apply Forall_forall. intros x Hx. apply In_zrange in Hx. apply H; lia. }
  intros H. destruct (Z_le_gt_dec n n'); [symmetry|]; apply K; try lia; intros x H0 H1; apply H; auto.
Qed.
(** what channel j hears of channel k, which plays x *)
Definition hears (p : path V) (k j : Z) (x : Z -> V) (t : Z) : V := vsum (map (fun n => vmul (coef p k j n) (x (t - n))) (zrange 0 (p_len p))).
Lemma hears_same p p' k k' j j' x t : (forall n, coef p k j n = coef p' k' j' n) -> hears p k j x t = hears p' k' j' x t.
Proof.
  intros H. unfold hears. rewrite (@sum_upto _ (p_len p) (p_len p')).
  - f_equal. apply map_ext. intros n. rewrite H. reflexivity.
  - intros n Hn [L|L]; [|rewrite H]; unfold coef; [replace (n <? p_len p) with false by lia|replace (n <? p_len p') with false by lia]; rewrite !andb_false_r; ring.
Qed.
Lemma response_heard p (x : Z -> frame) w t j : (forall u, zlen (x u) = Z.max 0 w) ->
  chan (response p x t) j = vsum (map (fun k => hears p k j (fun u => chan (x u) k) t) (zrange 0 w)).
Proof.
  intros W. unfold response, chan at 1. rewrite zget_map, zget_zrange. destruct ((0 <=? j) && (j <? p_nm p - 0)) eqn:Q; cbn [option_map].
  - replace (0 + j) with j by lia. unfold convolved. transitivity (vsum (map (fun k => hears p k j (fun u => chan (x u) k) t) (zrange 0 (p_ns p)))).
    + f_equal. apply map_ext_in. intros k Hk. apply In_zrange in Hk. unfold hears. f_equal. apply map_ext_in. intros n Hn. apply In_zrange in Hn. unfold coef.
      replace (_ && _ && _) with true by lia. reflexivity.
    + apply sum_upto. intros k Hk [L|L]; apply (sum_none Numbers), Forall_forall; intros n _.
      * unfold coef. replace (k <? p_ns p) with false by lia. rewrite andb_false_r. cbn [andb]. ring.
      * unfold chan. rewrite zget_out by (rewrite W; lia). ring.
  - symmetry. apply (sum_none Numbers), Forall_forall. intros k _. apply (sum_none Numbers), Forall_forall. intros n _. unfold coef.
    replace ((0 <=? j) && (j <? p_nm p)) with false by lia. rewrite andb_false_r. cbn [andb]. ring.
Qed.

Section One.
Variables (i inf : info) (c0 c : coll E) (procs : list (@proc E WaS)) (diags : dict (diag D)) (st : sim).
Hypothesis O0 : coll_ok c0.
Hypothesis HS : setup_ir c0 inf = Ok c.
Hypothesis HX : experiment i c procs.
Hypothesis HD : good_diags i diags.
Hypothesis HR : run_simulation i c procs diags = Ok st.
(** a channel of a microphone array hears all channels of all sources through paths in force *)
Lemma way_law : exists P : Z -> string -> string -> path V,
  (forall t s m, 0 <= t <= Z.of_nat (run_length i procs) -> In s (c_src c0) -> In m (c_mic c0) -> can_be_in_force inf c0 t s m (P t s m)) /\
  (forall m b t j, In m (c_mic c0) -> the_array c0 m b -> mic_untouched procs m -> 0 <= t <= Z.of_nat (run_length i procs) -> 0 <= j < a_num b ->
    chan (signals_of i c procs m t) j = vsum (map (fun v => hears (P t (fst v) m) (snd v) j (voice i c procs v) t) (channels c0))).
Proof.
  destruct (setup_ir_ok _ O0 HS) as (_ & _ & _ & _ & _ & _ & I1 & A1 & T1 & O1). pose proof (sa_arrays A1) as E1. pose proof (sa_src A1) as E2. pose proof (sa_mic A1) as E3. cbn [set_info c_arrays c_src c_mic] in E1, E2, E3.
  destruct (mic_law_moving HX HD HR) as (P & P1 & P2 & P3 & P4 & _). exists P. split.
  - intros t s m Ht Hs Hm. destruct (src_array O0 s Hs) as (a & Ha & _). destruct (mic_array O0 m Hm) as (b & Hb & _). unfold can_be_in_force, at_time.
    destruct (Z.leb_spec t 0).
    + rewrite P1 by lia. destruct (setup_made _ O0 HS Hs Hm Ha Hb) as [(ty & g & g' & K1 & K2)|[K1 K2]]; [left; exists a, b, ty, g, g'; auto|right]. split; auto. unfold path_of. rewrite K2. reflexivity.
    + assert (Ht1 : 1 <= t <= Z.of_nat (run_length i procs)) by lia.
      destruct (@in_force _ _ _ _ _ dsave0 dout0 i inf c0 c procs P s m a b t O0 HS) as [(ty & g & g' & K1 & K2)|[K1 K2]]; auto.
      * intros inf0 u s0 m0 a0 b0 H1 H2 H3 H4 H5 H6 H7. apply (P3 inf0 u s0 m0 a0 b0); auto. unfold dynamic in H7. destruct (a_traj a0); [left; discriminate|]. destruct (a_traj b0); [right; discriminate|discriminate H7].
      * left. exists a, b, ty, g, g'. auto.
  - intros m b t j Hm Hb Hu Ht Hj. rewrite <- E3 in Hm. assert (Hb' : the_array c m b) by (unfold the_array in *; congruence).
    rewrite (P4 m b t Hm Hb' Ht), (untouched_silent HX HD HR t Hb' Hu), mix_zeros. unfold mix, chan at 1. rewrite zget_map, zget_zrange. replace ((0 <=? j) && (j <? a_num b - 0)) with true by lia. cbn [option_map]. replace (0 + j) with j by lia.
    rewrite map_map. unfold channels. rewrite (sum_flat Numbers). rewrite E2. f_equal. apply map_ext_in. intros s Hs. destruct (src_array O0 s Hs) as (a & Ha & _). pose proof Ha as Ha0. unfold the_array in Ha0. rewrite Ha0.
    rewrite (@response_heard _ _ (a_num a)).
    + rewrite map_map. reflexivity.
    + intros u. apply (signal_width HX HD HR). assert (Ha' : the_array c s a) by (unfold the_array in *; congruence). exact (array_dim HX HD HR Ha').
Qed.
End One.

(** two experiments (possibly the same one) *)
Variables (i i' inf inf' : info) (c0 c0' c c' : coll E) (procs procs' : list (@proc E WaS)) (diags diags' : dict (diag D)) (st st' : sim).
Hypothesis O0 : coll_ok c0.
Hypothesis HS : setup_ir c0 inf = Ok c.
Hypothesis HX : experiment i c procs.
Hypothesis HD : good_diags i diags.
Hypothesis HR : run_simulation i c procs diags = Ok st.
Hypothesis O0' : coll_ok c0'.
Hypothesis HS' : setup_ir c0' inf' = Ok c'.
Hypothesis HX' : experiment i' c' procs'.
Hypothesis HD' : good_diags i' diags'.
Hypothesis HR' : run_simulation i' c' procs' diags' = Ok st'.
(** at time t, a channel of the first and one of the second experiment that play the same and reach channel j of m and channel j' of m' through equal impulse responses *)
Definition same_sound (t : Z) (m : string) (j : Z) (m' : string) (j' : Z) (vv : speaker * speaker) : Prop :=
  (exists x, plays i c procs (fst vv) x /\ plays i' c' procs' (snd vv) x) /\
  forall p p', can_be_in_force inf c0 t (fst (fst vv)) m p -> can_be_in_force inf' c0' t (fst (snd vv)) m' p' -> forall n, coef p (snd (fst vv)) j n = coef p' (snd (snd vv)) j' n.
(** C115.  Moving or stationary arrays.  If at time t the channels of the sources of the two experiments correspond to each other, channel j of m and channel j' of m' record the same sample at
    that time. *)
Theorem C115_now t m b j m' b' j' dn dn' pairs : 0 <= t < tot_samples i -> t < tot_samples i' ->
  In m (c_mic c0) -> the_array c0 m b -> mic_untouched procs m -> 0 <= j < a_num b -> In m' (c_mic c0') -> the_array c0' m' b' -> mic_untouched procs' m' -> 0 <= j' < a_num b' ->
  Permutation (channels c0) (map fst pairs) -> Permutation (channels c0') (map snd pairs) -> Forall (same_sound t m j m' j') pairs ->
  records i diags dn m (a_num b) -> records i' diags' dn' m' (a_num b') ->
  exists x x', recording i st dn x /\ recording i' st' dn' x' /\ chan (x' t) j' = chan (x t) j.
Proof.
  intros Ht Ht' Hm Hb Hu Hj Hm' Hb' Hu' Hj' P1 P2 HP R R'. exists (signals_of i c procs m), (signals_of i' c' procs' m').
  assert (A1 : the_array c m b). { destruct (setup_ir_ok _ O0 HS) as (_ & _ & _ & _ & _ & _ & _ & A & _). pose proof (sa_arrays A) as Q. cbn [set_info c_arrays] in Q. unfold the_array in *. congruence. }
  assert (A2 : the_array c' m' b'). { destruct (setup_ir_ok _ O0' HS') as (_ & _ & _ & _ & _ & _ & _ & A & _). pose proof (sa_arrays A) as Q. cbn [set_info c_arrays] in Q. unfold the_array in *. congruence. }
  split; [eapply (recorded_array HX HD HR); eauto|]. split; [eapply (recorded_array HX' HD' HR'); eauto|].
  pose proof (run_longer HX HD HR) as L1. pose proof (run_longer HX' HD' HR') as L2.
  destruct (way_law inf O0 HS HX HD HR) as (P & F & L). destruct (way_law inf' O0' HS' HX' HD' HR') as (P' & F' & L').
  rewrite (L m b t j), (L' m' b' t j') by (auto; lia). symmetry.
  rewrite (sum_perm Numbers (Permutation_map (fun v => hears (P t (fst v) m) (snd v) j (voice i c procs v) t) P1)), (sum_perm Numbers (Permutation_map (fun v => hears (P' t (fst v) m') (snd v) j' (voice i' c' procs' v) t) P2)).
  assert (Src : forall (d : coll E) v, coll_ok d -> In v (channels d) -> In (fst v) (c_src d)).
  { intros d v O Hv. unfold channels in Hv. apply in_flat_map in Hv as (s & Hs & Hv). destruct (dget (c_arrays d) s); [|destruct Hv]. apply in_map_iff in Hv as (k & <- & _). exact Hs. }
  rewrite !map_map. f_equal. apply map_ext_in. intros vv Hv. rewrite Forall_forall in HP. destruct (HP _ Hv) as ((x & X1 & X2) & T).
  assert (S1 : In (fst (fst vv)) (c_src c0)). { apply (Src c0); auto. eapply Permutation_in; [apply Permutation_sym; exact P1|]. apply in_map. exact Hv. }
  assert (S2 : In (fst (snd vv)) (c_src c0')). { apply (Src c0'); auto. eapply Permutation_in; [apply Permutation_sym; exact P2|]. apply in_map. exact Hv. }
  transitivity (hears (P t (fst (fst vv)) m) (snd (fst vv)) j x t).
  - unfold hears. f_equal. apply map_ext_in. intros n Hn. apply In_zrange in Hn. assert (B : t - n <= Z.of_nat (run_length i procs)) by lia. f_equal. exact (plays_voice HX HD HR X1 B).
  - rewrite (@hears_same _ (P' t (fst (snd vv)) m') _ (snd (snd vv)) _ j').
    + unfold hears. f_equal. apply map_ext_in. intros n Hn. apply In_zrange in Hn. assert (B : t - n <= Z.of_nat (run_length i' procs')) by lia. f_equal. symmetry. exact (plays_voice HX' HD' HR' X2 B).
    + apply T; [apply F|apply F']; auto; lia.
Qed.

(** the points where the channels of an array are *)
Variables (Point : Type) (point : Pos -> Z -> Point).
(** all paths the room simulator makes consist of responses between two points, which depend on these points only *)
Definition room_response (inf : info) (resp : Point -> Point -> Z -> V) : Prop :=
  forall g a b g' p, made_path inf g a b "ism" g' p -> forall k j n, 0 <= k < a_num a -> 0 <= j < a_num b -> coef p k j n = resp (point (a_pos a) k) (point (a_pos b) j) n.
(** where channel k of the array is at time t *)
Definition spot (inf : info) (a : arr) (t k : Z) : Point := point (a_pos (at_time inf a t)) k.

Lemma at_time_num j a t : a_num (at_time j a t) = a_num a.
Proof. unfold at_time, placed_at. destruct (t <=? 0); auto. destruct (a_traj a); auto. Qed.
Lemma ism_coef j (d : coll E) resp t s m p a b k l n : room_response j resp -> can_be_in_force j d t s m p -> lookup2 (c_ptypes d) s m = Some "ism"%string -> the_array d s a -> the_array d m b ->
  0 <= k < a_num a -> 0 <= l < a_num b -> coef p k l n = resp (spot j a t k) (spot j b t l) n.
Proof.
  intros HP [(a1 & b1 & ty & g & g' & A & B & T & M)|[T _]] Ht Ha Hb Hk Hl; [|congruence]. unfold the_array in *. assert (a1 = a) by congruence. assert (b1 = b) by congruence. assert (ty = "ism"%string) by congruence. subst.
  apply (HP _ _ _ _ _ M); rewrite at_time_num; auto.
Qed.
Lemma free_plays j (d e : coll E) (ps : list (@proc E WaS)) s a src k : coll_ok d -> setup_ir d j = Ok e -> In s (c_free d) -> the_array d s a -> a_source a = Some src ->
  forall i0, plays (dsave0 := dsave0) (dout0 := dout0) i0 e ps (s, k) (fun t => chan (free_signal (a_num a) src (first_request (early_start i0)) t) k).
Proof.
  intros O S Hf Ha Hs i0. destruct (setup_ir_ok _ O S) as (_ & _ & _ & _ & _ & _ & _ & A & _). pose proof (sa_arrays A) as Q. pose proof (sa_free A) as Q2. cbn [set_info c_arrays c_free] in Q, Q2.
  left. cbn [fst snd]. split; [congruence|]. exists a, src. split; [unfold the_array in *; congruence|]. split; auto.
Qed.
(** C115.  All sources are generators, the same ones in both experiments and in the same places at time t, moving or not.  If channel j of m and channel j' of m' are in the same place at
    time t, they record the same sample at that time; whether and how they move before and after makes no difference. *)
Theorem C115_same_place resp t m b j m' b' j' dn dn' : 0 <= t < tot_samples i -> t < tot_samples i' ->
  In m (c_mic c0) -> the_array c0 m b -> mic_untouched procs m -> 0 <= j < a_num b -> In m' (c_mic c0') -> the_array c0' m' b' -> mic_untouched procs' m' -> 0 <= j' < a_num b' ->
  c_src c0' = c_src c0 -> early_start i' = early_start i ->
  (forall s, In s (c_src c0) -> In s (c_free c0) /\ In s (c_free c0') /\ lookup2 (c_ptypes c0) s m = Some "ism"%string /\ lookup2 (c_ptypes c0') s m' = Some "ism"%string /\
     exists a a' src, the_array c0 s a /\ the_array c0' s a' /\ a_source a = Some src /\ a_source a' = Some src /\ a_num a' = a_num a /\ forall k, 0 <= k < a_num a -> spot inf' a' t k = spot inf a t k) ->
  room_response inf resp -> room_response inf' resp -> spot inf' b' t j' = spot inf b t j ->
  records i diags dn m (a_num b) -> records i' diags' dn' m' (a_num b') ->
  exists x x', recording i st dn x /\ recording i' st' dn' x' /\ chan (x' t) j' = chan (x t) j.
Proof.
  intros Ht Ht' Hm Hb Hu Hj Hm' Hb' Hu' Hj' Hsrc He Hs HP HP' Hspot R R'.
  assert (EC : channels c0' = channels c0).
  { unfold channels. rewrite Hsrc. assert (K : forall l, (forall s, In s l -> In s (c_src c0)) -> flat_map (fun s => match dget (c_arrays c0') s with Some a => map (pair s) (zrange 0 (a_num a)) | None => [] end) l = flat_map (fun s => match dget (c_arrays c0) s with Some a => map (pair s) (zrange 0 (a_num a)) | None => [] end) l); [|apply K; auto].
    induction l as [|s l IH]; intros HL; [reflexivity|]. cbn [flat_map]. rewrite IH by (intros; apply HL; right; auto). f_equal. destruct (Hs s) as (_ & _ & _ & _ & a & a' & src & A & A' & _ & _ & N & _); [apply HL; left; auto|]. unfold the_array in *. rewrite A, A', N. reflexivity. }
  eapply (@C115_now t m b j m' b' j' dn dn' (map (fun v => (v, v)) (channels c0))); auto.
  - rewrite map_map. cbn [fst]. rewrite map_id. apply Permutation_refl.
  - rewrite map_map. cbn [snd]. rewrite map_id, EC. apply Permutation_refl.
  - apply Forall_map, Forall_forall. intros [s k] Hv. unfold channels in Hv. apply in_flat_map in Hv as (s1 & Hs1 & Hv). destruct (Hs s1 Hs1) as (F & F' & T & T' & a & a' & src & A & A' & G & G' & N & Pl). unfold the_array in A. rewrite A in Hv. apply in_map_iff in Hv as (k1 & Q & Hk). injection Q as -> ->. apply In_zrange in Hk.
    split; cbn [fst snd].
    + eexists. split; [exact (@free_plays inf c0 c procs s a src k O0 HS F A G i)|]. pose proof (@free_plays inf' c0' c' procs' s a' src k O0' HS' F' A' G' i') as K. rewrite N, He in K. exact K.
    + intros p p' I I' n. rewrite (@ism_coef _ _ _ _ _ _ _ _ _ k j n HP I T A Hb Hk Hj). assert (Hk' : 0 <= k < a_num a') by lia. rewrite (@ism_coef _ _ _ _ _ _ _ _ _ k j' n HP' I' T' A' Hb' Hk' Hj'). rewrite Pl, Hspot by lia. reflexivity.
Qed.

(** C116.  A room in which sound takes the same way in both directions.  One source and one microphone; in the second experiment they have exchanged their places, at all times.  Then both
    experiments record the same, whichever of the two moves, and how. *)
Theorem C116_reciprocity resp s a m b s' a' m' b' src dn dn' : c_src c0 = [s] -> c_src c0' = [s'] -> In s (c_free c0) -> In s' (c_free c0') ->
  the_array c0 s a -> the_array c0' s' a' -> a_num a = 1 -> a_num a' = 1 -> a_source a = Some src -> a_source a' = Some src -> early_start i' = early_start i ->
  In m (c_mic c0) -> the_array c0 m b -> a_num b = 1 -> mic_untouched procs m -> In m' (c_mic c0') -> the_array c0' m' b' -> a_num b' = 1 -> mic_untouched procs' m' ->
  lookup2 (c_ptypes c0) s m = Some "ism"%string -> lookup2 (c_ptypes c0') s' m' = Some "ism"%string ->
  room_response inf resp -> room_response inf' resp -> (forall x y n, resp x y n = resp y x n) ->
  (forall t, 0 <= t -> spot inf' a' t 0 = spot inf b t 0 /\ spot inf' b' t 0 = spot inf a t 0) ->
  records i diags dn m (a_num b) -> records i' diags' dn' m' (a_num b') ->
  exists x x', recording i st dn x /\ recording i' st' dn' x' /\ forall t, 0 <= t < tot_samples i -> t < tot_samples i' -> chan (x' t) 0 = chan (x t) 0.
Proof.
  intros Es Es' F F' A A' N N' G G' He Hm Hb Nb Hu Hm' Hb' Nb' Hu' T T' HP HP' Sym Pl R R'.
  exists (signals_of i c procs m), (signals_of i' c' procs' m').
  assert (A1 : the_array c m b). { destruct (setup_ir_ok _ O0 HS) as (_ & _ & _ & _ & _ & _ & _ & X & _). pose proof (sa_arrays X) as Q. cbn [set_info c_arrays] in Q. unfold the_array in *. congruence. }
  assert (A2 : the_array c' m' b'). { destruct (setup_ir_ok _ O0' HS') as (_ & _ & _ & _ & _ & _ & _ & X & _). pose proof (sa_arrays X) as Q. cbn [set_info c_arrays] in Q. unfold the_array in *. congruence. }
  pose proof (recorded_array HX HD HR R A1) as Rec. pose proof (recorded_array HX' HD' HR' R' A2) as Rec'. split; [exact Rec|]. split; [exact Rec'|].
  intros t Ht Ht'. destruct (@C115_now t m b 0 m' b' 0 dn dn' [((s, 0), (s', 0))]) as (x & x' & X & X' & Q); auto; try lia.
  - unfold channels. rewrite Es. cbn [flat_map]. unfold the_array in A. rewrite A, N. apply Permutation_refl.
  - unfold channels. rewrite Es'. cbn [flat_map]. unfold the_array in A'. rewrite A', N'. apply Permutation_refl.
  - constructor; [|constructor]. split; cbn [fst snd].
    + eexists. split; [exact (@free_plays inf c0 c procs s a src 0 O0 HS F A G i)|]. pose proof (@free_plays inf' c0' c' procs' s' a' src 0 O0' HS' F' A' G' i') as K. rewrite N', He in K. rewrite N. exact K.
    + intros p p' I I' n. rewrite (@ism_coef _ _ _ _ _ _ _ _ _ 0 0 n HP I T A Hb ltac:(lia) ltac:(lia)). rewrite (@ism_coef _ _ _ _ _ _ _ _ _ 0 0 n HP' I' T' A' Hb' ltac:(lia) ltac:(lia)). destruct (Pl t) as [-> ->]; [lia|]. apply Sym.
  - assert (Same : forall d (s0 : sim) (j : info) y z, recording (dsave0 := dsave0) (dout0 := dout0) j s0 d y -> recording (dsave0 := dsave0) (dout0 := dout0) j s0 d z -> 0 <= t < tot_samples j -> y t = z t).
    { intros d s0 j y z (d1 & r1 & Y1 & Y2 & Y3) (d2 & r2 & Z1 & Z2 & Z3) Hj. assert (d1 = d2) by congruence. subst d2. assert (r1 = r2) by congruence. subst r2. rewrite Y3 in Z3. apply (f_equal (fun l => zget l t)) in Z3. rewrite !zget_map, !zget_zrange in Z3.
      replace ((0 <=? t) && (t <? tot_samples j - 0)) with true in Z3 by lia. cbn [option_map] in Z3. replace (0 + t) with t in Z3 by lia. congruence. }
    pose proof (Same _ _ _ _ _ Rec X Ht) as B1. assert (Ht2 : 0 <= t < tot_samples i') by lia. pose proof (Same _ _ _ _ _ Rec' X' Ht2) as B2. exact (eq_trans (f_equal (fun f => chan f 0) B2) (eq_trans Q (f_equal (fun f => chan f 0) (eq_sym B1)))).
Qed.
End Way.

(* ------------------------------------------------------------------ Examples *)
Section Examples.
Local Open Scope string_scope.
Local Existing Instances fdemo fdemo_d fdemo_s.
Let i1 := run_info 10 5 false true.
Let i2 := run_info 12 3 false false.
Let up (t : Z) : Z := (t + 5)%Z.
Let away (t : Z) : Z := (t / 2)%Z.
(** arrays of one channel *)
Let here (p : Pos) (k : Z) : option Z := if (k =? 0)%Z then Some (p : Z) else None.
Let none : list (@proc fdemo fdemo_s) := [].
(** a sound that travels one unit of length per sample *)
Let resp (x y : option Z) (n : Z) : Z := match x, y with Some p, Some q => if ((0 <=? n) && (n <? 4) && (n =? Z.abs (p - q)))%Z then 1%Z else 0%Z | _, _ => 0%Z end.
Lemma froom_response (i : info) : max_room_ir_length i = 4%Z -> room_response (E := fdemo) (Point := option Z) here i resp.
Proof.
  intros HL g a b g' p (q & R & ->) k j n Hk Hj. replace (if (0 <? highpass_cutoff i)%Z then filter_rirs q (samplerate i) (highpass_cutoff i) else q) with q by (destruct (0 <? highpass_cutoff i)%Z; reflexivity).
  inversion R; subst. match goal with H : ism3d _ _ _ _ = _ |- _ => cbn in H; injection H as <- <- end. unfold coef, here, resp. cbn [p_ns p_nm p_len p_at]. rewrite HL.
  destruct (Z.eqb_spec k 0); destruct (Z.eqb_spec j 0); subst; cbn [Z.leb Z.compare Z.ltb andb].
  - destruct ((0 <=? n) && (n <? 4))%Z; reflexivity.
  - replace (j <? 1)%Z with false by lia. rewrite andb_false_r. reflexivity.
  - replace (k <? 1)%Z with false by lia. rewrite andb_false_r. reflexivity.
  - replace (k <? 1)%Z with false by lia. rewrite andb_false_r. reflexivity.
Qed.
Lemma resp_both_ways x y n : resp x y n = resp y x n.
Proof. destruct x as [x|], y as [y|]; cbn; auto. replace (Z.abs (y - x)) with (Z.abs (x - y)) by lia. reflexivity. Qed.
(** a microphone that moves and one that stays where the first one is from time 5 to time 8 *)
Let way : list (arr Pos Src) := [fone "moving" KMic 0 (Some away) None; fone "still" KMic 2 None None; fone "src" KFree 0 None (Some up)].
Lemma way_sized : Forall (sized (fun _ => 1%Z)) way.
Proof. repeat constructor; cbn; auto. Qed.
Example C115_example : semi_ring_theory 0%Z 1%Z Z.add Z.mul eq /\ exists (c0 c : coll fdemo) (d : dict (diag (@D fdemo fdemo_s))) st b b', coll_ok c0 /\ setup_ir c0 i1 = Ok c /\ experiment i1 c none /\ good_diags i1 d /\ run_simulation i1 c none d = Ok st /\
  In "moving" (c_mic c0) /\ the_array c0 "moving" b /\ a_num b = 1%Z /\ In "still" (c_mic c0) /\ the_array c0 "still" b' /\ a_num b' = 1%Z /\ mic_untouched none "moving" /\ mic_untouched none "still" /\
  (forall s, In s (c_src c0) -> In s (c_free c0) /\ lookup2 (c_ptypes c0) s "moving" = Some "ism" /\ lookup2 (c_ptypes c0) s "still" = Some "ism" /\ exists a src, the_array c0 s a /\ a_source a = Some src) /\
  room_response here i1 resp /\ a_traj b <> None /\ a_traj b' = None /\ (forall t, 5 <= t <= 8 -> spot here i1 b' t 0 = spot here i1 b t 0)%Z /\
  records i1 d "moving" "moving" (a_num b) /\ records i1 d "still" "still" (a_num b').
Proof.
  split; [constructor; intros; ring|].
  destruct (frun_meets i1 way [] ["moving"; "still"]) as (c & d & st & Hc & Hd & A & B & C); [vm_compute; reflexivity|apply way_sized|cbn; lia|repeat constructor; simpl; intuition discriminate|vm_compute; reflexivity|].
  destruct (fcoll_before _ way_sized Hc) as (c0 & X1 & X2 & X3).
  assert (F : forall A (f : coll fdemo -> A) x, get (fbefore way) f = Some x -> f c0 = x). { intros T f x K. rewrite X1 in K. cbn [get] in K. injection K as K. exact K. }
  pose proof (F _ (fun c => (c_arrays c, c_free c, c_src c, c_mic c)) _ (ltac:(vm_compute; reflexivity))) as Q. cbv beta in Q. injection Q as Q1 Q2 Q3 Q4.
  pose proof (F _ (fun c => c_ptypes c) _ (ltac:(vm_compute; reflexivity))) as Q5. cbv beta in Q5.
  destruct (frecorders_get _ _ _ Hd) as [_ K].
  exists c0, c, d, st. eexists _, _. split; [exact X3|]. split; [exact X2|]. split; [exact A|]. split; [exact B|]. split; [exact C|].
  split; [rewrite Q4; left; reflexivity|]. split; [unfold the_array; rewrite Q1; reflexivity|]. split; [reflexivity|]. split; [rewrite Q4; right; left; reflexivity|]. split; [unfold the_array; rewrite Q1; reflexivity|]. split; [reflexivity|].
  split; [constructor|]. split; [constructor|]. split.
  { intros s Hs. rewrite Q3 in Hs. destruct Hs as [<-|[]]. rewrite Q2, Q5. split; [left; reflexivity|]. split; [reflexivity|]. split; [reflexivity|]. eexists _, _. split; [unfold the_array; rewrite Q1; reflexivity|reflexivity]. }
  split; [apply froom_response; reflexivity|]. split; [discriminate|]. split; [reflexivity|]. split.
  { intros t Ht. unfold spot, at_time. replace (t <=? 0)%Z with false by lia. unfold last_update. change (array_update_freq i1) with 4%Z. replace ((t - 1) / Z.abs 4)%Z with 1%Z by (cbn [Z.abs]; lia). reflexivity. }
  split; apply K; cbn; auto.
Qed.
(** what the two microphones record *)
Example C115_values : map (option_map (fun d => pyslice d 5 9)) (frecs (frun i1 way [] ["moving"; "still"]) ["moving"]) = map (option_map (fun d => pyslice d 5 9)) (frecs (frun i1 way [] ["moving"; "still"]) ["still"]) /\
  frecs (frun i1 way [] ["moving"; "still"]) ["moving"] <> frecs (frun i1 way [] ["moving"; "still"]) ["still"].
Proof. split; vm_compute; [reflexivity|discriminate]. Qed.
(** the source moves, or the microphone does *)
Let source_moves : list (arr Pos Src) := [fone "mic" KMic 0 None None; fone "src" KFree 0 (Some away) (Some up)].
Let mic_moves : list (arr Pos Src) := [fone "ear" KMic 0 (Some away) None; fone "voice" KFree 0 None (Some up)].
Lemma source_moves_sized : Forall (sized (fun _ => 1%Z)) source_moves.
Proof. repeat constructor; cbn; auto. Qed.
Lemma mic_moves_sized : Forall (sized (fun _ => 1%Z)) mic_moves.
Proof. repeat constructor; cbn; auto. Qed.
Example C116_example : exists (c0 c c0' c' : coll fdemo) (d d' : dict (diag (@D fdemo fdemo_s))) st st' a b a' b' src, coll_ok c0 /\ setup_ir c0 i1 = Ok c /\ experiment i1 c none /\ good_diags i1 d /\ run_simulation i1 c none d = Ok st /\
  coll_ok c0' /\ setup_ir c0' i2 = Ok c' /\ experiment i2 c' none /\ good_diags i2 d' /\ run_simulation i2 c' none d' = Ok st' /\
  c_src c0 = ["src"] /\ c_src c0' = ["voice"] /\ In "src" (c_free c0) /\ In "voice" (c_free c0') /\ the_array c0 "src" a /\ the_array c0' "voice" a' /\ a_num a = 1%Z /\ a_num a' = 1%Z /\ a_source a = Some src /\ a_source a' = Some src /\ early_start i2 = early_start i1 /\
  In "mic" (c_mic c0) /\ the_array c0 "mic" b /\ a_num b = 1%Z /\ In "ear" (c_mic c0') /\ the_array c0' "ear" b' /\ a_num b' = 1%Z /\ mic_untouched none "mic" /\ mic_untouched none "ear" /\
  lookup2 (c_ptypes c0) "src" "mic" = Some "ism" /\ lookup2 (c_ptypes c0') "voice" "ear" = Some "ism" /\ room_response here i1 resp /\ room_response here i2 resp /\ (forall x y n, resp x y n = resp y x n) /\
  (forall t, 0 <= t -> spot here i2 a' t 0 = spot here i1 b t 0 /\ spot here i2 b' t 0 = spot here i1 a t 0)%Z /\ a_traj a <> None /\ a_traj b' <> None /\
  records i1 d "mic" "mic" (a_num b) /\ records i2 d' "ear" "ear" (a_num b').
Proof.
  destruct (frun_meets i1 source_moves [] ["mic"]) as (c & d & st & Hc & Hd & A & B & C); [vm_compute; reflexivity|apply source_moves_sized|cbn; lia|repeat constructor; simpl; intuition discriminate|vm_compute; reflexivity|].
  destruct (frun_meets i2 mic_moves [] ["ear"]) as (c' & d' & st' & Hc' & Hd' & A' & B' & C'); [vm_compute; reflexivity|apply mic_moves_sized|cbn; lia|repeat constructor; simpl; intuition discriminate|vm_compute; reflexivity|].
  destruct (fcoll_before _ source_moves_sized Hc) as (c0 & X1 & X2 & X3). destruct (fcoll_before _ mic_moves_sized Hc') as (c0' & Y1 & Y2 & Y3).
  assert (F : forall A (f : coll fdemo -> A) x, get (fbefore source_moves) f = Some x -> f c0 = x). { intros T f x K. rewrite X1 in K. cbn [get] in K. injection K as K. exact K. }
  assert (F' : forall A (f : coll fdemo -> A) x, get (fbefore mic_moves) f = Some x -> f c0' = x). { intros T f x K. rewrite Y1 in K. cbn [get] in K. injection K as K. exact K. }
  pose proof (F _ (fun c => (c_arrays c, c_free c, c_src c, c_mic c)) _ (ltac:(vm_compute; reflexivity))) as Q. cbv beta in Q. injection Q as Q1 Q2 Q3 Q4.
  pose proof (F _ (fun c => c_ptypes c) _ (ltac:(vm_compute; reflexivity))) as Q5. cbv beta in Q5.
  pose proof (F' _ (fun c => (c_arrays c, c_free c, c_src c, c_mic c)) _ (ltac:(vm_compute; reflexivity))) as Q. cbv beta in Q. injection Q as R1 R2 R3 R4.
  pose proof (F' _ (fun c => c_ptypes c) _ (ltac:(vm_compute; reflexivity))) as R5. cbv beta in R5.
  destruct (frecorders_get _ _ _ Hd) as [_ K]. destruct (frecorders_get _ _ _ Hd') as [_ K'].
  exists c0, c, c0', c', d, d', st, st'. eexists _, _, _, _, _. split; [exact X3|]. split; [exact X2|]. split; [exact A|]. split; [exact B|]. split; [exact C|]. split; [exact Y3|]. split; [exact Y2|]. split; [exact A'|]. split; [exact B'|]. split; [exact C'|].
  split; [exact Q3|]. split; [exact R3|]. split; [rewrite Q2; left; reflexivity|]. split; [rewrite R2; left; reflexivity|]. split; [unfold the_array; rewrite Q1; reflexivity|]. split; [unfold the_array; rewrite R1; reflexivity|].
  split; [reflexivity|]. split; [reflexivity|]. split; [reflexivity|]. split; [reflexivity|]. split; [reflexivity|].
  split; [rewrite Q4; left; reflexivity|]. split; [unfold the_array; rewrite Q1; reflexivity|]. split; [reflexivity|]. split; [rewrite R4; left; reflexivity|]. split; [unfold the_array; rewrite R1; reflexivity|]. split; [reflexivity|].
  split; [constructor|]. split; [constructor|]. split; [rewrite Q5; reflexivity|]. split; [rewrite R5; reflexivity|]. split; [apply froom_response; reflexivity|]. split; [apply froom_response; reflexivity|]. split; [exact resp_both_ways|].
  split. { intros t Ht. unfold spot, at_time. destruct (t <=? 0)%Z; split; reflexivity. }
  split; [discriminate|]. split; [discriminate|]. split; [apply K|apply K']; cbn; auto.
Qed.
Example C116_values : frecs (frun i1 source_moves [] ["mic"]) ["mic"] = frecs (frun i2 mic_moves [] ["ear"]) ["ear"] /\ frecs (frun i1 source_moves [] ["mic"]) ["mic"] <> [].
Proof. split; vm_compute; [reflexivity|discriminate]. Qed.
End Examples.
Print Assumptions C115_now.
Print Assumptions C115_same_place.
Print Assumptions C116_reciprocity.
