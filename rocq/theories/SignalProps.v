(** Properties of the recorded signals: C01, C05, C09, C10. *)
Require Import Verif.PyBase Verif.PyLemmas Verif.ConfigModel Verif.ArrayModel Verif.ArraySpec Verif.ArrayProofs Verif.LoggerModel Verif.LoggerSpec Verif.LoggerProofs
  Verif.SimModel Verif.SimSpec Verif.SimRun Verif.SimDiag Verif.SimLoop Verif.SignalSpec Verif.SignalPass Verif.SignalRun Verif.SignalInv Verif.RunSpec Verif.RunLaw Verif.DiagRun
  Verif.DiagModel Verif.DiagSpec Verif.DiagProofs Verif.DiagCtorModel Verif.DiagCtorProofs Verif.SaveProps Verif.ProcModel Verif.Demo Verif.DemoRun Verif.DemoSpy.
Set Implicit Arguments.
Arguments Z.add : simpl never.
Arguments Z.sub : simpl never.
Arguments Z.mul : simpl never.
Ltac Zify.zify_post_hook ::= Z.div_mod_to_equations.

Section Run.
Context {E : AEnv} {DE : DEnv}.
Variables PS0 D0 Out0 : Type.
Variable dsave0 : D0 -> option PS0 -> dict (list frame) -> Z * Z -> res D0.
Variable dout0 : D0 -> Z -> res Out0.
Local Instance SgS : SEnv := full dsave0 dout0.

(** the diagnostic called [dn] is a RecordSignal of all samples and all [num] channels of the signal [nm] *)
Definition records (i : info) (diags : dict (diag D)) (dn nm : string) (num : Z) : Prop :=
  exists e r0 d0, record_signal nm num None (tot_samples i) = Ok r0 /\
    signal_diag_init i e None (DRecordSignal r0 : D) = Ok d0 /\ dget diags dn = Some d0.
(** after the run the RecordSignal [dn] holds the samples x 0, x 1, ..., x (tot_samples - 1) *)
Definition recording (i : info) (st : sim) (dn : string) (x : Z -> frame) : Prop :=
  exists d r, dget (sm_diags st) dn = Some d /\ d_pl d = DRecordSignal r /\
    rs_data r = map (fun t => Some (x t)) (zrange 0 (tot_samples i)).

Variables (i : info) (c : coll E) (procs : list (@proc E SgS)) (diags : dict (diag D)) (st : sim).
Hypothesis HX : experiment i c procs.
Hypothesis HD : good_diags i diags.
Hypothesis HR : run_simulation i c procs diags = Ok st.
Notation sg := (signals_of i c procs).
Notation ds := (dims_of i c procs).
Notation N := (Z.of_nat (run_length i procs)).

Lemma recorded_signal dn nm num : records i diags dn nm num -> dget ds nm = Some num -> 0 <= num -> recording i st dn (sg nm).
Proof.
  intros (e & r0 & d0 & H1 & H2 & H3) Hn Hp.
  assert (exists iv, ivc_of_intervals [(0, tot_samples i)] = Ok iv /\ signal_diag_init i e (Some iv) (DRecordSignal r0 : D) = Ok d0) as (iv & H4 & H5).
  { unfold signal_diag_init in H2. apply bind_ok in H2 as (iv & Q1 & Q2). exists iv. split; auto. }
  edestruct (C11_recorded HX HD HR) as (d & r & A1 & A2 & A3 & A4); [exact H4|exact H1|exact H5|exact H3|constructor; [simpl; lia|constructor]|].
  exists d, r. split; auto. split; auto. apply zget_ext. intros t. rewrite zget_map, zget_zrange.
  destruct (Z.leb_spec 0 t); cbn [andb]; [|rewrite zget_neg by lia; auto].
  destruct (Z.ltb_spec t (tot_samples i - 0)); [|rewrite zget_out by lia; auto].
  destruct (A4 t) as [A5 _]; [lia|]. destruct A5 as (f & (y & S1 & S2) & S3).
  { unfold times. cbn [flat_map fst snd]. rewrite app_nil_r. apply In_zrange. lia. }
  cbn [selected] in S1. subst y. rewrite S3. cbn [option_map]. do 2 f_equal. replace (0 + t) with t by lia.
  pose proof (signal_width HX HD HR nm t Hn) as W. destruct S2 as [[_ ->]|(v & Q1 & Q2)]; auto.
  assert (K : zlen [v] = Z.max 0 num) by (rewrite <- Q1; exact W). change (zlen [v]) with 1 in K. assert (num = 1) as -> by lia. rewrite Q2. symmetry. exact Q1.
Qed.
Lemma array_dim k a : the_array c k a -> dget ds k = Some (a_num a).
Proof. intros Ha. destruct (run_facts HX HD HR) as (r & P & H1 & Hb & Hds & Hr & Es & C1 & C2 & C3 & HN & _). apply (no_dim HN Ha). Qed.
Lemma recorded_array dn k a : records i diags dn k (a_num a) -> the_array c k a -> recording i st dn (sg k).
Proof. intros H Ha. eapply recorded_signal; [exact H|apply array_dim; auto|eapply (ex_counts HX); exact Ha]. Qed.

(* ------------------------------------------------------------------ C01 *)
(** C01.  Stationary arrays.  [dn k] is the name of the diagnostic that records the array k; m is a microphone array
    that the processor does not write to.  The recordings x of the sources and of m are linked by the
    convolution sums, x s being zero before the sources start (time 0, or 1 - sim_buffer for free sources
    when sources start before time 0). *)
Theorem C01_convolution m b (dn : string -> string) : stationary c ->
  In m (c_mic c) -> the_array c m b -> mic_untouched procs m -> records i diags (dn m) m (a_num b) ->
  (forall s a, In s (c_src c) -> the_array c s a -> records i diags (dn s) s (a_num a)) ->
  exists x : string -> Z -> frame,
    recording i st (dn m) (x m) /\ (forall s, In s (c_src c) -> recording i st (dn s) (x s)) /\
    (forall s a t, In s (c_src c) -> the_array c s a ->
       t < (if start_sources_before_0 i then 1 - sim_buffer i else 0) \/ (t <= 0 /\ ~ In s (c_free c)) -> x s t = zeros (a_num a)) /\
    forall t, 0 <= t < tot_samples i ->
      x m t = mix (a_num b) (map (fun s => response (path_of c s m) (x s) t) (c_src c)).
Proof.
  intros HS Hm Hb Hu Rm Rs. exists sg. split; [eapply recorded_array; eauto|]. split.
  { intros s Hs. destruct (src_array (ex_coll HX) s Hs) as (a & Ha & _). eapply recorded_array; eauto. }
  split.
  - intros s a t Hs Ha [Ht|[Ht Hf]].
    + apply (source_before_start HX HD HR) with (s := s); auto. unfold early_start. destruct (start_sources_before_0 i); simpl; lia.
    + rewrite (written_law HX HD HR).
      * rewrite <- (silent_array HX HD HR Ha). unfold written. destruct procs as [|p [|]]; auto. pose proof (ex_sizes HX) as (P1 & _). destruct (Z.leb_spec 1 (t / pr_bs p)); auto. nia.
      * split; auto. split; [intros Hm'; eapply mic_not_src; [apply HX| |]; eauto|]. intros Hc s' m' Hs' Hm'.
        destruct (run_facts HX HD HR) as (r & P & H1 & Hb' & Hds & Hr & Es & C1 & C2 & C3 & HN & _). apply (no_arr HN Hc) with (a := a); auto.
  - intros t Ht. rewrite (mic_law HX HD HR Hm Hb HS), (untouched_silent HX HD HR t Hb Hu) by (pose proof (run_longer HX HD HR); lia). apply mix_zeros.
Qed.

(* ------------------------------------------------------------------ C05 *)
(** a generator whose samples do not depend on how many are asked for at a time: [f k] is its k-th sample *)
Definition streams (src : Src) (f : Z -> frame) : Prop :=
  exists at_ : Z -> Src, at_ 0 = src /\
    forall k n, 0 <= k -> 1 <= n -> src_get (at_ k) n = (at_ (k + n), map f (zrange k (k + n))).

(** C05.  The recording of a free source: one request of 1 (or sim_buffer) samples, the last of which is time 0,
    and then one request per sample; nothing else enters. *)
Theorem C05_requests dn k a src : In k (c_free c) -> the_array c k a -> a_source a = Some src -> records i diags dn k (a_num a) ->
  recording i st dn (free_signal (a_num a) src (if start_sources_before_0 i then sim_buffer i else 1)).
Proof.
  intros Hk Ha Hs Hr. destruct (@recorded_array dn k a Hr Ha) as (d & r & A1 & A2 & A3). exists d, r. split; auto. split; auto. rewrite A3.
  apply map_ext_in. intros t Ht. apply In_zrange in Ht. f_equal. destruct (free_law HX HD HR Hk Ha) as (src' & B1 & B2).
  rewrite B2 by (pose proof (run_longer HX HD HR); lia). rewrite Hs in B1. inversion B1; subst. f_equal. unfold early_start. destruct (start_sources_before_0 i); auto.
Qed.
Lemma nth_draw_stream src f n k : streams src f -> 1 <= n ->
  exists at_ : Z -> Src, at_ 0 = src /\ (forall k n, 0 <= k -> 1 <= n -> src_get (at_ k) n = (at_ (k + n), map f (zrange k (k + n)))) /\
  nth_draw src n k = (at_ (n + Z.of_nat k), match k with O => map f (zrange 0 n) | _ => [f (n + Z.of_nat k - 1)] end).
Proof.
  intros (at_ & H0 & H) Hn. exists at_. split; auto. split; auto. induction k as [|k IH]; cbn [nth_draw].
  - rewrite <- H0, H by lia. replace (n + Z.of_nat 0) with (0 + n) by lia. auto.
  - rewrite IH. cbn [fst]. rewrite H by lia. replace (n + Z.of_nat (S k) - 1) with (n + Z.of_nat k) by lia. f_equal; [f_equal; lia|].
    rewrite zrange_cons, zrange_empty by lia. auto.
Qed.
Lemma shown_wide d (x : frame) : zlen x = d -> (match x with [v] => zrep d v | _ => x end) = x.
Proof. intros <-. destruct x as [|v [|]]; auto. Qed.
Theorem C05_stream dn k a src f : In k (c_free c) -> the_array c k a -> a_source a = Some src -> records i diags dn k (a_num a) ->
  streams src f -> (forall j, 0 <= j -> zlen (f j) = a_num a) ->
  recording i st dn (fun t => f (t + (if start_sources_before_0 i then sim_buffer i - 1 else 0))).
Proof.
  intros Hk Ha Hs Hr Hf Hw. destruct (@C05_requests dn k a src Hk Ha Hs Hr) as (d & r & A1 & A2 & A3). exists d, r. split; auto. split; auto. rewrite A3.
  apply map_ext_in. intros t Ht. apply In_zrange in Ht. f_equal. unfold free_signal. set (n := if start_sources_before_0 i then sim_buffer i else 1).
  assert (Hn : 1 <= n).
  { destruct (run_facts HX HD HR) as (r' & P & H1 & _). pose proof (early_supported HX H1) as Q. unfold n, early_start in *. destruct (start_sources_before_0 i); simpl in *; lia. }
  destruct (Z.ltb_spec t (1 - n)); [lia|]. replace (t + (if start_sources_before_0 i then sim_buffer i - 1 else 0)) with (n + t - 1) by (unfold n; destruct (start_sources_before_0 i); lia).
  destruct (Z.leb_spec t 0).
  - assert (t = 0) as -> by lia. destruct (nth_draw_stream 0%nat Hf Hn) as (at_ & _ & _ & ->). cbn [snd]. unfold shown.
    assert (match map f (zrange 0 n) with [x] => x | _ => match zget (map f (zrange 0 n)) (0 - (1 - n)) with Some x => x | None => [] end end = f (n - 1)) as ->.
    { assert (zget (map f (zrange 0 n)) (0 - (1 - n)) = Some (f (n - 1))) as ->.
      { rewrite zget_map, zget_zrange. destruct ((0 <=? 0 - (1 - n)) && (0 - (1 - n) <? n - 0)) eqn:Q; [|lia]. cbn [option_map]. do 2 f_equal. lia. }
      destruct (Z.eq_dec n 1) as [->|]; [reflexivity|]. rewrite (@zrange_cons 0), (@zrange_cons (0 + 1)) by lia. reflexivity. }
    replace (n + 0 - 1) with (n - 1) by lia. apply shown_wide. apply Hw. lia.
  - destruct (nth_draw_stream (Z.to_nat t) Hf Hn) as (at_ & _ & _ & ->). cbn [snd]. destruct (Z.to_nat t) eqn:Q; [lia|]. rewrite <- Q. unfold shown.
    replace (n + Z.of_nat (Z.to_nat t) - 1) with (n + t - 1) by lia. apply shown_wide. apply Hw. lia.
Qed.

(* ------------------------------------------------------------------ C09 *)
(** C09.  [u] is the time of the last update of positions before sample t: the last multiple of the update
    frequency not exceeding t - 1 *)
Definition update_before (freq t u : Z) : Prop := (exists k, u = k * freq) /\ u <= t - 1 < u + freq.
(** Moving arrays.  The recordings satisfy the convolution law with paths [P t s m] that depend on the time t of
    the microphone sample: those of the initial set-up at time 0, and for t >= 1, for every pair of which at
    least one array moves, the path generated for the positions the two arrays have at time u. *)
Theorem C09_positions inf (dn : string -> string) : c_info c = Some inf -> 1 <= array_update_freq inf ->
  (forall k a, the_array c k a -> In k (c_src c) \/ In k (c_mic c) -> records i diags (dn k) k (a_num a)) ->
  exists (x : string -> Z -> frame) (P : Z -> string -> string -> path V),
    (forall k, In k (c_src c) \/ In k (c_mic c) -> recording i st (dn k) (x k)) /\
    (forall s a t, In s (c_src c) -> the_array c s a -> t < (if start_sources_before_0 i then 1 - sim_buffer i else 0) -> x s t = zeros (a_num a)) /\
    (forall m b t, In m (c_mic c) -> the_array c m b -> mic_untouched procs m -> 0 <= t < tot_samples i ->
       x m t = mix (a_num b) (map (fun s => response (P t s m) (x s) t) (c_src c))) /\
    (forall s m, P 0 s m = path_of c s m) /\
    (forall t u s m a b, 1 <= t < tot_samples i -> update_before (array_update_freq inf) t u ->
       In s (c_src c) -> In m (c_mic c) -> the_array c s a -> the_array c m b ->
       match a_traj a, a_traj b with
       | None, None => P t s m = path_of c s m
       | _, _ => exists ty g1 g2, lookup2 (c_ptypes c) s m = Some ty /\ made_path inf g1 (placed_at a u) (placed_at b u) ty g2 (P t s m)
       end).
Proof.
  intros Hi Hfr Hrec. destruct (mic_law_moving HX HD HR) as (P & P0 & Ps & Pm & Pl & _). pose proof (run_longer HX HD HR) as HL. exists sg, P. split.
  { intros k [Hk|Hk]; [destruct (src_array (ex_coll HX) k Hk) as (a & Ha & _)|destruct (mic_array (ex_coll HX) k Hk) as (a & Ha & _)]; eapply recorded_array; eauto. }
  split.
  { intros s a t Hs Ha Ht. apply (source_before_start HX HD HR) with (s := s); auto. unfold early_start. destruct (start_sources_before_0 i); simpl; lia. }
  split.
  { intros m b t Hm Hb Hu Ht. rewrite (Pl m b t Hm Hb), (untouched_silent HX HD HR t Hb Hu) by lia. apply mix_zeros. }
  split; [intros; apply P0; lia|]. intros t u s m a b Ht ((k & ->) & Hu) Hs Hm Ha Hb.
  assert (last_update (array_update_freq inf) t = k * array_update_freq inf) as E0.
  { unfold last_update. rewrite Z.abs_eq by lia. f_equal. symmetry. apply Z.div_unique with (r := t - 1 - k * array_update_freq inf); lia. }
  rewrite <- E0. destruct (a_traj a) eqn:Qa, (a_traj b) eqn:Qb; try (apply (Pm inf t s m a b); auto; [lia|rewrite Qa, Qb; auto; left; congruence]); try (apply (Pm inf t s m a b); auto; [lia|rewrite Qa, Qb; right; congruence]).
  apply Ps; auto; [lia|]. intros a' b' Ha' Hb'. unfold the_array in *. rewrite Ha in Ha'. rewrite Hb in Hb'. inversion Ha'; inversion Hb'; subst. auto.
Qed.
(** with an update at every sample the positions lag by one sample *)
Theorem C09_lag t u : update_before 1 t u -> u = t - 1.
Proof. intros [_ H]. lia. Qed.

(* ------------------------------------------------------------------ C10 *)
(** C10.  Sources started before time 0: for the sim_buffer - 1 samples before time 0 a free source holds the first
    samples of its generator and a microphone the convolution of the sources *)
Theorem C10_started_before m b t : start_sources_before_0 i = true -> In m (c_mic c) -> the_array c m b -> 1 - sim_buffer i <= t <= 0 ->
  sg m t = mix (a_num b) (map (fun s => response (path_of c s m) (sg s) t) (c_src c)) /\
  (forall k a src f, In k (c_free c) -> the_array c k a -> a_source a = Some src -> streams src f -> (forall j, 0 <= j -> zlen (f j) = a_num a) ->
     sg k t = f (t + sim_buffer i - 1)).
Proof.
  intros Hs Hm Hb Ht. split.
  - rewrite (mic_before HX HD HR Hm Hb) by lia. unfold start_mic, early_start. rewrite Hs. destruct ((1 - sim_buffer i <=? t) && (t <=? 0)) eqn:Q; auto; lia.
  - intros k a src f Hk Ha Hsr Hf Hw. destruct (free_law HX HD HR Hk Ha) as (src' & B1 & B2). rewrite B2 by lia. rewrite Hsr in B1. inversion B1; subst src'.
    unfold early_start. rewrite Hs. cbn [first_request]. unfold free_signal. destruct (Z.ltb_spec t (1 - sim_buffer i)); [lia|]. destruct (Z.leb_spec t 0); [|lia].
    assert (Hn : 1 <= sim_buffer i) by lia. destruct (nth_draw_stream 0%nat Hf Hn) as (at_ & _ & _ & ->). cbn [snd]. unfold shown. set (n := sim_buffer i) in *.
    assert (match map f (zrange 0 n) with [x] => x | _ => match zget (map f (zrange 0 n)) (t - (1 - n)) with Some x => x | None => [] end end = f (t + n - 1)) as ->.
    { assert (zget (map f (zrange 0 n)) (t - (1 - n)) = Some (f (t + n - 1))) as ->.
      { rewrite zget_map, zget_zrange. destruct ((0 <=? t - (1 - n)) && (t - (1 - n) <? n - 0)) eqn:Q; [|lia]. cbn [option_map]. do 2 f_equal. lia. }
      destruct (Z.eq_dec n 1) as [Q|]; [rewrite Q in *; assert (t = 0) as -> by lia; reflexivity|]. rewrite (@zrange_cons 0), (@zrange_cons (0 + 1)) by lia. reflexivity. }
    apply shown_wide. apply Hw. lia.
Qed.
(** Sources started at time 0: they are silent before, but a microphone holds its value at time 0 at all earlier
    times, so it is silent before time 0 only if it is silent at time 0. *)
Theorem C10_started_at_0_partial t : start_sources_before_0 i = false -> t < 0 ->
  (forall s a, In s (c_src c) -> the_array c s a -> sg s t = zeros (a_num a)) /\
  (forall m b, In m (c_mic c) -> the_array c m b -> sg m t = sg m 0).
Proof.
  intros Hs Ht. split.
  - intros s a Hi Ha. apply (source_before_start HX HD HR) with (s := s); auto. unfold early_start. rewrite Hs. simpl. lia.
  - intros m b Hm Hb. rewrite !(mic_before HX HD HR Hm Hb) by lia. unfold start_mic, early_start. rewrite Hs. destruct (Z.leb_spec t 0), (Z.leb_spec 0 0); auto; lia.
Qed.
End Run.

(* ------------------------------------------------------------------ Examples *)
Section Examples.
Local Open Scope string_scope.
Local Existing Instances demo demo_d spy_s.

Lemma spy_records i d nm : spy_diags i = Ok d -> In nm ["mic"; "src"; "spk"] -> records i d nm nm 1.
Proof.
  intros Hd Hn. unfold spy_diags in Hd. apply bind_ok in Hd as (x & Hx & Hd). apply bind_ok in Hd as (y & Hy & Hd). apply bind_ok in Hd as (z & Hz & Hd). inversion Hd; subst d.
  apply bind_ok in Hx as (rx & Hx1 & Hx2). apply bind_ok in Hy as (ry & Hy1 & Hy2). apply bind_ok in Hz as (rz & Hz1 & Hz2).
  destruct Hn as [<-|[<-|[<-|[]]]]; unfold records; [exists ANone, rx, x|exists ANone, ry, y|exists ANone, rz, z]; split; auto.
Qed.
Lemma spy_untouched bs h m : m <> "spk" -> mic_untouched [sspy bs h] m.
Proof. intros Hm. repeat constructor. intros s w. cbn. destruct (dget w "mic"); cbn [snd dget]; auto. destruct (String.eqb_spec m "spk"); auto. congruence. Qed.
(** what the set-up of a room looks like *)
Lemma coll_is i l c A (f : coll demo -> A) x : coll_of i l = Ok c -> get (coll_of i l) f = Some x -> f c = x.
Proof. intros -> H. cbn [get] in H. congruence. Qed.

Let i1 := run_info 10 5 false false.
(** the hypotheses of C01, C05 and C10 hold for a microphone, a free source and a loudspeaker that feeds the
    microphone signal back (chunk 5, so buffer shifts occur during the 15 steps) *)
Example C01_example : exists c diags st b, experiment i1 c [sspy 3 3] /\ good_diags i1 diags /\ run_simulation i1 c [sspy 3 3] diags = Ok st /\
  stationary c /\ In "mic" (c_mic c) /\ the_array c "mic" b /\ mic_untouched [sspy 3 3] "mic" /\ records i1 diags "mic" "mic" (a_num b) /\
  (forall s a, In s (c_src c) -> the_array c s a -> records i1 diags s s (a_num a)).
Proof.
  destruct (spy_meets i1 (room None) 3 3) as (c & d & st & Hc & Hd & Hs & A & B & C); [vm_compute; reflexivity|apply room_sized|cbn; lia|vm_compute; reflexivity|].
  pose proof (coll_is _ _ (fun c => (c_arrays c, c_mic c, c_src c)) Hc (ltac:(vm_compute; reflexivity))) as Q. injection Q as Q1 Q2 Q3.
  exists c, d, st. eexists. split; [exact A|]. split; [exact B|]. split; [exact C|]. split; [|split; [rewrite Q2; left; reflexivity|split; [unfold the_array; rewrite Q1; reflexivity|]]].
  - intros k a. unfold the_array. rewrite Q1. cbn [dget]. repeat destruct (String.eqb _ _); intros K; inversion K; subst; reflexivity.
  - split; [apply spy_untouched; discriminate|]. split; [apply spy_records; simpl; auto|]. intros s a Hsrc. unfold the_array. rewrite Q1. rewrite Q3 in Hsrc.
    destruct Hsrc as [<-|[<-|[]]]; intros K; inversion K; subst; apply spy_records; simpl; auto.
Qed.
Example C01_values : recs (spy_run i1 (room None) 3 3) =
  map (fun l => Some (map (fun x => Some [x]) l)) [[0; 0; 5; 6; 7; 8; 14; 16; 18; 20; 27; 30]; zrange 5 17; [0; 0; 0; 0; 0; 5; 6; 7; 8; 14; 16; 18]].
Proof. vm_compute; reflexivity. Qed.

(** the free source of that run counts upwards from 5 *)
Example C05_example : exists c diags st a, experiment i1 c [sspy 3 3] /\ good_diags i1 diags /\ run_simulation i1 c [sspy 3 3] diags = Ok st /\
  In "src" (c_free c) /\ the_array c "src" a /\ a_source a = Some 5 /\ records i1 diags "src" "src" (a_num a) /\
  streams 5 (fun k => [5 + k]) /\ (forall j, 0 <= j -> zlen [5 + j] = a_num a).
Proof.
  destruct (spy_meets i1 (room None) 3 3) as (c & d & st & Hc & Hd & Hs & A & B & C); [vm_compute; reflexivity|apply room_sized|cbn; lia|vm_compute; reflexivity|].
  pose proof (coll_is _ _ (fun c => (c_arrays c, c_free c)) Hc (ltac:(vm_compute; reflexivity))) as Q. injection Q as Q1 Q2.
  exists c, d, st. eexists. split; [exact A|]. split; [exact B|]. split; [exact C|]. split; [rewrite Q2; left; reflexivity|]. split; [unfold the_array; rewrite Q1; reflexivity|].
  split; [reflexivity|]. split; [apply spy_records; simpl; auto|]. split; [|reflexivity]. exists (fun k => 5 + k). split; [reflexivity|]. intros k n Hk Hn.
  change (@src_get demo (5 + k) n) with (5 + k + n, map (fun k => [k]) (zrange (5 + k) (5 + k + n))). apply f_equal2; [lia|]. apply zget_ext. intros j. rewrite !zget_map, !zget_zrange.
  replace (5 + k + n - (5 + k)) with (k + n - k) by lia. destruct ((0 <=? j)%Z && (j <? k + n - k)%Z); auto. cbn [option_map]. do 2 f_equal. lia.
Qed.

(** a microphone that moves away from the origin by one unit per sample, positions updated every 4 samples *)
Example C09_example : exists c diags st inf, experiment i1 c [sspy 3 5] /\ good_diags i1 diags /\ run_simulation i1 c [sspy 3 5] diags = Ok st /\
  c_info c = Some inf /\ 1 <= array_update_freq inf /\
  (forall k a, the_array c k a -> In k (c_src c) \/ In k (c_mic c) -> records i1 diags k k (a_num a)) /\
  exists a, the_array c "mic" a /\ a_traj a <> None.
Proof.
  destruct (spy_meets i1 (room (Some (fun t => t))) 3 5) as (c & d & st & Hc & Hd & Hs & A & B & C); [vm_compute; reflexivity|apply room_sized|cbn; lia|vm_compute; reflexivity|].
  pose proof (coll_is _ _ (fun c => (c_arrays c, c_src c, c_mic c, c_info c)) Hc (ltac:(vm_compute; reflexivity))) as Q. injection Q as Q1 Q2 Q3 Q4.
  exists c, d, st. eexists. split; [exact A|]. split; [exact B|]. split; [exact C|]. split; [exact Q4|]. split; [cbn; lia|]. split.
  - intros k a. unfold the_array. rewrite Q1, Q2, Q3. cbn [In]. intros K [[<-|[<-|[]]]|[<-|[]]]; inversion K; subst; apply spy_records; simpl; auto.
  - eexists. split; [unfold the_array; rewrite Q1; reflexivity|]. discriminate.
Qed.
(** delay 2 for samples 0..4, 2 again (position 4) for 5..8, out of reach from sample 9 on (position 8) *)
Example C09_values : nth 0 (recs (spy_run i1 (room (Some (fun t => t))) 3 5)) None = Some (map (fun x => Some [x]) [0; 0; 5; 6; 7; 8; 9; 10; 16; 0; 0; 0]).
Proof. vm_compute; reflexivity. Qed.
Example C09_lag_example : update_before 1 7 6.
Proof. split; [exists 6; reflexivity|lia]. Qed.

(** microphone and free source at the same place *)
Definition near : list (arr Pos Src) := [one "mic" KMic 2 None; one "src" KFree 2 None; one "spk" KCtrl 1 None].
Lemma near_sized : Forall (sized (fun _ => 1)) near.
Proof. repeat constructor; simpl; intros; auto; discriminate. Qed.
Let i2 := run_info 10 5 true false.
Example C10_example : exists c diags st b, experiment i2 c [sspy 3 5] /\ good_diags i2 diags /\ run_simulation i2 c [sspy 3 5] diags = Ok st /\
  start_sources_before_0 i2 = true /\ In "mic" (c_mic c) /\ the_array c "mic" b.
Proof.
  destruct (spy_meets i2 near 3 5) as (c & d & st & Hc & Hd & Hs & A & B & C); [vm_compute; reflexivity|apply near_sized|cbn; lia|vm_compute; reflexivity|].
  pose proof (coll_is _ _ (fun c => (c_arrays c, c_mic c)) Hc (ltac:(vm_compute; reflexivity))) as Q. injection Q as Q1 Q2.
  exists c, d, st. eexists. split; [exact A|]. split; [exact B|]. split; [exact C|]. split; [reflexivity|]. split; [rewrite Q2; left; reflexivity|]. unfold the_array; rewrite Q1; reflexivity.
Qed.
(** C10.  Sources started at time 0, and yet the processor's first call sees a microphone that is not silent before
    time 0: its window of 5 samples covers the times -2 .. 2; the source is 0, 0, 5, 6, 7, the microphone
    5, 5, 5, 6, 7. *)
Theorem C10_started_at_0_refuted : exists c diags st p s log w o, experiment i1 c [sspy 3 5] /\ good_diags i1 diags /\
  run_simulation i1 c [sspy 3 5] diags = Ok st /\ start_sources_before_0 i1 = false /\
  sm_procs st = [p] /\ pr_state p = ((s, log) : spied Z) /\ zget log 0 = Some (w, o) /\
  dget w "src" = Some [[0]; [0]; [5]; [6]; [7]] /\ dget w "mic" = Some [[5]; [5]; [5]; [6]; [7]].
Proof.
  destruct (spy_meets i1 near 3 5) as (c & d & st & Hc & Hd & Hs & A & B & C); [vm_compute; reflexivity|apply near_sized|cbn; lia|vm_compute; reflexivity|].
  assert (K : map (fun x => (dget (fst x) "src", dget (fst x) "mic")) (firstn 1 (logs (spy_run i1 near 3 5))) = [(Some [[0]; [0]; [5]; [6]; [7]], Some [[5]; [5]; [5]; [6]; [7]])]) by (vm_compute; reflexivity).
  rewrite Hs in K. unfold logs in K. destruct (sm_procs st) as [|p [|]] eqn:Q; try discriminate K. destruct (pr_state p) as [s log] eqn:Q2. cbn [snd] in K. destruct log as [|[w o] l]; [discriminate K|].
  cbn [firstn map fst] in K. injection K as K1 K2. exists c, d, st, p, s, ((w, o) :: l), w, o. split; [exact A|]. split; [exact B|]. split; [exact C|]. split; [reflexivity|]. split; [exact Q|]. split; [exact Q2|]. split; [reflexivity|].
  split; assumption.
Qed.
End Examples.

Print Assumptions C01_convolution.
Print Assumptions C05_requests.
Print Assumptions C05_stream.
Print Assumptions C09_positions.
Print Assumptions C09_lag.
Print Assumptions C10_started_before.
Print Assumptions C10_started_at_0_partial.
Print Assumptions C10_started_at_0_refuted.
