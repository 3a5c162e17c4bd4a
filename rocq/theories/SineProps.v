(** Properties of the sine sources: C27, C58, C59, and the magnitude of Gold sequences (C30). *)
Require Import Verif.PyBase Verif.PyLemmas Verif.UtilProps Verif.SourceModel Verif.SourceSpec Verif.SourceProofs Verif.GoldProps Verif.SineModel.
Require Import Lra.
Set Implicit Arguments.
Local Open Scope list_scope.
Local Open Scope Z_scope.

(** The k-th of the numbers *)
Definition nth_R (l : list R) (i : Z) : R := match zget l i with Some x => x | None => 0%R end.
(** sum of f over 0 <= k < n *)
Definition sumR (f : Z -> R) (n : Z) : R := fold_right Rplus 0%R (map f (zrange 0 n)).

Lemma cos_periodZ x k : cos (x + IZR k * (2 * PI)) = cos x.
Proof.
  destruct (Z.le_ge_cases 0 k) as [H|H].
  - rewrite <- (cos_period x (Z.to_nat k)). f_equal. rewrite INR_IZR_INZ, Z2Nat.id by auto. ring.
  - rewrite <- (cos_period (x + IZR k * (2 * PI)) (Z.to_nat (- k))). f_equal. rewrite INR_IZR_INZ, Z2Nat.id by lia. rewrite opp_IZR. ring.
Qed.
Lemma sin_periodZ x k : sin (x + IZR k * (2 * PI)) = sin x.
Proof.
  destruct (Z.le_ge_cases 0 k) as [H|H].
  - rewrite <- (sin_period x (Z.to_nat k)). f_equal. rewrite INR_IZR_INZ, Z2Nat.id by auto. ring.
  - rewrite <- (sin_period (x + IZR k * (2 * PI)) (Z.to_nat (- k))). f_equal. rewrite INR_IZR_INZ, Z2Nat.id by lia. rewrite opp_IZR. ring.
Qed.
Lemma rmod_eq x m : exists k, rmod x m = (x + IZR k * m)%R.
Proof. exists (- Int_part (x / m)). unfold rmod. rewrite opp_IZR. ring. Qed.
Lemma rmod_range x m : (0 < m)%R -> (0 <= rmod x m < m)%R.
Proof.
  intros Hm. unfold rmod. destruct (base_Int_part (x / m)) as [H1 H2]. set (k := IZR (Int_part (x / m))) in *. assert (E : x = (x / m * m)%R) by (field; lra). split.
  - apply Rmult_le_compat_r with (r := m) in H1; lra.
  - assert (H3 : (x / m < k + 1)%R) by lra. apply Rmult_lt_compat_r with (r := m) in H3; [|auto]. rewrite <- E in H3. lra.
Qed.

(* ------------------------------------------------------------------ C27 *)
(** C27: a sine source plays amplitude * cos(phase + 2 pi f n / samplerate) in every channel; the amplitude is sqrt(2 power) *)
Theorem C27_sine power freq samplerate phases :
  plays sine_get (zlen phases) (fun c n => sqrt (2 * power) * cos (nth_R phases c + 2 * PI * freq * IZR n / samplerate))%R (sine_init (PNumber power) freq samplerate phases).
Proof.
  set (step := (2 * PI * freq / samplerate)%R).
  apply plays_inv with (I := fun s t => si_amplitude s = PNumber (sqrt (2 * power)) /\ si_step s = step /\ zlen (si_phase s) = zlen phases /\
     forall c, 0 <= c < zlen phases -> exists k, zget (si_phase s) c = Some (nth_R phases c + IZR t * step + IZR k * (2 * PI))%R).
  - intros s t n (E1 & E2 & E3 & E4) Hn. unfold sine_get. rewrite E1, E2. cbn [broadcast_mul bind]. eexists. split; [f_equal; f_equal|].
    + rewrite map_map. unfold piece. apply zget_ext. intros c. rewrite !zget_map, zget_zrange. destruct (Z.ltb_spec c (zlen phases - 0)); [|rewrite andb_false_r; rewrite zget_out by lia; auto].
      destruct (Z.leb_spec 0 c); [|rewrite zget_neg by lia; auto]. cbn [andb option_map]. destruct (E4 c ltac:(lia)) as (k & E). rewrite E. cbn [option_map]. f_equal. rewrite map_map. apply map_ext. intros i.
      rewrite Z.add_0_l. f_equal. rewrite <- (cos_periodZ (nth_R phases c + _) k). f_equal. rewrite plus_IZR. unfold step, Rdiv. ring.
    + cbn. split; auto. split; auto. rewrite zlen_map. split; auto. intros c Hc. destruct (E4 c Hc) as (k & E). rewrite zget_map, E. cbn [option_map]. destruct (rmod_eq (nth_R phases c + IZR t * step + IZR k * (2 * PI) + IZR n * step) (2 * PI)) as (k' & ->). exists (k + k'). f_equal. rewrite !plus_IZR. ring.
  - cbn. split; auto. split; auto. split; auto. intros c Hc. exists 0. destruct (@zget_in_range _ phases c Hc) as (x & E). unfold nth_R. rewrite E. f_equal. ring.
Qed.
(** the phase that is kept stays in one turn *)
Theorem C27_phase s n out s' : sine_get s n = Ok (out, s') -> Forall (fun p => 0 <= p < 2 * PI)%R (si_phase s').
Proof.
  unfold sine_get. destruct (broadcast_mul _ _ _) as [o|]; cbn [bind]; intros H; inversion H; subst. cbn. apply Forall_forall. intros p Hp. apply in_map_iff in Hp as (q & <- & _). apply rmod_range. pose proof PI_RGT_0. lra.
Qed.

(** the sum of sines that a multi-sine source should play *)
Definition sines (amplitude samplerate : R) (freqs phases : list R) (n : Z) : R :=
  fold_right Rplus 0%R (map (fun p => amplitude * cos (snd p + 2 * PI * fst p * IZR n / samplerate))%R (combine freqs phases)).
Lemma zrep_map n (x : R) : zrep n x = map (fun _ => x) (zrange 0 n).
Proof. apply zget_ext. intros i. rewrite zget_map, zget_zrange, zget_zrep, Z.sub_0_r. destruct (_ && _)%bool; auto. Qed.
Lemma combine_zmap {A B} (f : Z -> A) (g : Z -> B) l : combine (map f l) (map g l) = map (fun k => (f k, g k)) l.
Proof. induction l; simpl; congruence. Qed.
Lemma add_sines_eq a n : forall steps phases g, add_sines a n steps phases (map g (zrange 0 n)) =
  (map (fun k => g k + fold_right Rplus 0 (map (fun p => a * cos (IZR k * fst p + snd p)) (combine steps phases)))%R (zrange 0 n), map (fun p => rmod (snd p + IZR n * fst p) (2 * PI)) (combine steps phases)).
Proof.
  induction steps as [|st steps IH]; intros [|ph phases] g; cbn [add_sines combine map fold_right]; try (f_equal; apply map_ext; intros k; ring).
  rewrite combine_zmap, map_map. cbn [fst snd]. rewrite (IH phases (fun k => g k + a * cos (IZR k * st + ph))%R). cbn [fst snd]. f_equal. apply map_ext. intros k. ring.
Qed.
(** C27: a multi-sine source plays the sum of its sines, each with the amplitude sqrt(2 power / number of sines) *)
Theorem C27_multisine channels power freqs samplerate phases s : zlen phases = zlen freqs -> multisine_init channels (PNumber power) freqs samplerate phases = Ok s ->
  plays multisine_get 1 (fun _ n => sines (sqrt (2 * power / IZR (zlen freqs))) samplerate freqs phases n) s.
Proof.
  intros Hl H. unfold multisine_init in H. destruct (1 <? channels); [discriminate|]. destruct (zlen freqs =? 0); [discriminate|]. injection H as <-. set (a := sqrt _).
  set (R := fun (t : Z) (p : R * R) (ph : R) => exists k, ph = (snd p + IZR t * (2 * PI * fst p / samplerate) + IZR k * (2 * PI))%R).
  apply plays_inv with (I := fun s t => ms_amplitude s = a /\ ms_steps s = map (fun f => 2 * PI * f / samplerate)%R freqs /\ Forall2 (R t) (combine freqs phases) (ms_phase s)).
  - intros s t n (E1 & E2 & E3) Hn. unfold multisine_get. rewrite E1, E2, zrep_map, add_sines_eq. cbn [fst snd].
    assert (P : Forall2 (fun p q => fst q = (2 * PI * fst p / samplerate)%R /\ R t p (snd q)) (combine freqs phases) (combine (map (fun f => 2 * PI * f / samplerate)%R freqs) (ms_phase s))).
    { revert E3. clear - Hl. revert phases Hl. generalize (ms_phase s). induction freqs as [|f freqs IH]; intros now [|ph phases] Hl; rewrite ?zlen_cons, ?zlen_nil in Hl; cbn [combine map]; intros E; inversion E; subst; try constructor; auto; try (pose proof (zlen_nonneg freqs); pose proof (zlen_nonneg phases); lia). apply IH; auto. lia. }
    eexists. split; [f_equal; f_equal|].
    + unfold piece. change (zrange 0 1) with [0]. cbn [map]. f_equal. apply map_ext. intros i. rewrite Rplus_0_l. unfold sines. clear - P. induction P as [|p q ps qs [E (k & E')] P IH]; [reflexivity|]. cbn [map fold_right]. rewrite IH. f_equal. f_equal. rewrite E, E'. rewrite <- (cos_periodZ (snd p + _) k). f_equal. rewrite plus_IZR. unfold Rdiv. ring.
    + cbn. split; auto. split; auto. clear - P. induction P as [|p q ps qs [E (k & E')] P IH]; [constructor|]. constructor; [|auto]. rewrite E, E'. destruct (rmod_eq (snd p + IZR t * (2 * PI * fst p / samplerate) + IZR k * (2 * PI) + IZR n * (2 * PI * fst p / samplerate)) (2 * PI)) as (k' & ->). exists (k + k'). rewrite !plus_IZR. ring.
  - cbn. split; auto. split; auto. clear - Hl. revert phases Hl. induction freqs as [|f freqs IH]; intros [|ph phases] Hl; rewrite ?zlen_cons, ?zlen_nil in Hl; cbn [combine]; try (pose proof (zlen_nonneg freqs); pose proof (zlen_nonneg phases); lia); try (pose proof (zlen_nonneg freqs); lia); try (pose proof (zlen_nonneg phases); lia); try (constructor; fail). constructor; [exists 0; cbn; ring|]. apply IH. lia.
Qed.
Theorem C27_multisine_errors channels power freqs samplerate phases :
  (1 < channels -> multisine_init channels power freqs samplerate phases = Err NotImplementedError) /\
  (forall l, power = PArray l -> multisine_init channels power freqs samplerate phases = Err NotImplementedError) /\
  (forall p, channels <= 1 -> power = PNumber p -> 0 < zlen freqs -> exists s, multisine_init channels power freqs samplerate phases = Ok s) /\
  (forall p, channels <= 1 -> power = PNumber p -> freqs = [] -> multisine_init channels power freqs samplerate phases = Err ZeroDivisionError).
Proof.
  unfold multisine_init. split; [intros H; destruct (Z.ltb_spec 1 channels); [auto|lia]|]. split; [intros l ->; destruct (1 <? channels); auto|]. split; intros p H -> Hf; destruct (Z.ltb_spec 1 channels); try lia; [|subst; reflexivity]. destruct (Z.eqb_spec (zlen freqs) 0); [lia|]. eauto.
Qed.
Example C27_example : exists s, multisine_init 1 (PNumber 3) [100%R; 200%R] 8000 [0%R; 1%R] = Ok s /\ zlen [0%R; 1%R] = zlen [100%R; 200%R].
Proof. eexists. split; reflexivity. Qed.
Print Assumptions C27_sine.
Print Assumptions C27_phase.
Print Assumptions C27_multisine.
Print Assumptions C27_multisine_errors.

(* ------------------------------------------------------------------ C58 *)
Lemma sumR_S f n : 0 <= n -> sumR f (n + 1) = (sumR f n + f n)%R.
Proof.
  intros H. unfold sumR. rewrite (@zrange_app 0 n (n + 1)) by lia. rewrite (@zrange_cons n (n + 1)) by lia. rewrite (@zrange_empty (n + 1)) by lia. rewrite map_app. cbn [map]. induction (map f (zrange 0 n)) as [|x l IH]; cbn [app fold_right]; [ring|]. rewrite IH. ring.
Qed.
(** twice the sine of the step times the sum of equally spaced cosines *)
Lemma cos_sum x d n : 0 <= n -> (2 * sin d * sumR (fun k => cos (x + IZR k * (2 * d))) n = sin (x + IZR n * (2 * d) - d) - sin (x - d))%R.
Proof.
  intros H. pattern n. apply natlike_ind; [|clear n H|exact H].
  - unfold sumR. rewrite zrange_empty by lia. cbn [map fold_right]. rewrite Rmult_0_l, Rplus_0_r. ring.
  - intros n H IH. unfold Z.succ. rewrite sumR_S by auto. rewrite Rmult_plus_distr_l, IH. rewrite plus_IZR. set (y := (x + IZR n * (2 * d))%R).
    replace (x + (IZR n + 1) * (2 * d) - d)%R with (y + d)%R by (unfold y; ring). rewrite sin_plus, sin_minus. ring.
Qed.
(** C58: over a whole number of periods, the mean of the squares is the power *)
Theorem C58_sine_power power freq samplerate phases t N m : (0 <= power)%R -> 0 <= t -> 0 < N -> (freq * IZR N / samplerate = IZR m)%R -> sin (2 * PI * freq / samplerate) <> 0%R ->
  exists a b s, request_all sine_get (sine_init (PNumber power) freq samplerate phases) [t; N] = Ok ([a; b], s) /\ zlen b = zlen phases /\
    forall row, In row b -> zlen row = N /\ (fold_right Rplus 0 (map (fun x => x * x) row) / IZR N = power)%R.
Proof.
  intros Hp Ht HN Hm Hs. destruct (C27_sine power freq samplerate phases (ns := [t; N])) as (s & E); [repeat constructor; lia|]. cbn [cut] in E. rewrite Z.add_0_l in E. eexists _, _, _. split; [exact E|]. unfold piece at 1. split; [rewrite zlen_map, zlen_zrange; pose proof (zlen_nonneg phases); lia|].
  intros row Hrow. unfold piece in Hrow. apply in_map_iff in Hrow as (c & <- & _). rewrite zlen_map, zlen_zrange. split; [lia|]. rewrite map_map.
  set (d := (2 * PI * freq / samplerate)%R) in *. set (x := (2 * (nth_R phases c + IZR t * d))%R).
  assert (K : forall n, 0 <= n -> (fold_right Rplus 0 (map (fun k => sqrt (2 * power) * cos (nth_R phases c + 2 * PI * freq * IZR (t + k) / samplerate) * (sqrt (2 * power) * cos (nth_R phases c + 2 * PI * freq * IZR (t + k) / samplerate))) (zrange 0 n)) = power * (IZR n + sumR (fun k => cos (x + IZR k * (2 * d))) n))%R).
  { intros n Hn. pattern n. apply natlike_ind; [|clear n Hn|exact Hn].
    - unfold sumR. rewrite zrange_empty by lia. cbn. ring.
    - intros n Hn IH. fold (sumR (fun k => sqrt (2 * power) * cos (nth_R phases c + 2 * PI * freq * IZR (t + k) / samplerate) * (sqrt (2 * power) * cos (nth_R phases c + 2 * PI * freq * IZR (t + k) / samplerate)))%R n) in IH.
      match goal with |- fold_right Rplus 0%R (map ?f (zrange 0 (Z.succ n))) = _ => change (sumR f (Z.succ n) = (power * (IZR (Z.succ n) + sumR (fun k => cos (x + IZR k * (2 * d))) (Z.succ n)))%R) end.
      unfold Z.succ. rewrite !sumR_S by auto. rewrite IH, (plus_IZR n 1). replace (x + IZR n * (2 * d))%R with (2 * (nth_R phases c + 2 * PI * freq * IZR (t + n) / samplerate))%R by (unfold x, d; rewrite plus_IZR; unfold Rdiv; ring).
      cbv beta. rewrite cos_2a_cos. set (u := cos (nth_R phases c + _)). set (q := sqrt (2 * power)). assert (q * q = 2 * power)%R by (apply sqrt_sqrt; lra). replace (q * u * (q * u))%R with (q * q * (u * u))%R by ring. rewrite H. ring. }
  rewrite K by lia. assert (S0 : sumR (fun k => cos (x + IZR k * (2 * d))) N = 0%R).
  { pose proof (@cos_sum x d N ltac:(lia)) as C. replace (x + IZR N * (2 * d) - d)%R with (x - d + IZR (2 * m) * (2 * PI))%R in C. 2: { rewrite mult_IZR, <- Hm. unfold d, Rdiv. ring. } rewrite sin_periodZ in C. replace (sin (x - d) - sin (x - d))%R with 0%R in C by ring. apply Rmult_integral in C as [C|C]; [|auto]. apply Rmult_integral in C as [C|C]; [lra|contradiction]. }
  rewrite S0. assert (IZR N <> 0%R) by (apply not_0_IZR; lia). field. auto.
Qed.
Print Assumptions C58_sine_power.
Example C58_example : (0 <= 3)%R /\ (1 * IZR 4 / 4 = IZR 1)%R /\ sin (2 * PI * 1 / 4) <> 0%R.
Proof. split; [lra|]. split; [lra|]. replace (2 * PI * 1 / 4)%R with (PI / 2)%R by field. rewrite sin_PI2. lra. Qed.

(* ------------------------------------------------------------------ C59 *)
(** C59, false: an array with one power for each of several channels is not applied to the channels; the request fails unless as many samples as channels, or one sample, are requested *)
Theorem C59_channel_powers_refuted l freq samplerate phases n : 2 <= zlen l -> zlen l = zlen phases -> n <> zlen l -> n <> 1 -> sine_get (sine_init (PArray l) freq samplerate phases) n = Err ValueError.
Proof.
  intros H2 Hl Hn H1. unfold sine_get. cbn [sine_init si_amplitude map_power broadcast_mul]. destruct l as [|p [|q l]]; [rewrite zlen_nil in H2; lia|change (zlen [p]) with 1 in H2; lia|]. cbn [map broadcast_mul]. assert (E : zlen (sqrt (2 * p) :: sqrt (2 * q) :: map (fun p => sqrt (2 * p)) l) = zlen (p :: q :: l)) by (rewrite !zlen_cons, zlen_map; auto). rewrite E.
  destruct (Z.eqb_spec (zlen (p :: q :: l)) n); [congruence|]. destruct (Z.eqb_spec n 1); [contradiction|]. auto.
Qed.
(** when it does not fail, the powers are applied to the samples: sample k of every channel has the amplitude of channel k *)
Theorem C59_samples_refuted l freq samplerate phases : 2 <= zlen l -> zlen l = zlen phases ->
  exists out s, sine_get (sine_init (PArray l) freq samplerate phases) (zlen l) = Ok (out, s) /\
    forall c k, 0 <= c < zlen l -> 0 <= k < zlen l -> sample 0%R out c k = (sqrt (2 * nth_R l k) * cos (nth_R phases c + 2 * PI * freq * IZR k / samplerate))%R.
Proof.
  intros H2 Hl. unfold sine_get. cbn [sine_init si_amplitude map_power broadcast_mul]. destruct l as [|p [|q l]]; [rewrite zlen_nil in H2; lia|change (zlen [p]) with 1 in H2; lia|]. cbn [map broadcast_mul]. assert (E : zlen (sqrt (2 * p) :: sqrt (2 * q) :: map (fun p => sqrt (2 * p)) l) = zlen (p :: q :: l)) by (rewrite !zlen_cons, zlen_map; auto). rewrite E, Z.eqb_refl. cbn [bind]. eexists _, _. split; [reflexivity|].
  intros c k Hc Hk. unfold sample. rewrite map_map, zget_map. cbn [sine_init si_phase si_step]. destruct (@zget_in_range _ phases c ltac:(lia)) as (ph & Eph). unfold nth_R at 2. rewrite Eph. cbn [option_map]. rewrite zget_map, zget_combine.
  change (sqrt (2 * p) :: sqrt (2 * q) :: map (fun p => sqrt (2 * p)) l) with (map (fun p => sqrt (2 * p)) (p :: q :: l)). rewrite zget_map. destruct (@zget_in_range _ (p :: q :: l) k Hk) as (v & Ev). unfold nth_R. rewrite Ev. cbn [option_map]. rewrite zget_map, zget_zrange, Z.sub_0_r. replace ((0 <=? k) && (k <? zlen (p :: q :: l)))%bool with true by lia. cbn [option_map fst snd]. f_equal. f_equal. rewrite Z.add_0_l. unfold Rdiv. ring.
Qed.
(** an array with a single power is applied to all channels *)
Theorem C59_single_power_partial power freq samplerate phases :
  plays sine_get (zlen phases) (fun c n => sqrt (2 * power) * cos (nth_R phases c + 2 * PI * freq * IZR n / samplerate))%R (sine_init (PArray [power]) freq samplerate phases).
Proof.
  intros ns Hns. destruct (C27_sine power freq samplerate phases Hns) as (s & E). exists (mkSine (PArray [sqrt (2 * power)]) (si_phase s) (si_step s)).
  assert (G : forall ns sa sb outs s', si_amplitude sa = PNumber (sqrt (2 * power)) -> sb = mkSine (PArray [sqrt (2 * power)]) (si_phase sa) (si_step sa) -> request_all sine_get sa ns = Ok (outs, s') -> request_all sine_get sb ns = Ok (outs, mkSine (PArray [sqrt (2 * power)]) (si_phase s') (si_step s'))).
  { clear. induction ns as [|n ns IH]; intros sa sb outs s' Ha -> H; cbn [request_all] in *; [inversion H; subst; auto|]. unfold sine_get at 1 in H. rewrite Ha in H. unfold sine_get at 1. cbn [broadcast_mul bind si_amplitude si_phase si_step fst snd] in *.
    destruct (request_all sine_get _ ns) as [[o s2]|] eqn:Q in H; cbn [bind] in H; [|discriminate]. pose proof (fun A sb B => IH _ sb _ _ A B Q) as Z0. specialize (Z0 eq_refl _ eq_refl). cbn [si_phase si_step] in Z0. rewrite Z0. cbn [bind fst snd] in *. inversion H; subst. auto. }
  eapply G; [| |exact E]; reflexivity.
Qed.
Example C59_example : 2 <= zlen [1%R; 2%R] /\ zlen [1%R; 2%R] = zlen [0%R; 0%R] /\ 100 <> zlen [1%R; 2%R].
Proof. unfold zlen. simpl. lia. Qed.
Print Assumptions C59_channel_powers_refuted.
Print Assumptions C59_samples_refuted.
Print Assumptions C59_single_power_partial.

(* ------------------------------------------------------------------ C30 *)
(** C30: every sample of a Gold sequence source has the magnitude sqrt(power) of its channel *)
Theorem C30_magnitude channels power order t1 t2 : preferred order = Some (t1, t2) -> 0 <= channels <= 2 ^ order - 1 -> zlen power = 1 \/ zlen power = channels ->
  exists s f, gold_init sqrt channels power order = Ok s /\ plays (gold_get 0%R Rmult IZR) channels f s /\ forall c n, Rabs (f c n) = one_or_each 0%R (map sqrt power) c.
Proof.
  intros Hp Hc Hl. destruct (@preferred_ok order t1 t2 Hp) as (Ho & T1 & T2). destruct (@register_exists order t1) as (x1 & R1); [lia|auto|]. destruct (@register_exists order t2) as (x2 & R2); [lia|auto|].
  destruct (@C30_gold R 0%R Rmult IZR sqrt channels power order t1 t2 x1 x2 Hp Hc Hl R1 R2) as (s & E & P). exists s. eexists. split; [exact E|]. split; [exact P|]. intros c n. cbv beta. rewrite Rabs_mult.
  assert (Hpos : (0 <= one_or_each 0 (map sqrt power) c)%R).
  { assert (H : forall x, In x (map sqrt power) -> (0 <= x)%R) by (intros x Hx; apply in_map_iff in Hx as (p & <- & _); apply sqrt_pos). unfold one_or_each. destruct (map sqrt power) as [|q [|r l]]; [rewrite zget_nil; lra|apply H; left; auto|]. destruct (zget (q :: r :: l) c) eqn:Q; [apply H; eapply zget_In; eauto|lra]. }
  rewrite (Rabs_pos_eq (one_or_each _ _ _)) by auto. match goal with |- (Rabs ?a * _)%R = _ => assert (HA : Rabs a = 1%R) end.
  { match goal with |- Rabs (IZR ?z) = _ => assert (HB : z = 1 \/ z = -1) by (destruct (x1 _), (x2 _); cbn; auto); destruct HB as [-> | ->] end; [apply Rabs_R1|]. replace (-1)%R with (- (1))%R by ring. rewrite Rabs_Ropp. apply Rabs_R1. } rewrite HA. ring.
Qed.
Print Assumptions C30_magnitude.
(** concrete cases of C27 and C30 *)
Example C27_multisine_meets : exists s, multisine_init 1 (PNumber 3) [100%R; 200%R] 8000 [0%R; 1%R] = Ok s /\ plays multisine_get 1 (fun _ n => sines (sqrt (2 * 3 / 2)) 8000 [100%R; 200%R] [0%R; 1%R] n) s.
Proof. eexists. split; [reflexivity|]. apply (@C27_multisine 1 3 [100%R; 200%R] 8000 [0%R; 1%R]); reflexivity. Qed.
Example C27_phase_meets : exists out s', sine_get (sine_init (PNumber 3) 100 8000 [0%R; 1%R]) 5 = Ok (out, s').
Proof. destruct (@C27_sine 3 100 8000 [0%R; 1%R] [5]) as (s' & K); [repeat constructor; lia|]. cbn [request_all] in K. destruct (sine_get _ 5) as [[out s]|] eqn:Q; [|discriminate]. eauto. Qed.
Example C30_magnitude_meets : preferred 5 = Some ([2], [1; 2; 3]) /\ 0 <= 2 <= 2 ^ 5 - 1 /\ zlen [3%R; 4%R] = 2.
Proof. repeat split; try reflexivity; lia. Qed.
