(** Properties of noise sources: C28, C29. *)
Require Import Verif.PyBase Verif.PyLemmas Verif.UtilProps Verif.SourceModel Verif.SourceSpec Verif.SourceProofs.
Set Implicit Arguments.
Local Open Scope list_scope.
Local Open Scope Z_scope.

Section Noise.
Context {V G F : Type} (v0 : V) (vmul : V -> V -> V) (draw : G -> V * G) (fstep : F -> V -> V * F).
Lemma rng_at_add g a : forall b, rng_at draw (rng_at draw g a) b = rng_at draw g (a + b).
Proof. revert g. induction a as [|a IH]; intros g b; auto. cbn [rng_at Nat.add]. apply IH. Qed.
Lemma number_at g a k : 0 <= a -> 0 <= k -> number draw (rng_at draw g (Z.to_nat a)) k = number draw g (a + k).
Proof. intros. unfold number. rewrite rng_at_add. do 3 f_equal. lia. Qed.
Lemma zrange_shift a n : map (fun k => a + k) (zrange 0 n) = zrange a (a + n).
Proof. apply zget_ext. intros i. rewrite zget_map, !zget_zrange. replace (a + n - a) with (n - 0) by lia. destruct (_ && _)%bool; simpl; auto. Qed.
Lemma normal_row_eq scale : forall n j g, normal_row vmul draw scale j n g = (map (fun k => vmul (scale (j + k)) (number draw g k)) (zrange 0 (Z.of_nat n)), rng_at draw g n).
Proof.
  induction n as [|n IH]; intros j g; cbn [normal_row rng_at]; auto. destruct (draw g) as [z g1] eqn:Q. rewrite IH. cbn [snd]. f_equal. rewrite (@zrange_cons 0 (Z.of_nat (S n))) by lia. cbn [map]. f_equal.
  - rewrite Z.add_0_r. unfold number. cbn [Z.to_nat rng_at]. rewrite Q. auto.
  - replace (Z.of_nat (S n)) with (1 + Z.of_nat n) by lia. change (0 + 1) with 1. rewrite <- zrange_shift, map_map. apply map_ext_in. intros k Hk. apply In_zrange in Hk. rewrite Z.add_assoc. f_equal.
    unfold number. replace (Z.to_nat (1 + k)) with (S (Z.to_nat k)) by lia. cbn [rng_at]. rewrite Q. auto.
Qed.
Lemma normal_rows_eq scale C : 0 <= C -> forall n i g, normal_rows vmul draw scale i n C g =
  (map (fun r => map (fun k => vmul (scale (i + r) k) (number draw g (r * C + k))) (zrange 0 C)) (zrange 0 (Z.of_nat n)), rng_at draw g (Z.to_nat (Z.of_nat n * C))).
Proof.
  intros HC. induction n as [|n IH]; intros i g; cbn [normal_rows]; auto. rewrite normal_row_eq, Z2Nat.id by lia. rewrite IH. f_equal.
  - rewrite (@zrange_cons 0 (Z.of_nat (S n))) by lia. cbn [map]. f_equal; [apply map_ext; intros k; rewrite Z.add_0_r, Z.mul_0_l; auto|].
    replace (Z.of_nat (S n)) with (1 + Z.of_nat n) by lia. change (0 + 1) with 1. rewrite <- zrange_shift, map_map. apply map_ext_in. intros r Hr. apply In_zrange in Hr. apply map_ext_in. intros k Hk. apply In_zrange in Hk.
    rewrite Z.add_assoc, number_at by nia. do 2 f_equal. lia.
  - rewrite rng_at_add. f_equal. lia.
Qed.
Lemma normal_eq scale R C g : 0 <= R -> 0 <= C -> normal vmul draw scale R C g = (grid R C (fun r k => vmul (scale r k) (number draw g (r * C + k))), rng_at draw g (Z.to_nat (R * C))).
Proof. intros HR HC. unfold normal. rewrite normal_rows_eq, Z2Nat.id by auto. auto. Qed.

(* ------------------------------------------------------------------ C28 *)
(** C28: sample n of channel c is the number n * channels + c of the generator, times the standard deviation of the channel *)
Theorem C28_white sqrt channels power g s : 0 <= channels -> white_init sqrt channels power g = Ok s ->
  plays (white_get vmul draw v0) channels (fun c n => vmul (one_or_each v0 (map sqrt power) c) (number draw g (n * channels + c))) s.
Proof.
  intros HC H. unfold white_init in H. apply bind_ok in H as (? & H1 & H). inversion H; subst; clear H.
  assert (Hl : zlen power = channels \/ zlen power = 1) by (unfold passert in H1; destruct (zlen power =? channels) eqn:Q1, (zlen power =? 1) eqn:Q2; try discriminate; lia). clear H1.
  apply plays_inv with (I := fun s t => 0 <= t /\ s = mkWhite channels (map sqrt power) (rng_at draw g (Z.to_nat (t * channels)))); [|split; [lia|auto]].
  intros s t n [Ht ->] Hn. unfold white_get. cbn [wn_std wn_channels wn_rng]. rewrite normal_eq by auto. rewrite rng_at_add. replace (Z.to_nat (t * channels) + Z.to_nat (n * channels))%nat with (Z.to_nat ((t + n) * channels)) by nia.
  eexists. split; [|split; [lia|reflexivity]]. do 2 f_equal.
  unfold transpose. rewrite piece_grid. unfold grid at 2. apply map_ext_in. intros c Hc. apply In_zrange in Hc. unfold grid. rewrite map_map. apply map_ext_in. intros k Hk. apply In_zrange in Hk.
  rewrite zget_zmap. replace (_ && _)%bool with true by lia. rewrite number_at by nia. f_equal; [|f_equal; lia].
  unfold per_channel, one_or_each. rewrite zlen_map. destruct (Z.eqb_spec (zlen power) 1) as [L|L].
  - destruct power as [|a [|b r]]; [discriminate L|reflexivity|exfalso; rewrite !zlen_cons in L; pose proof (zlen_nonneg r); lia].
  - destruct power as [|a [|b r]]; auto. exfalso. apply L. auto.
Qed.
Theorem C28_shape (sqrt : V -> V) channels power (g : G) : zlen power <> channels -> zlen power <> 1 -> white_init sqrt channels power g = Err AssertionError.
Proof. intros A B. unfold white_init. destruct (Z.eqb_spec (zlen power) channels), (Z.eqb_spec (zlen power) 1); try contradiction. auto. Qed.

(* ------------------------------------------------------------------ C29 *)
Fixpoint final (f : F) (x : list V) : F := match x with [] => f | v :: x => final (snd (fstep f v)) x end.
Lemma filter_row_eq f x : filter_row fstep f x = (filtered fstep f x, final f x).
Proof. revert f. induction x as [|v x IH]; intros f; cbn [filter_row filtered final]; auto. destruct (fstep f v) as [y f1]. rewrite IH. auto. Qed.
Lemma filtered_app f x y : filtered fstep f (x ++ y) = filtered fstep f x ++ filtered fstep (final f x) y.
Proof. revert f. induction x as [|v x IH]; intros f; cbn [app filtered final]; auto. rewrite IH. auto. Qed.
Lemma filter_rows_eq C n (x : Z -> Z -> V) (fs : Z -> F) : filter_rows fstep (map fs (zrange 0 C)) (grid C n x) =
  (map (fun c => filtered fstep (fs c) (map (x c) (zrange 0 n))) (zrange 0 C), map (fun c => final (fs c) (map (x c) (zrange 0 n))) (zrange 0 C)).
Proof. unfold filter_rows, grid. rewrite combine_map, !map_map. f_equal; apply map_ext; intros c; cbn [fst snd]; rewrite filter_row_eq; auto. Qed.
(** both sources draw (channels, samples) numbers and filter them *)
Lemma noise_requests {S} (get : S -> Z -> res (signal * S)) (mk : list F -> G -> S) (scale : Z -> V) C g : 0 <= C ->
  (forall fs o n, 0 <= o -> 0 <= n -> let x c k := vmul (scale c) (number draw g (o + c * n + k)) in
     get (mk (map fs (zrange 0 C)) (rng_at draw g (Z.to_nat o))) n =
     Ok (map (fun c => filtered fstep (fs c) (map (x c) (zrange 0 n))) (zrange 0 C), mk (map (fun c => final (fs c) (map (x c) (zrange 0 n))) (zrange 0 C)) (rng_at draw g (Z.to_nat (o + C * n))))) ->
  forall ns fs o, 0 <= o -> Forall (fun n => 0 <= n) ns -> exists outs s', request_all get (mk (map fs (zrange 0 C)) (rng_at draw g (Z.to_nat o))) ns = Ok (outs, s') /\
    forall c, 0 <= c < C -> channel outs c = filtered fstep (fs c) (noise_input vmul draw g (scale c) C c o ns).
Proof.
  intros HC Hget. cbv zeta beta in Hget. induction ns as [|n ns IH]; intros fs o Ho H; cbn [request_all noise_input]; [eexists _, _; split; [reflexivity|intros; reflexivity]|]. inversion H; subst.
  rewrite Hget by auto. cbn [bind fst snd]. set (fs' := fun c => final (fs c) (map (fun k => vmul (scale c) (number draw g (o + c * n + k))) (zrange 0 n))).
  destruct (IH fs' (o + C * n) ltac:(nia) H3) as (outs & s' & E & K). rewrite E. cbn [bind fst snd]. eexists _, _. split; [reflexivity|]. intros c Hc. unfold channel. cbn [flat_map].
  rewrite zget_map, zget_zrange, Z.sub_0_r. replace ((0 <=? c) && (c <? C))%bool with true by lia. cbn [option_map]. rewrite Z.add_0_l. rewrite filtered_app. f_equal. apply (K c Hc).
Qed.
Lemma zrep_map n (f : F) : zrep n f = map (fun _ => f) (zrange 0 n).
Proof. apply zget_ext. intros i. rewrite zget_zrep, zget_map, zget_zrange, Z.sub_0_r. destruct (_ && _)%bool; auto. Qed.
(** C29, what every request gives: channel c is the filtered sequence of the numbers that the generator yields for it *)
Theorem C29_bandlimited channels amp zi g ns : 0 <= channels -> Forall (fun n => 0 <= n) ns ->
  exists outs s', request_all (bandlim_get vmul draw fstep) (mkBandlim channels amp (zrep channels zi) g) ns = Ok (outs, s') /\
    forall c, 0 <= c < channels -> channel outs c = filtered fstep zi (noise_input vmul draw g amp channels c 0 ns).
Proof.
  intros HC H. destruct (@noise_requests _ (bandlim_get vmul draw fstep) (mkBandlim channels amp) (fun _ => amp) channels g HC) with (ns := ns) (fs := fun _ : Z => zi) (o := 0) as (outs & s' & E & K); auto; [|lia|].
  - intros fs o n Ho Hn. unfold bandlim_get. cbn [bl_amplitude bl_channels bl_rng bl_zi]. rewrite normal_eq by auto. rewrite filter_rows_eq.
    rewrite rng_at_add. replace (Z.to_nat o + Z.to_nat (channels * n))%nat with (Z.to_nat (o + channels * n)) by nia. do 2 f_equal; [|f_equal];
      apply map_ext_in; intros c Hc; apply In_zrange in Hc; f_equal; apply map_ext_in; intros k Hk; apply In_zrange in Hk; rewrite number_at by nia; do 2 f_equal; lia.
  - rewrite <- zrep_map in E. eauto.
Qed.
(** the same for autocorrelation-shaped noise, with a filter and a standard deviation for each channel *)
Theorem C29_autocorr channels std filt g ns : zlen std = channels -> zlen filt = channels -> Forall (fun n => 0 <= n) ns ->
  exists outs s', request_all (autocorr_get vmul draw fstep v0) (mkAutocorr channels std filt g) ns = Ok (outs, s') /\
    forall c d f, zget std c = Some d -> zget filt c = Some f -> channel outs c = filtered fstep f (noise_input vmul draw g d channels c 0 ns).
Proof.
  intros L1 L2 H. destruct filt as [|f0 fr].
  { assert (HC0 : channels = 0) by (rewrite <- L2; auto). rewrite HC0 in *. clear HC0. assert (X : exists outs s', request_all (autocorr_get vmul draw fstep v0) (mkAutocorr 0 std [] g) ns = Ok (outs, s')).
    { clear - H L1. revert g. induction H as [|n ns Hn H IH]; intros g; cbn [request_all]; [eauto|]. unfold autocorr_get at 1. cbn [ac_channels ac_std ac_filt ac_rng]. rewrite normal_eq by lia. cbn. destruct (IH (rng_at draw g (Z.to_nat 0))) as (o & s & E). change (rng_at draw g (Z.to_nat 0)) with g in E. change (Z.to_nat (0 * n)) with 0%nat. cbn [rng_at]. rewrite E. cbn. eauto. }
    destruct X as (o & s & E). exists o, s. split; auto. intros c d f _ Q. rewrite zget_nil in Q. discriminate. }
  set (filt := f0 :: fr) in *. set (fs c := match zget filt c with Some f => f | None => f0 end).
  assert (Ef : filt = map fs (zrange 0 channels)).
  { apply zget_ext. intros c. rewrite zget_map, zget_zrange, Z.sub_0_r. destruct ((0 <=? c) && (c <? channels))%bool eqn:Q; cbn [option_map]; [unfold fs; rewrite Z.add_0_l; destruct (@zget_in_range _ filt c) as (x & ->); [lia|auto]|].
    destruct (zget filt c) eqn:Z; auto. apply zget_some_range in Z. lia. }
  assert (HC : 0 <= channels) by (rewrite <- L1; apply zlen_nonneg).
  destruct (@noise_requests _ (autocorr_get vmul draw fstep v0) (mkAutocorr channels std) (fun c => match zget std c with Some v => v | None => v0 end) channels g HC) with (ns := ns) (fs := fs) (o := 0) as (outs & s' & E & K); auto; [|lia|].
  - intros fs' o n Ho Hn. unfold autocorr_get. cbn [ac_std ac_channels ac_rng ac_filt]. rewrite normal_eq by auto. rewrite filter_rows_eq.
    rewrite rng_at_add. replace (Z.to_nat o + Z.to_nat (channels * n))%nat with (Z.to_nat (o + channels * n)) by nia. do 2 f_equal; [|f_equal];
      apply map_ext_in; intros c Hc; apply In_zrange in Hc; f_equal; apply map_ext_in; intros k Hk; apply In_zrange in Hk; rewrite number_at by nia; do 2 f_equal; lia.
  - rewrite <- Ef in E. exists outs, s'. split; auto. intros c d f Hd Hf. rewrite K by (apply zget_some_range in Hd; lia). rewrite Hd. unfold fs. rewrite Hf. auto.
Qed.
(** with one channel, the numbers are used in the order in which they are drawn, so the division into requests does not matter *)
Lemma single_input scale g : forall ns o, Forall (fun n => 0 <= n) ns -> noise_input vmul draw g scale 1 0 o ns = map (fun k => vmul scale (number draw g k)) (zrange o (o + total ns)).
Proof.
  induction ns as [|n ns IH]; intros o H; cbn [noise_input]; [change (total []) with 0; rewrite zrange_empty by lia; auto|]. inversion H; subst. rewrite IH by auto. change (total (n :: ns)) with (n + total ns).
  assert (0 <= total ns) by (clear - H3; induction H3; [simpl; lia|change (0 <= x + total l); lia]). rewrite (@zrange_app o (o + n) (o + (n + total ns))) by lia. rewrite map_app. f_equal.
  - rewrite <- zrange_shift, map_map. apply map_ext. intros k. do 2 f_equal. lia.
  - f_equal. f_equal; lia.
Qed.
Theorem C29_single_partial amp zi g ns outs s' : Forall (fun n => 0 <= n) ns -> request_all (bandlim_get vmul draw fstep) (mkBandlim 1 amp (zrep 1 zi) g) ns = Ok (outs, s') ->
  channel outs 0 = filtered fstep zi (map (fun k => vmul amp (number draw g k)) (zrange 0 (total ns))).
Proof.
  intros H E. destruct (@C29_bandlimited 1 amp zi g ns ltac:(lia) H) as (o & s2 & E2 & K). rewrite E in E2. inversion E2; subst. rewrite (K 0) by lia. rewrite single_input by auto. auto.
Qed.
Theorem C29_single_autocorr_partial std filt g ns outs s' : Forall (fun n => 0 <= n) ns -> request_all (autocorr_get vmul draw fstep v0) (mkAutocorr 1 [std] [filt] g) ns = Ok (outs, s') ->
  channel outs 0 = filtered fstep filt (map (fun k => vmul std (number draw g k)) (zrange 0 (total ns))).
Proof.
  intros H E. destruct (@C29_autocorr 1 [std] [filt] g ns eq_refl eq_refl H) as (o & s2 & E2 & K). rewrite E in E2. inversion E2; subst. rewrite (K 0 std filt) by auto. rewrite single_input by auto. auto.
Qed.
(** all samples are new: no number is used twice, whatever the channels and requests are *)
Fixpoint input_positions (channels c o : Z) (ns : list Z) : list Z :=
  match ns with [] => [] | n :: ns => map (fun k => o + c * n + k) (zrange 0 n) ++ input_positions channels c (o + channels * n) ns end.
Lemma noise_input_positions scale g channels c : forall ns o, noise_input vmul draw g scale channels c o ns = map (fun p => vmul scale (number draw g p)) (input_positions channels c o ns).
Proof. induction ns as [|n ns IH]; intros o; cbn [noise_input input_positions]; auto. rewrite map_app, map_map, IH. auto. Qed.
Theorem C29_fresh channels ns c c' i j : Forall (fun n => 0 <= n) ns -> 0 <= c < channels -> 0 <= c' < channels ->
  zget (input_positions channels c 0 ns) i = zget (input_positions channels c' 0 ns) j -> zget (input_positions channels c 0 ns) i <> None -> c = c' /\ i = j.
Proof.
  assert (R : forall ns o c i p, Forall (fun n => 0 <= n) ns -> 0 <= c < channels -> zget (input_positions channels c o ns) i = Some p -> o <= p).
  { clear. induction ns as [|n ns IH]; intros o c i p H Hc; cbn [input_positions]; [rewrite zget_nil; discriminate|]. inversion H; subst. rewrite zget_app. destruct (_ <? _).
    - rewrite zget_map, zget_zrange, Z.sub_0_r. destruct ((0 <=? i) && (i <? n))%bool eqn:Q; [|discriminate]. intros E. inversion E. nia.
    - intros E. apply IH in E; auto. nia. }
  intros H Hc Hc'. enough (K : forall o i j, zget (input_positions channels c o ns) i = zget (input_positions channels c' o ns) j -> zget (input_positions channels c o ns) i <> None -> c = c' /\ i = j) by apply K.
  clear i j. induction H as [|n ns Hn H IH]; intros o i j; cbn [input_positions]; [rewrite zget_nil; congruence|].
  rewrite !zget_app, !zlen_map, !zlen_zrange, !Z.sub_0_r. replace (Z.max 0 n) with n by lia. rewrite !zget_map, !zget_zrange, !Z.sub_0_r.
  destruct (Z.ltb_spec i n) as [I1|I1], (Z.ltb_spec j n) as [J1|J1].
  - destruct ((0 <=? i) && true)%bool eqn:Q1; cbn [option_map]; [|congruence]. destruct ((0 <=? j) && true)%bool eqn:Q2; cbn [option_map]; [|congruence]. intros E _. inversion E. assert (c = c') by nia. subst. split; auto. lia.
  - destruct ((0 <=? i) && true)%bool eqn:Q1; cbn [option_map]; [|congruence]. intros E _. symmetry in E. apply R in E; auto. nia.
  - intros E N. destruct ((0 <=? j) && true)%bool eqn:Q1; cbn [option_map] in E; [|congruence]. apply R in E; auto. nia.
  - intros E N. destruct (IH _ _ _ E N). split; auto. lia.
Qed.
(** the state after the constructor: the test signal has used 10000 numbers per channel, the amplitude comes from the filtered test signal *)
Theorem C29_start one zi zero amplitude_of channels g : 0 <= channels ->
  bandlim_init vmul draw fstep one zi zero amplitude_of channels g =
  mkBandlim channels (amplitude_of (map (fun c => filtered fstep zero (map (fun k => vmul one (number draw g (c * 10000 + k))) (zrange 0 10000))) (zrange 0 channels))) (zrep channels zi) (rng_at draw g (Z.to_nat (channels * 10000))).
Proof. intros H. unfold bandlim_init. rewrite normal_eq by lia. rewrite (zrep_map channels zero), filter_rows_eq. auto. Qed.

(* ------------------------------------------------------------------ C55 *)
Lemma final_app f x y : final f (x ++ y) = final (final f x) y.
Proof. revert f. induction x as [|v x IH]; intros f; cbn [app final]; auto. Qed.
Lemma filter_rows_zget fs C n x : zlen fs = C -> let fs' := snd (filter_rows fstep fs (grid C n x)) in
  zlen fs' = C /\ forall c f, zget fs c = Some f -> zget fs' c = Some (final f (map (x c) (zrange 0 n))).
Proof.
  intros L. unfold filter_rows. cbn [snd]. assert (0 <= C) by (rewrite <- L; apply zlen_nonneg). split.
  - rewrite !zlen_map. unfold zlen. rewrite combine_length. unfold grid, zrange. rewrite !map_length, seq_length. unfold zlen in L. lia.
  - intros c f Hf. rewrite !zget_map, zget_combine, Hf. unfold grid. rewrite zget_map, zget_zrange. apply zget_some_range in Hf. replace (_ && _)%bool with true by lia. cbn [option_map fst snd]. rewrite filter_row_eq, Z.add_0_l. auto.
Qed.
(** the numbers that warm up the filter of channel c: for every channel ch, order[ch] numbers scaled with the standard deviation of ch, not of c *)
Fixpoint warm_up (std : list V) (order : list Z) (channels c : Z) (o : Z) (g : G) : list V :=
  match std, order with
  | d :: std, n :: order => map (fun k => vmul d (number draw g (o + c * n + k))) (zrange 0 n) ++ warm_up std order channels c (o + channels * n) g
  | _, _ => []
  end.
Theorem C55_warm_up_partial channels std filt order g : zlen std = channels -> zlen filt = channels -> zlen order = channels -> Forall (fun n => 0 <= n) order ->
  exists filt' g', autocorr_prepare vmul draw fstep v0 order (mkAutocorr channels std filt g) = mkAutocorr channels std filt' g' /\
    g' = rng_at draw g (Z.to_nat (channels * total order)) /\
    forall c f, zget filt c = Some f -> zget filt' c = Some (final f (warm_up std order channels c 0 g)).
Proof.
  intros L1 L2 L3 H. assert (HC : 0 <= channels) by (rewrite <- L1; apply zlen_nonneg). unfold autocorr_prepare. cbn [ac_channels].
  set (step := fun s ch => _).
  assert (K : forall order' std' i o filt, zlen filt = channels -> 0 <= i -> 0 <= o -> zlen std' = zlen order' -> i + zlen order' = channels -> Forall (fun n => 0 <= n) order' ->
     (forall k, 0 <= k -> zget std (i + k) = zget std' k) -> (forall k, 0 <= k -> zget order (i + k) = zget order' k) ->
     exists filt', fold_left step (zrange i channels) (mkAutocorr channels std filt (rng_at draw g (Z.to_nat o))) = mkAutocorr channels std filt' (rng_at draw g (Z.to_nat (o + channels * total order'))) /\
       forall c f, zget filt c = Some f -> zget filt' c = Some (final f (warm_up std' order' channels c o g))).
  { clear L2 filt. induction order' as [|n order' IH]; intros std' i o filt L2 Hi Ho Ls Hc Hn Gs Go.
    - rewrite zlen_nil in *. rewrite zrange_empty by lia. cbn [fold_left]. exists filt. change (total []) with 0. rewrite Z.mul_0_r, Z.add_0_r. split; auto. intros c f Hf. destruct std'; auto.
    - destruct std' as [|d std']; [rewrite zlen_nil, zlen_cons in Ls; pose proof (zlen_nonneg order'); lia|]. rewrite !zlen_cons in *. inversion Hn; subst. rewrite zrange_cons by (pose proof (zlen_nonneg order'); lia). cbn [fold_left].
      unfold step at 2. cbn [ac_std ac_channels ac_rng ac_filt].
      pose proof (Gs 0 ltac:(lia)) as G0. pose proof (Go 0 ltac:(lia)) as O0. rewrite Z.add_0_r in G0, O0. change (zget (d :: std') 0) with (Some d) in G0. change (zget (n :: order') 0) with (Some n) in O0. rewrite G0, O0. rewrite normal_eq by auto.
      set (x := fun r k => vmul d (number draw (rng_at draw g (Z.to_nat o)) (r * n + k))). set (CC := zlen std) in *.
      destruct (@filter_rows_zget filt CC n x L2) as [F1 F2]. destruct (filter_rows fstep filt (grid CC n x)) as [y fs'] eqn:Q. cbn [snd] in F1, F2.
      rewrite rng_at_add. replace (Z.to_nat o + Z.to_nat (CC * n))%nat with (Z.to_nat (o + CC * n)) by nia.
      destruct (IH std' (i + 1) (o + CC * n) fs') as (filt' & E & K); auto; [lia|nia|lia|lia| | |].
      + intros k Hk. replace (i + 1 + k) with (i + (1 + k)) by lia. rewrite Gs by lia. rewrite zget_cons. destruct (Z.eqb_spec (1 + k) 0); [lia|]. f_equal. lia.
      + intros k Hk. replace (i + 1 + k) with (i + (1 + k)) by lia. rewrite Go by lia. rewrite zget_cons. destruct (Z.eqb_spec (1 + k) 0); [lia|]. f_equal. lia.
      + exists filt'. rewrite E. change (total (n :: order')) with (n + total order'). split; [do 2 f_equal; lia|]. intros c f Hf. rewrite (K c _ (F2 c f Hf)). f_equal. cbn [warm_up]. rewrite final_app. f_equal. f_equal.
        unfold x. apply zget_some_range in Hf. apply map_ext_in. intros k Hk. apply In_zrange in Hk. rewrite number_at by nia. do 2 f_equal. lia. }
  destruct (K order std 0 0 filt) as (filt' & E & K'); auto; try lia. exists filt', (rng_at draw g (Z.to_nat (channels * total order))). auto.
Qed.
End Noise.

(** C29 is false for two channels or more: two requests of one sample give other noise than one request of two samples *)
Definition count_draw (g : Z) : Z * Z := (g, g + 1).
Definition pass (f : unit) (v : Z) : Z * unit := (v, f).
Theorem C29_bandlimited_refuted : exists ns ns' outs outs' s s' c, total ns = total ns' /\
  request_all (bandlim_get Z.mul count_draw pass) (mkBandlim 2 1 (zrep 2 tt) 0) ns = Ok (outs, s) /\
  request_all (bandlim_get Z.mul count_draw pass) (mkBandlim 2 1 (zrep 2 tt) 0) ns' = Ok (outs', s') /\ channel outs c <> channel outs' c.
Proof. exists [1; 1], [2]. eexists _, _, _, _, 0. split; [reflexivity|]. split; [vm_compute; reflexivity|]. split; [vm_compute; reflexivity|]. intros H. vm_compute in H. discriminate H. Qed.
Theorem C29_autocorr_refuted : exists ns ns' outs outs' s s' c, total ns = total ns' /\
  request_all (autocorr_get Z.mul count_draw pass 0) (mkAutocorr 2 [1; 1] [tt; tt] 0) ns = Ok (outs, s) /\
  request_all (autocorr_get Z.mul count_draw pass 0) (mkAutocorr 2 [1; 1] [tt; tt] 0) ns' = Ok (outs', s') /\ channel outs c <> channel outs' c.
Proof. exists [1; 1], [2]. eexists _, _, _, _, 0. split; [reflexivity|]. split; [vm_compute; reflexivity|]. split; [vm_compute; reflexivity|]. intros H. vm_compute in H. discriminate H. Qed.
(** so the claim that every channel is warmed up with noise of its own power is false *)
Theorem C55_warm_up_refuted : exists std order filt', zlen std = 2 /\ zlen order = 2 /\
  ac_filt (autocorr_prepare Z.mul count_draw (fun (f : list Z) v => (v, f ++ [v])) 0 order (mkAutocorr 2 std [[]; []] 0)) = filt' /\
  exists c f, zget filt' c = Some f /\ ~ exists d, zget std c = Some d /\ Forall (fun v => (d | v)) f.
Proof.
  exists [2; 3], [1; 1]. eexists. split; [reflexivity|]. split; [reflexivity|]. split; [vm_compute; reflexivity|]. exists 1. eexists. split; [reflexivity|].
  intros (d & Hd & K). vm_compute in Hd. inversion Hd; subst. inversion K as [|? ? [q Q] _]; subst. lia.
Qed.
Example C55_example : ac_filt (autocorr_prepare Z.mul count_draw (fun (f : list Z) v => (v, f ++ [v])) 0 [1; 2] (mkAutocorr 2 [2; 3] [[]; []] 0)) = [[0; 6; 9]; [2; 12; 15]].
Proof. vm_compute. reflexivity. Qed.
Example C28_example : exists s, white_init (fun x => x) 2 [1; 10] 0 = Ok s /\ exists s', request_all (white_get Z.mul count_draw 0) s [1; 2] = Ok ([[[0]; [10]]; [[2; 4]; [30; 50]]], s').
Proof. eexists. split; [reflexivity|]. eexists. vm_compute. reflexivity. Qed.
(** a filter that adds up its input *)
Definition summing (f v : Z) : Z * Z := (f + v, f + v).
Example C29_example : exists outs s', request_all (bandlim_get Z.mul count_draw summing) (mkBandlim 2 1 (zrep 2 0) 0) [1; 2] = Ok (outs, s') /\ outs = [[[0]; [1]]; [[2; 5]; [5; 10]]] /\
  channel outs 1 = filtered summing 0 (noise_input Z.mul count_draw 0 1 2 1 0 [1; 2]).
Proof. eexists _, _. split; [vm_compute; reflexivity|]. split; reflexivity. Qed.
Example C29_single_example : exists outs s', request_all (bandlim_get Z.mul count_draw summing) (mkBandlim 1 1 (zrep 1 0) 0) [1; 2] = Ok (outs, s') /\ channel outs 0 = [0; 1; 3].
Proof. eexists _, _. split; vm_compute; reflexivity. Qed.
Print Assumptions C28_white.
Print Assumptions C28_shape.
Print Assumptions C29_bandlimited.
Print Assumptions C29_autocorr.
Print Assumptions C29_start.
Print Assumptions C55_warm_up_partial.
Print Assumptions C55_warm_up_refuted.
Print Assumptions C29_single_partial.
Print Assumptions C29_single_autocorr_partial.
Print Assumptions C29_fresh.
Print Assumptions C29_bandlimited_refuted.
Print Assumptions C29_autocorr_refuted.
(** C60, false: two noise sources with the "amplitudes" 2 and 3 are two sources with 2 and 3 channels, and the scale of the noise is not affected *)
Theorem C60_noise_refuted : exists s out s', source_array_init (fun a => white_init (fun x => x) a [1] 0) 2 [2; 3] = Ok s /\
  source_array_get (white_get Z.mul count_draw 0) s 1 = Ok (out, s') /\ out = [[0]; [1]; [0]; [1]; [2]].
Proof. eexists _, _, _. split; [reflexivity|]. split; vm_compute; reflexivity. Qed.
Print Assumptions C60_noise_refuted.
(** concrete cases of the theorems above *)
Example C28_white_meets : exists s f, white_init (fun x => x) 2 [1; 10] 0 = Ok s /\ plays (white_get Z.mul count_draw 0) 2 f s /\ f 1 2 = 50.
Proof.
  eexists. exists (fun c n => one_or_each 0 (map (fun x => x) [1; 10]) c * number count_draw 0 (n * 2 + c)). split; [reflexivity|]. split; [|reflexivity].
  refine (@C28_white Z Z unit 0 Z.mul count_draw pass (fun x => x) 2 [1; 10] 0 _ _ _); [lia|reflexivity].
Qed.
Example C28_shape_meets : white_init (fun x : Z => x) 3 [1; 10] 0 = Err AssertionError /\ zlen [1; 10] <> 3 /\ zlen [1; 10] <> 1.
Proof. split; [reflexivity|]. unfold zlen. simpl. lia. Qed.
Example C29_bandlimited_meets : 0 <= 2 /\ Forall (fun n => 0 <= n) [1; 2].
Proof. split; [lia|repeat constructor; lia]. Qed.
Example C29_autocorr_meets : zlen [2; 3] = 2 /\ zlen [10; 20] = 2 /\ exists outs s', request_all (autocorr_get Z.mul count_draw summing 0) (mkAutocorr 2 [2; 3] [10; 20] 0) [1; 2] = Ok (outs, s') /\
  channel outs 0 = [10; 14; 20] /\ channel outs 1 = [23; 35; 50] /\ channel outs 1 = filtered summing 20 (noise_input Z.mul count_draw 0 3 2 1 0 [1; 2]).
Proof. do 2 (split; [reflexivity|]). eexists _, _. split; [vm_compute; reflexivity|]. repeat split; reflexivity. Qed.
Example C29_single_autocorr_meets : exists outs s', request_all (autocorr_get Z.mul count_draw summing 0) (mkAutocorr 1 [2] [10] 0) [1; 2] = Ok (outs, s') /\ channel outs 0 = [10; 12; 16].
Proof. eexists _, _. split; vm_compute; reflexivity. Qed.
Example C29_fresh_meets : input_positions 2 0 0 [1; 2] = [0; 2; 3] /\ input_positions 2 1 0 [1; 2] = [1; 4; 5].
Proof. split; reflexivity. Qed.
Example C55_warm_up_meets : zlen [2; 3] = 2 /\ zlen [1; 2] = 2 /\ warm_up Z.mul count_draw [2; 3] [1; 2] 2 0 0 0 = [0; 6; 9] /\ warm_up Z.mul count_draw [2; 3] [1; 2] 2 1 0 0 = [2; 12; 15].
Proof. repeat split; reflexivity. Qed.
