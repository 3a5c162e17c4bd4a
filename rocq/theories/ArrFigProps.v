(** C101: the figure of all arrays drawn by create_simulator. *)
Require Import Verif.PyBase Verif.PyLemmas Verif.SineModel Verif.TrajModel Verif.TrajProps Verif.ArrayProofs Verif.PlotProps Verif.ArrFigModel.
Require Import Lra.
Set Implicit Arguments.
Local Open Scope string_scope.
Local Open Scope list_scope.
Local Open Scope R_scope.

(* ------------------------------------------------------------------ vocabulary *)
(** the curve through the first two coordinates of the points *)
Definition curve_through (points : list (list R)) (curve : list (R * R)) : Prop :=
  Forall2 (fun p xy => exists rest, p = fst xy :: snd xy :: rest) points curve.
(** the first points of the way, up to the last one that is reached at time [t]; [reached k] is the time at which point [k] is reached *)
Definition reached_part (w : list (list R)) (reached : nat -> R) (t : R) (part : list (list R)) : Prop :=
  exists k, part = firstn k w /\ forall j, (j < length w)%nat -> ((j < k)%nat <-> reached j <= t).

Lemma flat_curve points d : (2 <= d)%nat -> (forall p, In p points -> length p = d) -> curve_through points (map flat points).
Proof.
  intros Hd. induction points as [|p l IH]; intros H; constructor.
  - specialize (H p (or_introl eq_refl)). destruct p as [|x [|y r]]; cbn in H; try lia. exists r. reflexivity.
  - apply IH. intros. apply H. right. auto.
Qed.
Lemma In_firstn {A} k : forall (l : list A) x, In x (firstn k l) -> In x l.
Proof. induction k; intros [|y l] x H; cbn in *; auto; try tauto. destruct H; auto. Qed.

Lemma part_of w c f t : length c = length w -> (forall j, (j < length w)%nat -> nth_error c j = Some (f j)) ->
  (forall i j, (i < j)%nat -> (j < length w)%nat -> f i < f j) -> (exists j, (j < length w)%nat /\ t < f j) ->
  reached_part w f t (firstn (Z.to_nat (argmax_above t c)) w).
Proof.
  intros HL HC HM (j0 & Hj0 & Ht). destruct (@first_above_spec t c 0%Z) as (j & e & E1 & E2 & E3 & E4). { exists j0, (f j0). split; auto. }
  assert (Hj : (j < length w)%nat) by (rewrite <- HL; apply nth_error_Some; congruence). rewrite HC in E2 by auto. injection E2 as <-.
  exists j. unfold argmax_above. rewrite E1. replace (Z.to_nat (0 + Z.of_nat j)) with j by lia. split; auto. intros i Hi. split.
  - intros L. apply (E4 i); auto.
  - intros L. destruct (Nat.lt_trichotomy i j) as [Q|[Q|Q]]; auto; exfalso; [subst; lra|]. specialize (HM _ _ Q Hi). lra.
Qed.

(* ------------------------------------------------------------------ linear trajectories *)
Section Linear.
Context (points w : list (list R)) (d : nat) (period samplerate : R) (l : linear).
Context (HP : 0 < period * samplerate) (HT : travelled points w) (Hw : proper w d) (Hd : (2 <= d)%nat).
Notation P := (period * samplerate).

Lemma curve_of part t : (if rle (l_period l) t then l_points l else firstn (Z.to_nat (argmax_above t (l_cumulative l))) (l_points l)) = part ->
  (forall p, In p part -> In p w) -> curve_through part (linear_plot l t).
Proof. intros <- H. unfold linear_plot. apply flat_curve with d; auto. intros p Hp. apply (proj1 (proj2 Hw)), H. auto. Qed.

Lemma speed_attributes : linear_attributes points period samplerate "constant_speed" = Ok l ->
  l_points l = w /\ l_period l = P /\ length (l_cumulative l) = length w /\ forall j, (j < length w)%nat -> nth_error (l_cumulative l) j = Some (arrival w P j).
Proof.
  unfold linear_attributes. rewrite (proj2 (close_way_spec _ _) HT). cbn [bind]. rewrite String.eqb_refl. rewrite (constant_speed_ok _ _ Hw). intros H. injection H as <-. cbn [l_points l_period l_cumulative].
  split; auto. split; auto. split. { cbn [length]. rewrite length_cumsum, map_length, distances_length. destruct Hw as (Q & _). lia. }
  intros j Hj. rewrite nth_cumsum by (rewrite map_length, distances_length; lia). f_equal. rewrite firstn_map, rsum_map_div, rsum_firstn. unfold arrival. pose proof (whole_pos Hw) as K. field. split; [lra|].
  split; intros E; rewrite E in HP; lra.
Qed.
(** C101: there are two modes *)
Theorem C101_modes mode : mode <> "constant_speed"%string -> mode <> "constant_time"%string -> linear_attributes points period samplerate mode = Err ValueError.
Proof.
  intros H1 H2. unfold linear_attributes. rewrite (proj2 (close_way_spec _ _) HT). cbn [bind]. destruct (String.eqb_spec mode "constant_speed"); [contradiction|]. destruct (String.eqb_spec mode "constant_time"); [contradiction|]. reflexivity.
Qed.
(** C101: a linear trajectory of constant speed is drawn as the whole way if the simulation lasts at least one period, otherwise as the
    points that are reached while it lasts. *)
Theorem C101_speed t : 0 <= t -> linear_attributes points period samplerate "constant_speed" = Ok l ->
  (P <= t -> curve_through w (linear_plot l t)) /\
  (t < P -> exists part, reached_part w (arrival w P) t part /\ curve_through part (linear_plot l t)).
Proof.
  intros H0 H. destruct (speed_attributes H) as (E1 & E2 & E3 & E4). split; intros Ht.
  - apply curve_of; auto. rewrite E1, E2. replace (rle P t) with true; auto. symmetry. apply rle_spec. auto.
  - exists (firstn (Z.to_nat (argmax_above t (l_cumulative l))) w). split.
    + apply part_of; auto. { intros i j Hi Hj. apply (arrival_mono HP Hw Hi Hj). }
      exists (length w - 1)%nat. pose proof (proj1 Hw). split; [lia|]. rewrite (arrival_last _ _ Hw). auto.
    + apply curve_of. { rewrite E1, E2. replace (rle P t) with false; auto. symmetry. destruct (rle P t) eqn:Q; auto. apply rle_spec in Q. lra. } intros p. apply In_firstn.
Qed.

(** the time at which point [k] is reached when all segments take the same time (C46) *)
Notation share := (P / INR (length w)).
(** C101: with segments of constant time this holds unless the simulation ends within the last share of a period. *)
Theorem C101_time_partial t : 0 <= t -> linear_attributes points period samplerate "constant_time" = Ok l ->
  (P <= t -> curve_through w (linear_plot l t)) /\
  (t < INR (length w - 1) * share -> exists part, reached_part w (fun k => INR k * share) t part /\ curve_through part (linear_plot l t)).
Proof.
  intros H0 H. assert (El : l = constant_time w period samplerate).
  { unfold linear_attributes in H. rewrite (proj2 (close_way_spec _ _) HT) in H. cbn [bind] in H. change (String.eqb "constant_time" "constant_speed") with false in H. rewrite String.eqb_refl in H. injection H as <-. auto. }
  assert (E1 : l_points l = w) by (rewrite El; auto). assert (E2 : l_period l = P) by (rewrite El; auto). pose proof (proj1 Hw) as HL. assert (HS : 0 < share) by (apply (share_pos HP HT (proj1 (proj2 Hw)))). split; intros Ht.
  - apply curve_of; auto. rewrite E1, E2. replace (rle P t) with true; auto. symmetry. apply rle_spec. auto.
  - assert (t < P). { assert (INR (length w - 1) * share <= INR (length w) * share) by (apply Rmult_le_compat_r; [lra|apply le_INR; lia]). replace P with (INR (length w) * share) by (field; apply not_0_INR; lia). lra. }
    exists (firstn (Z.to_nat (argmax_above t (l_cumulative l))) w). split.
    + apply part_of. { rewrite El. apply time_length. } { intros j Hj. rewrite El. apply time_cumulative; auto. } { intros i j Hi Hj. apply Rmult_lt_compat_r; auto. apply lt_INR; auto. }
      exists (length w - 1)%nat. split; [lia|auto].
    + apply curve_of. { rewrite E1, E2. replace (rle P t) with false; auto. symmetry. destruct (rle P t) eqn:Q; auto. apply rle_spec in Q. lra. } intros p. apply In_firstn.
Qed.
(** C101 is false in that last share: although all points but perhaps the last are reached, none is drawn *)
Theorem C101_time_refuted t : linear_attributes points period samplerate "constant_time" = Ok l -> INR (length w - 1) * share <= t < P -> linear_plot l t = [].
Proof.
  intros H Ht. assert (El : l = constant_time w period samplerate).
  { unfold linear_attributes in H. rewrite (proj2 (close_way_spec _ _) HT) in H. cbn [bind] in H. change (String.eqb "constant_time" "constant_speed") with false in H. rewrite String.eqb_refl in H. injection H as <-. auto. }
  assert (HS : 0 < share) by (apply (share_pos HP HT (proj1 (proj2 Hw)))).
  unfold linear_plot. replace (rle (l_period l) t) with false. 2:{ symmetry. rewrite El. change (l_period (constant_time w period samplerate)) with P. destruct (rle P t) eqn:Q; auto. apply rle_spec in Q. lra. }
  unfold argmax_above. rewrite first_above_none; auto. intros c Hc. apply In_nth_error in Hc as (j & Hj). assert (HL : (j < length w)%nat). { rewrite <- (@time_length w period samplerate), <- El. apply nth_error_Some. congruence. }
  rewrite El, time_cumulative in Hj by auto. injection Hj as <-. apply Rle_trans with (INR (length w - 1) * share); [|lra]. apply Rmult_le_compat_r; [lra|]. apply le_INR. lia.
Qed.
End Linear.

(* ------------------------------------------------------------------ circular trajectories *)
Lemma Int_part_spec x k : IZR k <= x < IZR k + 1 -> Int_part x = k.
Proof. intros H. pose proof (base_Int_part x) as (A & B). assert (IZR (Int_part x) < IZR (k + 1)) by (rewrite plus_IZR; lra). assert (IZR k < IZR (Int_part x + 1)) by (rewrite plus_IZR; lra). apply lt_IZR in H0, H1. lia. Qed.
(** C101: a circular trajectory is drawn at equally distant times, a whole number of samples apart, over one period of the slower of its two
    movements, at 1000 to 2000 points. *)
Theorem C101_circular_partial pos radial_period angle_period samplerate longest : longest = samplerate * Rmax radial_period angle_period -> 1000 <= longest ->
  exists step curve, (0 < step)%Z /\ circular_plot pos radial_period angle_period samplerate = Ok curve /\
    (forall k xy, curve.[k] = Some xy -> exists z, pos (IZR (k * step)) = (fst xy, snd xy, z)) /\
    IZR ((zlen curve - 1) * step) < longest <= IZR (zlen curve * step) /\ (1000 <= zlen curve <= 2000)%Z.
Proof.
  intros -> H. set (m := samplerate * Rmax radial_period angle_period) in *. unfold circular_plot. fold m. set (s := Int_part (m / 1000)). pose proof (base_Int_part (m / 1000)) as (A & B). fold s in A, B.
  assert (Hs : (0 < s)%Z). { apply lt_IZR. lra. } apply IZR_lt in Hs as HsR. replace (s =? 0)%Z with false by lia. cbv zeta. set (n := (- Int_part (- (m / IZR s)))%Z).
  pose proof (base_Int_part (- (m / IZR s))) as (C & D). assert (N : IZR n - 1 < m / IZR s <= IZR n) by (unfold n; rewrite opp_IZR; lra).
  assert (M : m / IZR s * IZR s = m) by (field; lra). assert (H1 : (1 <= s)%Z) by lia. apply IZR_le in H1.
  assert (L1 : 1000 <= m / IZR s). { apply Rmult_le_reg_r with (IZR s); auto. rewrite M. lra. }
  assert (L2 : m / IZR s < 2000). { apply Rmult_lt_reg_r with (IZR s); auto. rewrite M. lra. }
  assert (N1 : (1000 <= n)%Z) by (apply le_IZR; lra). assert (N2 : (n <= 2000)%Z). { enough (n < 2001)%Z by lia. apply lt_IZR. lra. }
  eexists s, _. split; auto. split; [reflexivity|]. unfold zlen at 1 2 3 4. rewrite !map_length. fold (zlen (zrange 0 n)). rewrite zlen_zrange. replace (Z.max 0 (n - 0)) with n by lia. split; [|split; [|lia]].
  - intros k xy Hk. rewrite zget_map, zget_zrange in Hk. destruct ((0 <=? k)%Z && (k <? n - 0)%Z) eqn:Q; [|discriminate]. cbn [option_map] in Hk. injection Hk as <-. cbn [fst snd]. rewrite Z.add_0_l, mult_IZR. destruct (pos (IZR k * IZR s)) as ((x, y), z). exists z. reflexivity.
  - rewrite !mult_IZR, minus_IZR. rewrite <- M at 1 2. split; [apply Rmult_lt_compat_r|apply Rmult_le_compat_r]; lra.
Qed.
(** C101 is false for trajectories whose movements take fewer than 1000 samples: plotting them fails *)
Theorem C101_circular_refuted pos radial_period angle_period samplerate : 0 <= samplerate * Rmax radial_period angle_period < 1000 ->
  circular_plot pos radial_period angle_period samplerate = Err ZeroDivisionError.
Proof. intros H. unfold circular_plot. cbv zeta. rewrite (@Int_part_spec _ 0); [reflexivity|]. lra. Qed.

(* ------------------------------------------------------------------ the figure *)
(** the curves that an array adds to the figure: one through its positions, or those of its trajectories *)
Inductive shown (t : R) (name : string) : placed -> list (string * list (R * R)) -> Prop :=
| shown_static pos curve : curve_through pos curve -> shown t name (Static pos) [(name, curve)]
| shown_moving l each : Forall2 (fun tr cs => trajectory_plot tr t = Ok cs) l each -> shown t name (Moving l) (map (pair name) (concat each)).
(** the room: the rectangle from the lowest to the highest coordinates *)
Definition spans (r : rectangle) (center size : list R) : Prop :=
  exists cx cy c sx sy s x y, center = cx :: cy :: c /\ size = sx :: sy :: s /\ r_corner r = [x; y] /\
    x = cx - sx / 2 /\ y = cy - sy / 2 /\ x + r_width r = cx + sx / 2 /\ y + r_height r = cy + sy / 2.
(** positions have at least two coordinates *)
Definition flat_enough (p : placed) : Prop := match p with Static pos => forall x, In x pos -> (2 <= length x)%nat | Moving _ => True end.
Lemma static_curve pos : (forall x, In x pos -> (2 <= length x)%nat) -> curve_through pos (map flat pos).
Proof. induction pos as [|p l IH]; intros H; constructor. { specialize (H p (or_introl eq_refl)). destruct p as [|x [|y r]]; cbn in H; try lia. exists r. reflexivity. } apply IH. intros. apply H. right. auto. Qed.
Lemma curve_unique pos a b : curve_through pos a -> curve_through pos b -> a = b.
Proof. intros H. revert b. induction H as [|p x l m (r & E) _ IH]; intros b K; inversion K as [|? y ? ? (r' & E') K']; subst; auto. f_equal; auto. destruct x, y. cbn in E'. congruence. Qed.
Lemma mapM_F2 {A B} (f : A -> res B) l : forall r, mapM f l = Ok r <-> Forall2 (fun x y => f x = Ok y) l r.
Proof.
  induction l as [|x l IH]; intros r; cbn [mapM].
  - split; [intros H; injection H as <-; constructor|intros H; inversion H; auto].
  - split.
    + intros H. apply bind_ok in H as (y & Hy & H). apply bind_ok in H as (ys & Hys & H). injection H as <-. constructor; auto. apply IH; auto.
    + intros H. inversion H as [|? y ? ys Hy Hys]; subst. apply IH in Hys. rewrite Hy. cbn [bind]. rewrite Hys. reflexivity.
Qed.
Lemma array_shown t name p cs : flat_enough p -> array_plot t name p = Ok cs <-> shown t name p cs.
Proof.
  intros HF. destruct p as [pos|l]; cbn [array_plot].
  - split; intros H; [injection H as <-; constructor; apply static_curve; auto|]. inversion H as [? c Hc|]; subst. do 3 f_equal. apply curve_unique with pos; auto. apply static_curve; auto.
  - split; intros H.
    + apply bind_ok in H as (each & He & H). injection H as <-. apply mapM_F2 in He. exact (shown_moving _ _ He).
    + inversion H as [|? each He]; subst. apply mapM_F2 in He. rewrite He. reflexivity.
Qed.
(** C101: the figure has, in the order in which the arrays were added, the curves of each array under its name, and the outline of the room if
    and only if there is a path computed with the image source method.  It fails only if drawing a trajectory fails. *)
Theorem C101_figure_partial arrays path_types t center size figure : (forall n p, In (n, p) arrays -> flat_enough p) -> (2 <= length center)%nat -> (2 <= length size)%nat ->
  collection_plot arrays path_types t center size = Ok figure <->
  (exists parts, Forall2 (fun np part => shown t (fst np) (snd np) part) arrays parts /\ fst figure = concat parts) /\
  (if in_dec string_dec "ism" path_types then exists r, snd figure = Some r /\ spans r center size else snd figure = None).
Proof.
  intros HF HC HS. destruct center as [|cx [|cy c]]; cbn in HC; try lia. destruct size as [|sx [|sy s]]; cbn in HS; try lia. clear HC HS.
  assert (K : forall parts, mapM (fun np => array_plot t (fst np) (snd np)) arrays = Ok parts <-> Forall2 (fun np part => shown t (fst np) (snd np) part) arrays parts).
  { intros parts. rewrite mapM_F2. revert parts HF. induction arrays as [|(n, p) l IH]; intros parts HF; [split; intros H; inversion H; constructor|].
    assert (HF' : forall n p, In (n, p) l -> flat_enough p) by (intros; apply (HF n0); right; auto).
    split; intros H; inversion H as [|? y ? ys Hy Hys]; subst; (constructor; [|apply IH; auto]); apply (@array_shown t n p y (HF n p (or_introl eq_refl))); auto. }
  unfold collection_plot. cbn [firstn combine map fst snd nth]. set (room := if smem "ism" path_types then _ else _).
  assert (R : forall o, (if in_dec string_dec "ism" path_types then exists r, o = Some r /\ spans r (cx :: cy :: c) (sx :: sy :: s) else o = None) <-> o = room).
  { intros o. unfold room. destruct (in_dec string_dec "ism" path_types) as [I|I].
    - replace (smem "ism" path_types) with true by (symmetry; apply smem_spec; auto). split.
      + intros ([corner wd ht] & -> & cx' & cy' & c' & sx' & sy' & s' & x & y & E1 & E2 & E3 & E4 & E5 & E6 & E7). cbn in E3, E6, E7. injection E1 as <- <- <-. injection E2 as <- <- <-. subst. do 2 f_equal; lra.
      + intros ->. eexists. split; [reflexivity|]. exists cx, cy, c, sx, sy, s, (cx - sx / 2), (cy - sy / 2). cbn. repeat split; lra.
    - replace (smem "ism" path_types) with false by (symmetry; destruct (smem "ism" path_types) eqn:Q; auto; apply smem_spec in Q; contradiction). tauto. }
  split.
  - intros H. apply bind_ok in H as (parts & Hp & H). injection H as <-. cbn [fst snd]. split; [exists parts; split; auto; apply K; auto|apply R; auto].
  - intros ((parts & Hp & E) & Hr). apply K in Hp. apply R in Hr. rewrite Hp. cbn [bind]. destruct figure. cbn in *. congruence.
Qed.
(** C101: a circular trajectory with short periods makes the whole figure fail (and with it create_simulator) *)
Theorem C101_figure_refuted before name pos radial_period angle_period samplerate after path_types t center size : 0 <= samplerate * Rmax radial_period angle_period < 1000 ->
  (forall n p, In (n, p) before -> exists l, p = Static l) ->
  collection_plot (before ++ (name, Moving [TCircular pos radial_period angle_period samplerate]) :: after) path_types t center size = Err ZeroDivisionError.
Proof.
  intros H HB. unfold collection_plot. assert (Q : mapM (fun np => array_plot t (fst np) (snd np)) (before ++ (name, Moving [TCircular pos radial_period angle_period samplerate]) :: after) = Err ZeroDivisionError).
  { induction before as [|(n, p) l IH]; cbn [app mapM].
    - cbn [fst snd array_plot mapM trajectory_plot]. rewrite C101_circular_refuted by auto. reflexivity.
    - destruct (HB n p (or_introl eq_refl)) as (q & ->). cbn [fst snd array_plot bind]. rewrite IH; auto. intros. apply (HB n0). right. auto. }
  rewrite Q. reflexivity.
Qed.

(* ------------------------------------------------------------------ examples *)
Lemma there_2 : edist [0; 0; 0] [3; 0; 0] = 3 /\ edist [3; 0; 0] [0; 0; 0] = 3.
Proof. unfold edist, sqdist. split; [replace (_ + _) with (3 * 3) by ring|replace (_ + _) with (3 * 3) by ring]; apply sqrt_square; lra. Qed.
Example C101_speed_example : exists l, linear_attributes there_and_back 1 6 "constant_speed" = Ok l /\ linear_plot l 4 = [(0, 0); (3, 0)] /\ linear_plot l 7 = [(0, 0); (3, 0); (0, 0)].
Proof.
  set (w := [[0; 0; 0]; [3; 0; 0]; [0; 0; 0]]). assert (HP : 0 < 1 * 6) by lra.
  assert (H : exists l, linear_attributes there_and_back 1 6 "constant_speed" = Ok l). { unfold linear_attributes. rewrite (proj2 (close_way_spec _ _) there_way). cbn [bind]. rewrite String.eqb_refl, (constant_speed_ok _ _ there_proper). eexists. reflexivity. }
  destruct H as (l & Hl). exists l. split; auto. destruct there_2 as (W1 & W2). split.
  - destruct (@C101_speed there_and_back w 3 1 6 l HP there_way there_proper ltac:(lia) 4 ltac:(lra) Hl) as (_ & K). destruct (K ltac:(lra)) as (part & (k & -> & Hk) & Hc).
    assert (A : forall j, (j < 3)%nat -> ((j < k)%nat <-> way w j <= 4)). { intros j Hj. rewrite (Hk j Hj). unfold arrival. replace (whole w) with 6 by (unfold whole, w; cbn [length Nat.sub way]; rewrite W1, W2; ring). replace (1 * 6 * way w j / 6) with (way w j) by field. tauto. }
    assert (k = 2)%nat. { pose proof (A 1%nat ltac:(lia)) as A1. pose proof (A 2%nat ltac:(lia)) as A2. unfold w in A1, A2. cbn [way] in A1, A2. rewrite W1 in A1, A2. rewrite W2 in A2. assert (1 < k)%nat by (apply A1; lra). assert (~ (2 < k)%nat) by (intros Q; apply A2 in Q; lra). lia. }
    subst k. apply curve_unique with (firstn 2 w); auto. cbn. repeat (constructor; [eexists; reflexivity|]). constructor.
  - destruct (@C101_speed there_and_back w 3 1 6 l HP there_way there_proper ltac:(lia) 7 ltac:(lra) Hl) as (K & _). specialize (K ltac:(lra)). apply curve_unique with w; auto. repeat (constructor; [eexists; reflexivity|]). constructor.
Qed.
Example C101_time_example : exists l, linear_attributes there_and_back 1 6 "constant_time" = Ok l /\ linear_plot l 5 = [] /\ linear_plot l 6 = [(0, 0); (3, 0); (0, 0)].
Proof.
  set (w := [[0; 0; 0]; [3; 0; 0]; [0; 0; 0]]). assert (HP : 0 < 1 * 6) by lra.
  assert (H : exists l, linear_attributes there_and_back 1 6 "constant_time" = Ok l). { unfold linear_attributes. rewrite (proj2 (close_way_spec _ _) there_way). cbn [bind]. eexists. reflexivity. }
  destruct H as (l & Hl). exists l. split; auto. split.
  - apply (@C101_time_refuted there_and_back w 3 1 6 l HP there_way there_proper ltac:(lia) 5 Hl). cbn [length w Nat.sub]. replace (INR 3) with 3 by (cbn; lra). change (INR 2) with 2. lra.
  - destruct (@C101_time_partial there_and_back w 3 1 6 l HP there_way there_proper ltac:(lia) 6 ltac:(lra) Hl) as (K & _). specialize (K ltac:(lra)). apply curve_unique with w; auto. repeat (constructor; [eexists; reflexivity|]). constructor.
Qed.
Example C101_circular_example pos : (exists curve, circular_plot pos 1 2 1500 = Ok curve /\ zlen curve = 1000%Z) /\ circular_plot pos 3 2 100 = Err ZeroDivisionError.
Proof.
  assert (M : 1500 * Rmax 1 2 = 3000) by (rewrite Rmax_right by lra; lra). split.
  - destruct (@C101_circular_partial pos 1 2 1500 3000 (eq_sym M) ltac:(lra)) as (step & curve & Hs & E & _). exists curve. split; auto. revert E. unfold circular_plot. rewrite M. cbv zeta. rewrite (@Int_part_spec (3000 / 1000) 3) by lra. cbn [Z.eqb]. rewrite (@Int_part_spec (- (3000 / 3)) (-1000)) by lra.
    assert (OK : forall a b : list (R * R), Ok a = Ok b -> b = a) by congruence. intros E. apply OK in E. rewrite E, zlen_map, zlen_zrange. lia.
  - apply C101_circular_refuted. rewrite Rmax_left by lra. lra.
Qed.
Example C101_figure_example pos : collection_plot [("mic", Static [[1; 2; 3]; [4; 5; 6]]); ("src", Moving [TBase])] ["ism"; "none"] 10 [0; 0; 0] [4; 6; 3] = Ok ([("mic", [(1, 2); (4, 5)])], Some (mkRect [0 - 4 / 2; 0 - 6 / 2] 4 6)) /\
  collection_plot [("mic", Static [[1; 2; 3]]); ("src", Moving [TCircular pos 3 2 100])] ["ism"] 10 [0; 0; 0] [4; 6; 3] = Err ZeroDivisionError.
Proof.
  split; [reflexivity|]. apply (@C101_figure_refuted [("mic", Static [[1; 2; 3]])] "src" pos 3 2 100 []); [rewrite Rmax_left by lra; lra|]. intros n p [E|[]]. injection E as <- <-. eexists. reflexivity.
Qed.
Print Assumptions C101_modes.
Print Assumptions C101_speed.
Print Assumptions C101_time_partial.
Print Assumptions C101_time_refuted.
Print Assumptions C101_circular_partial.
Print Assumptions C101_circular_refuted.
Print Assumptions C101_figure_partial.
Print Assumptions C101_figure_refuted.
