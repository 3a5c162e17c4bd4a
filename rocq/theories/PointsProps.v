(** Properties of point layouts: C51, C52, C67, C68, C69, C70. *)
Require Import Lra Psatz Permutation.
Require Import Verif.PyBase Verif.PyLemmas Verif.SineModel Verif.SineProps Verif.TrajModel Verif.TrajProps Verif.RegionModel Verif.RegionProps Verif.PointsModel.
Set Implicit Arguments.
Local Open Scope list_scope.
Local Open Scope R_scope.

(* ------------------------------------------------------------------ lemmas *)
Lemma rlt_iff x y : rlt x y = true <-> x < y.
Proof. unfold rlt. destruct (Rlt_dec x y); split; intros; auto; try discriminate; lra. Qed.
Lemma rlt_not x y : rlt x y = false <-> y <= x.
Proof. unfold rlt. destruct (Rlt_dec x y); split; intros; auto; try discriminate; lra. Qed.
Lemma rle_not x y : rle x y = false <-> y < x.
Proof. unfold rle. destruct (Rle_dec x y); split; intros; auto; try discriminate; lra. Qed.
Lemma vzip_map {A} (h : R -> R -> R) (f g : A -> R) l : vzip h (map f l) (map g l) = map (fun x => h (f x) (g x)) l.
Proof. induction l as [|x l IH]; auto. change (h (f x) (g x) :: vzip h (map f l) (map g l) = h (f x) (g x) :: map (fun x => h (f x) (g x)) l). rewrite IH. auto. Qed.
Lemma combine_map {A B C} (f : A -> B) (g : A -> C) l : combine (map f l) (map g l) = map (fun x => (f x, g x)) l.
Proof. induction l as [|x l IH]; cbn; auto. rewrite IH. auto. Qed.
Lemma combine_self {A C} (g : A -> C) l : combine l (map g l) = map (fun x => (x, g x)) l.
Proof. induction l as [|x l IH]; cbn; auto. rewrite IH. auto. Qed.

(* ------------------------------------------------------------------ C51 *)
(** the direction of a point in the plane: [a] is its angle, [r] its distance *)
Definition polar (x y r a : R) : Prop := 0 <= r /\ - PI < a <= PI /\ x = r * cos a /\ y = r * sin a.

Lemma root_scale x y : x <> 0 -> sqrt (x ^ 2 + y ^ 2) = Rabs x * sqrt (1 + (y / x)²).
Proof.
  intros H. rewrite <- sqrt_Rsqr_abs, <- sqrt_mult_alt by apply Rle_0_sqr. f_equal. unfold Rsqr. field. auto.
Qed.
Lemma root_pos t : 0 < sqrt (1 + t²).
Proof. apply sqrt_lt_R0. pose proof (Rle_0_sqr t). lra. Qed.
Lemma arctan2_polar x y : polar x y (sqrt (x ^ 2 + y ^ 2)) (arctan2 y x).
Proof.
  pose proof PI_RGT_0 as HP. split; [apply sqrt_pos|]. unfold arctan2.
  destruct (rlt 0 x) eqn:Q0.
  { apply rlt_iff in Q0. pose proof (atan_bound (y / x)). split; [lra|]. rewrite root_scale, cos_atan, sin_atan by lra. rewrite Rabs_pos_eq by lra. pose proof (root_pos (y / x)) as P0. set (s := sqrt _) in *. split; field; lra. }
  apply rlt_not in Q0. destruct (rlt x 0) eqn:Q1.
  { apply rlt_iff in Q1. pose proof (atan_bound (y / x)). rewrite root_scale by lra. rewrite Rabs_left by lra. pose proof (root_pos (y / x)) as P0.
    pose proof (cos_atan (y / x)) as Ec. pose proof (sin_atan (y / x)) as Es. set (s := sqrt _) in *. destruct (rle 0 y) eqn:Q2.
    - apply rle_spec in Q2. assert (y / x <= 0). { unfold Rdiv. pose proof (Rinv_lt_0_compat _ Q1). nra. }
      assert (atan (y / x) <= 0). { destruct (Req_dec (y / x) 0) as [E|E]; [rewrite E, atan_0; lra|]. left. rewrite <- atan_0. apply atan_increasing. lra. }
      split; [lra|]. rewrite neg_cos, neg_sin, Ec, Es. split; field; lra.
    - apply rle_not in Q2. assert (0 < y / x). { unfold Rdiv. pose proof (Rinv_lt_0_compat _ Q1). nra. }
      assert (0 < atan (y / x)). { rewrite <- atan_0. apply atan_increasing. auto. }
      split; [lra|]. replace (atan (y / x) - PI) with (- (PI - atan (y / x))) by ring. rewrite cos_neg, sin_neg, Rtrigo_facts.cos_pi_minus, Rtrigo_facts.sin_pi_minus, Ec, Es. split; field; lra. }
  apply rlt_not in Q1. assert (x = 0) by lra. subst x. replace (0 ^ 2 + y ^ 2) with (y * y) by ring.
  destruct (rlt 0 y) eqn:Q2. { apply rlt_iff in Q2. rewrite sqrt_square, cos_PI2, sin_PI2 by lra. split; [lra|]. split; ring. }
  apply rlt_not in Q2. destruct (rlt y 0) eqn:Q3. { apply rlt_iff in Q3. replace (y * y) with (- y * - y) by ring. rewrite sqrt_square, cos_neg, sin_neg, cos_PI2, sin_PI2 by lra. split; [lra|]. split; ring. }
  apply rlt_not in Q3. assert (y = 0) by lra. subst y. rewrite Rmult_0_l, sqrt_0. split; [lra|]. split; ring.
Qed.
Lemma polar_unique x y r a s b : polar x y r a -> polar x y s b -> 0 < r -> r = s /\ a = b.
Proof.
  intros (Hr & Ha & Ex & Ey) (Hs & Hb & Fx & Fy) Hp. pose proof PI_RGT_0 as HP.
  assert (E2 : forall c t, (t * cos c) * (t * cos c) + (t * sin c) * (t * sin c) = t * t). { intros c t. pose proof (sin2_cos2 c) as K. unfold Rsqr in K. replace (t * cos c * (t * cos c) + t * sin c * (t * sin c)) with (t * t * (sin c * sin c + cos c * cos c)) by ring. rewrite K. ring. }
  assert (Ers : r = s). { pose proof (E2 a r) as A1. pose proof (E2 b s) as A2. rewrite <- Ex, <- Ey in A1. rewrite <- Fx, <- Fy in A2. assert (r * r = s * s) by lra. apply Rsqr_inj; auto. }
  split; auto. subst s.
  assert (Ec : cos a = cos b). { apply (Rmult_eq_reg_l r); lra. } assert (Es : sin a = sin b). { apply (Rmult_eq_reg_l r); lra. }
  assert (C : cos (a - b) = 1). { rewrite cos_minus, Ec, Es. pose proof (sin2_cos2 b) as K. unfold Rsqr in K. lra. }
  assert (S : sin ((a - b) / 2) = 0). { replace (a - b) with (2 * ((a - b) / 2)) in C by field. rewrite cos_2a_sin in C. apply Rsqr_0_uniq. unfold Rsqr. lra. }
  destruct (Rlt_le_dec 0 ((a - b) / 2)) as [H|H].
  - pose proof (sin_gt_0 ((a - b) / 2) H ltac:(lra)). lra.
  - destruct (Rlt_le_dec ((a - b) / 2) 0) as [K|K]; [|lra]. pose proof (sin_gt_0 (- ((a - b) / 2)) ltac:(lra) ltac:(lra)) as W. rewrite sin_neg in W. lra.
Qed.
(** C51: the polar coordinates of every point are its distance and direction, and converting back gives the point *)
Theorem C51_polar (points : list (R * R)) : let (r, angle) := cart2pol (map fst points) (map snd points) in
  pol2carts r angle = (map fst points, map snd points) /\
  forall i x y, nth_error points i = Some (x, y) -> exists ri ai, nth_error r i = Some ri /\ nth_error angle i = Some ai /\ polar x y ri ai.
Proof.
  unfold cart2pol. rewrite !vzip_map. unfold pol2carts. rewrite !vzip_map. split.
  - f_equal; apply map_ext; intros [x y]; destruct (arctan2_polar x y) as (_ & _ & A & B); cbn [fst snd]; auto.
  - intros i x y H. exists (sqrt (x ^ 2 + y ^ 2)), (arctan2 y x). split; [|split]; [| |apply arctan2_polar]; rewrite nth_error_map, H; auto.
Qed.
(** C51: converting polar coordinates with positive distance and an angle between minus pi and pi to a point and back gives the same coordinates *)
Theorem C51_polar_back (coords : list (R * R)) : (forall r a, In (r, a) coords -> 0 < r /\ - PI < a <= PI) ->
  let (x, y) := pol2carts (map fst coords) (map snd coords) in cart2pol x y = (map fst coords, map snd coords).
Proof.
  intros H. unfold pol2carts. rewrite !vzip_map. unfold cart2pol. rewrite !vzip_map.
  assert (K : forall q, In q coords -> sqrt ((fst q * cos (snd q)) ^ 2 + (fst q * sin (snd q)) ^ 2) = fst q /\ arctan2 (fst q * sin (snd q)) (fst q * cos (snd q)) = snd q).
  { intros [r a] Hq. destruct (H _ _ Hq) as [Hr Ha]. cbn [fst snd]. destruct (@polar_unique (r * cos a) (r * sin a) r a _ _ ltac:(split; [lra|split; [lra|auto]]) (arctan2_polar _ _) Hr) as [E1 E2]. auto. }
  f_equal; apply map_ext_in; intros q Hq; apply K; auto.
Qed.
(** a point in space in spherical coordinates: distance, angle in the plane, angle from the third axis *)
Definition spherical (x y z r t p : R) : Prop := 0 <= r /\ - PI < t <= PI /\ 0 <= p <= PI /\ x = r * cos t * sin p /\ y = r * sin t * sin p /\ z = r * cos p.
Lemma arctan2_upper y x : 0 <= y -> 0 <= arctan2 y x <= PI.
Proof.
  intros Hy. destruct (arctan2_polar x y) as (Hr & Ha & Ex & Ey). split; [|lra]. set (a := arctan2 y x) in *. set (r := sqrt _) in *.
  destruct (Rlt_le_dec a 0) as [N|N]; auto. pose proof (sin_gt_0 (- a) ltac:(lra) ltac:(lra)) as W. rewrite sin_neg in W.
  assert (r = 0). { destruct (Rle_lt_or_eq_dec _ _ Hr) as [P|P]; auto. exfalso. assert (0 < r * - sin a) by (apply Rmult_lt_0_compat; auto). lra. }
  assert (x = 0) by (rewrite Ex, H; ring). assert (y = 0) by (rewrite Ey, H; ring). unfold a, arctan2 in N. rewrite H0, H1 in N. unfold rlt in N. destruct (Rlt_dec 0 0); lra.
Qed.
Lemma spherical_of x y z : spherical x y z (norm [x; y; z]) (arctan2 y x) (arctan2 (norm [x; y]) z).
Proof.
  destruct (arctan2_polar x y) as (H1 & H2 & H3 & H4). destruct (arctan2_polar z (norm [x; y])) as (K1 & K2 & K3 & K4).
  assert (E1 : norm [x; y] = sqrt (x ^ 2 + y ^ 2)). { unfold norm, rsum. cbn [map fold_right]. f_equal. ring. }
  assert (E2 : norm [x; y; z] = sqrt (z ^ 2 + norm [x; y] ^ 2)). { rewrite E1, pow2_sqrt by (pose proof (pow2_ge_0 x); pose proof (pow2_ge_0 y); lra). unfold norm, rsum. cbn [map fold_right]. f_equal. ring. }
  rewrite <- E1 in H1, H3, H4. rewrite <- E2 in K1, K3, K4. set (s := norm [x; y]) in *. set (r := norm [x; y; z]) in *. set (t := arctan2 y x) in *. set (p := arctan2 s z) in *.
  split; [auto|]. split; [auto|]. split; [apply arctan2_upper; auto|]. split; [|split; auto].
  - rewrite H3 at 1. rewrite K4. ring. - rewrite H4 at 1. rewrite K4. ring.
Qed.
Definition row3 (p : R * R * R) : list R := [fst (fst p); snd (fst p); snd p].
Lemma cart2spherical_eq points : cart2spherical (map row3 points) =
  (map (fun q => norm (row3 q)) points, map (fun q => [arctan2 (snd (fst q)) (fst (fst q)); arctan2 (norm [fst (fst q); snd (fst q)]) (snd q)]) points).
Proof.
  unfold cart2spherical. rewrite !map_map. f_equal. rewrite combine_map, !map_map, combine_map, map_map. apply map_ext. intros [[x y] z]. auto.
Qed.
(** C51: the spherical coordinates of every point are its distance and angles, and converting back gives the point *)
Theorem C51_spherical (points : list (R * R * R)) : let (r, angle) := cart2spherical (map row3 points) in
  spherical2cart r angle = map row3 points /\
  forall i x y z, nth_error points i = Some (x, y, z) -> exists ri ti pi, nth_error r i = Some ri /\ nth_error angle i = Some [ti; pi] /\ spherical x y z ri ti pi.
Proof.
  rewrite cart2spherical_eq. split.
  - unfold spherical2cart. rewrite combine_map, map_map. apply map_ext. intros [[x y] z]. unfold row3. cbn [fst snd]. destruct (spherical_of x y z) as (_ & _ & _ & A & B & C). unfold at_. cbn [nth]. rewrite <- A, <- B, <- C. auto.
  - intros i x y z H. do 3 eexists. rewrite !nth_error_map, H. split; [reflexivity|]. split; [reflexivity|]. cbn [fst snd]. apply spherical_of.
Qed.
(** C51: converting spherical coordinates to a point and back gives the same coordinates, for positive distances and points off the third axis *)
Theorem C51_spherical_back (coords : list (R * R * R)) : (forall r t p, In (r, t, p) coords -> 0 < r /\ - PI < t <= PI /\ 0 < p < PI) ->
  cart2spherical (spherical2cart (map (fun q => fst (fst q)) coords) (map (fun q => [snd (fst q); snd q]) coords)) =
  (map (fun q => fst (fst q)) coords, map (fun q => [snd (fst q); snd q]) coords).
Proof.
  intros H. unfold spherical2cart. rewrite combine_map, map_map.
  rewrite (map_ext _ (fun q => row3 (fst (fst q) * cos (snd (fst q)) * sin (snd q), fst (fst q) * sin (snd (fst q)) * sin (snd q), fst (fst q) * cos (snd q)))) by (intros [[r t] p]; reflexivity).
  rewrite <- (map_map (fun q => (fst (fst q) * cos (snd (fst q)) * sin (snd q), fst (fst q) * sin (snd (fst q)) * sin (snd q), fst (fst q) * cos (snd q))) row3). rewrite cart2spherical_eq, !map_map.
  assert (K : forall r t p, 0 < r -> - PI < t <= PI -> 0 < p < PI ->
    norm [r * cos t * sin p; r * sin t * sin p; r * cos p] = r /\ arctan2 (r * sin t * sin p) (r * cos t * sin p) = t /\ arctan2 (norm [r * cos t * sin p; r * sin t * sin p]) (r * cos p) = p).
  { intros r t p Hr Ht Hp. pose proof (sin_gt_0 p ltac:(lra) ltac:(lra)) as Sp. assert (Hrs : 0 < r * sin p) by (apply Rmult_lt_0_compat; auto).
    assert (QQ : polar (r * cos t * sin p) (r * sin t * sin p) (r * sin p) t) by (split; [lra|split; [lra|split; ring]]).
    destruct (polar_unique QQ (arctan2_polar _ _) Hrs) as [A1 A2].
    assert (E1 : norm [r * cos t * sin p; r * sin t * sin p] = r * sin p). { rewrite A1. unfold norm, rsum. cbn [map fold_right]. f_equal. ring. }
    assert (Q2 : polar (r * cos p) (r * sin p) r p) by (split; [lra|split; [lra|split; ring]]).
    destruct (polar_unique Q2 (arctan2_polar _ _) Hr) as [B1 B2].
    split; [|split; [auto|rewrite E1; auto]]. rewrite B1 at 4. unfold norm, rsum. cbn [map fold_right]. f_equal. pose proof (sin2_cos2 t) as K. unfold Rsqr in K. replace ((r * cos t * sin p) ^ 2 + ((r * sin t * sin p) ^ 2 + ((r * cos p) ^ 2 + 0))) with ((r * sin p) ^ 2 * (sin t * sin t + cos t * cos t) + (r * cos p) ^ 2) by ring. rewrite K. ring. }
  f_equal; apply map_ext_in; intros [[r t] p] Hq; destruct (H _ _ _ Hq) as (H1 & H2 & H3); destruct (K r t p H1 H2 H3) as (A & B & C); cbn [fst snd row3]; auto.
  rewrite B, C. auto.
Qed.

(* ------------------------------------------------------------------ C52: rectangles *)
(** a point lies on the rectangle with sides [a] and [b] around the origin *)
Definition on_rectangle (a b x y : R) : Prop := (Rabs x = a / 2 /\ Rabs y <= b / 2) \/ (Rabs y = b / 2 /\ Rabs x <= a / 2).
(** the place reached by walking the distance [s] around the rectangle, clockwise from the corner at the upper left *)
Definition walk (a b s : R) : list R :=
  if Rlt_dec s a then [- a / 2 + s; b / 2]
  else if Rlt_dec s (a + b) then [a / 2; b / 2 - (s - a)]
  else if Rlt_dec s (a + b + a) then [a / 2 - (s - a - b); - b / 2]
  else [- a / 2; - b / 2 + (s - a - b - a)].
(** the distance walked to point [k] of [n] *)
Definition stop (a b offset : R) (n k : nat) : R := (INR k + offset) * (2 * (a + b) / INR n).

Lemma select_map {A B} (f : A -> B) (g : A -> bool) l : select (map f l) (map g l) = map f (filter g l).
Proof.
  unfold select. rewrite combine_map. induction l as [|x l IH]; auto. cbn. destruct (g x); cbn; rewrite IH; auto.
Qed.
Definition between (f : nat -> R) (a b : R) (k : nat) : bool := rle a (f k) && rlt (f k) b.
Lemma between_spec f a b k : between f a b k = true <-> a <= f k < b.
Proof. unfold between. rewrite andb_true_iff, rle_spec, rlt_iff. tauto. Qed.
Lemma between_not f a b k : between f a b k = false <-> f k < a \/ b <= f k.
Proof. unfold between. rewrite andb_false_iff, rle_not, rlt_not. tauto. Qed.
Lemma filter_split (f : nat -> R) a b c n : (forall i j, (i <= j)%nat -> f i <= f j) -> a <= b <= c -> forall s,
  filter (between f a b) (seq s n) ++ filter (between f b c) (seq s n) = filter (between f a c) (seq s n).
Proof.
  intros Hf Hb. induction n as [|n IH]; intros s; auto. destruct (Rlt_le_dec (f s) b) as [K|K].
  - cbn [seq filter]. assert (E1 : between f b c s = false) by (apply between_not; lra). rewrite E1.
    destruct (between f a b s) eqn:E2. + apply between_spec in E2. assert (E3 : between f a c s = true) by (apply between_spec; lra). rewrite E3. cbn [app]. rewrite IH. auto.
    + apply between_not in E2. assert (E3 : between f a c s = false) by (apply between_not; lra). rewrite E3. auto.
  - assert (E : forall k, In k (seq s (S n)) -> b <= f k) by (intros k Hk; apply in_seq in Hk; specialize (Hf s k ltac:(lia)); lra).
    assert (E1 : filter (between f a b) (seq s (S n)) = []). { clear IH. induction (seq s (S n)) as [|k l IH]; auto. cbn. assert (N : between f a b k = false) by (apply between_not; right; apply E; left; auto). rewrite N. apply IH. intros m Hm. apply E. right. auto. }
    rewrite E1. cbn [app]. apply filter_ext_in. intros k Hk. specialize (E k Hk). destruct (between f b c k) eqn:Q. + apply between_spec in Q. symmetry. apply between_spec. lra. + apply between_not in Q. symmetry. apply between_not. lra.
Qed.
Lemma stop_mono a b offset n i j : 0 < a -> 0 < b -> (i <= j)%nat -> stop a b offset n i <= stop a b offset n j.
Proof.
  intros Ha Hb H. unfold stop. destruct (Nat.eq_dec n 0) as [->|N]. { assert (E : INR 0 = 0) by auto. rewrite E. unfold Rdiv. rewrite Rinv_0. lra. }
  apply Rmult_le_compat_r. { apply Rmult_le_pos; [lra|]. left. apply Rinv_0_lt_compat. apply lt_0_INR. lia. } apply le_INR in H. lra.
Qed.
Lemma stop_range a b offset n k : 0 < a -> 0 < b -> 0 <= offset -> (k < n)%nat -> 0 <= stop a b offset n k /\ (INR k + offset < INR n -> stop a b offset n k < 2 * (a + b)) /\ (INR n <= INR k + offset -> 2 * (a + b) <= stop a b offset n k).
Proof.
  intros Ha Hb Ho H. assert (Hn : 0 < INR n) by (apply lt_0_INR; lia). assert (Hd : 0 < 2 * (a + b) / INR n) by (apply Rmult_lt_0_compat; [lra|apply Rinv_0_lt_compat; auto]). pose proof (pos_INR k). unfold stop. set (d := 2 * (a + b) / INR n) in *. assert (E : 2 * (a + b) = INR n * d) by (unfold d; field; lra). rewrite E.
  split; [apply Rmult_le_pos; lra|]. split; intros K; [apply Rmult_lt_compat_r|apply Rmult_le_compat_r]; lra.
Qed.
Section Rectangle.
Context (n : nat) (a b : R) (Ha : 0 < a) (Hb : 0 < b).
Context (offset : R).
Notation f := (stop a b offset n).
Definition side_from (i : nat) : R := nth i [0; a; a + b; a + b + a; a + b + a + b] 0.
Definition side_idx (i : nat) : list nat := filter (between f (side_from i) (side_from (S i))) (seq 0 n).

Lemma side_split : side_idx 0 ++ side_idx 1 ++ side_idx 2 ++ side_idx 3 = filter (between f 0 (2 * (a + b))) (seq 0 n).
Proof.
  unfold side_idx, side_from. cbn [nth]. assert (M : forall i j, (i <= j)%nat -> f i <= f j) by (intros; apply stop_mono; auto).
  rewrite (@filter_split f (a + b) (a + b + a) (a + b + a + b) n M ltac:(lra) 0). rewrite (@filter_split f a (a + b) (a + b + a + b) n M ltac:(lra) 0). rewrite (@filter_split f 0 a (a + b + a + b) n M ltac:(lra) 0).
  replace (a + b + a + b) with (2 * (a + b)) by ring. auto.
Qed.
Lemma side_all : 0 <= offset < 1 -> filter (between f 0 (2 * (a + b))) (seq 0 n) = seq 0 n.
Proof.
  intros Ho. rewrite (filter_ext_in _ (fun _ => true)). { generalize (seq 0 n). induction l as [|x l IH]; auto. cbn. rewrite IH. auto. }
  intros k Hk. apply in_seq in Hk. apply between_spec. destruct (@stop_range a b offset n k Ha Hb ltac:(lra) ltac:(lia)) as (A & B & _). split; auto. apply B. assert (INR k + 1 <= INR n) by (rewrite <- S_INR; apply le_INR; lia). lra.
Qed.
Lemma side_In i k : In k (side_idx i) -> side_from i <= f k < side_from (S i).
Proof. intros H. apply filter_In in H as [_ H]. apply between_spec in H. auto. Qed.

Definition odd_add (k : nat) (add : R) : R := if Nat.odd k then add else 0.
Definition row_s (ex ey : R) (i : nat) (s : R) (k : nat) : list R :=
  match i with
  | O => [- a / 2 + s; b / 2 + odd_add k (ey / 2)]
  | S O => [a / 2 + odd_add k (ex / 2); b / 2 - (s - a)]
  | S (S O) => [a / 2 - (s - a - b); - b / 2 - odd_add k (ey / 2)]
  | _ => [- a / 2 - odd_add k (ex / 2); - b / 2 + (s - a - b - a)]
  end.
Lemma combine_maps {A B C D} (p : A -> B) (q : C -> D) l m : combine (map p l) (map q m) = map (fun xy => (p (fst xy), q (snd xy))) (combine l m).
Proof. revert m. induction l as [|x l IH]; intros [|y m]; cbn; auto. rewrite IH. auto. Qed.
Lemma map_map2 {A B C D F} (h : B * C -> D) (p : A -> B) (q : F -> C) (r : A * F -> D) l m : (forall x y, h (p x, q y) = r (x, y)) -> map h (combine (map p l) (map q m)) = map r (combine l m).
Proof. intros H. rewrite combine_maps, map_map. apply map_ext. intros [x y]. apply H. Qed.

Lemma rectangle_eq ex ey z : 0 <= offset <= 1 -> equidistant_rectangle n a b ex ey offset z = Ok (map (with_z z)
  (map (fun k => row_s ex ey 0 (f k) k) (side_idx 0) ++ map (fun k => row_s ex ey 1 (f k) k) (side_idx 1) ++
   map (fun xy => row_s ex ey 2 (f (fst xy)) (snd xy)) (combine (rev (side_idx 2)) (side_idx 2)) ++ map (fun k => row_s ex ey 3 (f k) k) (side_idx 3))).
Proof.
  intros Ho. unfold equidistant_rectangle. assert (E0 : rlt 0 a && rlt 0 b = true) by (apply andb_true_iff; split; apply rlt_iff; auto). rewrite E0. assert (E1 : rle 0 offset && rle offset 1 = true) by (apply andb_true_iff; split; apply rle_spec; lra). rewrite E1. cbn [passert bind].
  f_equal. f_equal. rewrite map_map.
  assert (F : map (fun k => INR k * (2 * (a + b) / INR n) + offset * (2 * (a + b) / INR n)) (seq 0 n) = map f (seq 0 n)) by (apply map_ext; intros k; unfold stop; ring). rewrite F. rewrite !map_map.
  assert (B : forall i, (i < 4)%nat -> map (fun x => rle (at_ (cumsum 0 [0; a; b; a; b]) i) (f x) && rlt (f x) (at_ (cumsum 0 [0; a; b; a; b]) (S i))) (seq 0 n) = map (between f (side_from i) (side_from (S i))) (seq 0 n)).
  { intros i Hi. apply map_ext. intros k. unfold between, at_, side_from, cumsum. rewrite !Rplus_0_l. auto. }
  rewrite !B by lia. clear B. rewrite !select_map. fold (side_idx 0) (side_idx 1) (side_idx 2) (side_idx 3). rewrite <- !map_rev.
  assert (P0 : at_ (cumsum 0 [0; a; b; a; b]) 0 = 0) by (unfold at_, cumsum; cbn [nth]; ring).
  assert (P1 : at_ (cumsum 0 [0; a; b; a; b]) 1 = a) by (unfold at_, cumsum; cbn [nth]; ring).
  assert (P2 : at_ (cumsum 0 [0; a; b; a; b]) 2 = a + b) by (unfold at_, cumsum; cbn [nth]; ring).
  assert (P3 : at_ (cumsum 0 [0; a; b; a; b]) 3 = a + b + a) by (unfold at_, cumsum; cbn [nth]; ring).
  rewrite P0, P1, P2, P3. rewrite !map_map.
  assert (O : forall k u v, (if Nat.odd k then u + v else u) = u + odd_add k v) by (intros k u v; unfold odd_add; destruct (Nat.odd k); ring).
  f_equal; [|f_equal; [|f_equal]].
  - rewrite combine_map, map_map. apply map_ext. intros k. cbn [fst snd row_s]. rewrite O. unfold at_. cbn [nth]. repeat (apply cons_eq; [field|]). reflexivity.
  - rewrite combine_map, map_map. apply map_ext. intros k. cbn [fst snd row_s]. rewrite O. unfold at_. cbn [nth]. repeat (apply cons_eq; [field|]). reflexivity.
  - apply map_map2. intros x y. cbn [fst snd row_s]. rewrite O. unfold at_, odd_add. cbn [nth]. destruct (Nat.odd y); repeat (apply cons_eq; [field|]); reflexivity.
  - rewrite combine_map, map_map. apply map_ext. intros k. cbn [fst snd row_s]. rewrite O. unfold at_, odd_add. cbn [nth]. destruct (Nat.odd k); repeat (apply cons_eq; [field|]); reflexivity.
Qed.
Lemma walk_side i k : (i < 4)%nat -> In k (side_idx i) -> walk a b (f k) = row_s 0 0 i (f k) k.
Proof.
  intros Hi H. apply side_In in H. unfold side_from in H. unfold walk, row_s, odd_add. replace (0 / 2) with 0 by field.
  assert (Z : (if Nat.odd k then 0 else 0) = 0) by (destruct (Nat.odd k); auto). rewrite Z.
  destruct i as [|[|[|[|i]]]]; [| | | |lia]; cbn [nth] in H; repeat (destruct (Rlt_dec _ _); try lra); repeat (apply cons_eq; [ring|]); reflexivity.
Qed.
(** the first side of the combination of a list with its reverse *)
Lemma map_combine_rev (g : nat -> list R) (h : nat * nat -> list R) l m : length l = length m -> (forall x y, In x l -> h (x, y) = g x) -> map h (combine l m) = map g l.
Proof. revert m. induction l as [|x l IH]; intros [|y m] HL HH; cbn in *; auto; try discriminate. f_equal; auto. Qed.
End Rectangle.

(** C52: with an offset of at least 0 and less than 1 the layout exists and has exactly the requested number of points: those reached by walking around the rectangle in equal steps, in this order except that those on the lower side are in reverse order *)
Theorem C52_rectangle n a b offset z : 0 < a -> 0 < b -> 0 <= offset < 1 ->
  exists l upper right_ lower left_, equidistant_rectangle n a b 0 0 offset z = Ok (map (with_z z) l) /\ length l = n /\
    map (fun k => walk a b (stop a b offset n k)) (seq 0 n) = upper ++ right_ ++ lower ++ left_ /\
    l = upper ++ right_ ++ rev lower ++ left_ /\
    (forall p, In p upper -> exists x, p = [x; b / 2]) /\ (forall p, In p right_ -> exists y, p = [a / 2; y]) /\
    (forall p, In p lower -> exists x, p = [x; - b / 2]) /\ (forall p, In p left_ -> exists y, p = [- a / 2; y]).
Proof.
  intros Ha Hb Ho. pose proof (@rectangle_eq n a b Ha Hb offset 0 0 z ltac:(lra)) as E. set (w := fun k => walk a b (stop a b offset n k)).
  set (I := fun i => side_idx n a b offset i).
  assert (W : forall i, (i < 4)%nat -> map (fun k => row_s a b 0 0 i (stop a b offset n k) k) (I i) = map w (I i)). { intros i Hi. apply map_ext_in. intros k Hk. symmetry. apply walk_side; auto. }
  assert (W2 : map (fun xy => row_s a b 0 0 2 (stop a b offset n (fst xy)) (snd xy)) (combine (rev (I 2%nat)) (I 2%nat)) = rev (map w (I 2%nat))).
  { rewrite <- map_rev. apply map_combine_rev; [apply rev_length|]. intros x y Hx. apply in_rev in Hx. cbn [fst snd]. unfold w. rewrite (@walk_side n a b Ha Hb offset 2 x ltac:(lia) Hx). unfold row_s, odd_add. destruct (Nat.odd x), (Nat.odd y); repeat (apply cons_eq; [field|]); reflexivity. }
  fold (I 0%nat) (I 1%nat) (I 2%nat) (I 3%nat) in E. rewrite W2 in E. rewrite !W in E by lia.
  assert (S : map w (seq 0 n) = map w (I 0%nat) ++ map w (I 1%nat) ++ map w (I 2%nat) ++ map w (I 3%nat)). { rewrite <- !map_app. f_equal. symmetry. unfold I. rewrite side_split by auto. apply side_all; auto. }
  eexists _, (map w (I 0%nat)), (map w (I 1%nat)), (map w (I 2%nat)), (map w (I 3%nat)). split; [exact E|]. split.
  { assert (L : length (map w (seq 0 n)) = n) by (rewrite map_length, seq_length; auto). rewrite S in L. rewrite !app_length in *. rewrite rev_length. auto. }
  split; [exact S|]. split; [auto|].
  assert (X : forall i p, (i < 4)%nat -> In p (map w (I i)) -> exists k, p = row_s a b 0 0 i (stop a b offset n k) k). { intros i p Hi Hp. apply in_map_iff in Hp as (k & <- & Hk). exists k. apply walk_side; auto. }
  assert (Z : forall k, odd_add k (0 / 2) = 0) by (intros k; unfold odd_add; destruct (Nat.odd k); lra).
  repeat split; intros p Hp; apply X in Hp as (k & ->); try lia; unfold row_s; rewrite Z, ?Rplus_0_r, ?Rminus_0_r; eauto.
Qed.
Lemma Forall2_seq_row {A} (l : list A) (P : nat -> A -> Prop) n : Forall2 P (seq 0 n) l <-> length l = n /\ forall i x, nth_error l i = Some x -> P i x.
Proof.
  enough (G : forall s, Forall2 P (seq s n) l <-> length l = n /\ forall i x, nth_error l i = Some x -> P (s + i)%nat x) by apply (G 0%nat).
  revert l. induction n as [|n IH]; intros l s; cbn [seq].
  - split. + intros H. inversion H. split; auto. intros [|i] x K; discriminate. + intros [H _]. destruct l; [constructor|discriminate].
  - split.
    + intros H. inversion H; subst. match goal with H : Forall2 P (seq _ _) _ |- _ => apply IH in H as [HL HH] end. split; [cbn; auto|]. intros [|i] x K. * cbn in K. injection K as <-. rewrite Nat.add_0_r. auto. * specialize (HH i x K). rewrite Nat.add_succ_r. auto.
    + intros [HL HH]. destruct l as [|y l]; [discriminate|]. constructor. * specialize (HH 0%nat y eq_refl). rewrite Nat.add_0_r in HH. auto.
      * apply IH. split; [cbn in HL; lia|]. intros i x K. specialize (HH (S i) x K). rewrite Nat.add_succ_r in HH. auto.
Qed.
Lemma Forall2_map_same {A B} (P : A -> B -> Prop) (g : A -> B) l : (forall x, In x l -> P x (g x)) -> Forall2 P l (map g l).
Proof. induction l as [|x l IH]; cbn; intros H; constructor; auto. Qed.
Lemma Forall2_combine_rev {A B} (P : A -> B -> Prop) (h : A * A -> B) (l m : list A) : length m = length l -> (forall x y, In x m -> In y l -> P y (h (x, y))) -> Forall2 P l (map h (combine m l)).
Proof. revert m. induction l as [|y l IH]; intros [|x m] HL HH; cbn in *; try discriminate; constructor; auto. Qed.
(** C67: with extra side lengths the layout has the requested number of points; rows with even index lie on the rectangle, rows with odd index on the one enlarged by the extra lengths *)
Theorem C67_rows n a b ex ey offset z : 0 < a -> 0 < b -> 0 <= ex -> 0 <= ey -> 0 <= offset < 1 ->
  exists l, equidistant_rectangle n a b ex ey offset z = Ok l /\ length l = n /\
    forall i p, nth_error l i = Some p -> exists x y, p = (match z with None => [x; y] | Some h => [x; y; h] end) /\
      if Nat.even i then on_rectangle a b x y else on_rectangle (a + ex) (b + ey) x y.
Proof.
  intros Ha Hb Hex Hey Ho. pose proof (@rectangle_eq n a b Ha Hb offset ex ey z ltac:(lra)) as E. set (I := fun i => side_idx n a b offset i). fold (I 0%nat) (I 1%nat) (I 2%nat) (I 3%nat) in E.
  set (P := fun (i : nat) (p : list R) => exists x y, p = [x; y] /\ if Nat.even i then on_rectangle a b x y else on_rectangle (a + ex) (b + ey) x y).
  assert (K : forall i s k, (i < 4)%nat -> side_from a b i <= s < side_from a b (S i) -> P k (row_s a b ex ey i s k)).
  { intros i s k Hi Hs. unfold P, row_s, odd_add. rewrite <- (Nat.negb_odd k). unfold side_from in Hs. destruct i as [|[|[|[|i]]]]; [| | | |lia]; cbn [nth] in Hs; (do 2 eexists; split; [reflexivity|]; destruct (Nat.odd k); cbn [negb]; unfold on_rectangle).
    1,2: right; split; [rewrite Rabs_pos_eq by lra; lra|apply Rabs_le; lra].
    1,2: left; split; [rewrite Rabs_pos_eq by lra; lra|apply Rabs_le; lra].
    1,2: right; split; [rewrite Rabs_left by lra; lra|apply Rabs_le; lra].
    1,2: left; split; [rewrite Rabs_left by lra; lra|apply Rabs_le; lra]. }
  assert (M : Forall2 P (seq 0 n) (map (fun k => row_s a b ex ey 0 (stop a b offset n k) k) (I 0%nat) ++ map (fun k => row_s a b ex ey 1 (stop a b offset n k) k) (I 1%nat) ++
   map (fun xy => row_s a b ex ey 2 (stop a b offset n (fst xy)) (snd xy)) (combine (rev (I 2%nat)) (I 2%nat)) ++ map (fun k => row_s a b ex ey 3 (stop a b offset n k) k) (I 3%nat))).
  { rewrite <- (@side_all n a b Ha Hb offset Ho) at 1. rewrite <- (side_split n Ha Hb offset). fold (I 0%nat) (I 1%nat) (I 2%nat) (I 3%nat).
    apply Forall2_app; [|apply Forall2_app; [|apply Forall2_app]].
    - apply Forall2_map_same. intros k Hk. apply K; [lia|]. apply (@side_In n a b offset _ _ Hk).
    - apply Forall2_map_same. intros k Hk. apply K; [lia|]. apply (@side_In n a b offset _ _ Hk).
    - apply Forall2_combine_rev; [apply rev_length|]. intros x y Hx Hy. apply K; [lia|]. apply in_rev in Hx. apply (@side_In n a b offset _ _ Hx).
    - apply Forall2_map_same. intros k Hk. apply K; [lia|]. apply (@side_In n a b offset _ _ Hk). }
  eexists. split; [exact E|]. apply Forall2_seq_row in M as [ML MR]. rewrite map_length. split; [exact ML|].
  intros i p Hp. rewrite nth_error_map in Hp. destruct (nth_error _ i) as [q|] eqn:Q; [|discriminate]. injection Hp as <-. destruct (MR _ _ Q) as (x & y & -> & HP). exists x, y. split; auto.
Qed.

(** C52: the points lie on the rectangle *)
Theorem C52_on_rectangle n a b offset z : 0 < a -> 0 < b -> 0 <= offset < 1 ->
  exists l, equidistant_rectangle n a b 0 0 offset z = Ok l /\ length l = n /\
    forall p, In p l -> exists x y, p = (match z with None => [x; y] | Some h => [x; y; h] end) /\ on_rectangle a b x y.
Proof.
  intros Ha Hb Ho. destruct (@C67_rows n a b 0 0 offset z Ha Hb ltac:(lra) ltac:(lra) Ho) as (l & E & L & H). exists l. split; [auto|]. split; [auto|].
  intros p Hp. apply In_nth_error in Hp as [i Hi]. destruct (H _ _ Hi) as (x & y & -> & K). exists x, y. split; auto. rewrite !Rplus_0_r in K. destruct (Nat.even i); auto.
Qed.
(** C52 (number of points) is false for the offset 1: the last point is missing *)
Theorem C52_offset_one_refuted n a b z : 0 < a -> 0 < b -> (0 < n)%nat -> exists l, equidistant_rectangle n a b 0 0 1 z = Ok l /\ length l = (n - 1)%nat.
Proof.
  intros Ha Hb Hn. rewrite (@rectangle_eq n a b Ha Hb 1 0 0 z ltac:(lra)). eexists. split; [reflexivity|].
  rewrite map_length, !app_length, !map_length, combine_length, rev_length, Nat.min_id, <- !app_length. rewrite side_split by auto.
  destruct n as [|n]; [lia|]. rewrite seq_S, filter_app, app_length. rewrite (filter_ext_in _ (fun _ => true)).
  - cbn [filter Nat.add]. assert (E : between (stop a b 1 (S n)) 0 (2 * (a + b)) n = false). { apply between_not. right. destruct (@stop_range a b 1 (S n) n Ha Hb ltac:(lra) ltac:(lia)) as (_ & _ & K). apply K. rewrite S_INR. lra. }
    rewrite E. cbn [length]. assert (T : forall m : list nat, filter (fun _ => true) m = m) by (induction m as [|x m IH]; cbn; auto; rewrite IH; auto). rewrite T, seq_length. lia.
  - intros k Hk. apply in_seq in Hk. apply between_spec. destruct (@stop_range a b 1 (S n) k Ha Hb ltac:(lra) ltac:(lia)) as (A & B & _). split; auto. apply B. rewrite S_INR. assert (INR k < INR n) by (apply lt_INR; lia). lra.
Qed.
(** C52: sides that are not positive and offsets outside 0 to 1 are rejected *)
Theorem C52_rectangle_rejects n a b ex ey offset z : a <= 0 \/ b <= 0 \/ offset < 0 \/ 1 < offset -> equidistant_rectangle n a b ex ey offset z = Err AssertionError.
Proof.
  intros H. unfold equidistant_rectangle. destruct (rlt 0 a && rlt 0 b) eqn:Q; cbn [passert bind]; auto. apply andb_true_iff in Q as [Q1 Q2]. apply rlt_iff in Q1, Q2.
  destruct (rle 0 offset && rle offset 1) eqn:Q3; cbn [passert bind]; auto. apply andb_true_iff in Q3 as [Q3 Q4]. apply rle_spec in Q3, Q4. lra.
Qed.
(** the place reached by walking around the rectangle, moved outwards by half of the extra length if [out] *)
Definition place (a b ex ey : R) (out : bool) (s : R) : list R :=
  let ox := if out then ex / 2 else 0 in let oy := if out then ey / 2 else 0 in
  if Rlt_dec s a then [- a / 2 + s; b / 2 + oy]
  else if Rlt_dec s (a + b) then [a / 2 + ox; b / 2 - (s - a)]
  else if Rlt_dec s (a + b + a) then [a / 2 - (s - a - b); - b / 2 - oy]
  else [- a / 2 - ox; - b / 2 + (s - a - b - a)].
Ltac side_compute := unfold side_idx, side_from, between, stop; cbn [nth seq filter]; replace (INR 0) with 0 by reflexivity; replace (INR 8) with 8 by (cbn; lra); replace (INR 7) with 7 by (cbn; lra); replace (INR 6) with 6 by (cbn; lra); replace (INR 5) with 5 by (cbn; lra); replace (INR 4) with 4 by (cbn; lra); replace (INR 3) with 3 by (cbn; lra); replace (INR 2) with 2 by (cbn; lra); replace (INR 1) with 1 by reflexivity; unfold rle, rlt; repeat (destruct (Rle_dec _ _); try lra; destruct (Rlt_dec _ _); try lra; cbn [andb]); reflexivity.
Lemma eight_0 : side_idx 8 2 2 (1 / 2) 0 = [0; 1]%nat. Proof. side_compute. Qed.
Lemma eight_1 : side_idx 8 2 2 (1 / 2) 1 = [2; 3]%nat. Proof. side_compute. Qed.
Lemma eight_2 : side_idx 8 2 2 (1 / 2) 2 = [4; 5]%nat. Proof. side_compute. Qed.
Lemma eight_3 : side_idx 8 2 2 (1 / 2) 3 = [6; 7]%nat. Proof. side_compute. Qed.
Lemma stop_eight k : stop 2 2 (1 / 2) 8 k = INR k + 1 / 2.
Proof. unfold stop. replace (INR 8) with 8 by (cbn; lra). field. Qed.
(** C67 (alternation) is false: of 8 points around a square of side 2 the neighbours 3 and 4 are both moved outwards, the neighbours 5 and 6 both not *)
Theorem C67_alternate_refuted : exists l, equidistant_rectangle 8 2 2 2 2 (1 / 2) None = Ok l /\
  In (place 2 2 2 2 true (stop 2 2 (1 / 2) 8 3)) l /\ In (place 2 2 2 2 true (stop 2 2 (1 / 2) 8 4)) l /\
  In (place 2 2 2 2 false (stop 2 2 (1 / 2) 8 5)) l /\ In (place 2 2 2 2 false (stop 2 2 (1 / 2) 8 6)) l /\
  ~ In (place 2 2 2 2 false (stop 2 2 (1 / 2) 8 4)) l /\ ~ In (place 2 2 2 2 true (stop 2 2 (1 / 2) 8 5)) l.
Proof.
  eexists. split; [apply rectangle_eq; lra|]. rewrite eight_0, eight_1, eight_2, eight_3. cbn [map app combine rev fst snd with_z]. unfold row_s, odd_add. cbn [Nat.odd Nat.even negb]. rewrite !stop_eight.
  replace (INR 0) with 0 by reflexivity. replace (INR 7) with 7 by (cbn; lra). replace (INR 6) with 6 by (cbn; lra). replace (INR 5) with 5 by (cbn; lra). replace (INR 4) with 4 by (cbn; lra). replace (INR 3) with 3 by (cbn; lra). replace (INR 2) with 2 by (cbn; lra). replace (INR 1) with 1 by reflexivity.
  unfold place. repeat (destruct (Rlt_dec _ _); try lra).
  assert (eq2 : forall x y u v : R, x = u -> y = v -> [x; y] = [u; v]) by congruence.
  split; [do 3 right; left; apply eq2; lra|]. split; [do 5 right; left; apply eq2; lra|]. split; [do 4 right; left; apply eq2; lra|]. split; [do 6 right; left; apply eq2; lra|].
  split; intros K; repeat (destruct K as [K|K]; [injection K; intros; lra|]); destruct K.
Qed.

(* ------------------------------------------------------------------ C52: circles and layers *)
Definition with_height (h : option R) (x y : R) : list R := match h with None => [x; y] | Some z => [x; y; z] end.
(** [l] are [n] points around the circle in equal angles from the angle [start] on, point [k] at the distance [rho k] from the centre *)
Definition around (n : nat) (rho : nat -> R) (start : R) (h : option R) (l : list (list R)) : Prop :=
  length l = n /\ forall k, (k < n)%nat -> nth_error l k = Some (with_height h (rho k * cos (start + INR k * (2 * PI / INR n))) (rho k * sin (start + INR k * (2 * PI / INR n)))).
Definition radius_ok (radius : radius_arg) (r : R) : Prop := match radius with Radius r0 => r = r0 | Radii r0 r1 => r0 <= r <= r1 end.
Definition radius_valid (radius : radius_arg) : Prop := match radius with Radius _ => True | Radii r0 r1 => r0 <= r1 end.
Section Circle.
Context {G : Type} (next : G -> R * G) (Hunit : forall g, 0 <= fst (next g) < 1).
(** C52: a circle has exactly the requested number of points, at least one, equally spaced in angle from the start angle on, on the circle or between the two circles *)
Theorem C52_circle n radius start h g : (0 < n)%nat -> radius_valid radius ->
  exists l rho, equiangular_circle next n radius start h g = Ok l /\ around n rho start h l /\ forall k, radius_ok radius (rho k).
Proof.
  intros Hn Hr. unfold equiangular_circle. destruct (match radius with Radius r => (r, r) | Radii r0 r1 => (r0, r1) end) as [r0 r1] eqn:Er.
  assert (Z : (n =? 0)%nat = false) by (apply Nat.eqb_neq; lia). rewrite Z. rewrite (uniform_eq next). rewrite map_map. unfold pol2carts. rewrite !vzip_map, combine_map, map_map.
  eexists _, (fun k => r0 + (r1 - r0) * number next g k). split; [reflexivity|]. split.
  - split; [rewrite map_length, seq_length; auto|]. intros k Hk. rewrite nth_error_map. rewrite (nth_error_nth' _ 0%nat) by (rewrite seq_length; auto). rewrite seq_nth by auto. cbn [option_map Nat.add fst snd]. destruct (rmod_eq (start + INR k * (2 * PI / INR n)) (2 * PI)) as [m Hm]. rewrite Hm, cos_shift, sin_shift. destruct h; auto.
  - intros k. pose proof (Hunit (moved next g k)) as Hu. fold (number next g k) in Hu. destruct radius; injection Er as <- <-; cbn in *. + ring. + set (u := number next g k) in *. assert (0 <= (r3 - r2) * u) by (apply Rmult_le_pos; lra). assert ((r3 - r2) * u <= (r3 - r2) * 1) by (apply Rmult_le_compat_l; lra). lra.
Qed.
(** C52: a circle without points cannot be made *)
Theorem C52_circle_empty_refuted radius start h g : equiangular_circle next 0 radius start h g = Err ZeroDivisionError.
Proof. unfold equiangular_circle. destruct radius; auto. Qed.
End Circle.
(** the points of such a list are at distance [rho k] from the axis *)
Lemma around_on_circle n rho start h l k p : around n rho start h l -> nth_error l k = Some p -> exists x y, p = with_height h x y /\ x * x + y * y = rho k * rho k.
Proof.
  intros [HL HH] Hp. assert (Hk : (k < n)%nat) by (rewrite <- HL; apply nth_error_Some; congruence). rewrite HH in Hp by auto. injection Hp as <-. do 2 eexists. split; [reflexivity|]. set (t := start + _). pose proof (sin2_cos2 t) as K. unfold Rsqr in K. replace (rho k * cos t * (rho k * cos t) + rho k * sin t * (rho k * sin t)) with (rho k * rho k * (sin t * sin t + cos t * cos t)) by ring. rewrite K. ring.
Qed.

(** the numbers of points in the layers: all layers get the same, except that the first ones get one more *)
Definition evenly (num n : nat) (sizes : list nat) : Prop :=
  length sizes = n /\ list_sum sizes = num /\ exists q first, sizes = repeat (S q) first ++ repeat q (n - first) /\ (first < n)%nat.
(** the height of layer [i] of [n]: distance [d] apart, symmetric around 0 *)
Definition level (n : nat) (d : R) (i : nat) : R := (INR i - (INR n - 1) / 2) * d.

Lemma list_sum_repeat x k : list_sum (repeat x k) = (k * x)%nat.
Proof. induction k as [|k IH]; cbn; auto. Qed.
Lemma map_threshold (x y : nat) m n : (m <= n)%nat -> map (fun i => if (i <? m)%nat then x else y) (seq 0 n) = repeat x m ++ repeat y (n - m).
Proof.
  intros H. replace n with (m + (n - m))%nat at 1 by lia. rewrite seq_app, map_app. f_equal.
  - transitivity (map (fun _ => x) (seq 0 m)). + apply map_ext_in. intros i Hi. apply in_seq in Hi. assert (E : (i <? m)%nat = true) by (apply Nat.ltb_lt; lia). rewrite E. auto.
    + clear. generalize 0%nat. induction m as [|m IH]; intros s; cbn; auto. rewrite IH. auto.
  - transitivity (map (fun _ => y) (seq (0 + m) (n - m))). + apply map_ext_in. intros i Hi. apply in_seq in Hi. assert (E : (i <? m)%nat = false) by (apply Nat.ltb_ge; lia). rewrite E. auto.
    + clear. generalize (n - m)%nat. generalize (0 + m)%nat. intros s k. revert s. induction k as [|k IH]; intros s; cbn; auto. rewrite IH. auto.
Qed.
Lemma points_per_layer_eq num n : (0 < n)%nat -> exists size, points_per_layer num n = Ok (map size (seq 0 n)) /\ evenly num n (map size (seq 0 n)) /\ (forall i, (num / n <= size i <= num / n + 1)%nat) /\ (n <= num -> forall i, 0 < size i)%nat.
Proof.
  intros Hn. unfold points_per_layer. assert (Z : (n =? 0)%nat = false) by (apply Nat.eqb_neq; lia). rewrite Z. pose proof (Nat.div_mod num n ltac:(lia)) as D. pose proof (Nat.mod_upper_bound num n ltac:(lia)) as M.
  set (q := (num / n)%nat) in *. set (m := (num - n * q)%nat). assert (Hm : (m < n)%nat) by lia. exists (fun i => if (i <? m)%nat then (q + 1)%nat else q). split; [auto|]. split; [split; [rewrite map_length, seq_length; auto|split]|split].
  - rewrite map_threshold by lia. rewrite list_sum_app, !list_sum_repeat. unfold m in *. nia.
  - exists q, m. split; auto. rewrite map_threshold by lia. rewrite Nat.add_1_r. auto.
  - intros i. destruct (i <? m)%nat; lia.
  - intros H i. assert (0 < q)%nat by (apply Nat.div_str_pos; lia). destruct (i <? m)%nat; lia.
Qed.
Lemma layer_heights_eq n d : layer_heights n d = map (level n d) (seq 0 n).
Proof.
  unfold layer_heights, zrange. replace (Z.to_nat (- (Z.of_nat n / 2) + Z.of_nat n - - (Z.of_nat n / 2))) with n by lia.
  pose proof (Nat.div_mod n 2 ltac:(lia)) as D. assert (E : (Z.of_nat n / 2)%Z = Z.of_nat (n / 2)) by (rewrite Nat2Z.inj_div; auto). rewrite E. set (a := (n / 2)%nat) in *. pose proof (Nat.mod_upper_bound n 2 ltac:(lia)) as M.
  assert (S : forall k, IZR (- Z.of_nat a + Z.of_nat k) = INR k - INR a) by (intros k; rewrite plus_IZR, opp_IZR, <- !INR_IZR_INZ; ring).
  assert (N : INR n = 2 * INR a + INR (n mod 2)) by (rewrite D at 1; rewrite plus_INR, mult_INR; cbn [INR]; ring).
  destruct (n mod 2 =? 0)%nat eqn:Q; rewrite !map_map; apply map_ext; intros k; rewrite S; unfold level; rewrite N.
  - apply Nat.eqb_eq in Q. rewrite Q. cbn [INR]. field.
  - apply Nat.eqb_neq in Q. replace (n mod 2)%nat with 1%nat by lia. cbn [INR]. field.
Qed.
Lemma mapM_Forall2 {A B} (f : A -> res B) (P : A -> B -> Prop) l : (forall x, In x l -> exists y, f x = Ok y /\ P x y) -> exists ys, mapM f l = Ok ys /\ Forall2 P l ys.
Proof.
  induction l as [|x l IH]; intros H; [exists []; split; [auto|constructor]|]. destruct (H x (or_introl eq_refl)) as (y & E & Py). destruct IH as (ys & Eys & F); [intros; apply H; right; auto|]. exists (y :: ys). cbn [mapM]. rewrite E. cbn [bind]. rewrite Eys. split; auto. 
Qed.
Lemma Forall2_map_l {A B C} (P : B -> C -> Prop) (g : A -> B) l ys : Forall2 P (map g l) ys -> Forall2 (fun x y => P (g x) y) l ys.
Proof. revert ys. induction l as [|x l IH]; intros [|y ys] H; inversion H; subst; constructor; auto. Qed.
Lemma length_concat_sizes (ls : list (list (list R))) sizes : map (@length _) ls = sizes -> length (concat ls) = list_sum sizes.
Proof. intros <-. induction ls as [|x ls IH]; auto. cbn [concat map]. rewrite app_length, IH. auto. Qed.
Lemma sizes_of {A} (ls : list (list A)) (size : nat -> nat) n : Forall2 (fun i l => length l = size i) (seq 0 n) ls -> map (@length _) ls = map size (seq 0 n).
Proof. generalize (seq 0 n). intros s H. induction H; cbn; auto. rewrite H, IHForall2. auto. Qed.

(** C52: stacked rectangles return exactly the requested number of points, evenly distributed over the layers, which are rectangles at equally spaced heights around 0 *)
Theorem C52_stacked num n a b d : (0 < n)%nat -> 0 < a -> 0 < b ->
  exists layers, stacked_equidistant_rectangles num n a b d = Ok (concat layers) /\ length (concat layers) = num /\ evenly num n (map (@length _) layers) /\
    forall i layer, nth_error layers i = Some layer ->
      equidistant_rectangle (length layer) a b 0 0 ((2 * INR i + 1) / (2 * INR n)) (Some (level n d i)) = Ok layer /\
      forall p, In p layer -> exists x y, p = [x; y; level n d i] /\ on_rectangle a b x y.
Proof.
  intros Hn Ha Hb. unfold stacked_equidistant_rectangles. destruct (points_per_layer_eq num Hn) as (size & Es & Ev & _). rewrite Es. cbn [bind]. rewrite layer_heights_eq.
  set (off := fun i => (2 * INR i + 1) / (2 * INR n)). assert (Hn' : 0 < INR n) by (apply lt_0_INR; auto).
  assert (Eo : odd_entries (linspace 0 1 (2 * n + 1)) = map off (seq 0 n)).
  { unfold linspace. assert (O : forall (f : nat -> R) m s, odd_entries (map f (seq s (2 * m + 1))) = map (fun i => f (s + 2 * i + 1)%nat) (seq 0 m)).
    { intros f m. induction m as [|m IH]; intros s; auto. replace (2 * S m + 1)%nat with (S (S (2 * m + 1))) by lia. cbn [seq map odd_entries]. rewrite IH. rewrite <- seq_shift, map_map. f_equal; [f_equal; lia|]. apply map_ext. intros i. f_equal. lia. }
    rewrite O. apply map_ext. intros i. assert (Z : (2 * n + 1 =? 1)%nat = false) by (apply Nat.eqb_neq; lia). rewrite Z. replace (2 * n + 1 - 1)%nat with (2 * n)%nat by lia. unfold off. rewrite mult_INR, !plus_INR, mult_INR. cbn [INR]. field. lra. }
  rewrite Eo, !combine_map. set (f := fun c : nat * (R * R) => _).
  destruct (@mapM_Forall2 _ _ f (fun c l => equidistant_rectangle (fst c) a b 0 0 (fst (snd c)) (Some (snd (snd c))) = Ok l /\ length l = fst c /\ forall p, In p l -> exists x y, p = [x; y; snd (snd c)] /\ on_rectangle a b x y) (map (fun x => (size x, (off x, level n d x))) (seq 0 n))) as (ls & El & F).
  { intros c Hc. apply in_map_iff in Hc as (i & <- & Hi). apply in_seq in Hi. cbn [fst snd]. assert (Ho : 0 <= off i < 1).
    { unfold off. pose proof (pos_INR i). assert (INR i + 1 <= INR n) by (rewrite <- S_INR; apply le_INR; lia). split. - apply Rmult_le_pos; [lra|]. left. apply Rinv_0_lt_compat. lra. - apply (Rmult_lt_reg_r (2 * INR n)); [lra|]. unfold Rdiv. rewrite Rmult_assoc, Rinv_l by lra. lra. }
    destruct (@C52_rectangle (size i) a b (off i) (Some (level n d i)) Ha Hb Ho) as (l & _ & _ & _ & _ & E1 & L1 & _).
    destruct (@C52_on_rectangle (size i) a b (off i) (Some (level n d i)) Ha Hb Ho) as (l' & E2 & _ & OR). rewrite E1 in E2. injection E2 as E2.
    exists l'. split; [|split; [congruence|split; [rewrite <- E2, map_length; auto|exact OR]]].
    unfold f. rewrite (@rectangle_eq (size i) a b Ha Hb (off i) 0 0 None ltac:(lra)). rewrite (@rectangle_eq (size i) a b Ha Hb (off i) 0 0 (Some (level n d i)) ltac:(lra)) in E1. cbn [bind]. f_equal. injection E1 as E1. rewrite <- E2, <- E1. rewrite map_map. apply map_ext. intros p. reflexivity. }
  rewrite El. cbn [bind]. exists ls. split; [auto|]. apply Forall2_map_l in F. cbn [fst snd] in F.
  assert (Sz : map (@length _) ls = map size (seq 0 n)). { apply sizes_of. clear - F. revert F. generalize (seq 0 n). intros s F. induction F as [|i l s m (_ & A & _) F IH]; constructor; auto. }
  split; [|split]. - rewrite (length_concat_sizes _ Sz). apply Ev. - rewrite Sz. exact Ev.
  - apply Forall2_seq_row in F as [_ F]. intros i layer Hi. destruct (F _ _ Hi) as (A & B & C). split; auto. rewrite B. exact A.
Qed.

(** where the circles start, for each of the four settings; [draw i] is the random number of circle [i], between 0 and 1 *)
Definition start_ok (draw : nat -> R) (angle_offset : string) (n first : nat) (start : nat -> R) : Prop :=
  (angle_offset = "random"%string -> forall i, 0 <= draw i < 1 /\ start i = 2 * PI * draw i) /\
  (angle_offset = "same"%string -> forall i, start i = 0) /\
  (angle_offset = "almostSame"%string -> forall i, 0 <= draw i < 1 /\ start i = draw i * (2 * PI / INR first) / 10) /\
  (angle_offset = "distribute"%string -> forall i, start i = INR i / INR n * (2 * PI / INR first)).
Definition angle_settings : list string := ["random"; "same"; "almostSame"; "distribute"]%string.
Section Concentric.
Context {G : Type} (next : G -> R * G) (Hunit : forall g, 0 <= fst (next g) < 1).
Lemma start_angles_ok s n first g : (0 < first)%nat -> In s angle_settings -> exists start, start_angles next s n first g = Ok (map start (seq 0 n)) /\ start_ok (number next g) s n first start.
Proof.
  intros Hf Hs. assert (Hf' : 0 < INR first) by (apply lt_0_INR; auto). pose proof PI_RGT_0 as HP. assert (Z : (first =? 0)%nat = false) by (apply Nat.eqb_neq; lia).
  assert (U : forall i, 0 <= number next g i < 1) by (intros; apply Hunit).
  unfold start_angles. destruct Hs as [<-|[<-|[<-|[<-|[]]]]]; cbn [String.eqb Ascii.eqb Bool.eqb]; rewrite ?Z.
  - rewrite (uniform_eq next). cbn [fst]. rewrite map_map. eexists. split; [reflexivity|]. split; [|split; [discriminate|split; discriminate]]. intros _ i. cbn beta. split; [apply U|]. ring.
  - eexists. split; [reflexivity|]. split; [discriminate|split; [auto|split; discriminate]].
  - rewrite (uniform_eq next). cbn [fst]. rewrite map_map. eexists. split; [reflexivity|]. split; [discriminate|split; [discriminate|split; [|discriminate]]]. intros _ i. cbn beta. split; [apply U|]. unfold Rdiv. ring.
  - eexists. split; [reflexivity|]. split; [discriminate|split; [discriminate|split; [discriminate|]]]. intros _ i. cbn beta. unfold Rdiv. ring.
Qed.
(** C52: concentric circles with at least one point per circle return exactly the requested number of points, evenly distributed over the circles; every circle has equally spaced points, the heights are equally spaced around 0 *)
Theorem C52_concentric num n radius d s g fresh : (0 < n <= num)%nat -> radius_valid radius -> In s angle_settings ->
  exists layers start, concentrical_circles next num n radius d s g fresh = Ok (concat layers) /\ length (concat layers) = num /\ evenly num n (map (@length _) layers) /\
    start_ok (number next g) s n (length (nth 0 layers [])) start /\
    forall i layer, nth_error layers i = Some layer -> exists rho,
      around (length layer) rho (start i) (option_map (fun d => level n d i) d) layer /\ forall k, radius_ok radius (rho k).
Proof.
  intros [Hn Hnum] Hr Hs. unfold concentrical_circles. destruct (points_per_layer_eq num Hn) as (size & Es & Ev & _ & Pos). rewrite Es. cbn [bind]. specialize (Pos Hnum).
  assert (F0 : nth 0 (map size (seq 0 n)) 0%nat = size 0%nat) by (destruct n; [lia|reflexivity]). rewrite F0. destruct (@start_angles_ok s n (size 0%nat) g (Pos 0%nat) Hs) as (start & Ea & Sok). rewrite Ea. cbn [bind].
  set (h := fun i => option_map (fun d => level n d i) d).
  assert (Ez : match d with Some d0 => map Some (layer_heights n d0) | None => map (fun _ => None) (seq 0 n) end = map h (seq 0 n)).
  { destruct d as [d|]; auto. rewrite layer_heights_eq, map_map. auto. }
  rewrite Ez, !combine_map, combine_self. set (f := fun c : nat * (nat * (R * option R)) => _).
  destruct (@mapM_Forall2 _ _ f (fun c l => exists rho, around (fst (snd c)) rho (fst (snd (snd c))) (snd (snd (snd c))) l /\ forall k, radius_ok radius (rho k)) (map (fun x => (x, (size x, (start x, h x)))) (seq 0 n))) as (ls & El & F).
  { intros c Hc. apply in_map_iff in Hc as (i & <- & Hi). cbn [fst snd]. destruct (@C52_circle G next Hunit (size i) radius (start i) (h i) (fresh i) (Pos i) Hr) as (l & rho & E & A & B). exists l. split; [exact E|]. exists rho. auto. }
  rewrite El. cbn [bind]. exists ls, start. split; [auto|]. apply Forall2_map_l in F. cbn [fst snd] in F.
  assert (Sz : map (@length _) ls = map size (seq 0 n)). { apply sizes_of. clear - F. revert F. generalize (seq 0 n). intros t F. induction F as [|i l t m (rho & [A _] & _) F IH]; constructor; auto. }
  split; [rewrite (length_concat_sizes _ Sz); apply Ev|]. split; [rewrite Sz; exact Ev|].
  apply Forall2_seq_row in F as [FL F]. split.
  - destruct ls as [|l ls]; [cbn in FL; lia|]. cbn [nth]. destruct (F 0%nat l eq_refl) as (rho & [A _] & _). rewrite A. auto.
  - intros i layer Hi. destruct (F _ _ Hi) as (rho & A & B). exists rho. split; auto. destruct A as [A1 A2]. rewrite A1. split; auto.
Qed.
(** C52 is false for fewer points than circles: no layout is returned *)
Theorem C52_concentric_few_refuted num n radius d s g fresh : (num < n)%nat -> radius_valid radius -> In s angle_settings -> concentrical_circles next num n radius d s g fresh = Err ZeroDivisionError.
Proof.
  intros Hn Hr Hs. assert (Hn0 : (0 < n)%nat) by lia. unfold concentrical_circles, points_per_layer. assert (Z : (n =? 0)%nat = false) by (apply Nat.eqb_neq; lia). rewrite Z. cbn [bind]. assert (D : (num / n = 0)%nat) by (apply Nat.div_small; auto). rewrite D, Nat.mul_0_r, Nat.sub_0_r.
  set (size := fun i => if (i <? num)%nat then (0 + 1)%nat else 0%nat). assert (F0 : nth 0 (map size (seq 0 n)) 0%nat = size 0%nat) by (destruct n; [lia|reflexivity]). rewrite F0.
  destruct (Nat.eq_dec num 0) as [N0|N0].
  - assert (S0 : size 0%nat = 0%nat) by (unfold size; rewrite N0; auto). rewrite S0. unfold start_angles. destruct Hs as [<-|[<-|[<-|[<-|[]]]]]; cbn [String.eqb Ascii.eqb Bool.eqb bind Nat.eqb]; auto.
    + rewrite (uniform_eq next). cbn [fst]. rewrite map_map. destruct n as [|n]; [lia|]. destruct d; cbn [seq map combine mapM bind]; [rewrite layer_heights_eq; cbn [seq map combine mapM bind]|]; rewrite S0, C52_circle_empty_refuted; auto.
    + destruct n as [|n]; [lia|]. destruct d; cbn [seq map combine mapM bind]; [rewrite layer_heights_eq; cbn [seq map combine mapM bind]|]; rewrite S0, C52_circle_empty_refuted; auto.
  - assert (S0 : size 0%nat = 1%nat). { unfold size. destruct num; [lia|auto]. } rewrite S0. destruct (@start_angles_ok s n 1 g ltac:(lia) Hs) as (start & Ea & _). rewrite Ea. cbn [bind].
    set (h := fun i => option_map (fun d => level n d i) d).
    assert (Ez : match d with Some d0 => map Some (layer_heights n d0) | None => map (fun _ => None) (seq 0 n) end = map h (seq 0 n)).
    { destruct d as [d|]; auto. rewrite layer_heights_eq, map_map. auto. }
    rewrite Ez, !combine_map, combine_self. set (f := fun c : nat * (nat * (R * option R)) => _).
    assert (A : forall i, f (i, (size i, (start i, h i))) = if (i <? num)%nat then f (i, (1%nat, (start i, h i))) else Err ZeroDivisionError).
    { intros i. unfold size. destruct (i <? num)%nat; [reflexivity|]. apply C52_circle_empty_refuted. }
    assert (B : mapM f (map (fun x => (x, (size x, (start x, h x)))) (seq 0 n)) = Err ZeroDivisionError); [|rewrite B; auto].
    assert (W : forall m t, (t <= num)%nat -> (num < t + m)%nat -> mapM f (map (fun x => (x, (size x, (start x, h x)))) (seq t m)) = Err ZeroDivisionError).
    { induction m as [|m IH]; intros t H1 H2; [lia|]. cbn [seq map mapM]. rewrite A. destruct (t <? num)%nat eqn:Q; auto. apply Nat.ltb_lt in Q. destruct (@C52_circle G next Hunit 1 radius (start t) (h t) (fresh t) ltac:(lia) Hr) as (l & rho & E & _). unfold f at 1. rewrite E. cbn [bind]. rewrite IH by lia. auto. }
    apply W; lia.
Qed.
(** C52: unknown settings and zero circles are errors *)
Theorem C52_concentric_rejects num n radius d s g fresh : n = 0%nat \/ ((0 < n)%nat /\ ~ In s angle_settings) ->
  concentrical_circles next num n radius d s g fresh = Err (if (n =? 0)%nat then ZeroDivisionError else UnboundLocalError).
Proof.
  intros [->|[Hn Hs]]; unfold concentrical_circles; [reflexivity|]. destruct (points_per_layer_eq num Hn) as (size & Es & _). rewrite Es. cbn [bind]. assert (Z : (n =? 0)%nat = false) by (apply Nat.eqb_neq; lia). rewrite Z. unfold start_angles.
  repeat match goal with |- context [String.eqb s ?t] => destruct (String.eqb_spec s t) as [->|]; [exfalso; apply Hs; cbn; auto|] end. auto.
Qed.
End Concentric.

(* ------------------------------------------------------------------ C68 *)
(** [q] is [p] moved by [d] away from the middle along an axis whose coordinate is that of a side, up to the tolerance *)
Definition tolerance (s : R) : R := / 10 ^ 8 + / 10 ^ 5 * (s / 2).
Definition pushed (s d x y x' y' : R) : Prop :=
  (y' = y /\ ((Rabs (x - s / 2) <= tolerance s /\ x' = x + d) \/ (Rabs (x + s / 2) <= tolerance s /\ x' = x - d))) \/
  (x' = x /\ ((Rabs (y - s / 2) <= tolerance s /\ y' = y + d) \/ (Rabs (y + s / 2) <= tolerance s /\ y' = y - d))).
Lemma push_out_ok s d x y z : 0 < s -> on_rectangle s s x y -> exists x' y', push_out s d [x; y; z] = Ok [x'; y'; z] /\ pushed s d x y x' y'.
Proof.
  intros Hs Ho. assert (Ha : Rabs (s / 2) = s / 2) by (apply Rabs_pos_eq; lra). assert (Hb : Rabs (- s / 2) = s / 2) by (rewrite Rabs_left by lra; lra).
  assert (T : 0 < tolerance s) by (unfold tolerance; apply Rplus_lt_0_compat; [apply Rinv_0_lt_compat; lra|apply Rmult_lt_0_compat; [apply Rinv_0_lt_compat; lra|lra]]).
  assert (C1 : forall v, isclose v (s / 2) = true <-> Rabs (v - s / 2) <= tolerance s) by (intros v; unfold isclose; rewrite rle_spec, Ha; unfold tolerance; tauto).
  assert (C2 : forall v, isclose v (- s / 2) = true <-> Rabs (v + s / 2) <= tolerance s) by (intros v; unfold isclose; rewrite rle_spec, Hb; replace (v - - s / 2) with (v + s / 2) by field; unfold tolerance; tauto).
  unfold push_out, at_. cbn [nth]. unfold pushed.
  destruct (isclose x (s / 2)) eqn:Q1; [apply C1 in Q1; do 2 eexists; split; [reflexivity|]; left; auto|].
  destruct (isclose x (- s / 2)) eqn:Q2; [apply C2 in Q2; do 2 eexists; split; [reflexivity|]; left; auto|].
  destruct (isclose y (s / 2)) eqn:Q3; [apply C1 in Q3; do 2 eexists; split; [reflexivity|]; right; auto|].
  destruct (isclose y (- s / 2)) eqn:Q4; [apply C2 in Q4; do 2 eexists; split; [reflexivity|]; right; auto|].
  exfalso. assert (N : forall v, isclose v (s / 2) = false -> isclose v (- s / 2) = false -> Rabs v <> s / 2).
  { intros v N1 N2 N3. destruct (Rcase_abs v) as [L|L]. - rewrite Rabs_left in N3 by auto. assert (isclose v (- s / 2) = true); [|congruence]. apply C2. replace (v + s / 2) with 0 by lra. rewrite Rabs_R0. lra.
    - rewrite Rabs_right in N3 by auto. assert (isclose v (s / 2) = true); [|congruence]. apply C1. replace (v - s / 2) with 0 by lra. rewrite Rabs_R0. lra. }
  destruct Ho as [[H _]|[H _]]; [apply (N x)|apply (N y)]; auto.
Qed.
Lemma nth_error_combine_seq {A} (l : list A) s n i : length l = n -> nth_error (combine (seq s n) l) i = option_map (fun x => ((s + i)%nat, x)) (nth_error l i).
Proof.
  intros <-. revert s i. induction l as [|x l IH]; intros s [|i]; cbn; auto. - rewrite Nat.add_0_r. auto. - rewrite IH, Nat.add_succ_r. auto.
Qed.
Lemma Forall2_nth {A B} (P : A -> B -> Prop) l ys i y : Forall2 P l ys -> nth_error ys i = Some y -> exists x, nth_error l i = Some x /\ P x y.
Proof. intros H. revert i. induction H; intros [|i] K; cbn in *; try discriminate; eauto. injection K as <-. eauto. Qed.
Lemma Forall2_same_length {A B} (P : A -> B -> Prop) l ys : Forall2 P l ys -> length l = length ys.
Proof. intros H. induction H; cbn; auto. Qed.
(** C68: the layout always exists and has the requested number of points; rows 2 and 3 of every four are at the upper height; even rows are on the square, odd rows have been moved outwards from it *)
Theorem C68_four num s d z_low z_high : 0 < s -> exists l base, four_equidistant_rectangles num s d z_low z_high "distributed" = Ok l /\ length l = num /\
  equidistant_rectangle num s s 0 0 (1 / 2) None = Ok base /\
  forall i p, nth_error l i = Some p -> exists x y x' y', nth_error base i = Some [x; y] /\ on_rectangle s s x y /\
    p = [x'; y'; if (i mod 4 =? 2)%nat || (i mod 4 =? 3)%nat then z_high else z_low] /\
    if Nat.even i then x' = x /\ y' = y else pushed s d x y x' y'.
Proof.
  intros Hs. unfold four_equidistant_rectangles. change (negb (String.eqb "distributed" "distributed")) with false. cbn iota.
  destruct (@C52_on_rectangle num s s (1 / 2) None Hs Hs ltac:(lra)) as (base & E & L & H). rewrite E. cbn [bind].
  set (zs := fun i => if (2 <=? i mod 4)%nat then z_high else z_low).
  set (f := fun ip : nat * list R => if Nat.odd (fst ip) then push_out s d (snd ip) else Ok (snd ip)).
  set (pts := map (fun ip : nat * list R => snd ip ++ [if (2 <=? fst ip mod 4)%nat then z_high else z_low]) (combine (seq 0 num) base)).
  assert (LC : length (combine (seq 0 num) base) = num) by (rewrite combine_length, seq_length, L; lia).
  assert (LP : length pts = num) by (unfold pts; rewrite map_length; auto).
  assert (NP : forall i p, nth_error pts i = Some p -> exists x y, nth_error base i = Some [x; y] /\ on_rectangle s s x y /\ p = [x; y; zs i]).
  { intros i p Hp. unfold pts in Hp. rewrite nth_error_map, nth_error_combine_seq in Hp by auto. destruct (nth_error base i) as [q|] eqn:Q; [|discriminate]. cbn in Hp. injection Hp as <-. destruct (H q (nth_error_In _ _ Q)) as (x & y & -> & K). exists x, y. auto. }
  destruct (@mapM_Forall2 _ _ f (fun ip q => exists x y x' y', nth_error base (fst ip) = Some [x; y] /\ on_rectangle s s x y /\ q = [x'; y'; zs (fst ip)] /\ if Nat.even (fst ip) then x' = x /\ y' = y else pushed s d x y x' y') (combine (seq 0 num) pts)) as (l & El & F).
  { intros [i p] Hip. cbn [fst snd]. apply In_nth_error in Hip as [j Hj]. rewrite nth_error_combine_seq in Hj by auto. destruct (nth_error pts j) as [q|] eqn:Q; [|discriminate]. cbn in Hj. injection Hj as <- <-. destruct (NP _ _ Q) as (x & y & Hb & Ho & ->). unfold f. cbn [fst snd]. rewrite <- Nat.negb_odd. destruct (Nat.odd j) eqn:O; cbn [negb].
    - destruct (@push_out_ok s d x y (zs j) Hs Ho) as (x' & y' & P1 & P2). exists [x'; y'; zs j]. split; [exact P1|]. exists x, y, x', y'. auto.
    - exists [x; y; zs j]. split; [reflexivity|]. exists x, y, x, y. auto. }
  exists l, base. split; [exact El|]. split. { rewrite <- (Forall2_same_length F), combine_length, seq_length, LP. lia. } split; [auto|].
  intros i p Hp. destruct (Forall2_nth _ F Hp) as (ip & Hip & K). rewrite nth_error_combine_seq in Hip by auto. destruct (nth_error pts i); [|discriminate]. cbn in Hip. injection Hip as <-. cbn [fst] in K. destruct K as (x & y & x' & y' & A & B & C & D). exists x, y, x', y'. do 2 (split; [auto|]). split; auto. rewrite C. unfold zs. pose proof (Nat.mod_upper_bound i 4 ltac:(lia)).
  destruct (i mod 4)%nat as [|[|[|[|m]]]]; try lia; reflexivity.
Qed.
(** C68: any other setting of the offset is not implemented, a side that is not positive is rejected *)
Theorem C68_rejects num s d z_low z_high offset : offset <> "distributed"%string \/ s <= 0 -> four_equidistant_rectangles num s d z_low z_high offset = Err (if String.eqb offset "distributed" then AssertionError else NotImplementedError).
Proof.
  intros H. unfold four_equidistant_rectangles. destruct (String.eqb_spec offset "distributed") as [->|N]; cbn [negb]; auto. destruct H as [H|H]; [congruence|]. rewrite C52_rectangle_rejects by auto. auto.
Qed.

(* ------------------------------------------------------------------ C69, C70 *)
Definition golden : R := (1 + sqrt 5) / 2.
(** C69: a sunflower pattern has exactly the requested number of points inside the disc: point k is at the angle k turns divided by the square of the golden ratio, at a distance that grows with the square root of the number of points inside *)
Theorem C69_sunflower N radius offset : length (sunflower_pattern N radius offset) = N /\
  (forall k, (0 < k <= N)%nat -> nth_error (sunflower_pattern N radius offset) (k - 1) =
    Some [radius * (sqrt (INR k - 1 / 2) / sqrt (INR N - 1 / 2)) * cos (INR k * (2 * PI / (golden * golden))); radius * (sqrt (INR k - 1 / 2) / sqrt (INR N - 1 / 2)) * sin (INR k * (2 * PI / (golden * golden)))]) /\
  forall p, In p (sunflower_pattern N radius offset) -> exists x y, p = [x; y] /\ x * x + y * y <= radius * radius.
Proof.
  unfold sunflower_pattern. rewrite !map_map. unfold pol2carts. rewrite !vzip_map, combine_map, map_map. cbn [fst snd].
  assert (EG : ((sqrt 5 + 1) / 2) ^ 2 = golden * golden) by (unfold golden; field). rewrite EG. clear EG. set (phi := golden * golden). split; [rewrite map_length, seq_length; auto|]. split.
  - intros k Hk. rewrite nth_error_map. rewrite (nth_error_nth' _ 0%nat) by (rewrite seq_length; lia). rewrite seq_nth by lia. cbn [option_map]. replace (1 + (k - 1))%nat with k by lia. f_equal.
    replace (INR k * 2 * PI / phi) with (INR k * (2 * PI / phi)) by (unfold Rdiv; ring). unfold Rdiv. repeat (apply cons_eq; [ring|]). reflexivity.
  - intros p Hp. apply in_map_iff in Hp as (k & <- & Hk). apply in_seq in Hk. do 2 eexists. split; [reflexivity|]. set (t := INR k * 2 * PI / phi). set (q := radius * sqrt (INR k - 1 / 2) / sqrt (INR N - 1 / 2)).
    replace (q * cos t * (q * cos t) + q * sin t * (q * sin t)) with (q * q * (sin t * sin t + cos t * cos t)) by ring. pose proof (sin2_cos2 t) as K. unfold Rsqr in K. rewrite K, Rmult_1_r.
    assert (H1 : 1 <= INR k) by (replace 1 with (INR 1) by reflexivity; apply le_INR; lia). assert (H2 : INR k <= INR N) by (apply le_INR; lia).
    assert (E : q * q = radius * radius * ((INR k - 1 / 2) / (INR N - 1 / 2))). { unfold q. rewrite <- (sqrt_sqrt (INR k - 1 / 2)) at 3 by lra. rewrite <- (sqrt_sqrt (INR N - 1 / 2)) at 3 by lra. assert (0 < sqrt (INR N - 1 / 2)) by (apply sqrt_lt_R0; lra). field. lra. }
    rewrite E. rewrite <- (Rmult_1_r (radius * radius)) at 2. apply Rmult_le_compat_l; [apply Rle_0_sqr|]. apply (Rmult_le_reg_r (INR N - 1 / 2)); [lra|]. unfold Rdiv at 1. rewrite Rmult_assoc, Rinv_l by lra. lra.
Qed.
(** C70 is false: the offset angle of a sunflower pattern has no effect *)
Theorem C70_offset_ignored N radius offset : sunflower_pattern N radius offset = sunflower_pattern N radius 0.
Proof. reflexivity. Qed.
(** a point turned by an angle *)
Definition rotated (t : R) (p : list R) : list R := match p with [x; y] => [x * cos t - y * sin t; x * sin t + y * cos t] | _ => p end.
Theorem C70_rotation_refuted : exists N radius offset, 0 < offset < 2 * PI /\ sunflower_pattern N radius offset <> map (rotated offset) (sunflower_pattern N radius 0).
Proof.
  exists 1%nat, 1, PI. pose proof PI_RGT_0. split; [lra|]. rewrite C70_offset_ignored. destruct (C69_sunflower 1 1 0) as (_ & A & _). specialize (A 1%nat ltac:(lia)). cbn [Nat.sub] in A. intros E. rewrite E in A. destruct (C69_sunflower 1 1 0) as (_ & B & _). specialize (B 1%nat ltac:(lia)). cbn [Nat.sub] in B. rewrite nth_error_map, B in A. cbn [option_map] in A.
  replace (INR 1) with 1 in A by reflexivity. replace (1 - 1 / 2) with (1 / 2) in A by field. assert (S : 0 < sqrt (1 / 2)) by (apply sqrt_lt_R0; lra). set (t := 1 * (2 * PI / (golden * golden))) in A. replace (1 * (sqrt (1 / 2) / sqrt (1 / 2))) with 1 in A by (field; lra).
  cbn [rotated] in A. rewrite cos_PI, sin_PI in A. injection A as A1 A2. pose proof (sin2_cos2 t) as K. unfold Rsqr in K. assert (cos t = 0) by lra. assert (sin t = 0) by lra. rewrite H0, H1 in K. lra.
Qed.
(** C70: so all planes of a cylinder have the same points *)
Theorem C70_cylinder_planes num radius height offsets others : uniform_cylinder num radius height offsets = uniform_cylinder num radius height others.
Proof. reflexivity. Qed.
(** C69: the points of a uniform cylinder: four equal planes of the sunflower pattern at one to four fifths of the height, all inside *)
Theorem C69_cylinder num radius height offsets : 0 <= height ->
  length (uniform_cylinder num radius height offsets) = (4 * (num / 4))%nat /\
  (forall p, In p (uniform_cylinder num radius height offsets) <-> exists n x y, (n < 4)%nat /\ In [x; y] (sunflower_pattern (num / 4) radius 0) /\ p = [x; y; (INR n + 1) / 5 * height - height / 2]) /\
  forall p, In p (uniform_cylinder num radius height offsets) -> exists x y z, p = [x; y; z] /\ x * x + y * y <= radius * radius /\ Rabs z <= height / 2.
Proof.
  intros Hh. unfold uniform_cylinder. set (zv := removelast _). destruct (C69_sunflower (num / 4) radius 0) as (SL & _ & SI).
  assert (Z : forall n, (n < 4)%nat -> at_ zv n = (INR n + 1) / 5 * height - height / 2).
  { intros n Hn. unfold zv, linspace, at_. change (4 + 2)%nat with 6%nat. cbn [seq map tl removelast Nat.eqb]. replace (INR (6 - 1)) with 5 by (cbn; lra). destruct n as [|[|[|[|n]]]]; [| | | |lia]; cbn [nth]; cbn [INR]; field. }
  assert (M : forall p, In p (concat (map (fun n => map (fun p0 => p0 ++ [at_ zv n]) (sunflower_pattern (num / 4) radius (offsets n * 2 * PI))) (seq 0 4))) <-> exists n x y, (n < 4)%nat /\ In [x; y] (sunflower_pattern (num / 4) radius 0) /\ p = [x; y; (INR n + 1) / 5 * height - height / 2]).
  { intros p. rewrite in_concat. split.
    - intros (l & Hl & Hp). apply in_map_iff in Hl as (n & <- & Hn). apply in_seq in Hn. apply in_map_iff in Hp as (q & <- & Hq). rewrite C70_offset_ignored in Hq. destruct (SI _ Hq) as (x & y & -> & _). exists n, x, y. split; [lia|]. split; auto. rewrite Z by lia. auto.
    - intros (n & x & y & Hn & Hq & ->). eexists. split; [apply in_map_iff; exists n; split; [reflexivity|apply in_seq; lia]|]. apply in_map_iff. exists [x; y]. rewrite C70_offset_ignored, Z by lia. auto. }
  split; [|split; [exact M|]].
  - cbn [seq map concat]. rewrite !app_length, !map_length. assert (SL' : forall o, length (sunflower_pattern (num / 4) radius o) = (num / 4)%nat) by (intros o; apply (C69_sunflower (num / 4) radius o)). rewrite !SL'. cbn [length]. lia.
  - intros p Hp. apply M in Hp as (n & x & y & Hn & Hq & ->). do 3 eexists. split; [reflexivity|]. split. + destruct (SI _ Hq) as (x' & y' & E & K). injection E as <- <-. auto.
    + apply Rabs_le. assert (0 <= INR n) by apply pos_INR. assert (INR n <= 3) by (replace 3 with (INR 3) by (cbn; lra); apply le_INR; lia). set (m := INR n) in *. assert (0 <= m * height) by (apply Rmult_le_pos; lra). assert (m * height <= 3 * height) by (apply Rmult_le_compat_r; lra). lra.
Qed.
(** C69 (number of points) is false for cylinders if the number is not a multiple of four *)
Theorem C69_cylinder_refuted : length (uniform_cylinder 7 1 1 (fun _ => 0)) = 4%nat.
Proof. destruct (@C69_cylinder 7 1 1 (fun _ => 0) ltac:(lra)) as (L & _). exact L. Qed.

(** [k] numbers from [a] to [b] in equal steps *)
Definition spread (a b : R) (k i : nat) : R := if (k =? 1)%nat then a else a + INR i / (INR k - 1) * (b - a).
Lemma In_linspace a b k x : In x (linspace a b k) <-> exists i, (i < k)%nat /\ x = spread a b k i.
Proof.
  unfold linspace. rewrite in_map_iff. assert (E : forall i, (i < k)%nat -> (if (k =? 1)%nat then a else a + INR i * ((b - a) / INR (k - 1))) = spread a b k i). { intros i Hi. unfold spread. destruct (k =? 1)%nat; auto. rewrite minus_INR by lia. cbn [INR]. unfold Rdiv. ring. }
  split. - intros (i & <- & Hi). apply in_seq in Hi. exists i. split; [lia|]. apply E. lia. - intros (i & Hi & ->). exists i. rewrite E by auto. split; auto. apply in_seq. lia.
Qed.
Lemma length_linspace a b k : length (linspace a b k) = k.
Proof. unfold linspace. rewrite map_length, seq_length. auto. Qed.
Lemma spread_range a b k i : a <= b -> (i < k)%nat -> a <= spread a b k i <= b.
Proof.
  intros H Hi. unfold spread. destruct (k =? 1)%nat eqn:Q; [lra|]. apply Nat.eqb_neq in Q. assert (1 < INR k) by (replace 1 with (INR 1) by reflexivity; apply lt_INR; lia). pose proof (pos_INR i). assert (INR i + 1 <= INR k) by (rewrite <- S_INR; apply le_INR; lia).
  assert (0 <= INR i / (INR k - 1) <= 1). { split; [apply Rmult_le_pos; [lra|left; apply Rinv_0_lt_compat; lra]|]. apply (Rmult_le_reg_r (INR k - 1)); [lra|]. unfold Rdiv. rewrite Rmult_assoc, Rinv_l by lra. lra. }
  set (u := INR i / (INR k - 1)) in *. assert (0 <= u * (b - a)) by (apply Rmult_le_pos; lra). assert (u * (b - a) <= 1 * (b - a)) by (apply Rmult_le_compat_r; lra). lra.
Qed.
Lemma length_mesh2 ax ay : length (mesh2 ax ay) = (length ax * length ay)%nat.
Proof. unfold mesh2. rewrite (@length_flat_map _ _ _ _ (length ax)); [apply Nat.mul_comm|]. intros y. apply map_length. Qed.
(** the largest number whose square is at most x *)
Lemma int_sqrt_spec x : 0 <= x -> INR (int_sqrt x) * INR (int_sqrt x) <= x < (INR (int_sqrt x) + 1) * (INR (int_sqrt x) + 1).
Proof.
  intros Hx. unfold int_sqrt, rfloor. destruct (base_Int_part (sqrt x)) as [A B]. pose proof (sqrt_pos x) as S. assert (Hz : (0 <= Int_part (sqrt x))%Z). { apply Z.lt_pred_le. apply lt_IZR. change (IZR (Z.pred 0)) with (-1). lra. }
  rewrite INR_IZR_INZ, Z2Nat.id by auto. set (k := IZR (Int_part (sqrt x))) in *. assert (Hk : 0 <= k) by (apply (IZR_le 0); auto). rewrite <- (sqrt_sqrt x Hx). split. - apply Rmult_le_compat; lra. - apply Rmult_le_0_lt_compat; lra.
Qed.
Lemma int_sqrt_unique x k : 0 <= x -> INR k * INR k <= x < (INR k + 1) * (INR k + 1) -> int_sqrt x = k.
Proof.
  intros Hx H. pose proof (int_sqrt_spec Hx) as K. set (m := int_sqrt x) in *. pose proof (pos_INR m). pose proof (pos_INR k).
  assert (INR m < INR k + 1) by nra. assert (INR k < INR m + 1) by nra. rewrite <- S_INR in *. apply INR_lt in H2, H3. lia.
Qed.
Lemma int_sqrt_square k : int_sqrt (INR (k * k)) = k.
Proof. apply int_sqrt_unique. - apply pos_INR. - rewrite mult_INR. pose proof (pos_INR k). split; nra. Qed.
Lemma isclose_self x : isclose x x = true.
Proof. unfold isclose. apply rle_spec. rewrite Rminus_diag_eq by auto. rewrite Rabs_R0. apply Rplus_le_le_0_compat; [left; apply Rinv_0_lt_compat; lra|]. apply Rmult_le_pos; [left; apply Rinv_0_lt_compat; lra|apply Rabs_pos]. Qed.
Lemma isclose_INR m n : (Z.of_nat n < 100000)%Z -> isclose (INR m) (INR n) = true -> m = n.
Proof.
  intros Hn H. unfold isclose in H. apply rle_spec in H. rewrite (Rabs_pos_eq (INR n)) in H by apply pos_INR. assert (INR n <= 99999). { replace 99999 with (INR (Z.to_nat 99999)) by (rewrite INR_IZR_INZ; auto). apply le_INR. lia. }
  assert (B : Rabs (INR m - INR n) < 1). { replace (/ 10 ^ 8) with (1 / 100000000) in H by lra. replace (/ 10 ^ 5) with (1 / 100000) in H by lra. lra. }
  rewrite !INR_IZR_INZ, <- minus_IZR, <- abs_IZR in B. apply (lt_IZR _ 1) in B. lia.
Qed.
(** C69: a filled rectangle with a square number of points has exactly that many, in a grid of equal steps between the limits *)
Theorem C69_filled_rectangle k a b c d z : exists l, uniform_filled_rectangle (k * k) [a; b; c; d] z = Ok l /\ length l = (k * k)%nat /\
  (forall p, In p l <-> exists i j, (i < k)%nat /\ (j < k)%nat /\ p = with_height z (spread a c k i) (spread b d k j)) /\
  (a <= c -> b <= d -> forall p, In p l -> exists x y, p = with_height z x y /\ a <= x <= c /\ b <= y <= d).
Proof.
  unfold uniform_filled_rectangle. rewrite int_sqrt_square, mult_INR. replace (INR k ^ 2) with (INR k * INR k) by ring. rewrite isclose_self. cbn [passert bind fst snd]. eexists. split; [reflexivity|]. split; [rewrite map_length, length_mesh2, !length_linspace; auto|].
  assert (M : forall p, In p (map (with_z z) (mesh2 (linspace a c k) (linspace b d k))) <-> exists i j, (i < k)%nat /\ (j < k)%nat /\ p = with_height z (spread a c k i) (spread b d k j)).
  { intros p. rewrite in_map_iff. split.
    - intros (q & <- & Hq). apply In_mesh2 in Hq as (x & y & Hx & Hy & ->). apply In_linspace in Hx as (i & Hi & ->). apply In_linspace in Hy as (j & Hj & ->). exists i, j. do 2 (split; [auto|]). destruct z; auto.
    - intros (i & j & Hi & Hj & ->). exists [spread a c k i; spread b d k j]. split; [destruct z; auto|]. apply In_mesh2. do 2 eexists. split; [apply In_linspace; exists i; split; [exact Hi|reflexivity]|]. split; [apply In_linspace; exists j; split; [exact Hj|reflexivity]|reflexivity]. }
  split; [exact M|]. intros H1 H2 p Hp. apply M in Hp as (i & j & Hi & Hj & ->). do 2 eexists. split; [reflexivity|]. split; apply spread_range; auto.
Qed.
(** C69: two limits stand for the same two along both axes *)
Theorem C69_filled_rectangle_limits num a b z : uniform_filled_rectangle num [a; b] z = uniform_filled_rectangle num [a; a; b; b] z.
Proof. reflexivity. Qed.
(** C69: it takes two or four limits *)
Theorem C69_filled_rectangle_other_limits k lim z : length lim <> 2%nat -> length lim <> 4%nat -> uniform_filled_rectangle (k * k) lim z = Err UnboundLocalError.
Proof.
  intros H2 H4. unfold uniform_filled_rectangle. rewrite int_sqrt_square, mult_INR. replace (INR k ^ 2) with (INR k * INR k) by ring. rewrite isclose_self. cbn [passert bind].
  destruct lim as [|a [|b [|c [|d [|e r]]]]]; try reflexivity; exfalso; cbn in *; lia.
Qed.
Example C69_filled_rectangle_other_limits_meets : length [0; 1; 2] <> 2%nat /\ length [0; 1; 2] <> 4%nat.
Proof. split; discriminate. Qed.
(** C69: below 100000 points, a filled rectangle has the requested number of points or fails, and it fails exactly for numbers that are not squares *)
Theorem C69_filled_rectangle_number num a b c d z : (Z.of_nat num < 100000)%Z ->
  (forall l, uniform_filled_rectangle num [a; b; c; d] z = Ok l -> length l = num) /\
  ((exists l, uniform_filled_rectangle num [a; b; c; d] z = Ok l) <-> exists k, num = (k * k)%nat) /\
  (~ (exists k, num = (k * k)%nat) -> uniform_filled_rectangle num [a; b; c; d] z = Err AssertionError).
Proof.
  intros Hn. assert (X : (exists l, uniform_filled_rectangle num [a; b; c; d] z = Ok l) -> exists k, num = (k * k)%nat).
  { intros [l H]. unfold uniform_filled_rectangle in H. apply bind_ok in H as (u & Hu & _). destruct (isclose _ _) eqn:Q in Hu; [|discriminate]. exists (int_sqrt (INR num)). replace (INR (int_sqrt (INR num)) ^ 2) with (INR (int_sqrt (INR num) * int_sqrt (INR num))) in Q by (rewrite mult_INR; ring). apply isclose_INR in Q; auto. }
  split; [|split; [split; auto|]].
  - intros l H. destruct X as [k ->]; [eauto|]. destruct (C69_filled_rectangle k a b c d z) as (l' & E & L & _). congruence.
  - intros [k ->]. destruct (C69_filled_rectangle k a b c d z) as (l' & E & _). eauto.
  - intros N. unfold uniform_filled_rectangle in *. destruct (isclose _ _) eqn:Q; cbn [passert bind]; auto. exfalso. apply N, X. cbn [passert bind]. eauto.
Qed.
(** C69 (number of points) is false for large numbers: 100490 points are requested, 317 times 317 are returned *)
Theorem C69_filled_rectangle_refuted : exists l, uniform_filled_rectangle (Z.to_nat 100490) [0; 1] None = Ok l /\ zlen l = 100489%Z.
Proof.
  unfold uniform_filled_rectangle. assert (E : int_sqrt (INR (Z.to_nat 100490)) = 317%nat). { apply int_sqrt_unique; [apply pos_INR|]. rewrite !INR_IZR_INZ, Z2Nat.id by lia. replace (IZR (Z.of_nat 317)) with 317 by reflexivity. lra. }
  rewrite E. assert (C : isclose (INR 317 ^ 2) (INR (Z.to_nat 100490)) = true). { unfold isclose. apply rle_spec. rewrite !INR_IZR_INZ, Z2Nat.id by lia. replace (IZR (Z.of_nat 317)) with 317 by reflexivity. rewrite (Rabs_left (317 ^ 2 - 100490)), (Rabs_pos_eq 100490) by lra. lra. }
  rewrite C. cbn [passert bind fst snd]. eexists. split; [reflexivity|]. unfold zlen. rewrite map_length, length_mesh2, !length_linspace. reflexivity.
Qed.
(** the middle of cell [i] of [k] equal cells of a side around 0 *)
Definition cell (side : R) (k i : nat) : R := (INR i + 1 / 2) / INR k * side - side / 2.
Lemma odd_linspace a b n : odd_entries (linspace a b (2 * n + 1)) = map (fun i => a + (2 * INR i + 1) / (2 * INR n) * (b - a)) (seq 0 n).
Proof.
  unfold linspace. assert (O : forall (f : nat -> R) m s, odd_entries (map f (seq s (2 * m + 1))) = map (fun i => f (s + 2 * i + 1)%nat) (seq 0 m)).
  { intros f m. induction m as [|m IH]; intros s; auto. replace (2 * S m + 1)%nat with (S (S (2 * m + 1))) by lia. cbn [seq map odd_entries]. rewrite IH. rewrite <- seq_shift, map_map. f_equal; [f_equal; lia|]. apply map_ext. intros i. f_equal. lia. }
  rewrite O. apply map_ext_in. intros i Hi. apply in_seq in Hi. assert (Z : (2 * n + 1 =? 1)%nat = false) by (apply Nat.eqb_neq; lia). rewrite Z. replace (2 * n + 1 - 1)%nat with (2 * n)%nat by lia. rewrite mult_INR, !plus_INR, mult_INR. cbn [INR]. assert (0 < INR n) by (apply lt_0_INR; lia). field. lra.
Qed.
Lemma In_cells side n x : In x (odd_entries (linspace (- side / 2) (side / 2) (2 * n + 1))) <-> exists i, (i < n)%nat /\ x = cell side n i.
Proof.
  rewrite odd_linspace, in_map_iff. assert (E : forall i, (i < n)%nat -> - side / 2 + (2 * INR i + 1) / (2 * INR n) * (side / 2 - - side / 2) = cell side n i). { intros i Hi. unfold cell. assert (0 < INR n) by (apply lt_0_INR; lia). field. lra. }
  split. - intros (i & <- & Hi). apply in_seq in Hi. exists i. split; [lia|]. apply E. lia. - intros (i & Hi & ->). exists i. rewrite E by auto. split; auto. apply in_seq. lia.
Qed.
Lemma cell_range side k i : 0 <= side -> (i < k)%nat -> Rabs (cell side k i) <= side / 2.
Proof.
  intros H Hi. apply Rabs_le. unfold cell. assert (0 < INR k) by (apply lt_0_INR; lia). pose proof (pos_INR i). assert (INR i + 1 <= INR k) by (rewrite <- S_INR; apply le_INR; lia).
  assert (0 <= (INR i + 1 / 2) / INR k <= 1). { split; [apply Rmult_le_pos; [lra|left; apply Rinv_0_lt_compat; lra]|]. apply (Rmult_le_reg_r (INR k)); [lra|]. unfold Rdiv at 1. rewrite Rmult_assoc, Rinv_l by lra. lra. }
  set (u := (INR i + 1 / 2) / INR k) in *. assert (0 <= u * side) by (apply Rmult_le_pos; lra). assert (u * side <= 1 * side) by (apply Rmult_le_compat_r; lra). lra.
Qed.
(** C69: a filled cuboid with k times k times m points has exactly that many, in the middles of equal cells *)
Theorem C69_filled_cuboid k m dx dy dz : (0 < m)%nat -> exists l, uniform_filled_cuboid (k * k * m) [dx; dy; dz] m = Ok l /\ length l = (k * k * m)%nat /\
  (forall p, In p l <-> exists i j h, (i < k)%nat /\ (j < k)%nat /\ (h < m)%nat /\ p = [cell dx k i; cell dy k j; cell dz m h]) /\
  (0 <= dx -> 0 <= dy -> 0 <= dz -> forall p, In p l -> exists x y z, p = [x; y; z] /\ Rabs x <= dx / 2 /\ Rabs y <= dy / 2 /\ Rabs z <= dz / 2).
Proof.
  intros Hm. unfold uniform_filled_cuboid. assert (Z : (m =? 0)%nat = false) by (apply Nat.eqb_neq; lia). rewrite Z. assert (Hm' : 0 < INR m) by (apply lt_0_INR; auto).
  replace (INR (k * k * m) / INR m) with (INR (k * k)) by (rewrite !mult_INR; field; lra). rewrite int_sqrt_square. replace (INR k ^ 2 * INR m) with (INR (k * k * m)) by (rewrite !mult_INR; ring). rewrite isclose_self. cbn [passert bind]. unfold at_. cbn [nth].
  eexists. split; [reflexivity|]. split.
  { unfold mesh3. rewrite (@length_flat_map _ _ _ _ (k * m)).
    - rewrite odd_linspace, map_length, seq_length. lia.
    - intros y. rewrite (@length_flat_map _ _ _ _ m); [rewrite odd_linspace, map_length, seq_length; auto|]. intros x. rewrite map_length, odd_linspace, map_length, seq_length. auto. }
  match goal with |- (forall p, In p ?l <-> _) /\ _ => assert (M : forall p, In p l <-> exists i j h, (i < k)%nat /\ (j < k)%nat /\ (h < m)%nat /\ p = [cell dx k i; cell dy k j; cell dz m h]) end.
  { intros p. rewrite In_mesh3. split.
    - intros (x & y & z & Hx & Hy & Hz & ->). apply In_cells in Hx as (i & Hi & ->). apply In_cells in Hy as (j & Hj & ->). apply In_cells in Hz as (h & Hh & ->). exists i, j, h. auto.
    - intros (i & j & h & Hi & Hj & Hh & ->). do 3 eexists. split; [apply In_cells; exists i; split; [exact Hi|reflexivity]|]. split; [apply In_cells; exists j; split; [exact Hj|reflexivity]|]. split; [apply In_cells; exists h; split; [exact Hh|reflexivity]|reflexivity]. }
  split; [exact M|]. intros H1 H2 H3 p Hp. apply M in Hp as (i & j & h & Hi & Hj & Hh & ->). do 3 eexists. split; [reflexivity|]. split; [|split]; apply cell_range; auto.
Qed.
(** C69: below 100000 points, a filled cuboid has the requested number of points or fails *)
Theorem C69_filled_cuboid_number num dx dy dz m l : (Z.of_nat num < 100000)%Z -> uniform_filled_cuboid num [dx; dy; dz] m = Ok l -> length l = num /\ exists k, num = (k * k * m)%nat.
Proof.
  intros Hn H. pose proof H as H0. unfold uniform_filled_cuboid in H. destruct (m =? 0)%nat eqn:Z; [discriminate|]. apply Nat.eqb_neq in Z. cbv zeta in H. set (k := int_sqrt _) in H. apply bind_ok in H as (u & Hu & _). destruct (isclose _ _) eqn:Q in Hu; [|discriminate].
  replace (INR k ^ 2 * INR m) with (INR (k * k * m)) in Q by (rewrite !mult_INR; ring). apply isclose_INR in Q; auto. rewrite <- Q in H0. destruct (@C69_filled_cuboid k m dx dy dz ltac:(lia)) as (l' & E & L & _). split; [|eauto]. rewrite <- Q. congruence.
Qed.
(** C69: the points of a uniform disc are those of a square grid that lie in the disc *)
Theorem C69_disc dist radius z : 0 < dist -> 0 <= radius -> exists k, fits (Z.of_nat k) dist (2 * radius) /\
  forall p, In p (uniform_disc dist radius z) <-> exists i j, (i < k)%nat /\ (j < k)%nat /\ let x := spread (- radius) radius k i in let y := spread (- radius) radius k j in p = with_height z x y /\ x * x + y * y <= radius * radius.
Proof.
  intros Hd Hr. pose proof (rfloor_fits (2 * radius) Hd) as F. unfold uniform_disc. set (n := rfloor (2 * radius / dist)) in *. assert (Hn : (0 <= n)%Z). { destruct F as [_ F]. apply Z.lt_pred_le. apply lt_IZR. change (IZR (Z.pred 0)) with (-1). assert (0 < (IZR n + 1) * dist) by lra. destruct (Rlt_le_dec (IZR n + 1) 0) as [N|N]; [nra|]. destruct (Req_dec (IZR n + 1) 0) as [E|E]; [rewrite E in H; lra|lra]. }
  exists (Z.to_nat n). rewrite Z2Nat.id by auto. split; [auto|]. set (k := Z.to_nat n). intros p. rewrite in_map_iff. cbv zeta. split.
  - intros (q & <- & Hq). apply filter_In in Hq as [Hq HN]. apply In_mesh2 in Hq as (x & y & Hx & Hy & ->). apply In_linspace in Hx as (i & Hi & ->). apply In_linspace in Hy as (j & Hj & ->). apply norm_le in HN; auto. exists i, j. do 2 (split; [auto|]). split; [destruct z; auto|]. unfold rsum in HN. cbn [map fold_right] in HN. lra.
  - intros (i & j & Hi & Hj & -> & HN). exists [spread (- radius) radius k i; spread (- radius) radius k j]. split; [destruct z; auto|]. apply filter_In. split.
    + apply In_mesh2. do 2 eexists. split; [apply In_linspace; exists i; split; [exact Hi|reflexivity]|]. split; [apply In_linspace; exists j; split; [exact Hj|reflexivity]|reflexivity]. + apply norm_le; auto. unfold rsum. cbn [map fold_right]. lra.
Qed.

(* ------------------------------------------------------------------ examples *)
(** C51: points in all directions, and coordinates at the ends of their ranges *)
Example C51_example : pol2carts [2; 1] [PI; PI / 2] = ([2 * -1; 1 * 0], [2 * 0; 1 * 1]) /\ cart2pol [2 * cos PI; 1 * cos (PI / 2)] [2 * sin PI; 1 * sin (PI / 2)] = ([2; 1], [PI; PI / 2]) /\
  (let (r, angle) := cart2spherical [[0; 0; -3]; [-1; 2; 5]] in spherical2cart r angle = [[0; 0; -3]; [-1; 2; 5]]).
Proof.
  pose proof PI_RGT_0. split; [|split].
  - unfold pol2carts, vzip. cbn [combine map fst snd]. rewrite cos_PI, sin_PI, cos_PI2, sin_PI2. auto.
  - apply (C51_polar_back [(2, PI); (1, PI / 2)]). intros r a [E|[E|[]]]; injection E as <- <-; lra.
  - pose proof (C51_spherical [(0, 0, -3); (-1, 2, 5)]) as K. change (map row3 [(0, 0, -3); (-1, 2, 5)]) with [[0; 0; -3]; [-1; 2; 5]] in K. destruct (cart2spherical _) as [r angle]. apply K.
Qed.
Example C51_spherical_example : cart2spherical (spherical2cart [2] [[PI; PI / 2]]) = ([2], [[PI; PI / 2]]).
Proof. pose proof PI_RGT_0. apply (C51_spherical_back [(2, PI, PI / 2)]). intros r t p [E|[]]. injection E as <- <- <-. lra. Qed.
(** C52: ten points on three stacked rectangles: four, three and three *)
Example C52_stacked_example : exists layers, stacked_equidistant_rectangles 10 3 2 1 (1 / 2) = Ok (concat layers) /\ map (@length _) layers = [4; 3; 3]%nat.
Proof.
  destruct (@C52_stacked 10 3 2 1 (1 / 2) ltac:(lia) ltac:(lra) ltac:(lra)) as (layers & E & L & (EL & ES & q & f & Eq & Hf) & _). exists layers. split; [exact E|]. rewrite Eq in ES |- *. rewrite list_sum_app, !list_sum_repeat in ES.
  assert (f = 1 /\ q = 3)%nat as [-> ->] by nia. reflexivity.
Qed.
(** C52: seven points on three circles *)
Example C52_concentric_example : exists layers, concentrical_circles half 7 3 (Radii 1 2) (Some 1) "distribute" tt (fun _ => tt) = Ok (concat layers) /\ map (@length _) layers = [3; 2; 2]%nat.
Proof.
  destruct (@C52_concentric unit half half_unit 7 3 (Radii 1 2) (Some 1) "distribute" tt (fun _ => tt) ltac:(lia) ltac:(cbn; lra) ltac:(cbn; auto)) as (layers & start & E & L & (EL & ES & q & f & Eq & Hf) & _). exists layers. split; [exact E|]. rewrite Eq in ES |- *. rewrite list_sum_app, !list_sum_repeat in ES.
  assert (f = 1 /\ q = 2)%nat as [-> ->] by nia. reflexivity.
Qed.
(** C52, C67: eight points around a square *)
Example C52_rectangle_example : equidistant_rectangle 8 2 2 0 0 (1 / 2) (Some 3) = Ok
  [[-1 / 2; 1; 3]; [1 / 2; 1; 3]; [1; 1 / 2; 3]; [1; -1 / 2; 3]; [-1 / 2; -1; 3]; [1 / 2; -1; 3]; [-1; -1 / 2; 3]; [-1; 1 / 2; 3]].
Proof.
  rewrite rectangle_eq by lra. rewrite eight_0, eight_1, eight_2, eight_3. cbn [map app combine rev fst snd with_z]. unfold row_s, odd_add. cbn [Nat.odd Nat.even negb]. rewrite !stop_eight.
  replace (INR 0) with 0 by reflexivity. replace (INR 7) with 7 by (cbn; lra). replace (INR 6) with 6 by (cbn; lra). replace (INR 5) with 5 by (cbn; lra). replace (INR 4) with 4 by (cbn; lra). replace (INR 3) with 3 by (cbn; lra). replace (INR 2) with 2 by (cbn; lra). replace (INR 1) with 1 by reflexivity.
  cbn [app]. f_equal. repeat (apply cons_eq; [repeat (apply cons_eq; [field|]); reflexivity|]). reflexivity.
Qed.
Example C67_example : exists l, equidistant_rectangle 5 2 1 (1 / 2) (1 / 4) (1 / 3) None = Ok l /\ length l = 5%nat.
Proof. destruct (@C67_rows 5 2 1 (1 / 2) (1 / 4) (1 / 3) None ltac:(lra) ltac:(lra) ltac:(lra) ltac:(lra) ltac:(lra)) as (l & E & L & _). eauto. Qed.
(** C68: a layout of six points; the second and third of the square are at its corner and side *)
Example C68_example : exists l, four_equidistant_rectangles 6 2 (1 / 10) 0 1 "distributed" = Ok l /\ length l = 6%nat.
Proof. destruct (@C68_four 6 2 (1 / 10) 0 1 ltac:(lra)) as (l & base & E & L & _). eauto. Qed.
(** C69: nine points on a square, none for ten *)
Example C69_example : (exists l, uniform_filled_rectangle 9 [0; 1] None = Ok l /\ length l = 9%nat /\ In [1 / 2; 1] l) /\ uniform_filled_rectangle 10 [0; 1] None = Err AssertionError.
Proof.
  split.
  - rewrite C69_filled_rectangle_limits. destruct (C69_filled_rectangle 3 0 0 1 1 None) as (l & E & L & M & _). exists l. split; [exact E|]. split; [exact L|]. apply M. exists 1%nat, 2%nat. split; [lia|]. split; [lia|]. unfold spread. cbn [Nat.eqb with_height INR]. repeat (apply cons_eq; [field|]). reflexivity.
  - rewrite C69_filled_rectangle_limits. apply C69_filled_rectangle_number; [lia|]. intros [k Hk]. destruct k as [|[|[|[|k]]]]; nia.
Qed.
Example C69_cuboid_example : exists l, uniform_filled_cuboid 12 [2; 2; 3] 3 = Ok l /\ length l = 12%nat /\ In [- (1 / 2); 1 / 2; 0] l.
Proof.
  destruct (@C69_filled_cuboid 2 3 2 2 3 ltac:(lia)) as (l & E & L & M & _). exists l. split; [exact E|]. split; [exact L|]. apply M. exists 0%nat, 1%nat, 1%nat. do 3 (split; [lia|]). unfold cell. cbn [INR]. repeat (apply cons_eq; [field|]). reflexivity.
Qed.
Print Assumptions C51_polar.
Print Assumptions C51_polar_back.
Print Assumptions C51_spherical.
Print Assumptions C51_spherical_back.
Print Assumptions C52_rectangle.
Print Assumptions C52_on_rectangle.
Print Assumptions C52_offset_one_refuted.
Print Assumptions C52_rectangle_rejects.
Print Assumptions C52_circle.
Print Assumptions C52_circle_empty_refuted.
Print Assumptions C52_stacked.
Print Assumptions C52_concentric.
Print Assumptions C52_concentric_few_refuted.
Print Assumptions C52_concentric_rejects.
Print Assumptions C67_rows.
Print Assumptions C67_alternate_refuted.
Print Assumptions C68_four.
Print Assumptions C68_rejects.
Print Assumptions C69_sunflower.
Print Assumptions C69_cylinder.
Print Assumptions C69_cylinder_refuted.
Print Assumptions C69_filled_rectangle.
Print Assumptions C69_filled_rectangle_limits.
Print Assumptions C69_filled_rectangle_other_limits.
Print Assumptions C69_filled_rectangle_number.
Print Assumptions C69_filled_rectangle_refuted.
Print Assumptions C69_filled_cuboid.
Print Assumptions C69_filled_cuboid_number.
Print Assumptions C69_disc.
Print Assumptions C70_offset_ignored.
Print Assumptions C70_rotation_refuted.
Print Assumptions C70_cylinder_planes.
(** concrete cases of the remaining theorems *)
Example C51_polar_meets : let (r, angle) := cart2pol [3; -1] [4; 0] in pol2carts r angle = ([3; -1], [4; 0]).
Proof. pose proof (@C51_polar [(3, 4); (-1, 0)]) as K. cbn [map fst snd] in K. destruct (cart2pol [3; -1] [4; 0]) as [r a]. exact (proj1 K). Qed.
Example C52_on_rectangle_meets : exists l, equidistant_rectangle 7 3 2 0 0 (1 / 4) (Some 5) = Ok l /\ length l = 7%nat /\ forall p, In p l -> exists x y, p = [x; y; 5] /\ on_rectangle 3 2 x y.
Proof. apply (@C52_on_rectangle 7 3 2 (1 / 4) (Some 5)); lra. Qed.
Example C52_rejects_meets : equidistant_rectangle 7 3 2 0 0 (-1) None = Err AssertionError /\ equidistant_rectangle 7 0 2 0 0 0 None = Err AssertionError.
Proof. split; apply C52_rectangle_rejects; lra. Qed.
Example C52_circle_meets : exists l rho, equiangular_circle half 4 (Radii 1 2) 0 (Some 3) tt = Ok l /\ around 4 rho 0 (Some 3) l /\ forall k, 1 <= rho k <= 2.
Proof. apply (@C52_circle unit half half_unit 4 (Radii 1 2) 0 (Some 3) tt); [lia|cbn; lra]. Qed.
Example C52_concentric_rejects_meets : concentrical_circles half 7 3 (Radius 1) None "even" tt (fun _ => tt) = Err UnboundLocalError /\ concentrical_circles half 7 0 (Radius 1) None "same" tt (fun _ => tt) = Err ZeroDivisionError.
Proof.
  split; [apply (@C52_concentric_rejects unit half half_unit 7 3)|apply (@C52_concentric_rejects unit half half_unit 7 0)]; [right; split; [lia|]|left; reflexivity].
  intros [X|[X|[X|[X|[]]]]]; discriminate X.
Qed.
Example C68_rejects_meets : four_equidistant_rectangles 6 2 1 0 1 "same" = Err NotImplementedError /\ four_equidistant_rectangles 6 0 1 0 1 "distributed" = Err AssertionError.
Proof. split; apply C68_rejects; [left; discriminate|right; lra]. Qed.
Example C69_cylinder_meets : length (uniform_cylinder 100 1 2 (fun _ => 0)) = 100%nat /\ exists p, In p (uniform_cylinder 100 1 2 (fun _ => 0)).
Proof.
  destruct (@C69_cylinder 100 1 2 (fun _ => 0) ltac:(lra)) as (L & _). split; [exact L|]. destruct (uniform_cylinder 100 1 2 (fun _ => 0)) as [|p l]; [discriminate L|]. exists p. left. reflexivity.
Qed.
Example C69_filled_cuboid_number_meets : (Z.of_nat 12 < 100000)%Z /\ exists l, uniform_filled_cuboid 12 [2; 2; 3] 3 = Ok l.
Proof. split; [lia|]. destruct C69_cuboid_example as (l & E & _). exists l. exact E. Qed.
Example C69_disc_meets : In [0; 0; 3] (uniform_disc (2 / 3) 1 (Some 3)).
Proof.
  destruct (@C69_disc (2 / 3) 1 (Some 3)) as (k & (A & B) & H); [lra|lra|].
  assert (K : k = 3%nat). { rewrite <- INR_IZR_INZ in A, B. assert (X : INR k < INR 4) by (cbn; lra). assert (Y : INR 2 < INR k) by (cbn; lra). apply INR_lt in X, Y. lia. }
  subst k. apply H. exists 1%nat, 1%nat. split; [lia|]. split; [lia|]. assert (E : spread (- (1)) 1 3 1 = 0) by (unfold spread; cbn; lra). rewrite E. split; [reflexivity|lra].
Qed.
