(** C117: no place of a region is far from its grid. *)
Require Import Lra Psatz.
Require Import Verif.PyBase Verif.PyLemmas Verif.SineModel Verif.SineProps Verif.TrajModel Verif.TrajProps Verif.RegionModel Verif.RegionProps.
Set Implicit Arguments.
Local Open Scope list_scope.
Local Open Scope R_scope.

(** less than a spacing away *)
Definition near (d x y : R) : Prop := Rabs (x - y) < d.

Lemma floor_step d z : 0 < d -> exists k, IZR k * d <= z < (IZR k + 1) * d.
Proof. intros Hd. exists (rfloor (z / d)). exact (rfloor_fits z Hd). Qed.
(** every number of the interval is near one of the n numbers *)
Lemma near_placed n d s c x : 0 < d -> (1 <= n)%Z -> s < (IZR n + 1) * d -> within s c x -> exists i, (0 <= i < n)%Z /\ near d x (placed n d c i).
Proof.
  intros Hd Hn Hs [W1 W2]. destruct (floor_step (x - placed n d c 0) Hd) as (k & K1 & K2). unfold near.
  assert (P : forall i, placed n d c i = placed n d c 0 + IZR i * d) by (intros i; unfold placed; ring).
  assert (N1 : 1 <= IZR n) by (apply IZR_le; lia).
  destruct (Z_lt_ge_dec k 0) as [L|L].
  - exists 0%Z. split; [lia|]. assert (IZR k + 1 <= 0) by (rewrite <- plus_IZR; apply IZR_le; lia). assert ((IZR k + 1) * d <= 0 * d) by (apply Rmult_le_compat_r; lra).
    rewrite Rabs_left1 by lra. unfold placed in *. nra.
  - destruct (Z_lt_ge_dec k n) as [L2|L2].
    + exists k. split; [lia|]. rewrite P. rewrite Rabs_right by lra. lra.
    + exfalso. assert (IZR n <= IZR k) by (apply IZR_le; lia). assert (IZR n * d <= IZR k * d) by (apply Rmult_le_compat_r; lra). unfold placed in *. nra.
Qed.
(** with an odd number of points there is one near that is not further from the middle *)
Lemma near_inside m d s c x : 0 < d -> (0 <= m)%Z -> s < (IZR (2 * m + 1) + 1) * d -> within s c x ->
  exists i, (0 <= i < 2 * m + 1)%Z /\ near d x (placed (2 * m + 1) d c i) /\ (placed (2 * m + 1) d c i - c) * (placed (2 * m + 1) d c i - c) <= (x - c) * (x - c).
Proof.
  intros Hd Hm Hs [W1 W2].
  assert (P : forall j, placed (2 * m + 1) d c (m + j) = c + IZR j * d) by (intros j; unfold placed; rewrite !plus_IZR, mult_IZR; field).
  rewrite plus_IZR, mult_IZR in Hs.
  assert (K : exists k, (0 <= k <= m)%Z /\ IZR k * d <= Rabs (x - c) < IZR k * d + d).
  { assert (A : 0 <= Rabs (x - c)) by apply Rabs_pos. assert (B : Rabs (x - c) < (IZR m + 1) * d) by (apply Rabs_def1; lra).
    destruct (floor_step (Rabs (x - c)) Hd) as (k & K1 & K2). exists k. split; [|lra]. split.
    - destruct (Z_lt_ge_dec k 0) as [L|L]; [|lia]. exfalso. assert (IZR k + 1 <= 0) by (rewrite <- plus_IZR; apply IZR_le; lia). assert ((IZR k + 1) * d <= 0 * d) by (apply Rmult_le_compat_r; lra). lra.
    - destruct (Z_le_gt_dec k m) as [L|L]; [lia|]. exfalso. assert (IZR m + 1 <= IZR k) by (rewrite <- plus_IZR; apply IZR_le; lia). assert ((IZR m + 1) * d <= IZR k * d) by (apply Rmult_le_compat_r; lra). lra. }
  destruct K as (k & Hk & K1 & K2). assert (K0 : 0 <= IZR k * d) by (apply Rmult_le_pos; [apply IZR_le; lia|lra]). unfold near.
  destruct (Rle_dec 0 (x - c)) as [S|S].
  - exists (m + k)%Z. split; [lia|]. rewrite P. rewrite Rabs_right in K1, K2 by lra. split; [rewrite Rabs_right; lra|]. nra.
  - exists (m + - k)%Z. split; [lia|]. rewrite P. rewrite opp_IZR. rewrite Rabs_left in K1, K2 by lra. split; [rewrite Rabs_left1; lra|]. nra.
Qed.

(** C117: every point of a cuboid has a point of its grid near it, in all coordinates *)
Theorem C117_cuboid sx sy sz cx cy cz dx dy dz own pts x y z : 0 < dx -> 0 < dy -> 0 < dz ->
  cuboid_points [sx; sy; sz] [cx; cy; cz] own (Some (EachSpacing [dx; dy; dz])) = Ok pts -> within sx cx x -> within sy cy y -> within sz cz z ->
  exists u v w, In [u; v; w] pts /\ near dx x u /\ near dy y v /\ near dz z w.
Proof.
  intros Hx Hy Hz H Wx Wy Wz. destruct (C48_cuboid_grid _ _ _ _ _ _ _ Hx Hy Hz H) as (nx & ny & nz & (N1 & N2 & N3) & F1 & F2 & F3 & _ & G & _). unfold fits in *.
  destruct (@near_placed nx dx sx cx x) as (i & I & A); auto; [lra|]. destruct (@near_placed ny dy sy cy y) as (j & J & B); auto; [lra|]. destruct (@near_placed nz dz sz cz z) as (k & K & C); auto; [lra|].
  exists (placed nx dx cx i), (placed ny dy cy j), (placed nz dz cz k). split; auto. apply G. exists i, j, k. auto.
Qed.
Example C117_cuboid_meets : (exists pts, cuboid_points [1; 2; 3] [0; 0; 0] (SameSpacing 1) (Some (EachSpacing [1; 1 / 2; 1])) = Ok pts) /\ within 1 0 (1 / 2) /\ within 2 0 1 /\ within 3 0 (- (3) / 2).
Proof. split; [|unfold within; lra]. apply (proj2 (@C48_cuboid_fails 1 2 3 0 0 0 1 (1 / 2) 1 (SameSpacing 1) ltac:(lra) ltac:(lra) ltac:(lra))). lra. Qed.
(** C117: and every point of a rectangle, in the plane or in space *)
Theorem C117_rectangle sx sy center dx dy dim cx cy pts x y : 0 < dx -> 0 < dy -> (dim = 2 /\ center = [cx; cy] \/ exists cz, dim = 3 /\ center = [cx; cy; cz])%Z ->
  rectangle_points [sx; sy] center [dx; dy] dim = Ok pts -> within sx cx x -> within sy cy y ->
  exists u v, In ([u; v] ++ skipn 2 center) pts /\ near dx x u /\ near dy y v.
Proof.
  intros Hx Hy HC H Wx Wy. destruct (C48_rectangle_grid _ _ Hx Hy HC H) as (nx & ny & (N1 & N2) & F1 & F2 & _ & G & _). unfold fits in *.
  destruct (@near_placed nx dx sx cx x) as (i & I & A); auto; [lra|]. destruct (@near_placed ny dy sy cy y) as (j & J & B); auto; [lra|].
  exists (placed nx dx cx i), (placed ny dy cy j). split; auto. apply G. exists i, j. auto.
Qed.
Example C117_rectangle_meets : (exists pts, rectangle_points [1; 2] [0; 0; 5] [1; 1 / 2] 3 = Ok pts) /\ within 1 0 (1 / 2) /\ within 2 0 1.
Proof. split; [|unfold within; lra]. apply (proj2 (@C48_rectangle_fails 1 2 [0; 0; 5] 1 (1 / 2) 3 ltac:(lra) ltac:(lra))). lra. Qed.

(** the number of points along an axis is odd *)
Definition odd_cover (d s : R) : Prop := exists m, (0 <= m)%Z /\ covers (2 * m + 1) d s.
Definition odd_fit (d s : R) : Prop := exists m, (0 <= m)%Z /\ fits (2 * m + 1) d s.
Lemma covers_unique n n' d s : 0 < d -> covers n d s -> covers n' d s -> n = n'.
Proof.
  unfold covers. intros Hd [A B] [A' B']. destruct (Z.lt_trichotomy n n') as [L|[L|L]]; auto; exfalso.
  - assert (IZR n <= IZR n' - 1) by (rewrite <- minus_IZR; apply IZR_le; lia). assert (IZR n * d <= (IZR n' - 1) * d) by (apply Rmult_le_compat_r; lra). lra.
  - assert (IZR n' <= IZR n - 1) by (rewrite <- minus_IZR; apply IZR_le; lia). assert (IZR n' * d <= (IZR n - 1) * d) by (apply Rmult_le_compat_r; lra). lra.
Qed.
Lemma fits_unique n n' d s : 0 < d -> fits n d s -> fits n' d s -> n = n'.
Proof.
  unfold fits. intros Hd [A B] [A' B']. destruct (Z.lt_trichotomy n n') as [L|[L|L]]; auto; exfalso.
  - assert (IZR n + 1 <= IZR n') by (rewrite <- plus_IZR; apply IZR_le; lia). assert ((IZR n + 1) * d <= IZR n' * d) by (apply Rmult_le_compat_r; lra). lra.
  - assert (IZR n' + 1 <= IZR n) by (rewrite <- plus_IZR; apply IZR_le; lia). assert ((IZR n' + 1) * d <= IZR n * d) by (apply Rmult_le_compat_r; lra). lra.
Qed.
Lemma circle_within r c x q : 0 <= r -> 0 <= q -> (x - c) * (x - c) + q <= r * r -> within (2 * r) c x.
Proof. intros Hr Hq H. unfold within. split; nra. Qed.
(** C117: every point of a disc, if the numbers of points along the axes are odd, so that one of them is the centre *)
Theorem C117_disc_partial r center dx dy dim cx cy x y : 0 < dx -> 0 < dy -> 0 <= r -> (dim = 2 /\ center = [cx; cy] \/ exists cz, dim = 3 /\ center = [cx; cy; cz])%Z ->
  odd_cover dx (2 * r) -> odd_cover dy (2 * r) -> in_circle r cx cy x y ->
  exists u v, In ([u; v] ++ skipn 2 center) (disc_points r center [dx; dy] dim) /\ near dx x u /\ near dy y v.
Proof.
  intros Hx Hy Hr HC (a & Ha & Ca) (b & Hb & Cb) HI. destruct (@C48_disc_grid r center dx dy dim cx cy Hx Hy Hr HC) as (nx & ny & C1 & C2 & G).
  assert (nx = 2 * a + 1)%Z by exact (@covers_unique _ _ _ _ Hx C1 Ca). assert (ny = 2 * b + 1)%Z by exact (@covers_unique _ _ _ _ Hy C2 Cb). subst nx ny. unfold in_circle in HI.
  pose proof (Rle_0_sqr (x - cx)) as X2. pose proof (Rle_0_sqr (y - cy)) as Y2. unfold Rsqr in X2, Y2.
  destruct (@near_inside a dx (2 * r) cx x) as (i & I & A1 & A2); auto; [unfold covers in Ca; lra|eapply circle_within; [exact Hr|exact Y2|lra]|].
  destruct (@near_inside b dy (2 * r) cy y) as (j & J & B1 & B2); auto; [unfold covers in Cb; lra|eapply circle_within; [exact Hr|exact X2|lra]|].
  exists (placed (2 * a + 1) dx cx i), (placed (2 * b + 1) dy cy j). split; auto. apply G. exists i, j. split; auto. split; auto. unfold in_circle. lra.
Qed.
Example C117_disc_meets : odd_cover (1 / 2) (2 * (3 / 4)) /\ odd_cover (3 / 10) (2 * (3 / 4)) /\ in_circle (3 / 4) 0 0 0 (3 / 4).
Proof. split; [exists 1%Z; split; [lia|unfold covers; rewrite !plus_IZR, !mult_IZR; lra]|]. split; [exists 2%Z; split; [lia|unfold covers; rewrite !plus_IZR, !mult_IZR; lra]|]. unfold in_circle. lra. Qed.
(** C117: every point of a cylinder, under the same condition on the plane axes; no condition on the height *)
Theorem C117_cylinder_partial r h cx cy cz dx dy dz x y z : 0 < dx -> 0 < dy -> 0 < dz -> 0 <= r -> 0 < h ->
  odd_cover dx (2 * r) -> odd_cover dy (2 * r) -> in_circle r cx cy x y -> within h cz z ->
  exists u v w, In [u; v; w] (cylinder_points r h [cx; cy; cz] [dx; dy; dz]) /\ near dx x u /\ near dy y v /\ near dz z w.
Proof.
  intros Hx Hy Hz Hr Hh (a & Ha & Ca) (b & Hb & Cb) HI Wz. destruct (@C48_cylinder_grid r h cx cy cz dx dy dz Hx Hy Hz Hr) as (nx & ny & nz & C1 & C2 & C3 & G & _).
  assert (nx = 2 * a + 1)%Z by exact (@covers_unique _ _ _ _ Hx C1 Ca). assert (ny = 2 * b + 1)%Z by exact (@covers_unique _ _ _ _ Hy C2 Cb). subst nx ny. unfold in_circle in HI.
  pose proof (Rle_0_sqr (x - cx)) as X2. pose proof (Rle_0_sqr (y - cy)) as Y2. unfold Rsqr in X2, Y2.
  destruct (@near_inside a dx (2 * r) cx x) as (i & I & A1 & A2); auto; [unfold covers in Ca; lra|eapply circle_within; [exact Hr|exact Y2|lra]|].
  destruct (@near_inside b dy (2 * r) cy y) as (j & J & B1 & B2); auto; [unfold covers in Cb; lra|eapply circle_within; [exact Hr|exact X2|lra]|].
  assert (N3 : (1 <= nz)%Z). { unfold covers in C3. destruct (Z_lt_ge_dec nz 1) as [L|L]; [|lia]. exfalso. assert (IZR nz <= 0) by (apply IZR_le; lia). assert (IZR nz * dz <= 0 * dz) by (apply Rmult_le_compat_r; lra). lra. }
  destruct (@near_placed nz dz h cz z) as (k & K & D); auto; [unfold covers in C3; lra|].
  exists (placed (2 * a + 1) dx cx i), (placed (2 * b + 1) dy cy j), (placed nz dz cz k). split; auto. apply G. exists i, j, k. split; auto. split; auto. unfold in_circle. lra.
Qed.
Example C117_cylinder_meets : odd_cover (1 / 2) (2 * (3 / 4)) /\ odd_cover (3 / 10) (2 * (3 / 4)) /\ in_circle (3 / 4) 0 0 0 (3 / 4) /\ within 1 0 (1 / 2).
Proof. split; [exists 1%Z; split; [lia|unfold covers; rewrite !plus_IZR, !mult_IZR; lra]|]. split; [exists 2%Z; split; [lia|unfold covers; rewrite !plus_IZR, !mult_IZR; lra]|]. unfold in_circle, within. lra. Qed.
(** C117: every point of a ball, if the numbers of points along the axes are odd *)
Theorem C117_ball_partial r cx cy cz dx dy dz pts x y z : 0 < dx -> 0 < dy -> 0 < dz -> 0 <= r -> ball_points r [cx; cy; cz] [dx; dy; dz] = Ok pts ->
  odd_fit dx (2 * r) -> odd_fit dy (2 * r) -> odd_fit dz (2 * r) -> in_sphere r cx cy cz x y z ->
  exists u v w, In [u; v; w] pts /\ near dx x u /\ near dy y v /\ near dz z w.
Proof.
  intros Hx Hy Hz Hr H (a & Ha & Ca) (b & Hb & Cb) (e & He & Ce) HI. destruct (@C48_ball_grid r cx cy cz dx dy dz pts Hx Hy Hz Hr H) as (nx & ny & nz & C1 & C2 & C3 & G).
  assert (nx = 2 * a + 1)%Z by exact (@fits_unique _ _ _ _ Hx C1 Ca). assert (ny = 2 * b + 1)%Z by exact (@fits_unique _ _ _ _ Hy C2 Cb). assert (nz = 2 * e + 1)%Z by exact (@fits_unique _ _ _ _ Hz C3 Ce). subst nx ny nz. unfold in_sphere in HI.
  pose proof (Rle_0_sqr (x - cx)) as X2. pose proof (Rle_0_sqr (y - cy)) as Y2. pose proof (Rle_0_sqr (z - cz)) as Z2. unfold Rsqr in X2, Y2, Z2.
  destruct (@near_inside a dx (2 * r) cx x) as (i & I & A1 & A2); auto; [unfold fits in Ca; lra|apply circle_within with (q := (y - cy) * (y - cy) + (z - cz) * (z - cz)); lra|].
  destruct (@near_inside b dy (2 * r) cy y) as (j & J & B1 & B2); auto; [unfold fits in Cb; lra|apply circle_within with (q := (x - cx) * (x - cx) + (z - cz) * (z - cz)); lra|].
  destruct (@near_inside e dz (2 * r) cz z) as (k & K & D1 & D2); auto; [unfold fits in Ce; lra|apply circle_within with (q := (x - cx) * (x - cx) + (y - cy) * (y - cy)); lra|].
  exists (placed (2 * a + 1) dx cx i), (placed (2 * b + 1) dy cy j), (placed (2 * e + 1) dz cz k). split; auto. apply G. exists i, j, k. split; auto. split; auto. unfold in_sphere. lra.
Qed.
Example C117_ball_meets : (exists pts, ball_points (3 / 4) [0; 0; 0] [1 / 2; 3 / 10; 1] = Ok pts) /\ odd_fit (1 / 2) (2 * (3 / 4)) /\ odd_fit (3 / 10) (2 * (3 / 4)) /\ odd_fit 1 (2 * (3 / 4)) /\ in_sphere (3 / 4) 0 0 0 0 (3 / 4) 0.
Proof.
  split. { unfold ball_points. rewrite (proj1 (@C48_cuboid_spacing _ _ (EachSpacing [1 / 2; 3 / 10; 1]) (SameSpacing 0) 0)). destruct (proj2 (@C48_cuboid_fails (2 * (3 / 4)) (2 * (3 / 4)) (2 * (3 / 4)) 0 0 0 (1 / 2) (3 / 10) 1 (SameSpacing 0) ltac:(lra) ltac:(lra) ltac:(lra))) as (g & ->); [lra|]. cbn [bind]. eexists. reflexivity. }
  split; [exists 1%Z; split; [lia|unfold fits; rewrite !plus_IZR, !mult_IZR; lra]|]. split; [exists 2%Z; split; [lia|unfold fits; rewrite !plus_IZR, !mult_IZR; lra]|]. split; [exists 0%Z; split; [lia|unfold fits; rewrite !plus_IZR, !mult_IZR; lra]|]. unfold in_sphere. lra.
Qed.

(** C117, false: with an even number of points along the first axis no point of the grid need be near in the second coordinate, whatever its first one: the topmost point of a disc with radius 1/2 and
    spacings 1/2 and 1/10 *)
Theorem C117_disc_refuted : exists r dx dy x y, 0 < dx /\ 0 < dy /\ in_circle r 0 0 x y /\ forall u v, In [u; v] (disc_points r [0; 0] [dx; dy] 2) -> ~ near dy y v.
Proof.
  exists (1 / 2), (1 / 2), (1 / 10), 0, (1 / 2). split; [lra|]. split; [lra|]. split; [unfold in_circle; lra|]. intros u v H.
  destruct (@C48_disc_grid (1 / 2) [0; 0] (1 / 2) (1 / 10) 2 0 0) as (nx & ny & C1 & C2 & G); [lra|lra|lra|left; auto|].
  assert (nx = 2)%Z by (eapply (@covers_unique nx 2 (1 / 2)); [lra|exact C1|unfold covers; lra]). assert (ny = 10)%Z by (eapply (@covers_unique ny 10 (1 / 10)); [lra|exact C2|unfold covers; lra]). subst.
  apply G in H as (i & j & (I & J) & E & HI). cbn [skipn app] in E. injection E as -> ->. unfold in_circle, placed in HI. unfold near, placed.
  assert (X : (0 + (IZR i - (2 - 1) / 2) * (1 / 2) - 0) * (0 + (IZR i - (2 - 1) / 2) * (1 / 2) - 0) = 1 / 16). { assert (Q : (i = 0 \/ i = 1)%Z) by lia. destruct Q as [-> | ->]; lra. }
  assert (Y : IZR j <= 8). { destruct (Z_le_gt_dec j 8) as [L|L]; [apply IZR_le; lia|]. exfalso. assert (j = 9%Z) by lia. subst j. lra. }
  intros K. apply Rabs_def2 in K. lra.
Qed.
(** C117, false: a disc can have no grid point at all though it is wider than its spacings *)
Theorem C117_empty_refuted : exists r d, 0 < d < 2 * r /\ disc_points r [0; 0] [d; d] 2 = [].
Proof.
  exists (6 / 10), 1. split; [lra|]. destruct (@C48_disc_grid (6 / 10) [0; 0] 1 1 2 0 0) as (nx & ny & C1 & C2 & G); [lra|lra|lra|left; auto|].
  assert (nx = 2)%Z by (eapply (@covers_unique nx 2 1); [lra|exact C1|unfold covers; lra]). assert (ny = 2)%Z by (eapply (@covers_unique ny 2 1); [lra|exact C2|unfold covers; lra]). subst.
  destruct (disc_points (6 / 10) [0; 0] [1; 1] 2) as [|p ps] eqn:E; [reflexivity|exfalso]. destruct (proj1 (G p) (or_introl eq_refl)) as (i & j & (I & J) & _ & HI). unfold in_circle, placed in HI.
  assert (X : forall i, (0 <= i < 2)%Z -> (0 + (IZR i - (2 - 1) / 2) * 1 - 0) * (0 + (IZR i - (2 - 1) / 2) * 1 - 0) = 1 / 4). { intros i0 I0. assert (Q : (i0 = 0 \/ i0 = 1)%Z) by lia. destruct Q as [-> | ->]; lra. }
  rewrite (X i I), (X j J) in HI. lra.
Qed.
Theorem C117_cylinder_refuted : exists r h dx dy dz x y z, 0 < dx /\ 0 < dy /\ 0 < dz /\ in_circle r 0 0 x y /\ within h 0 z /\ forall u v w, In [u; v; w] (cylinder_points r h [0; 0; 0] [dx; dy; dz]) -> ~ near dy y v.
Proof.
  exists (1 / 2), 1, (1 / 2), (1 / 10), 1, 0, (1 / 2), 0. split; [lra|]. split; [lra|]. split; [lra|]. split; [unfold in_circle; lra|]. split; [unfold within; lra|]. intros u v w H.
  destruct (@C48_cylinder_grid (1 / 2) 1 0 0 0 (1 / 2) (1 / 10) 1) as (nx & ny & nz & C1 & C2 & C3 & G & _); [lra|lra|lra|lra|].
  assert (nx = 2)%Z by (eapply (@covers_unique nx 2 (1 / 2)); [lra|exact C1|unfold covers; lra]). assert (ny = 10)%Z by (eapply (@covers_unique ny 10 (1 / 10)); [lra|exact C2|unfold covers; lra]). subst.
  destruct (proj1 (G _) H) as (i & j & k & (I & J & _) & E & HI). injection E as -> -> ->. unfold in_circle, placed in HI. unfold near, placed.
  assert (X : (0 + (IZR i - (2 - 1) / 2) * (1 / 2) - 0) * (0 + (IZR i - (2 - 1) / 2) * (1 / 2) - 0) = 1 / 16). { assert (Q : (i = 0 \/ i = 1)%Z) by lia. destruct Q as [-> | ->]; lra. }
  assert (Y : IZR j <= 8). { destruct (Z_le_gt_dec j 8) as [L|L]; [apply IZR_le; lia|]. exfalso. assert (j = 9%Z) by lia. subst j. lra. }
  intros K. apply Rabs_def2 in K. lra.
Qed.
Theorem C117_ball_refuted : exists r dx dy dz x y z pts, 0 < dx /\ 0 < dy /\ 0 < dz /\ ball_points r [0; 0; 0] [dx; dy; dz] = Ok pts /\ in_sphere r 0 0 0 x y z /\ forall u v w, In [u; v; w] pts -> ~ near dy y v.
Proof.
  assert (H : exists pts, ball_points (1 / 2) [0; 0; 0] [1 / 2; 1 / 10; 1 / 2] = Ok pts).
  { unfold ball_points. rewrite (proj1 (@C48_cuboid_spacing _ _ (EachSpacing [1 / 2; 1 / 10; 1 / 2]) (SameSpacing 0) 0)). destruct (proj2 (@C48_cuboid_fails (2 * (1 / 2)) (2 * (1 / 2)) (2 * (1 / 2)) 0 0 0 (1 / 2) (1 / 10) (1 / 2) (SameSpacing 0) ltac:(lra) ltac:(lra) ltac:(lra))) as (g & ->); [lra|]. cbn [bind]. eexists. reflexivity. }
  destruct H as (pts & H). exists (1 / 2), (1 / 2), (1 / 10), (1 / 2), 0, (1 / 2), 0, pts. split; [lra|]. split; [lra|]. split; [lra|]. split; [exact H|]. split; [unfold in_sphere; lra|]. intros u v w Hp.
  destruct (@C48_ball_grid (1 / 2) 0 0 0 (1 / 2) (1 / 10) (1 / 2) pts) as (nx & ny & nz & C1 & C2 & C3 & G); [lra|lra|lra|lra|exact H|].
  assert (nx = 2)%Z by (eapply (@fits_unique nx 2 (1 / 2)); [lra|exact C1|unfold fits; lra]). assert (ny = 10)%Z by (eapply (@fits_unique ny 10 (1 / 10)); [lra|exact C2|unfold fits; lra]). assert (nz = 2)%Z by (eapply (@fits_unique nz 2 (1 / 2)); [lra|exact C3|unfold fits; lra]). subst.
  destruct (proj1 (G _) Hp) as (i & j & k & (I & J & K0) & E & HI). injection E as -> -> ->. unfold in_sphere, placed in HI. unfold near, placed.
  assert (X : forall i, (0 <= i < 2)%Z -> (0 + (IZR i - (2 - 1) / 2) * (1 / 2) - 0) * (0 + (IZR i - (2 - 1) / 2) * (1 / 2) - 0) = 1 / 16). { intros i0 I0. assert (Q : (i0 = 0 \/ i0 = 1)%Z) by lia. destruct Q as [-> | ->]; lra. }
  rewrite (X i I), (X k K0) in HI.
  assert (Y : IZR j <= 8). { destruct (Z_le_gt_dec j 8) as [L|L]; [apply IZR_le; lia|]. exfalso. assert (j = 9%Z) by lia. subst j. lra. }
  intros K. apply Rabs_def2 in K. lra.
Qed.
Print Assumptions C117_cuboid.
Print Assumptions C117_rectangle.
Print Assumptions C117_disc_partial.
Print Assumptions C117_cylinder_partial.
Print Assumptions C117_ball_partial.
Print Assumptions C117_disc_refuted.
Print Assumptions C117_empty_refuted.
Print Assumptions C117_cylinder_refuted.
Print Assumptions C117_ball_refuted.
