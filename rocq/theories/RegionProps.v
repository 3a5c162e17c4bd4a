(** Properties of regions: C48, C49, C50, C65, C66. *)
Require Import Lra Psatz.
Require Import Verif.PyBase Verif.PyLemmas Verif.SineModel Verif.SineProps Verif.TrajModel Verif.TrajProps Verif.RegionModel.
Set Implicit Arguments.
Local Open Scope list_scope.
Local Open Scope R_scope.

(* ------------------------------------------------------------------ vocabulary *)
(** a number is at most half a side from the middle *)
Definition within (side c x : R) : Prop := - (side / 2) <= x - c <= side / 2.
Definition in_circle (r cx cy x y : R) : Prop := (x - cx) * (x - cx) + (y - cy) * (y - cy) <= r * r.
Definition in_sphere (r cx cy cz x y z : R) : Prop := (x - cx) * (x - cx) + (y - cy) * (y - cy) + (z - cz) * (z - cz) <= r * r.
(** the [i]-th of [n] numbers with distance [d] placed symmetrically around [c] *)
Definition placed (n : Z) (d c : R) (i : Z) : R := c + (IZR i - (IZR n - 1) / 2) * d.
(** [n] is the number of whole distances [d] in [s] (rounded down, rounded up) *)
Definition fits (n : Z) (d s : R) : Prop := IZR n * d <= s < (IZR n + 1) * d.
Definition covers (n : Z) (d s : R) : Prop := (IZR n - 1) * d < s <= IZR n * d.

(* ------------------------------------------------------------------ lemmas *)
Lemma div_le a b c : 0 < b -> (a <= c / b <-> a * b <= c).
Proof. intros H. unfold Rdiv. split; intros K. - apply (Rmult_le_compat_r b) in K; [|lra]. rewrite Rmult_assoc, Rinv_l in K by lra. lra. - apply (Rmult_le_reg_r b); auto. rewrite Rmult_assoc, Rinv_l by lra. lra. Qed.
Lemma div_lt a b c : 0 < b -> (c / b < a <-> c < a * b).
Proof. intros H. unfold Rdiv. split; intros K. - apply (Rmult_lt_compat_r b) in K; [|lra]. rewrite Rmult_assoc, Rinv_l in K by lra. lra. - apply (Rmult_lt_reg_r b); auto. rewrite Rmult_assoc, Rinv_l by lra. lra. Qed.
Lemma rfloor_fits s d : 0 < d -> fits (rfloor (s / d)) d s.
Proof.
  intros H. unfold fits, rfloor. destruct (base_Int_part (s / d)) as [A B]. split; [apply div_le; auto|]. apply div_lt; auto. lra.
Qed.
Lemma rceil_covers s d : 0 < d -> covers (rceil (s / d)) d s.
Proof.
  intros H. unfold covers, rceil. destruct (base_Int_part (- (s / d))) as [A B]. rewrite opp_IZR. set (k := IZR (Int_part _)) in *. assert (E : s = s / d * d) by (field; lra). set (q := s / d) in *. rewrite E. split; [apply Rmult_lt_compat_r|apply Rmult_le_compat_r]; lra.
Qed.
Lemma In_zrange a b i : In i (zrange a b) <-> (a <= i < b)%Z.
Proof.
  unfold zrange. rewrite in_map_iff. split. - intros (k & <- & H). apply in_seq in H. lia. - intros H. exists (Z.to_nat (i - a)). split; [lia|]. apply in_seq. lia.
Qed.
Lemma length_zrange n : length (zrange 0 n) = Z.to_nat n.
Proof. unfold zrange. rewrite map_length, seq_length. f_equal. lia. Qed.
Lemma last_axis n d : (1 <= n)%Z -> last (axis n d) 0 = IZR (n - 1) * d.
Proof.
  intros H. unfold axis. assert (E : zrange 0 n = zrange 0 (n - 1) ++ [n - 1]%Z).
  { unfold zrange. replace (Z.to_nat (n - 0)) with (Z.to_nat (n - 1 - 0) + 1)%nat by lia. rewrite seq_app, map_app. cbn. f_equal. f_equal. lia. }
  rewrite E, map_app. apply last_last.
Qed.
Lemma centred_axis_eq n d s : (1 <= n)%Z -> centred_axis n d s = map (fun k => placed n d (s / 2) k) (zrange 0 n).
Proof. intros H. unfold centred_axis. rewrite last_axis by auto. unfold axis. rewrite map_map. apply map_ext. intros k. unfold placed. rewrite minus_IZR. field. Qed.
Lemma In_mesh2 ax ay p : In p (mesh2 ax ay) <-> exists x y, In x ax /\ In y ay /\ p = [x; y].
Proof. unfold mesh2. rewrite in_flat_map. split. - intros (y & Hy & H). apply in_map_iff in H as (x & <- & Hx). eauto. - intros (x & y & Hx & Hy & ->). exists y. split; auto. apply in_map_iff. eauto. Qed.
Lemma In_mesh3 ax ay az p : In p (mesh3 ax ay az) <-> exists x y z, In x ax /\ In y ay /\ In z az /\ p = [x; y; z].
Proof.
  unfold mesh3. rewrite in_flat_map. split.
  - intros (y & Hy & H). apply in_flat_map in H as (x & Hx & H). apply in_map_iff in H as (z & <- & Hz). exists x, y, z. auto.
  - intros (x & y & z & Hx & Hy & Hz & ->). exists y. split; auto. apply in_flat_map. exists x. split; auto. apply in_map_iff. eauto.
Qed.
Lemma In_mesh3_ij ax ay az p : In p (mesh3_ij ax ay az) <-> exists x y z, In x ax /\ In y ay /\ In z az /\ p = [x; y; z].
Proof.
  unfold mesh3_ij. rewrite in_flat_map. split.
  - intros (x & Hx & H). apply in_flat_map in H as (y & Hy & H). apply in_map_iff in H as (z & <- & Hz). exists x, y, z. auto.
  - intros (x & y & z & Hx & Hy & Hz & ->). exists x. split; auto. apply in_flat_map. exists y. split; auto. apply in_map_iff. eauto.
Qed.
Lemma length_flat_map {A B} (f : A -> list B) l n : (forall x, length (f x) = n) -> length (flat_map f l) = (length l * n)%nat.
Proof. intros H. induction l as [|x r IH]; cbn; auto. rewrite app_length, H, IH. auto. Qed.
Lemma norm_le p r : 0 <= r -> (rle (norm p) r = true <-> rsum (map (fun x => x ^ 2) p) <= r * r).
Proof.
  intros Hr. rewrite rle_spec. unfold norm. set (s := rsum _). assert (Hs : 0 <= s). { unfold s. clear. induction p as [|x p IH]; [cbn; lra|]. change (rsum (map (fun x => x ^ 2) (x :: p))) with (x ^ 2 + rsum (map (fun x => x ^ 2) p)). pose proof (pow2_ge_0 x). lra. }
  split; intros H. - rewrite <- (sqrt_sqrt s Hs). pose proof (sqrt_pos s). apply Rmult_le_compat; auto.
  - rewrite <- (sqrt_square r Hr). apply sqrt_le_1_alt. auto.
Qed.
Lemma placed_within n d s c i : 0 < d -> (0 <= i < n)%Z -> (IZR n - 1) * d <= s -> within s c (placed n d c i).
Proof.
  intros Hd Hi Hs. unfold within, placed. assert (0 <= IZR i) by (apply IZR_le; lia). assert (IZR i <= IZR n - 1) by (rewrite <- minus_IZR; apply IZR_le; lia). set (a := IZR i) in *. set (m := IZR n) in *.
  assert (0 <= a * d) by (apply Rmult_le_pos; lra). assert (a * d <= (m - 1) * d) by (apply Rmult_le_compat_r; lra). replace (c + (a - (m - 1) / 2) * d - c) with (a * d - (m - 1) * d / 2) by field. lra.
Qed.

Lemma cons_eq {A} (a b : A) l m : a = b -> l = m -> a :: l = b :: m.
Proof. congruence. Qed.

(* ------------------------------------------------------------------ C48: grids *)
(** C48: the grid of a cuboid: as many points along each axis as whole spacings fit, placed symmetrically around the centre; all are inside *)
Theorem C48_cuboid_grid sx sy sz cx cy cz dx dy dz own pts : 0 < dx -> 0 < dy -> 0 < dz ->
  cuboid_points [sx; sy; sz] [cx; cy; cz] own (Some (EachSpacing [dx; dy; dz])) = Ok pts ->
  exists nx ny nz, (1 <= nx /\ 1 <= ny /\ 1 <= nz)%Z /\ fits nx dx sx /\ fits ny dy sy /\ fits nz dz sz /\ zlen pts = (nx * ny * nz)%Z /\
    (forall p, In p pts <-> exists i j k, (0 <= i < nx /\ 0 <= j < ny /\ 0 <= k < nz)%Z /\ p = [placed nx dx cx i; placed ny dy cy j; placed nz dz cz k]) /\
    (forall p, In p pts -> exists x y z, p = [x; y; z] /\ within sx cx x /\ within sy cy y /\ within sz cz z).
Proof.
  intros Hx Hy Hz H. unfold cuboid_points, at_ in H. cbn [nth] in H. cbv zeta in H. cbn [nth] in H.
  pose proof (rfloor_fits sx Hx) as Fx. pose proof (rfloor_fits sy Hy) as Fy. pose proof (rfloor_fits sz Hz) as Fz.
  set (nx := rfloor (sx / dx)) in *. set (ny := rfloor (sy / dy)) in *. set (nz := rfloor (sz / dz)) in *.
  apply bind_ok in H as (u & Hu & H). destruct (_ && _) eqn:Q in Hu; [clear Hu|discriminate]. injection H as <-.
  assert (H1 : (1 <= nx)%Z) by lia. assert (H2 : (1 <= ny)%Z) by lia. assert (H3 : (1 <= nz)%Z) by lia. rewrite !centred_axis_eq by auto.
  exists nx, ny, nz. do 4 (split; [auto|]).
  assert (G : forall p, In p (map (fun p0 => vadd p0 (low_lim [sx; sy; sz] [cx; cy; cz])) (mesh3 (map (fun k => placed nx dx (sx / 2) k) (zrange 0 nx)) (map (fun k => placed ny dy (sy / 2) k) (zrange 0 ny)) (map (fun k => placed nz dz (sz / 2) k) (zrange 0 nz)))) <->
    exists i j k, (0 <= i < nx /\ 0 <= j < ny /\ 0 <= k < nz)%Z /\ p = [placed nx dx cx i; placed ny dy cy j; placed nz dz cz k]).
  { intros p. rewrite in_map_iff. split.
    - intros (q & <- & H). apply In_mesh3 in H as (x & y & z & A & B & C & ->). apply in_map_iff in A as (i & <- & A). apply in_map_iff in B as (j & <- & B). apply in_map_iff in C as (k & <- & C). apply In_zrange in A, B, C. exists i, j, k. split; [lia|].
      unfold vadd, low_lim, vzip, placed. cbn. f_equal; [field|f_equal; [field|f_equal; field]].
    - intros (i & j & k & R0 & ->). exists [placed nx dx (sx / 2) i; placed ny dy (sy / 2) j; placed nz dz (sz / 2) k]. split. { unfold vadd, low_lim, vzip, placed. cbn. f_equal; [field|f_equal; [field|f_equal; field]]. }
      apply In_mesh3. exists (placed nx dx (sx / 2) i), (placed ny dy (sy / 2) j), (placed nz dz (sz / 2) k). split; [|split; [|split; [|auto]]]; apply in_map_iff; eexists; (split; [reflexivity|apply In_zrange; lia]). }
  split; [|split; [exact G|]].
  - unfold zlen. rewrite map_length. unfold mesh3. rewrite (@length_flat_map _ _ _ _ (Z.to_nat nx * Z.to_nat nz)); [rewrite map_length, length_zrange; nia|]. intros y. rewrite (@length_flat_map _ _ _ _ (Z.to_nat nz)); [rewrite map_length, length_zrange; auto|]. intros x. rewrite !map_length, length_zrange. auto.
  - intros p Hp. apply G in Hp as (i & j & k & R0 & ->). do 3 eexists. split; [reflexivity|]. unfold fits in *. split; [|split]; apply placed_within; auto; try lia; lra.
Qed.
(** C48: the spacing given to the constructor is used if none is given, one number stands for all axes *)
Theorem C48_cuboid_spacing sides center own other r : cuboid_points sides center own None = cuboid_points sides center other (Some own) /\ cuboid_points sides center own (Some (SameSpacing r)) = cuboid_points sides center own (Some (EachSpacing [r; r; r])).
Proof. split; reflexivity. Qed.
(** C48: there is no grid exactly if some side is shorter than its spacing *)
Theorem C48_cuboid_fails sx sy sz cx cy cz dx dy dz own : 0 < dx -> 0 < dy -> 0 < dz ->
  (cuboid_points [sx; sy; sz] [cx; cy; cz] own (Some (EachSpacing [dx; dy; dz])) = Err AssertionError <-> sx < dx \/ sy < dy \/ sz < dz) /\
  (~ (sx < dx \/ sy < dy \/ sz < dz) -> exists pts, cuboid_points [sx; sy; sz] [cx; cy; cz] own (Some (EachSpacing [dx; dy; dz])) = Ok pts).
Proof.
  intros Hx Hy Hz. unfold cuboid_points, at_. cbn [nth]. cbv zeta. cbn [nth].
  assert (L : forall s d, 0 < d -> ((1 <= rfloor (s / d))%Z <-> d <= s)). { intros s d Hd. pose proof (rfloor_fits s Hd) as F. unfold fits in F. set (n := rfloor (s / d)) in *. split; intros H. - apply IZR_le in H. assert (1 * d <= IZR n * d) by (apply Rmult_le_compat_r; lra). lra.
    - destruct (Z_lt_ge_dec n 1) as [K|K]; [|lia]. exfalso. assert (IZR n + 1 <= 1) by (rewrite <- plus_IZR; apply IZR_le; lia). assert ((IZR n + 1) * d <= 1 * d) by (apply Rmult_le_compat_r; lra). lra. }
  pose proof (L sx dx Hx). pose proof (L sy dy Hy). pose proof (L sz dz Hz). set (nx := rfloor (sx / dx)) in *. set (ny := rfloor (sy / dy)) in *. set (nz := rfloor (sz / dz)) in *.
  destruct ((1 <=? nx)%Z && (1 <=? ny)%Z && (1 <=? nz)%Z) eqn:Q; cbn [passert bind].
  - split; [|eauto]. split; [discriminate|]. intros [K|[K|K]]; exfalso; lia || (assert (dx <= sx /\ dy <= sy /\ dz <= sz) by (split; [|split]; [apply H|apply H0|apply H1]; lia); lra).
  - assert (K : sx < dx \/ sy < dy \/ sz < dz). { destruct (Rlt_dec sx dx); auto. destruct (Rlt_dec sy dy); auto. destruct (Rlt_dec sz dz); auto. exfalso. assert (1 <= nx /\ 1 <= ny /\ 1 <= nz)%Z by (split; [|split]; [apply H|apply H0|apply H1]; lra). lia. }
    split; [split; auto|]. intros N. contradiction.
Qed.
(** C48: the grid of a rectangle, in the plane or in space *)
Theorem C48_rectangle_grid sx sy center dx dy dim cx cy pts : 0 < dx -> 0 < dy -> (dim = 2 /\ center = [cx; cy] \/ exists cz, dim = 3 /\ center = [cx; cy; cz])%Z ->
  rectangle_points [sx; sy] center [dx; dy] dim = Ok pts ->
  exists nx ny, (1 <= nx /\ 1 <= ny)%Z /\ fits nx dx sx /\ fits ny dy sy /\ zlen pts = (nx * ny)%Z /\
    (forall p, In p pts <-> exists i j, (0 <= i < nx /\ 0 <= j < ny)%Z /\ p = [placed nx dx cx i; placed ny dy cy j] ++ skipn 2 center) /\
    (forall p, In p pts -> exists x y, p = [x; y] ++ skipn 2 center /\ within sx cx x /\ within sy cy y).
Proof.
  intros Hx Hy HC H. unfold rectangle_points, at_ in H. cbn [nth] in H. cbv zeta in H. cbn [nth] in H.
  pose proof (rfloor_fits sx Hx) as Fx. pose proof (rfloor_fits sy Hy) as Fy.
  set (nx := rfloor (sx / dx)) in *. set (ny := rfloor (sy / dy)) in *.
  apply bind_ok in H as (u & Hu & H). destruct (_ && _) eqn:Q in Hu; [clear Hu|discriminate].
  assert (H1 : (1 <= nx)%Z) by lia. assert (H2 : (1 <= ny)%Z) by lia. rewrite !centred_axis_eq in H by auto.
  set (grid := mesh2 _ _) in H. assert (E : pts = map (fun p => vadd p (low_lim [sx; sy] [cx; cy]) ++ skipn 2 center) grid).
  { destruct HC as [[-> ->]|(cz & -> & ->)]; cbn [Z.eqb Pos.eqb] in H; injection H as <-; cbn [skipn]. - apply map_ext. intros p. rewrite app_nil_r. reflexivity. - rewrite map_map. apply map_ext. intros p. reflexivity. }
  exists nx, ny. do 3 (split; [auto|]).
  assert (G : forall p, In p pts <-> exists i j, (0 <= i < nx /\ 0 <= j < ny)%Z /\ p = [placed nx dx cx i; placed ny dy cy j] ++ skipn 2 center).
  { intros p. rewrite E, in_map_iff. split.
    - intros (q & <- & K). apply In_mesh2 in K as (x & y & A & B & ->). apply in_map_iff in A as (i & <- & A). apply in_map_iff in B as (j & <- & B). apply In_zrange in A, B. exists i, j. split; [lia|].
      f_equal. unfold vadd, low_lim, vzip, placed. cbn. f_equal; [field|f_equal; field].
    - intros (i & j & R0 & ->). exists [placed nx dx (sx / 2) i; placed ny dy (sy / 2) j]. split. { f_equal. unfold vadd, low_lim, vzip, placed. cbn. f_equal; [field|f_equal; field]. }
      apply In_mesh2. exists (placed nx dx (sx / 2) i), (placed ny dy (sy / 2) j). split; [|split; [|auto]]; apply in_map_iff; eexists; (split; [reflexivity|apply In_zrange; lia]). }
  split; [|split; [exact G|]].
  - rewrite E. unfold zlen. rewrite map_length. unfold grid, mesh2. rewrite (@length_flat_map _ _ _ _ (Z.to_nat nx)); [rewrite map_length, length_zrange; nia|]. intros y. rewrite !map_length, length_zrange. auto.
  - intros p Hp. apply G in Hp as (i & j & R0 & ->). do 2 eexists. split; [reflexivity|]. unfold fits in *. split; apply placed_within; auto; try lia; lra.
Qed.
(** C48: there is no grid exactly if some side is shorter than its spacing *)
Theorem C48_rectangle_fails sx sy center dx dy dim : 0 < dx -> 0 < dy ->
  (rectangle_points [sx; sy] center [dx; dy] dim = Err AssertionError <-> sx < dx \/ sy < dy) /\
  (~ (sx < dx \/ sy < dy) -> exists pts, rectangle_points [sx; sy] center [dx; dy] dim = Ok pts).
Proof.
  intros Hx Hy. unfold rectangle_points, at_. cbn [nth]. cbv zeta. cbn [nth].
  assert (L : forall s d, 0 < d -> ((1 <= rfloor (s / d))%Z <-> d <= s)). { intros s d Hd. pose proof (rfloor_fits s Hd) as F. unfold fits in F. set (n := rfloor (s / d)) in *. split; intros H. - apply IZR_le in H. assert (1 * d <= IZR n * d) by (apply Rmult_le_compat_r; lra). lra.
    - destruct (Z_lt_ge_dec n 1) as [K|K]; [|lia]. exfalso. assert (IZR n + 1 <= 1) by (rewrite <- plus_IZR; apply IZR_le; lia). assert ((IZR n + 1) * d <= 1 * d) by (apply Rmult_le_compat_r; lra). lra. }
  pose proof (L sx dx Hx). pose proof (L sy dy Hy). set (nx := rfloor (sx / dx)) in *. set (ny := rfloor (sy / dy)) in *.
  destruct ((1 <=? nx)%Z && (1 <=? ny)%Z) eqn:Q; cbn [passert bind].
  - split; [|eauto]. split; [discriminate|]. intros K. exfalso. assert (dx <= sx /\ dy <= sy) by (split; [apply H|apply H0]; lia). lra.
  - assert (K : sx < dx \/ sy < dy). { destruct (Rlt_dec sx dx); auto. destruct (Rlt_dec sy dy); auto. exfalso. assert (1 <= nx /\ 1 <= ny)%Z by (split; [apply H|apply H0]; lra). lia. }
    split; [split; auto|]. intros N. contradiction.
Qed.
Lemma In_axis n d x : In x (axis n d) <-> exists i, (0 <= i < n)%Z /\ x = IZR i * d.
Proof. unfold axis. rewrite in_map_iff. split. - intros (i & <- & H). apply In_zrange in H. eauto. - intros (i & H & ->). exists i. split; auto. apply In_zrange. auto. Qed.
(** C48: the grid of a disc: as many points along each axis as cover the diameter, placed symmetrically, those of them in the disc *)
Theorem C48_disc_grid r center dx dy dim cx cy : 0 < dx -> 0 < dy -> 0 <= r -> (dim = 2 /\ center = [cx; cy] \/ exists cz, dim = 3 /\ center = [cx; cy; cz])%Z ->
  exists nx ny, covers nx dx (2 * r) /\ covers ny dy (2 * r) /\
    forall p, In p (disc_points r center [dx; dy] dim) <->
      exists i j, (0 <= i < nx /\ 0 <= j < ny)%Z /\ p = [placed nx dx cx i; placed ny dy cy j] ++ skipn 2 center /\ in_circle r cx cy (placed nx dx cx i) (placed ny dy cy j).
Proof.
  intros Hx Hy Hr HC. exists (rceil (r * 2 / dx)), (rceil (r * 2 / dy)). rewrite (Rmult_comm 2 r). split; [apply rceil_covers; auto|]. split; [apply rceil_covers; auto|]. intros p.
  unfold disc_points, at_. cbn [nth]. cbv zeta. set (nx := rceil (r * 2 / dx)). set (ny := rceil (r * 2 / dy)). set (shift := [_; _]).
  assert (E : map (fun p0 => vadd p0 center) (if (dim =? 3)%Z then map (fun p0 => p0 ++ [0]) (filter (fun p0 => rle (norm p0) r) (map (fun p0 => vsub p0 shift) (mesh2 (axis nx dx) (axis ny dy)))) else filter (fun p0 => rle (norm p0) r) (map (fun p0 => vsub p0 shift) (mesh2 (axis nx dx) (axis ny dy)))) =
    map (fun p0 => vadd p0 [cx; cy] ++ skipn 2 center) (filter (fun p0 => rle (norm p0) r) (map (fun p0 => vsub p0 shift) (mesh2 (axis nx dx) (axis ny dy))))).
  { destruct HC as [[-> ->]|(cz & -> & ->)]; cbn [Z.eqb Pos.eqb skipn].
    - apply map_ext. intros q. rewrite app_nil_r. auto.
    - rewrite map_map. apply map_ext_in. intros q Hq. apply filter_In in Hq as [Hq _]. apply in_map_iff in Hq as (q' & <- & Hq). apply In_mesh2 in Hq as (x & y & _ & _ & ->). unfold vadd, vsub, vzip, shift. cbn. repeat f_equal. ring. }
  rewrite E, in_map_iff. split.
  - intros (q & <- & H). apply filter_In in H as [H HN]. apply in_map_iff in H as (q' & <- & H). apply In_mesh2 in H as (x & y & A & B & ->). apply In_axis in A as (i & A & ->). apply In_axis in B as (j & B & ->). exists i, j. split; [auto|]. apply norm_le in HN; auto. unfold vadd, vsub, vzip, shift, rsum in *. cbn in HN |- *.
    assert (E1 : IZR i * dx - IZR (nx - 1) * dx / 2 = placed nx dx cx i - cx) by (unfold placed; rewrite minus_IZR; field). assert (E2 : IZR j * dy - IZR (ny - 1) * dy / 2 = placed ny dy cy j - cy) by (unfold placed; rewrite minus_IZR; field).
    rewrite E1, E2 in *. split; [f_equal; [ring|f_equal; ring]|]. unfold in_circle. lra.
  - intros (i & j & R0 & -> & HN). exists [IZR i * dx - IZR (nx - 1) * dx / 2; IZR j * dy - IZR (ny - 1) * dy / 2].
    assert (E1 : IZR i * dx - IZR (nx - 1) * dx / 2 = placed nx dx cx i - cx) by (unfold placed; rewrite minus_IZR; field). assert (E2 : IZR j * dy - IZR (ny - 1) * dy / 2 = placed ny dy cy j - cy) by (unfold placed; rewrite minus_IZR; field).
    split. { unfold vadd, vzip. cbn. rewrite E1, E2. f_equal; [ring|f_equal; ring]. } apply filter_In. split.
    + apply in_map_iff. exists [IZR i * dx; IZR j * dy]. split; [reflexivity|]. apply In_mesh2. exists (IZR i * dx), (IZR j * dy). split; [|split; [|auto]]; apply In_axis; eexists; (split; [|reflexivity]); lia.
    + apply norm_le; auto. unfold rsum. cbn. rewrite E1, E2. unfold in_circle in HN. lra.
Qed.
(** C48: the grid of a cylinder; the height is covered in the same way and not left *)
Theorem C48_cylinder_grid r h cx cy cz dx dy dz : 0 < dx -> 0 < dy -> 0 < dz -> 0 <= r ->
  exists nx ny nz, covers nx dx (2 * r) /\ covers ny dy (2 * r) /\ covers nz dz h /\
    (forall p, In p (cylinder_points r h [cx; cy; cz] [dx; dy; dz]) <->
      exists i j k, (0 <= i < nx /\ 0 <= j < ny /\ 0 <= k < nz)%Z /\ p = [placed nx dx cx i; placed ny dy cy j; placed nz dz cz k] /\ in_circle r cx cy (placed nx dx cx i) (placed ny dy cy j)) /\
    (forall p, In p (cylinder_points r h [cx; cy; cz] [dx; dy; dz]) -> exists x y z, p = [x; y; z] /\ in_circle r cx cy x y /\ within h cz z).
Proof.
  intros Hx Hy Hz Hr. exists (rceil (r * 2 / dx)), (rceil (r * 2 / dy)), (rceil (h / dz)). rewrite (Rmult_comm 2 r). split; [apply rceil_covers; auto|]. split; [apply rceil_covers; auto|]. split; [apply rceil_covers; auto|].
  pose proof (rceil_covers h Hz) as CZ. unfold cylinder_points, at_. cbn [nth map]. cbv zeta. cbn [nth map]. set (nx := rceil (r * 2 / dx)) in *. set (ny := rceil (r * 2 / dy)) in *. set (nz := rceil (h / dz)) in *.
  match goal with |- (forall p, @?A p <-> @?B p) /\ _ => assert (G : forall p, A p <-> B p); cbv beta end.
  2:{ split; [exact G|]. intros p Hp. apply G in Hp as (i & j & k & R0 & -> & HC). do 3 eexists. split; [reflexivity|]. split; [exact HC|]. apply placed_within; auto; [lia|]. unfold covers in CZ. lra. }
  intros p. rewrite in_map_iff.
  assert (E1 : forall i, IZR i * dx - IZR (nx - 1) * dx / 2 = placed nx dx cx i - cx) by (intros; unfold placed; rewrite minus_IZR; field). assert (E2 : forall j, IZR j * dy - IZR (ny - 1) * dy / 2 = placed ny dy cy j - cy) by (intros; unfold placed; rewrite minus_IZR; field). assert (E3 : forall k, IZR k * dz - IZR (nz - 1) * dz / 2 = placed nz dz cz k - cz) by (intros; unfold placed; rewrite minus_IZR; field).
  split.
  - intros (q & <- & H). apply filter_In in H as [H HN]. apply in_map_iff in H as (q' & <- & H). apply In_mesh3_ij in H as (x & y & z & A & B & C & ->). apply In_axis in A as (i & A & ->). apply In_axis in B as (j & B & ->). apply In_axis in C as (k & C & ->). exists i, j, k. split; [auto|]. apply norm_le in HN; auto. unfold vadd, vsub, vzip, rsum in *. cbn in HN |- *.
    rewrite E1, E2 in *. rewrite E3. split; [f_equal; [ring|f_equal; [ring|f_equal; ring]]|]. unfold in_circle. lra.
  - intros (i & j & k & R0 & -> & HN). exists [placed nx dx cx i - cx; placed ny dy cy j - cy; placed nz dz cz k - cz].
    split. { unfold vadd, vzip. cbn. f_equal; [ring|f_equal; [ring|f_equal; ring]]. } apply filter_In. split.
    + apply in_map_iff. exists [IZR i * dx; IZR j * dy; IZR k * dz]. split; [unfold vsub, vzip; cbn; rewrite E1, E2, E3; reflexivity|]. apply In_mesh3_ij. exists (IZR i * dx), (IZR j * dy), (IZR k * dz). split; [|split; [|split; [|auto]]]; apply In_axis; eexists; (split; [|reflexivity]); lia.
    + apply norm_le; auto. unfold rsum. cbn. unfold in_circle in HN. lra.
Qed.
Lemma select_map {A} (f : A -> bool) l : select l (map f l) = filter f l.
Proof. unfold select. induction l as [|x r IH]; cbn; auto. destruct (f x); cbn; rewrite IH; auto. Qed.
(** C48: the grid of a ball: the points of the grid of the cube around it that are in it *)
Theorem C48_ball_grid r cx cy cz dx dy dz pts : 0 < dx -> 0 < dy -> 0 < dz -> 0 <= r -> ball_points r [cx; cy; cz] [dx; dy; dz] = Ok pts ->
  exists nx ny nz, fits nx dx (2 * r) /\ fits ny dy (2 * r) /\ fits nz dz (2 * r) /\
    forall p, In p pts <-> exists i j k, (0 <= i < nx /\ 0 <= j < ny /\ 0 <= k < nz)%Z /\ p = [placed nx dx cx i; placed ny dy cy j; placed nz dz cz k] /\
      in_sphere r cx cy cz (placed nx dx cx i) (placed ny dy cy j) (placed nz dz cz k).
Proof.
  intros Hx Hy Hz Hr H. unfold ball_points in H. apply bind_ok in H as (grid & HG & H). injection H as <-. rewrite (proj1 (@C48_cuboid_spacing _ _ (EachSpacing [dx; dy; dz]) (SameSpacing 0) 0)) in HG.
  destruct (C48_cuboid_grid _ _ _ _ _ _ _ Hx Hy Hz HG) as (nx & ny & nz & _ & F1 & F2 & F3 & _ & G & _). exists nx, ny, nz. do 3 (split; [auto|]). intros p.
  unfold ball_is_in. rewrite select_map. rewrite filter_In, in_map_iff.
  assert (E : forall n d c i, placed n d 0 i + c = placed n d c i) by (intros; unfold placed; ring). split.
  - intros [(q & <- & Hq) HN]. apply G in Hq as (i & j & k & R0 & ->). exists i, j, k. split; [auto|]. apply norm_le in HN; auto. unfold vadd, vsub, vzip, rsum in *. cbn in HN |- *. rewrite !E in *. split; auto. unfold in_sphere. lra.
  - intros (i & j & k & R0 & -> & HN). split.
    + exists [placed nx dx 0 i; placed ny dy 0 j; placed nz dz 0 k]. split; [unfold vadd, vzip; cbn; rewrite !E; reflexivity|]. apply G. exists i, j, k. auto.
    + apply norm_le; auto. unfold vsub, vzip, rsum. cbn. unfold in_sphere in HN. lra.
Qed.

(* ------------------------------------------------------------------ C48, C65: random points *)
Section Sampling.
Context {G : Type} (next : G -> R * G) (Hunit : forall g, 0 <= fst (next g) < 1).
(** the generator after [k] numbers, and the number it gives then *)
Fixpoint moved (g : G) (k : nat) : G := match k with O => g | S k => moved (snd (next g)) k end.
Definition number (g : G) (k : nat) : R := fst (next (moved g k)).

Lemma moved_add g a : forall b, moved g (a + b) = moved (moved g a) b.
Proof. revert g. induction a as [|a IH]; intros g b; cbn; auto. Qed.
Lemma number_add g a b : number g (a + b) = number (moved g a) b.
Proof. unfold number. rewrite moved_add. auto. Qed.
Lemma number_range g k : 0 <= number g k < 1.
Proof. apply Hunit. Qed.
Lemma uniform_eq low high n : forall g, uniform next low high n g = (map (fun i => low + (high - low) * number g i) (seq 0 n), moved g n).
Proof.
  induction n as [|n IH]; intros g; auto. cbn [uniform]. unfold uniform1. destruct (next g) as [u g1] eqn:Q. rewrite IH. cbn [seq map]. rewrite <- seq_shift, map_map. assert (E : number g 0 = u) by (unfold number; cbn; rewrite Q; auto). rewrite E. cbn [moved]. rewrite Q. cbn [snd]. f_equal. f_equal. apply map_ext. intros i. unfold number. cbn [moved]. rewrite Q. auto.
Qed.
Definition triple (low high : list R) (g : G) (i : nat) : list R :=
  [at_ low 0 + (at_ high 0 - at_ low 0) * number g (3 * i); at_ low 1 + (at_ high 1 - at_ low 1) * number g (3 * i + 1); at_ low 2 + (at_ high 2 - at_ low 2) * number g (3 * i + 2)].
Lemma triple_moved low high g a i : triple low high (moved g (3 * a)) i = triple low high g (a + i).
Proof. unfold triple. rewrite <- !number_add. replace (3 * a + 3 * i)%nat with (3 * (a + i))%nat by lia. replace (3 * a + (3 * i + 1))%nat with (3 * (a + i) + 1)%nat by lia. replace (3 * a + (3 * i + 2))%nat with (3 * (a + i) + 2)%nat by lia. auto. Qed.
Lemma uniform_rows_eq low high n : forall g, uniform_rows next low high n g = (map (triple low high g) (seq 0 n), moved g (3 * n)).
Proof.
  induction n as [|n IH]; intros g; auto. cbn [uniform_rows]. unfold uniform1. destruct (next g) as [u g1] eqn:Q1. destruct (next g1) as [v g2] eqn:Q2. destruct (next g2) as [w g3] eqn:Q3. rewrite IH.
  assert (E3 : g3 = moved g (3 * 1)) by (cbn; rewrite Q1; cbn; rewrite Q2; cbn; rewrite Q3; auto). f_equal.
  - cbn [seq map]. f_equal; [unfold triple, number; cbn; rewrite Q1; cbn; rewrite Q2; cbn; rewrite Q3; auto|]. rewrite <- seq_shift, map_map. apply map_ext. intros i. rewrite E3, triple_moved. auto.
  - rewrite E3, <- moved_add. f_equal. lia.
Qed.
Lemma scaled_within s c u : 0 <= s -> 0 <= u < 1 -> within s c (c + s * (u - 1 / 2)).
Proof. intros Hs Hu. unfold within. assert (0 <= s * u <= s * 1) by (split; [apply Rmult_le_pos; lra|apply Rmult_le_compat_l; lra]). lra. Qed.

(** C65: the i-th random point of a cuboid is an affine image of three numbers of the generator, each used once *)
Theorem C65_cuboid sx sy sz cx cy cz n g : cuboid_sample next [sx; sy; sz] [cx; cy; cz] n g =
  (map (fun i => [cx + sx * (number g (3 * i) - 1 / 2); cy + sy * (number g (3 * i + 1) - 1 / 2); cz + sz * (number g (3 * i + 2) - 1 / 2)]) (seq 0 n), moved g (3 * n)).
Proof.
  unfold cuboid_sample. rewrite uniform_rows_eq. f_equal. apply map_ext. intros i. unfold triple, at_, low_lim, high_lim, vzip. cbn [combine map fst snd nth]. f_equal; [field|f_equal; [field|f_equal; field]].
Qed.
(** C48: the requested number of random points, all in the cuboid *)
Theorem C48_cuboid_sample sx sy sz cx cy cz n g : 0 <= sx -> 0 <= sy -> 0 <= sz -> let pts := fst (cuboid_sample next [sx; sy; sz] [cx; cy; cz] n g) in
  length pts = n /\ forall p, In p pts -> exists x y z, p = [x; y; z] /\ within sx cx x /\ within sy cy y /\ within sz cz z.
Proof.
  intros Hx Hy Hz. rewrite C65_cuboid. cbn [fst]. split; [rewrite map_length, seq_length; auto|]. intros p Hp. apply in_map_iff in Hp as (i & <- & _). do 3 eexists. split; [reflexivity|]. split; [|split]; apply scaled_within; auto; apply number_range.
Qed.
Lemma combine_map_seq {A B} (f h : nat -> A) (c : A * A -> B) n : map c (combine (map f (seq 0 n)) (map h (seq 0 n))) = map (fun i => c (f i, h i)) (seq 0 n).
Proof. generalize 0%nat. induction n as [|n IH]; intros k; cbn; auto. rewrite IH. auto. Qed.
(** C65: the first half of the numbers is used for the first coordinate, the second half for the second one *)
Theorem C65_rectangle sx sy center cx cy dim n g : (dim = 2 /\ center = [cx; cy] \/ exists cz, dim = 3 /\ center = [cx; cy; cz])%Z ->
  rectangle_sample next [sx; sy] center dim n g = (map (fun i => [cx + sx * (number g i - 1 / 2); cy + sy * (number g (n + i) - 1 / 2)] ++ skipn 2 center) (seq 0 n), moved g (n + n)).
Proof.
  intros HC. unfold rectangle_sample. rewrite !uniform_eq, combine_map_seq. rewrite <- moved_add. f_equal.
  assert (E : forall i, number (moved g n) i = number g (n + i)) by (intros; rewrite number_add; auto).
  destruct HC as [[-> ->]|(cz & -> & ->)]; cbn [Z.eqb Pos.eqb]; [|rewrite map_map]; apply map_ext; intros i; rewrite E; unfold at_, low_lim, high_lim, vzip; cbn [combine map fst snd nth skipn app]; repeat (apply cons_eq; [field|]); reflexivity.
Qed.
Theorem C48_rectangle_sample sx sy center cx cy dim n g : (dim = 2 /\ center = [cx; cy] \/ exists cz, dim = 3 /\ center = [cx; cy; cz])%Z -> 0 <= sx -> 0 <= sy ->
  let pts := fst (rectangle_sample next [sx; sy] center dim n g) in
  length pts = n /\ forall p, In p pts -> exists x y, p = [x; y] ++ skipn 2 center /\ within sx cx x /\ within sy cy y.
Proof.
  intros HC Hx Hy. rewrite (C65_rectangle _ _ _ _ HC). cbn [fst]. split; [rewrite map_length, seq_length; auto|]. intros p Hp. apply in_map_iff in Hp as (i & <- & _). do 2 eexists. split; [reflexivity|]. split; apply scaled_within; auto; apply number_range.
Qed.
(** C65: the random points of a disc in polar coordinates: the radius is [r] times the root of a number, the angle 2 pi times another one *)
Theorem C65_disc r center cx cy dim n g : (dim = 2 /\ center = [cx; cy] \/ exists cz, dim = 3 /\ center = [cx; cy; cz])%Z ->
  disc_sample next r center dim n g = (map (fun i => [cx + r * sqrt (number g i) * cos (2 * PI * number g (n + i)); cy + r * sqrt (number g i) * sin (2 * PI * number g (n + i))] ++ skipn 2 center) (seq 0 n), moved g (n + n)).
Proof.
  intros HC. unfold disc_sample. rewrite !uniform_eq. rewrite <- moved_add. f_equal.
  assert (E : forall i, number (moved g n) i = number g (n + i)) by (intros; rewrite number_add; auto).
  assert (E0 : forall x, 0 + (1 - 0) * x = x) by (intros; ring).
  destruct HC as [[-> ->]|(cz & -> & ->)]; cbn [Z.eqb Pos.eqb]; rewrite !map_map, combine_map_seq; apply map_ext; intros i; rewrite !E0, E; unfold at_; cbn [fst snd nth skipn app]; repeat (apply cons_eq; [ring|]); reflexivity.
Qed.
Lemma polar_square rho a cx cy : (cx + rho * cos a - cx) * (cx + rho * cos a - cx) + (cy + rho * sin a - cy) * (cy + rho * sin a - cy) = rho * rho.
Proof. replace (_ + _) with (rho * rho * ((sin a)² + (cos a)²)) by (unfold Rsqr; ring). rewrite sin2_cos2. ring. Qed.
Lemma root_square r u : 0 <= u -> r * sqrt u * (r * sqrt u) = r * r * u.
Proof. intros H. replace (r * sqrt u * (r * sqrt u)) with (r * r * (sqrt u * sqrt u)) by ring. rewrite sqrt_sqrt by auto. auto. Qed.
Theorem C48_disc_sample r center cx cy dim n g : (dim = 2 /\ center = [cx; cy] \/ exists cz, dim = 3 /\ center = [cx; cy; cz])%Z ->
  let pts := fst (disc_sample next r center dim n g) in
  length pts = n /\ forall p, In p pts -> exists x y, p = [x; y] ++ skipn 2 center /\ in_circle r cx cy x y.
Proof.
  intros HC. rewrite (C65_disc _ _ _ HC). cbn [fst]. split; [rewrite map_length, seq_length; auto|]. intros p Hp. apply in_map_iff in Hp as (i & <- & _). do 2 eexists. split; [reflexivity|].
  unfold in_circle. rewrite polar_square, root_square by apply number_range. pose proof (number_range g i). rewrite <- (Rmult_1_r (r * r)) at 2. apply Rmult_le_compat_l; [apply Rle_0_sqr|lra].
Qed.
(** C65: a point is in a smaller circle exactly if its number is below the quotient of the areas *)
Theorem C65_disc_uniform r rho center cx cy dim n g i x y : (dim = 2 /\ center = [cx; cy] \/ exists cz, dim = 3 /\ center = [cx; cy; cz])%Z -> 0 < r ->
  nth_error (fst (disc_sample next r center dim n g)) i = Some ([x; y] ++ skipn 2 center) ->
  (in_circle rho cx cy x y <-> number g i <= (PI * (rho * rho)) / (PI * (r * r))).
Proof.
  intros HC Hr H. rewrite (C65_disc _ _ _ HC) in H. cbn [fst] in H. assert (Hi : (i < n)%nat). { destruct (Nat.lt_ge_cases i n) as [|L]; auto. exfalso. rewrite (proj2 (nth_error_None _ _)) in H; [discriminate|rewrite map_length, seq_length; lia]. }
  assert (HS : nth_error (seq 0 n) i = Some i). { rewrite nth_error_nth' with (d := 0%nat) by (rewrite seq_length; auto). rewrite seq_nth by auto. auto. }
  rewrite (map_nth_error _ _ _ HS) in H. injection H as <- <-. unfold in_circle. rewrite polar_square, root_square by apply number_range. pose proof PI_RGT_0.
  replace (PI * (rho * rho) / (PI * (r * r))) with (rho * rho / (r * r)) by (field; lra). rewrite div_le by (apply Rmult_lt_0_compat; auto). lra.
Qed.
(** C65: the random points of a cylinder: as on a disc, with a third series of numbers for the height *)
Theorem C65_cylinder r h cx cy cz n g : cylinder_sample next r h [cx; cy; cz] n g =
  (map (fun i => [cx + r * sqrt (number g i) * cos (2 * PI * number g (n + i)); cy + r * sqrt (number g i) * sin (2 * PI * number g (n + i)); cz + h * (number g (n + n + i) - 1 / 2)]) (seq 0 n), moved g (n + n + n)).
Proof.
  unfold cylinder_sample. rewrite !uniform_eq, !map_map. rewrite <- !moved_add. f_equal.
  assert (C3 : forall (f h' k : nat -> R) (c : R * R * R -> list R) m a, map c (combine (combine (map f (seq a m)) (map h' (seq a m))) (map k (seq a m))) = map (fun i => c (f i, h' i, k i)) (seq a m)) by (clear; intros f h' k c m; induction m as [|m IH]; intros a; cbn; auto; rewrite IH; auto).
  rewrite C3. assert (E0 : forall x, 0 + (1 - 0) * x = x) by (intros; ring). apply map_ext. intros i. rewrite !E0, <- !number_add. unfold at_. cbn [fst snd nth]. repeat (apply cons_eq; [try ring; field|]); reflexivity.
Qed.
Theorem C48_cylinder_sample r h cx cy cz n g : 0 <= h -> let pts := fst (cylinder_sample next r h [cx; cy; cz] n g) in
  length pts = n /\ forall p, In p pts -> exists x y z, p = [x; y; z] /\ in_circle r cx cy x y /\ within h cz z.
Proof.
  intros Hh. rewrite C65_cylinder. cbn [fst]. split; [rewrite map_length, seq_length; auto|]. intros p Hp. apply in_map_iff in Hp as (i & <- & _). do 3 eexists. split; [reflexivity|]. split.
  - unfold in_circle. rewrite polar_square, root_square by apply number_range. pose proof (number_range g i). rewrite <- (Rmult_1_r (r * r)) at 2. apply Rmult_le_compat_l; [apply Rle_0_sqr|lra].
  - apply scaled_within; auto. apply number_range.
Qed.

(** the [k]-th candidate point of a ball around the origin, and the first candidates that are in the ball *)
Definition candidate (r : R) (g : G) (k : nat) : list R := [r * (2 * number g (3 * k) - 1); r * (2 * number g (3 * k + 1) - 1); r * (2 * number g (3 * k + 2) - 1)].
Definition inside0 (r : R) (p : list R) : bool := rle (rsum (map (fun x => x * x) p)) (r * r).
Definition kept (r : R) (g : G) (m : nat) : list (list R) := filter (inside0 r) (map (candidate r g) (seq 0 m)).
Lemma kept_add r g a b : kept r g (a + b) = kept r g a ++ filter (inside0 r) (map (candidate r g) (seq a b)).
Proof. unfold kept. rewrite seq_app, map_app, filter_app. auto. Qed.
Lemma round_eq r n g K : 0 <= r -> filter (fun p => rle (norm p) r) (fst (uniform_rows next [- r; - r; - r] [r; r; r] n (moved g (3 * K)))) = filter (inside0 r) (map (candidate r g) (seq K n)).
Proof.
  intros Hr. rewrite uniform_rows_eq. cbn [fst]. assert (E : map (triple [- r; - r; - r] [r; r; r] (moved g (3 * K))) (seq 0 n) = map (candidate r g) (seq K n)).
  { replace (seq K n) with (map (fun i => (K + i)%nat) (seq 0 n)). 2:{ clear. assert (X : forall a, map (fun i => (K + i)%nat) (seq a n) = seq (K + a) n) by (induction n as [|n IH]; intros a; cbn; auto; rewrite IH; f_equal; f_equal; lia). rewrite X. f_equal. lia. }
    rewrite map_map. apply map_ext. intros i. rewrite triple_moved. unfold triple, candidate, at_. cbn [nth]. f_equal; [ring|f_equal; [ring|f_equal; ring]]. }
  rewrite E. apply filter_ext. intros p. unfold inside0. pose proof (@norm_le p r Hr) as L. assert (X : map (fun x => x ^ 2) p = map (fun x => x * x) p) by (apply map_ext; intros; ring). rewrite X in L. pose proof (rle_spec (rsum (map (fun x => x * x) p)) (r * r)) as L'. destruct (rle (norm p) r), (rle (rsum _) (r * r)); auto; [symmetry; apply L', L; auto|apply L, L'; auto].
Qed.
Lemma firstn_min {A} (l : list A) m : firstn (Nat.min (length l) m) l = firstn m l.
Proof. destruct (Nat.min_spec (length l) m) as [[H ->]|[H ->]]; auto. rewrite !firstn_all2; auto; lia. Qed.
Lemma ball_loop_eq r n g : 0 <= r -> forall fuel K s g', (length (kept r g (K * n)) <= n)%nat -> ball_loop next fuel r n (kept r g (K * n)) (moved g (3 * (K * n))) = Some (s, g') ->
  exists K', (K < K')%nat /\ (n <= length (kept r g (K' * n)))%nat /\ s = firstn n (kept r g (K' * n)) /\ g' = moved g (3 * (K' * n)).
Proof.
  intros Hr. induction fuel as [|fuel IH]; intros K s g' HK H; [discriminate|]. cbn [ball_loop] in H. destruct (uniform_rows _ _ _ _ _) as [us g1] eqn:Q.
  pose proof (round_eq n g (K * n) Hr) as HR. rewrite Q in HR. cbn [fst] in HR. rewrite HR in H. clear HR. rewrite uniform_rows_eq, <- moved_add in Q. replace (3 * (K * n) + 3 * n)%nat with (3 * (S K * n))%nat in Q by lia. assert (Qg : moved g (3 * (S K * n)) = g1) by congruence. rewrite <- Qg in H. clear Q Qg. rewrite firstn_min in H.
  assert (E : kept r g (K * n) ++ firstn (n - length (kept r g (K * n))) (filter (inside0 r) (map (candidate r g) (seq (K * n) n))) = firstn n (kept r g (S K * n))).
  { replace (S K * n)%nat with (K * n + n)%nat by lia. rewrite kept_add, firstn_app. f_equal. rewrite firstn_all2; auto. }
  rewrite E in H. destruct (Nat.leb_spec n (length (firstn n (kept r g (S K * n))))) as [L|L].
  - injection H as <- <-. exists (S K). split; [lia|]. split; [rewrite firstn_length in L; lia|]. split; [reflexivity|f_equal; lia].
  - rewrite firstn_length in L. assert (Hl : (length (kept r g (S K * n)) < n)%nat) by lia. rewrite firstn_all2 in H by lia. apply IH in H as (K' & H1 & H2); [|lia]. exists K'. split; [lia|auto].
Qed.
Lemma kept_mono r g a b : (a <= b)%nat -> exists l, kept r g b = kept r g a ++ l.
Proof. intros H. replace b with (a + (b - a))%nat by lia. rewrite kept_add. eauto. Qed.
(** C65: the random points of a ball are the first candidates that are in the ball *)
Theorem C65_ball fuel r cx cy cz n g pts g' : 0 <= r -> ball_sample next fuel r [cx; cy; cz] n g = Some (pts, g') ->
  exists m, length (firstn n (kept r g m)) = n /\ g' = moved g (3 * m) /\ Forall2 (fun p q => exists x y z, q = [x; y; z] /\ p = [x + cx; y + cy; z + cz]) pts (firstn n (kept r g m)).
Proof.
  intros Hr H. unfold ball_sample in H. destruct (ball_loop _ _ _ _ _ _) as [[s g1]|] eqn:Q; [|discriminate]. injection H as <- <-. apply (@ball_loop_eq r n g Hr fuel 0) in Q as (K & _ & HK & -> & ->); [|cbn; lia].
  exists (K * n)%nat. split; [rewrite firstn_length; lia|]. split; auto. assert (HI : forall q, In q (firstn n (kept r g (K * n))) -> exists x y z, q = [x; y; z]). { intros q Hq. assert (Hq' : In q (kept r g (K * n))) by (rewrite <- (firstn_skipn n (kept r g (K * n))); apply in_or_app; auto). apply filter_In in Hq' as [Hq' _]. apply in_map_iff in Hq' as (i & <- & _). unfold candidate. eauto. }
  induction (firstn n (kept r g (K * n))) as [|q l IH]; [constructor|]. cbn [map]. constructor; [|apply IH; intros; apply HI; right; auto]. destruct (HI q) as (x & y & z & ->); [left; auto|]. exists x, y, z. split; auto.
Qed.
Theorem C48_ball_sample fuel r cx cy cz n g pts g' : 0 <= r -> ball_sample next fuel r [cx; cy; cz] n g = Some (pts, g') ->
  length pts = n /\ forall p, In p pts -> exists x y z, p = [x; y; z] /\ in_sphere r cx cy cz x y z.
Proof.
  intros Hr H. destruct (@C65_ball _ _ _ _ _ _ _ _ _ Hr H) as (m & HL & _ & HF). split; [rewrite <- HL; clear - HF; induction HF; cbn; auto|].
  assert (HI : forall q, In q (firstn n (kept r g m)) -> inside0 r q = true). { intros q Hq. assert (Hq' : In q (kept r g m)) by (rewrite <- (firstn_skipn n (kept r g m)); apply in_or_app; auto). apply filter_In in Hq'. apply Hq'. }
  clear HL H. induction HF as [|p q l l' (x & y & z & -> & ->) HF IH]; [intros p' []|]. intros p' [<-|Hp].
  - exists (x + cx), (y + cy), (z + cz). split; auto. specialize (HI _ (or_introl eq_refl)). unfold inside0 in HI. apply rle_spec in HI. unfold rsum in HI. cbn in HI. unfold in_sphere. lra.
  - apply IH; auto. intros q Hq. apply HI. right. auto.
Qed.
(** C48: the loop ends as soon as enough candidates have been in the ball *)
Theorem C48_ball_ends fuel r cx cy cz n g : 0 <= r -> (0 < fuel)%nat -> (n <= length (kept r g (fuel * n)))%nat -> exists pts g', ball_sample next fuel r [cx; cy; cz] n g = Some (pts, g').
Proof.
  intros Hr Hf HK. unfold ball_sample. assert (L : forall fuel K, (0 < fuel)%nat -> (length (kept r g (K * n)) <= n)%nat -> (n <= length (kept r g ((K + fuel) * n)))%nat -> exists s g', ball_loop next fuel r n (kept r g (K * n)) (moved g (3 * (K * n))) = Some (s, g')).
  { clear fuel Hf HK. induction fuel as [|fuel IH]; intros K Hf HK HE; [lia|]. cbn [ball_loop]. destruct (uniform_rows _ _ _ _ _) as [us g1] eqn:Q.
    pose proof (round_eq n g (K * n) Hr) as HR. rewrite Q in HR. cbn [fst] in HR. rewrite HR. clear HR. rewrite uniform_rows_eq, <- moved_add in Q. replace (3 * (K * n) + 3 * n)%nat with (3 * (S K * n))%nat in Q by lia. assert (Qg : moved g (3 * (S K * n)) = g1) by congruence. rewrite <- Qg. clear Q Qg. rewrite firstn_min.
    assert (E : kept r g (K * n) ++ firstn (n - length (kept r g (K * n))) (filter (inside0 r) (map (candidate r g) (seq (K * n) n))) = firstn n (kept r g (S K * n))).
    { replace (S K * n)%nat with (K * n + n)%nat by lia. rewrite kept_add, firstn_app. f_equal. rewrite firstn_all2; auto. }
    rewrite E. destruct (Nat.leb_spec n (length (firstn n (kept r g (S K * n))))) as [L|L]; [eauto|]. rewrite firstn_length in L. rewrite firstn_all2 by lia. destruct fuel as [|fuel]; [replace ((K + 1) * n)%nat with (S K * n)%nat in HE by lia; lia|].
    apply IH; [lia|lia|]. replace (S K + S fuel)%nat with (K + S (S fuel))%nat by lia. auto. }
  destruct (L fuel 0%nat Hf ltac:(cbn; lia) HK) as (s & g' & E). change (kept r g (0 * n)) with (@nil (list R)) in E. change (moved g (3 * (0 * n))) with g in E. rewrite E. eauto.
Qed.
End Sampling.

(* ------------------------------------------------------------------ C49: membership *)
Lemma vec3 (p : list R) : length p = 3%nat -> exists x y z, p = [x; y; z].
Proof. destruct p as [|x [|y [|z [|]]]]; try discriminate. eauto. Qed.
Lemma per_point {A} (f : A -> bool) (P : A -> Prop) (D : A -> Prop) l : (forall p, D p -> (f p = true <-> P p)) -> Forall D l -> Forall2 (fun p b => b = true <-> P p) l (map f l).
Proof. intros H HD. induction HD; cbn; constructor; auto. Qed.
Lemma box_spec s c pad x : rle (c - s / 2 - pad) x && rle x (c + s / 2 + pad) = true <-> within (s + 2 * pad) c x.
Proof. rewrite andb_true_iff, !rle_spec. unfold within. split; intros; lra. Qed.
(** C49: cuboids, balls and cylinders decide every coordinate on its own *)
Theorem C49_cuboid sx sy sz cx cy cz px py pz coordinates : Forall (fun p => length p = 3%nat) coordinates ->
  Forall2 (fun p b => b = true <-> exists x y z, p = [x; y; z] /\ within (sx + 2 * px) cx x /\ within (sy + 2 * py) cy y /\ within (sz + 2 * pz) cz z)
    coordinates (cuboid_is_in [sx; sy; sz] [cx; cy; cz] [px; py; pz] coordinates).
Proof.
  intros H. unfold cuboid_is_in. eapply per_point; [|exact H]. intros p Hp. destruct (vec3 _ Hp) as (x & y & z & ->). unfold at_, vsub, vadd, low_lim, high_lim, vzip. cbn [combine map fst snd nth].
  rewrite andb_true_iff, andb_true_iff, !box_spec. split.
  - intros [[A B] C]. exists x, y, z. auto.
  - intros (x' & y' & z' & E & A & B & C). injection E as <- <- <-. auto.
Qed.
Theorem C49_ball r cx cy cz coordinates : 0 <= r -> Forall (fun p => length p = 3%nat) coordinates ->
  Forall2 (fun p b => b = true <-> exists x y z, p = [x; y; z] /\ in_sphere r cx cy cz x y z) coordinates (ball_is_in r [cx; cy; cz] coordinates).
Proof.
  intros Hr H. unfold ball_is_in. eapply per_point; [|exact H]. intros p Hp. destruct (vec3 _ Hp) as (x & y & z & ->). rewrite norm_le by auto. unfold vsub, vzip, rsum. cbn [combine map fst snd fold_right]. split.
  - intros A. exists x, y, z. split; auto. unfold in_sphere. lra.
  - intros (x' & y' & z' & E & A). injection E as <- <- <-. unfold in_sphere in A. lra.
Qed.
Theorem C49_cylinder r h cx cy cz coordinates : 0 <= r -> Forall (fun p => length p = 3%nat) coordinates ->
  Forall2 (fun p b => b = true <-> exists x y z, p = [x; y; z] /\ in_circle r cx cy x y /\ within h cz z) coordinates (cylinder_is_in r h [cx; cy; cz] coordinates).
Proof.
  intros Hr H. unfold cylinder_is_in. eapply per_point; [|exact H]. intros p Hp. destruct (vec3 _ Hp) as (x & y & z & ->). cbv zeta. rewrite !andb_true_iff, norm_le, !rle_spec by auto. unfold vsub, vzip, rsum, at_. cbn [combine map fst snd fold_right firstn nth]. unfold within, in_circle. split.
  - intros [A B]. exists x, y, z. split; auto. split; lra.
  - intros (x' & y' & z' & E & A & B). injection E as <- <- <-. split; lra.
Qed.
(** the tolerance for the third coordinate in rectangles and discs *)
Definition near_plane (cz z : R) : Prop := Rabs (z - cz) <= / 10 ^ 8 + / 10 ^ 5 * Rabs cz.
Lemma off_plane_spec cx cy cz coordinates : Forall (fun p => length p = 3%nat) coordinates ->
  (off_plane [cx; cy; cz] 3 coordinates = false <-> forall x y z, In [x; y; z] coordinates -> near_plane cz z).
Proof.
  intros H. unfold off_plane. cbn [Z.eqb Pos.eqb]. rewrite negb_false_iff, forallb_forall. unfold isclose, at_. cbn [nth]. split.
  - intros A x y z Hp. apply A in Hp. cbn [nth] in Hp. apply rle_spec in Hp. exact Hp.
  - intros A p Hp. rewrite Forall_forall in H. destruct (vec3 _ (H _ Hp)) as (x & y & z & ->). cbn [nth]. apply rle_spec. apply (A x y z). auto.
Qed.
(** C49: rectangles and discs in space decide every coordinate on its own if all coordinates are in their plane *)
Theorem C49_rectangle_partial sx sy cx cy cz px py coordinates : Forall (fun p => length p = 3%nat) coordinates -> (forall x y z, In [x; y; z] coordinates -> near_plane cz z) ->
  exists l, rectangle_is_in [sx; sy] [cx; cy; cz] [px; py] 3 coordinates = PerPoint l /\
    Forall2 (fun p b => b = true <-> exists x y z, p = [x; y; z] /\ within (sx + 2 * px) cx x /\ within (sy + 2 * py) cy y) coordinates l.
Proof.
  intros H HP. unfold rectangle_is_in. rewrite (proj2 (off_plane_spec cx cy cz H) HP). eexists. split; [reflexivity|]. eapply per_point; [|exact H]. intros p Hp. destruct (vec3 _ Hp) as (x & y & z & ->). unfold at_, vsub, vadd, low_lim, high_lim, vzip. cbn [combine map fst snd nth].
  rewrite andb_true_iff, !box_spec. split.
  - intros [A B]. exists x, y, z. auto.
  - intros (x' & y' & z' & E & A & B). injection E as <- <- <-. auto.
Qed.
Theorem C49_disc_partial r cx cy cz coordinates : 0 <= r -> Forall (fun p => length p = 3%nat) coordinates -> (forall x y z, In [x; y; z] coordinates -> near_plane cz z) ->
  exists l, disc_is_in r [cx; cy; cz] 3 coordinates = PerPoint l /\ Forall2 (fun p b => b = true <-> exists x y z, p = [x; y; z] /\ in_circle r cx cy x y) coordinates l.
Proof.
  intros Hr H HP. unfold disc_is_in. rewrite (proj2 (off_plane_spec cx cy cz H) HP). eexists. split; [reflexivity|]. eapply per_point; [|exact H]. intros p Hp. destruct (vec3 _ Hp) as (x & y & z & ->). rewrite norm_le by auto. unfold vsub, vzip, rsum. cbn [combine map fst snd fold_right firstn]. unfold in_circle. split.
  - intros A. exists x, y, z. split; auto. lra.
  - intros (x' & y' & z' & E & A). injection E as <- <- <-. lra.
Qed.
(** C49: and in the plane always *)
Theorem C49_plane sx sy cx cy px py r coordinates : 0 <= r -> Forall (fun p => length p = 2%nat) coordinates ->
  (exists l, rectangle_is_in [sx; sy] [cx; cy] [px; py] 2 coordinates = PerPoint l /\
    Forall2 (fun p b => b = true <-> exists x y, p = [x; y] /\ within (sx + 2 * px) cx x /\ within (sy + 2 * py) cy y) coordinates l) /\
  (exists l, disc_is_in r [cx; cy] 2 coordinates = PerPoint l /\ Forall2 (fun p b => b = true <-> exists x y, p = [x; y] /\ in_circle r cx cy x y) coordinates l).
Proof.
  assert (vec2 : forall p : list R, length p = 2%nat -> exists x y, p = [x; y]) by (intros [|x [|y [|]]]; try discriminate; eauto).
  intros Hr H. split; (eexists; split; [reflexivity|]; eapply per_point; [|exact H]); intros p Hp; destruct (vec2 _ Hp) as (x & y & ->).
  - unfold at_, vsub, vadd, low_lim, high_lim, vzip. cbn [combine map fst snd nth]. rewrite andb_true_iff, !box_spec. split.
    + intros [A B]. exists x, y. auto.
    + intros (x' & y' & E & A & B). injection E as <- <-. auto.
  - rewrite norm_le by auto. unfold vsub, vzip, rsum. cbn [combine map fst snd fold_right firstn]. unfold in_circle. split.
    + intros A. exists x, y. split; auto. lra.
    + intros (x' & y' & E & A). injection E as <- <-. lra.
Qed.
(** C49: but one coordinate off the plane makes the answer for all of them a single False *)
Theorem C49_off_plane sides r cx cy cz pad coordinates x y z : Forall (fun p => length p = 3%nat) coordinates -> In [x; y; z] coordinates -> ~ near_plane cz z ->
  rectangle_is_in sides [cx; cy; cz] pad 3 coordinates = ScalarFalse /\ disc_is_in r [cx; cy; cz] 3 coordinates = ScalarFalse.
Proof.
  intros H Hp HN. unfold rectangle_is_in, disc_is_in. destruct (off_plane _ _ _) eqn:Q; auto. exfalso. apply HN. apply (proj1 (off_plane_spec cx cy cz H) Q x y z). auto.
Qed.
Lemma not_near : ~ near_plane 0 1.
Proof.
  unfold near_plane. rewrite Rabs_R0, Rmult_0_r, Rplus_0_r, Rminus_0_r, Rabs_R1. intros H. assert (/ 10 ^ 8 < 1); [|lra]. rewrite <- Rinv_1. apply Rinv_lt_contravar; lra.
Qed.
Lemma is_near c : near_plane c c.
Proof. unfold near_plane. rewrite Rminus_diag_eq by auto. rewrite Rabs_R0. apply Rplus_le_le_0_compat; [|apply Rmult_le_pos; [|apply Rabs_pos]]; left; apply Rinv_0_lt_compat; lra. Qed.
(** C49 is false for rectangles and discs in space: the middle point belongs to them, but not if another point is asked for with it *)
Theorem C49_refuted : exists p q,
  rectangle_is_in [2; 2] [0; 0; 0] [0; 0] 3 [p] = PerPoint [true] /\ rectangle_is_in [2; 2] [0; 0; 0] [0; 0] 3 [p; q] = ScalarFalse /\
  disc_is_in 1 [0; 0; 0] 3 [p] = PerPoint [true] /\ disc_is_in 1 [0; 0; 0] 3 [p; q] = ScalarFalse.
Proof.
  exists [0; 0; 0], [0; 0; 1]. assert (L1 : Forall (fun p : list R => length p = 3%nat) [[0; 0; 0]]) by (repeat constructor). assert (L2 : Forall (fun p : list R => length p = 3%nat) [[0; 0; 0]; [0; 0; 1]]) by (repeat constructor).
  assert (HP : forall x y z : R, In [x; y; z] [[0; 0; 0]] -> near_plane 0 z) by (intros x y z [E|[]]; injection E as <- <- <-; apply is_near).
  destruct (@C49_off_plane [2; 2] 1 0 0 0 [0; 0] _ 0 0 1 L2 (or_intror (or_introl eq_refl)) not_near) as [O1 O2].
  destruct (@C49_rectangle_partial 2 2 0 0 0 0 0 _ L1 HP) as (l & E1 & F1). destruct (@C49_disc_partial 1 0 0 0 _ ltac:(lra) L1 HP) as (l' & E2 & F2).
  rewrite E1, E2. inversion F1 as [|a b la lb A1 A2]; subst. inversion A2; subst. inversion F2 as [|a' b' la' lb' B1 B2]; subst. inversion B2; subst.
  rewrite (proj2 A1), (proj2 B1). { auto. }
  - exists 0, 0, 0. split; auto. unfold in_circle. lra.
  - exists 0, 0, 0. split; auto. unfold within. lra.
Qed.
(** C49 is false for combined regions: the question always fails *)
Theorem C49_combined_refuted {G} (c : combined (G := G)) coordinates : combined_is_in c coordinates = Err TypeError.
Proof. reflexivity. Qed.

(* ------------------------------------------------------------------ C50: combined regions *)
(** the limit below which the random number of the first [j] regions lies, by their volumes *)
Definition share (volumes : list R) (j : nat) : R := rsum (firstn j volumes) / rsum volumes.
Lemma rsum_pos l : Forall (Rlt 0) l -> 0 <= rsum l.
Proof. intros H. induction H; cbn; [lra|]. unfold rsum in IHForall. lra. Qed.
Lemma above_all u l : Forall (Rlt 0) l -> forall acc, u < acc -> length (filter (rlt u) (cumsum acc l)) = length l.
Proof. intros H. induction H as [|x l Hx H IH]; intros acc Hu; cbn; auto. rewrite (proj2 (rlt_spec u (acc + x))) by lra. cbn. rewrite IH; auto. lra. Qed.
Lemma count_above u l : Forall (Rlt 0) l -> forall j acc, (j < length l)%nat -> acc + rsum (firstn j l) <= u < acc + rsum (firstn (S j) l) -> length (filter (rlt u) (cumsum acc l)) = (length l - j)%nat.
Proof.
  intros H. induction H as [|x l Hx H IH]; intros j acc Hj Hu; [cbn in Hj; lia|]. cbn [cumsum filter]. destruct j as [|j].
  - unfold rsum in Hu. cbn in Hu. rewrite (proj2 (rlt_spec u (acc + x))) by lra. cbn [length]. rewrite above_all; auto. lra.
  - assert (E : rsum (firstn (S j) (x :: l)) = x + rsum (firstn j l) /\ rsum (firstn (S (S j)) (x :: l)) = x + rsum (firstn (S j) l)) by (split; reflexivity). destruct E as [E1 E2]. rewrite E1, E2 in Hu.
    assert (0 <= rsum (firstn j l)). { apply rsum_pos. clear - H. revert j. induction H; intros [|j]; cbn; constructor; auto. }
    rewrite (proj2 (rlt_false u (acc + x))) by lra. cbn [length] in *. rewrite (IH j); [lia|lia|lra].
Qed.
Lemma rsum_map_scale l c : rsum (map (fun v => v / c) l) = rsum l / c.
Proof. unfold rsum. induction l as [|x l IH]; cbn; [unfold Rdiv; ring|]. rewrite IH. unfold Rdiv. ring. Qed.
Section Shares.
Context (volumes : list R) (Hv : Forall (Rlt 0) volumes).
Notation k := (length volumes).
Lemma total_pos : volumes <> [] -> 0 < rsum volumes.
Proof. intros H. inversion Hv as [E|x l Hx Hl E]; [congruence|]. pose proof (rsum_pos Hl). unfold rsum in *. cbn. lra. Qed.
(** C50: region number k-1-j is taken for the random numbers in the j-th interval.  So the regions are taken with the volumes of the regions in reversed order. *)
Theorem C50_reversed_partial u j : (j < k)%nat -> share volumes j <= u < share volumes (S j) -> region_index volumes (rsum volumes) u = Z.of_nat (k - 1 - j).
Proof.
  intros Hj Hu. unfold region_index. assert (HT : 0 < rsum volumes) by (apply total_pos; destruct volumes; [cbn in Hj; lia|discriminate]). set (l := map (fun v => v / rsum volumes) volumes).
  assert (Hl : Forall (Rlt 0) l). { apply Forall_forall. intros x Hx. unfold l in Hx. apply in_map_iff in Hx as (v & <- & Hx). rewrite Forall_forall in Hv. apply Rdiv_lt_0_compat; auto. }
  assert (El : length l = k) by (unfold l; apply map_length). unfold zlen. rewrite (@count_above u l Hl j 0); [rewrite El; lia|lia|]. unfold l. rewrite !firstn_map, !rsum_map_scale. unfold share in Hu. lra.
Qed.
(** C50: the intervals follow each other from 0 to 1 and have the length of the volumes divided by their sum *)
Theorem C50_shares j v : nth_error volumes j = Some v -> share volumes 0 = 0 /\ share volumes k = 1 /\ share volumes (S j) - share volumes j = v / rsum volumes.
Proof.
  intros H. assert (HT : 0 < rsum volumes) by (apply total_pos; destruct volumes; [destruct j; discriminate|discriminate]). unfold share. split; [unfold rsum; cbn; field; unfold rsum in HT; lra|]. split; [rewrite firstn_all; field; lra|].
  assert (E : rsum (firstn (S j) volumes) = rsum (firstn j volumes) + v). { clear - H. revert j H. induction volumes as [|x l IH]; intros [|j] H; try discriminate. - injection H as ->. unfold rsum. cbn. ring. - change (rsum (firstn (S (S j)) (x :: l))) with (x + rsum (firstn (S j) l)). change (rsum (firstn (S j) (x :: l))) with (x + rsum (firstn j l)). rewrite (IH j H). ring. }
  rewrite E. field. lra.
Qed.
(** C50: every number between 0 and 1 is in one of the intervals *)
Theorem C50_cover u : 0 <= u < 1 -> volumes <> [] -> exists j, (j < k)%nat /\ share volumes j <= u < share volumes (S j).
Proof.
  intros Hu HN. pose proof (total_pos HN) as HT. assert (L : forall m, (m <= k)%nat -> u < share volumes m -> exists j, (j < m)%nat /\ share volumes j <= u < share volumes (S j)).
  { induction m as [|m IH]; intros Hm Hlt. - unfold share in Hlt. cbn in Hlt. unfold rsum in Hlt. cbn in Hlt. unfold Rdiv in Hlt. rewrite Rmult_0_l in Hlt. lra. - destruct (Rlt_dec u (share volumes m)) as [D|D]. + destruct IH as (j & A & B); auto; [lia|]. exists j. split; auto. + exists m. split; auto. lra. }
  destruct (L k (le_n _)) as (j & A & B); eauto. unfold share. rewrite firstn_all. replace (rsum volumes / rsum volumes) with 1 by (field; lra). lra.
Qed.
(** C50: so it is right if the volumes are the same in both orders, for example all equal *)
Theorem C50_symmetric u i v : rev volumes = volumes -> nth_error volumes i = Some v -> exists a, 0 <= u < 1 ->
  (region_index volumes (rsum volumes) u = Z.of_nat i <-> a <= u < a + v / rsum volumes).
Proof.
  intros HR Hi. assert (Hik : (i < k)%nat) by (apply nth_error_Some; congruence). set (j := (k - 1 - i)%nat). exists (share volumes j). intros Hu.
  assert (Hj : nth_error volumes j = Some v). { rewrite <- HR. unfold j. rewrite nth_error_nth' with (d := 0) by (rewrite rev_length; lia). rewrite rev_nth by lia. replace (k - S (k - 1 - i))%nat with i by lia. f_equal. apply nth_error_nth. auto. }
  destruct (C50_shares j Hj) as (_ & _ & E). replace (share volumes j + v / rsum volumes) with (share volumes (S j)) by lra. split.
  - intros H. destruct (C50_cover Hu) as (j' & Hj' & HU); [intros E0; rewrite E0 in Hi; destruct i; discriminate|]. rewrite (C50_reversed_partial Hj' HU) in H. assert (j' = j) by (unfold j; lia). subst j'. auto.
  - intros H. rewrite (@C50_reversed_partial u j); auto; unfold j; lia.
Qed.
End Shares.
(** C50 is false: with volumes 1 and 3 the first region is taken with probability 3/4 *)
Theorem C50_refuted : ~ forall volumes i v, Forall (Rlt 0) volumes -> nth_error volumes i = Some v ->
  exists a, forall u, 0 <= u < 1 -> (region_index volumes (rsum volumes) u = Z.of_nat i <-> a <= u < a + v / rsum volumes).
Proof.
  intros H. assert (Hv : Forall (Rlt 0) [1; 3]) by (constructor; [lra|constructor; [lra|constructor]]). destruct (H [1; 3] 0%nat 1 Hv eq_refl) as (a & K).
  assert (S1 : share [1; 3] 1 = 1 / 4 /\ share [1; 3] 2 = 1). { unfold share, rsum. cbn. split; field. } destruct S1 as [S1 S2].
  assert (A : a <= 1 / 4 < a + 1 / rsum [1; 3]). { apply K; [lra|]. rewrite (@C50_reversed_partial [1; 3] Hv (1 / 4) 1); [reflexivity|cbn; lia|rewrite S1, S2; lra]. }
  assert (B : a <= 3 / 4 < a + 1 / rsum [1; 3]). { apply K; [lra|]. rewrite (@C50_reversed_partial [1; 3] Hv (3 / 4) 1); [reflexivity|cbn; lia|rewrite S1, S2; lra]. }
  unfold rsum in A, B. cbn in A, B. lra.
Qed.

Section Combined.
Context {G : Type} (next : G -> R * G) (Hunit : forall g, 0 <= fst (next g) < 1).
Notation region := (region (G := G)).
Notation combined := (combined (G := G)).
(** how many of the random numbers choose region [i] *)
Definition wanted (c : combined) (n : nat) (i : nat) : nat :=
  length (filter (fun m => Z.eqb (region_index (cr_volumes c) (cr_volume c) (number next (cr_rng c) m)) (Z.of_nat i)) (seq 0 n)).
Definition contribution (c : combined) (n : nat) (i : nat) (r : region) : list (list R) :=
  if Nat.eqb (wanted c n i) 0 then [] else fst (rg_sample r (wanted c n i) (rg_rng r)).
Lemma idx_range (c : combined) u : cr_regions c <> [] -> cr_volumes c = map rg_volume (cr_regions c) -> cr_volume c = rsum (cr_volumes c) -> Forall (Rlt 0) (cr_volumes c) -> 0 <= u < 1 ->
  (0 <= region_index (cr_volumes c) (cr_volume c) u < zlen (cr_regions c))%Z.
Proof.
  intros HN E1 E2 Hv Hu. rewrite E2. destruct (C50_cover Hv Hu) as (j & Hj & HU). { rewrite E1. destruct (cr_regions c); [congruence|discriminate]. }
  rewrite (C50_reversed_partial Hv Hj HU). assert (El : length (cr_volumes c) = length (cr_regions c)) by (rewrite E1; apply map_length). unfold zlen. lia.
Qed.
Lemma counts_sum idx : forall m low, (forall x, In x idx -> low <= x < low + Z.of_nat m)%Z -> fold_right (fun s a => (snd s + a)%nat) 0%nat (counts_from low m idx) = length idx.
Proof.
  intros m. revert idx. induction m as [|m IH]; intros idx low H. - destruct idx as [|x idx]; auto. specialize (H x (or_introl eq_refl)). lia.
  - cbn [counts_from]. assert (S : forall f : Z -> bool, (length (filter f idx) + length (filter (fun x => negb (f x)) idx) = length idx)%nat) by (intros f; clear; induction idx as [|x l IHl]; cbn; auto; destruct (f x); cbn; lia).
    assert (E : counts_from (low + 1) m idx = counts_from (low + 1) m (filter (fun x => negb (low =? x)%Z) idx)).
    { assert (X : forall m low', (low < low')%Z -> counts_from low' m idx = counts_from low' m (filter (fun x => negb (low =? x)%Z) idx)); [|apply X; lia]. clear. induction m as [|m IH]; intros low' Hl; cbn; auto. rewrite <- IH by lia.
      assert (F : filter (Z.eqb low') (filter (fun x => negb (low =? x)%Z) idx) = filter (Z.eqb low') idx); [|rewrite F; auto]. clear - Hl. induction idx as [|x l IH]; cbn; auto. destruct (Z.eqb_spec low x); cbn; [|destruct (low' =? x)%Z; rewrite IH; auto]. destruct (Z.eqb_spec low' x); [lia|auto]. }
    rewrite E. assert (R0 : fold_right (fun s a => (snd s + a)%nat) 0%nat (counts_from (low + 1) m (filter (fun x => negb (low =? x)%Z) idx)) = length (filter (fun x => negb (low =? x)%Z) idx)).
    { apply IH. intros x Hx. apply filter_In in Hx as [Hx Hn]. specialize (H x Hx). lia. }
    specialize (S (Z.eqb low)). destruct (Nat.eqb_spec (length (filter (Z.eqb low) idx)) 0) as [Z0|Z0]; cbn [app fold_right snd]; rewrite R0; lia.
Qed.
Lemma sample_each_spec idx post : forall pre : list region, exists rest,
  sample_each (pre ++ post) (counts_from (zlen pre) (length post) idx) =
    Ok (concat (map (fun jr : nat * region => let n := length (filter (Z.eqb (Z.of_nat (fst jr))) idx) in if Nat.eqb n 0 then [] else fst (rg_sample (snd jr) n (rg_rng (snd jr)))) (combine (seq (length pre) (length post)) post)), rest).
Proof.
  induction post as [|r post IH]; intros pre; [cbn; eauto|]. cbn [length counts_from seq combine map concat fst snd]. cbv zeta. change (Z.of_nat (length pre)) with (zlen pre). set (n := length (filter (Z.eqb (zlen pre)) idx)).
  destruct (Nat.eqb_spec n 0) as [Z0|Z0]; cbn [app].
  - destruct (IH (pre ++ [r])) as (rest & E). rewrite <- app_assoc in E. cbn [app] in E. replace (zlen (pre ++ [r])) with (zlen pre + 1)%Z in E by (unfold zlen; rewrite app_length; cbn [length]; lia). replace (length (pre ++ [r])) with (S (length pre)) in E by (rewrite app_length; cbn; lia). exists rest. exact E.
  - cbn [sample_each]. assert (EP : pyget (pre ++ r :: post) (zlen pre) = Ok r). { unfold zlen. apply pyget_nat. rewrite nth_error_app2, Nat.sub_diag by lia. auto. } rewrite EP. cbn [bind].
    destruct (rg_sample r n (rg_rng r)) as [points g'] eqn:QS. cbn [fst]. destruct (Z.ltb_spec (zlen pre) 0) as [L|_]; [unfold zlen in L; lia|]. set (r' := mkRegion _ _ _ _ _).
    assert (EF : firstn (Z.to_nat (zlen pre)) (pre ++ r :: post) ++ r' :: skipn (S (Z.to_nat (zlen pre))) (pre ++ r :: post) = (pre ++ [r']) ++ post).
    { unfold zlen. rewrite Nat2Z.id. rewrite firstn_app, Nat.sub_diag, firstn_all. cbn [firstn]. rewrite app_nil_r, <- app_assoc. cbn [app]. do 2 f_equal. rewrite skipn_app, skipn_all2 by lia. replace (S (length pre) - length pre)%nat with 1%nat by lia. reflexivity. }
    rewrite EF. destruct (IH (pre ++ [r'])) as (rest & E). replace (zlen (pre ++ [r'])) with (zlen pre + 1)%Z in E by (unfold zlen; rewrite app_length; cbn [length]; lia). replace (length (pre ++ [r'])) with (S (length pre)) in E by (rewrite app_length; cbn; lia).
    rewrite E. cbn [bind fst snd]. eauto.
Qed.
Lemma counts_length idx (regions : list region) : (forall r n g, In r regions -> length (fst (rg_sample r n g)) = n) -> forall a,
  length (concat (map (fun jr : nat * region => let n := length (filter (Z.eqb (Z.of_nat (fst jr))) idx) in if Nat.eqb n 0 then [] else fst (rg_sample (snd jr) n (rg_rng (snd jr)))) (combine (seq a (length regions)) regions))) =
  fold_right (fun s b => (snd s + b)%nat) 0%nat (counts_from (Z.of_nat a) (length regions) idx).
Proof.
  induction regions as [|r l IH]; intros H a; auto. cbn [length seq combine map concat counts_from fst snd]. cbv zeta. rewrite app_length, IH by (intros; apply H; right; auto). replace (Z.of_nat (S a)) with (Z.of_nat a + 1)%Z by lia.
  destruct (Nat.eqb _ 0); cbn [app fold_right snd length]; auto. rewrite H by (left; auto). auto.
Qed.
(** C50: a combined region returns the requested number of points, from each region as many as random numbers choose it, the regions in their order *)
Theorem C50_sample (c : combined) n : cr_regions c <> [] -> cr_volumes c = map rg_volume (cr_regions c) -> cr_volume c = rsum (cr_volumes c) -> Forall (Rlt 0) (cr_volumes c) ->
  (forall r m g, In r (cr_regions c) -> length (fst (rg_sample r m g)) = m) -> (0 < n)%nat ->
  exists pts c', combined_sample next c n = Ok (pts, c') /\ length pts = n /\
    pts = concat (map (fun ir => contribution c n (fst ir) (snd ir)) (combine (seq 0 (length (cr_regions c))) (cr_regions c))).
Proof.
  intros HN E1 E2 Hv HS Hn. unfold combined_sample. rewrite uniform_eq. set (idx := map (region_index (cr_volumes c) (cr_volume c)) _).
  assert (Eidx : idx = map (fun m => region_index (cr_volumes c) (cr_volume c) (number next (cr_rng c) m)) (seq 0 n)). { unfold idx. rewrite map_map. apply map_ext. intros m. f_equal. ring. }
  assert (HI : forall x, In x idx -> (0 <= x < zlen (cr_regions c))%Z). { intros x Hx. rewrite Eidx in Hx. apply in_map_iff in Hx as (m & <- & _). apply idx_range; auto. apply Hunit. }
  assert (EU : unique_counts (length (cr_regions c)) idx = counts_from 0 (length (cr_regions c)) idx).
  { unfold unique_counts. cbn [counts_from]. assert (F : filter (Z.eqb (-1)) idx = []). { clear - HI. induction idx as [|x l IH]; auto. cbn [filter]. destruct (Z.eqb_spec (-1) x). - specialize (HI x (or_introl eq_refl)). lia. - apply IH. intros. apply HI. right. auto. } rewrite F. reflexivity. }
  rewrite EU. pose proof (@counts_sum idx (length (cr_regions c)) 0 HI) as HC. assert (Lidx : length idx = n) by (rewrite Eidx, map_length, seq_length; auto).
  destruct (counts_from 0 (length (cr_regions c)) idx) as [|s0 sh] eqn:QC; [cbn in HC; lia|]. cbn [bind]. rewrite <- QC. destruct (sample_each_spec idx (cr_regions c) []) as (rest & ES). cbn [app length] in ES. change (zlen (@nil region)) with 0%Z in ES.
  assert (EL := @counts_length idx (cr_regions c) (fun r m g H => HS r m g H) 0). change (Z.of_nat 0) with 0%Z in EL. rewrite QC, HC, Lidx in EL. match type of ES with _ = Ok (?o, _) => set (out := o) in * end. rewrite ES. cbn [bind fst]. rewrite EL, Nat.eqb_refl. cbn [passert bind snd].
  eexists. eexists. split; [reflexivity|]. split; [exact EL|]. unfold out. f_equal. apply map_ext. intros [j r]. cbn [fst snd]. unfold contribution, wanted. cbv zeta.
  assert (EW : length (filter (Z.eqb (Z.of_nat j)) idx) = length (filter (fun m => (region_index (cr_volumes c) (cr_volume c) (number next (cr_rng c) m) =? Z.of_nat j)%Z) (seq 0 n))); [|rewrite EW; reflexivity].
  rewrite Eidx. generalize (seq 0 n). clear. intros l. induction l as [|m l IH]; cbn; auto. rewrite (Z.eqb_sym (Z.of_nat j)). destruct (_ =? Z.of_nat j)%Z; cbn; auto.
Qed.
(** C50: so every point is a random point of one of the regions *)
Theorem C50_inside (c : combined) n pts c' (P : list R -> Prop) : cr_regions c <> [] -> cr_volumes c = map rg_volume (cr_regions c) -> cr_volume c = rsum (cr_volumes c) -> Forall (Rlt 0) (cr_volumes c) ->
  (forall r m g, In r (cr_regions c) -> length (fst (rg_sample r m g)) = m) -> (forall r m g p, In r (cr_regions c) -> In p (fst (rg_sample r m g)) -> P p) -> (0 < n)%nat ->
  combined_sample next c n = Ok (pts, c') -> forall p, In p pts -> P p.
Proof.
  intros HN E1 E2 Hv HS HP Hn H p Hp. destruct (C50_sample c HN E1 E2 Hv HS Hn) as (pts' & c'' & E & _ & Ep). rewrite H in E. injection E as <- _. rewrite Ep in Hp. apply in_concat in Hp as (l & Hl & Hp). apply in_map_iff in Hl as ([j r] & <- & Hjr). apply in_combine_r in Hjr. cbn [fst snd] in Hp. unfold contribution in Hp. destruct (Nat.eqb _ 0); [destruct Hp|]. eapply HP; eauto.
Qed.

(** C50: no points cannot be asked for *)
Theorem C50_none (c : combined) : combined_sample next c 0 = Err ValueError.
Proof.
  unfold combined_sample. cbn [uniform]. assert (K : forall n i, counts_from i n [] = []) by (induction n as [|n IH]; intros i; [reflexivity|exact (IH (i + 1)%Z)]).
  unfold unique_counts. cbn [map]. rewrite K. reflexivity.
Qed.
End Combined.

(* ------------------------------------------------------------------ C66: which regions can be combined *)
Section Overlap.
Context {G : Type}.
Notation region := (region (G := G)).
Notation combined := (combined (G := G)).
(** an answer with a true entry *)
Definition says_some (a : answer) : Prop := exists l, a = PerPoint l /\ In true l.
Lemma any_says a : np_any a = true <-> says_some a.
Proof.
  unfold says_some. destruct a as [|l]; cbn [np_any]; [split; [discriminate|intros (l & H & _); discriminate]|]. rewrite existsb_exists. split; [intros (b & H & ->); eauto|intros (l' & H & K); injection H as ->; eauto].
Qed.
(** some grid point or one of 100 random points of [r] is found in [o] *)
Definition found_in (r o : region) : Prop :=
  (exists pts, rg_points r = Ok pts /\ says_some (rg_is_in o pts)) \/ says_some (rg_is_in o (fst (rg_sample r 100 (rg_rng r)))).
Definition sampled_on (r : region) : region := mkRegion (rg_is_in r) (rg_points r) (rg_sample r) (rg_volume r) (snd (rg_sample r 100 (rg_rng r))).
Lemma overlaps_one_spec i (r : region) pts regions : rg_points r = Ok pts ->
  (overlaps_one i pts (fst (rg_sample r 100 (rg_rng r))) regions = true <-> exists j o, j <> i /\ nth_error regions j = Some o /\ found_in r o).
Proof.
  intros HP. unfold overlaps_one. rewrite existsb_exists.
  assert (HC : forall j o, In (j, o) (combine (seq 0 (length regions)) regions) <-> nth_error regions j = Some o).
  { assert (X : forall a j o, In (j, o) (combine (seq a (length regions)) regions) <-> (a <= j)%nat /\ nth_error regions (j - a) = Some o).
    { clear. induction regions as [|r l IH]; intros a j o; cbn. - split; [intros []|intros [_ H]; destruct (j - a)%nat; discriminate].
      - rewrite IH. split. + intros [E|[H1 H2]]. * injection E as <- <-. split; [lia|]. rewrite Nat.sub_diag. auto. * split; [lia|]. replace (j - a)%nat with (S (j - S a)) by lia. auto.
        + intros [H1 H2]. destruct (Nat.eq_dec j a) as [->|N]. * left. rewrite Nat.sub_diag in H2. injection H2 as ->. auto. * right. split; [lia|]. replace (j - a)%nat with (S (j - S a)) in H2 by lia. auto. }
    intros j o. rewrite X, Nat.sub_0_r. split; [intros [_ H]; auto|intros H; split; [lia|auto]]. }
  split.
  - intros ([j o] & H & K). apply HC in H. cbn [fst snd] in K. apply andb_true_iff in K as [K1 K2]. apply negb_true_iff, Nat.eqb_neq in K1. exists j, o. split; auto. split; auto. apply orb_true_iff in K2 as [K|K]; apply any_says in K; [left; eauto|right; auto].
  - intros (j & o & N & H & F). exists (j, o). split; [apply HC; auto|]. cbn [fst snd]. apply andb_true_iff. split; [apply negb_true_iff, Nat.eqb_neq; auto|]. apply orb_true_iff. destruct F as [(pts' & E & F)|F]; apply any_says in F; auto. rewrite HP in E. injection E as <-. auto.
Qed.
Lemma overlaps_from_spec (regions todo : list region) : (forall r, In r todo -> exists pts, rg_points r = Ok pts) -> forall i,
  (exists rest, overlaps_from i todo regions = Ok (true, rest) /\ exists m r j o, nth_error todo m = Some r /\ j <> (i + m)%nat /\ nth_error regions j = Some o /\ found_in r o) \/
  (overlaps_from i todo regions = Ok (false, map sampled_on todo) /\ forall m r j o, nth_error todo m = Some r -> j <> (i + m)%nat -> nth_error regions j = Some o -> ~ found_in r o).
Proof.
  induction todo as [|r todo IH]; intros HP i. - right. split; auto. intros [|m] r j o H; discriminate.
  - destruct (HP r (or_introl eq_refl)) as [pts Hpts]. cbn [overlaps_from]. rewrite Hpts. cbn [bind]. pose proof (overlaps_one_spec i r regions Hpts) as HO. destruct (rg_sample r 100 (rg_rng r)) as [sampled g'] eqn:QS. cbn [fst] in HO.
    destruct (overlaps_one i pts sampled regions) eqn:Q.
    + left. destruct (proj1 HO eq_refl) as (j & o & N & Hj & F). eexists. split; [reflexivity|]. exists 0%nat, r, j, o. split; auto. split; [lia|auto].
    + assert (HN : forall j o, j <> i -> nth_error regions j = Some o -> ~ found_in r o). { intros j o N Hj F. assert (X : false = true) by (apply HO; exists j, o; auto). discriminate. }
      destruct (IH (fun r' Hr' => HP r' (or_intror Hr')) (S i)) as [(rest & E & m & r' & j & o & H1 & H2 & H3 & H4)|(E & H)]; rewrite E; cbn [bind fst snd].
      * left. eexists. split; [reflexivity|]. exists (S m), r', j, o. split; auto. split; [lia|auto].
      * right. split. { cbn [map]. do 3 f_equal. unfold sampled_on. rewrite QS, <- Hpts. auto. } intros [|m] r' j o H1 H2 H3. -- injection H1 as <-. apply (HN j o); auto. lia. -- apply (H m r' j o); auto. lia.
Qed.
(** C66: combining is refused exactly if a grid point or one of 100 random points of a region is found in another one.
    Otherwise the volumes are those of the regions and the volume is their sum. *)
Theorem C66_ctor (regions : list region) g : (forall r, In r regions -> exists pts, rg_points r = Ok pts) ->
  (combined_ctor regions g = Err AssertionError <-> exists i j r o, i <> j /\ nth_error regions i = Some r /\ nth_error regions j = Some o /\ found_in r o) /\
  ((forall i j r o, i <> j -> nth_error regions i = Some r -> nth_error regions j = Some o -> ~ found_in r o) ->
    combined_ctor regions g = Ok (mkCombined (map sampled_on regions) (map rg_volume regions) (rsum (map rg_volume regions)) g)).
Proof.
  intros HP. unfold combined_ctor. destruct (overlaps_from_spec regions regions HP 0) as [(rest & E & m & r & j & o & H1 & H2 & H3 & H4)|(E & H)]; rewrite E; cbn [bind fst snd negb passert].
  - split; [split; auto; intros _; exists m, j, r, o; auto|]. intros H. exfalso. eapply (H m j r o); eauto.
  - rewrite map_map. cbn [sampled_on rg_volume]. split; [split; [discriminate|]|auto]. intros (i & j & r & o & N & A & B & F). exfalso. eapply (H i r j o); eauto.
Qed.
(** C66: regions whose points and answers are right for disjoint sets can be combined *)
Theorem C66_disjoint (regions : list region) g (P : nat -> list R -> Prop) :
  (forall i r, nth_error regions i = Some r -> exists pts, rg_points r = Ok pts /\ forall p, In p pts -> P i p) ->
  (forall i r p, nth_error regions i = Some r -> In p (fst (rg_sample r 100 (rg_rng r))) -> P i p) ->
  (forall i r l, nth_error regions i = Some r -> says_some (rg_is_in r l) -> exists p, In p l /\ P i p) ->
  (forall i j p, i <> j -> P i p -> P j p -> False) -> exists c, combined_ctor regions g = Ok c.
Proof.
  intros HG HS HI HD. eexists. apply (proj2 (@C66_ctor regions g ltac:(intros r Hr; apply In_nth_error in Hr as [i Hi]; destruct (HG i r Hi) as (pts & E & _); eauto))).
  intros i j r o N Hi Hj [(pts & E & F)|F].
  - destruct (HG i r Hi) as (pts' & E' & HP). rewrite E in E'. injection E' as <-. destruct (HI j o pts Hj F) as (p & Hp & HPj). eapply HD; eauto.
  - destruct (HI j o _ Hj F) as (p & Hp & HPj). eapply HD; eauto.
Qed.
(** C50: the points of the grid of a combined region are those of its regions, in order *)
Theorem C66_no_points (c : combined) : cr_regions c = [] -> combined_points c = Err ValueError.
Proof. intros H. unfold combined_points. rewrite H. reflexivity. Qed.
Theorem C66_points (c : combined) pts : combined_points c = Ok pts <-> cr_regions c <> [] /\ exists each, Forall2 (fun r x => rg_points r = Ok x) (cr_regions c) each /\ pts = concat each.
Proof.
  unfold combined_points. assert (M : forall (l : list region) each, mapM rg_points l = Ok each <-> Forall2 (fun r x => rg_points r = Ok x) l each).
  { induction l as [|f r IH]; intros each; cbn [mapM]. - split; intros H; [injection H as <-; constructor|inversion H; auto].
    - split. + intros H. apply bind_ok in H as (x & Hx & H). apply bind_ok in H as (xs & Hxs & H). injection H as <-. constructor; auto. apply IH; auto.
      + intros H. inversion H; subst. rewrite H2. cbn [bind]. rewrite (proj2 (IH l') H4). auto. }
  split.
  - intros H. apply bind_ok in H as (each & He & H). apply M in He. destruct He as [|f x fs xs Hf He]; [discriminate|]. injection H as <-. split; [discriminate|]. exists (x :: xs). split; auto.
  - intros (HN & each & He & ->). rewrite (proj2 (M _ _) He). cbn [bind]. destruct He; [congruence|]. auto.
Qed.
End Overlap.

(* ------------------------------------------------------------------ examples, and C66 refuted *)
(** a generator that always gives one half *)
Definition half (g : unit) : R * unit := (1 / 2, tt).
Lemma half_unit g : 0 <= fst (half g) < 1.
Proof. cbn. lra. Qed.
Definition cube (c : R) : region (G := unit) := cuboid half [2; 2; 2] [c; c; c] [1; 1; 1] tt.
Lemma fits_two n : fits n 1 2 -> n = 2%Z.
Proof. unfold fits. intros [A B]. rewrite Rmult_1_r in A, B. assert (n <= 2)%Z by (apply le_IZR; lra). assert (2 < n + 1)%Z by (apply lt_IZR; rewrite plus_IZR; lra). lia. Qed.
Lemma cube_grid c : exists pts, rg_points (cube c) = Ok pts /\ zlen pts = 8%Z /\ forall p, In p pts -> exists x y z, p = [x; y; z] /\ within 1 c x /\ within 1 c y /\ within 1 c z.
Proof.
  destruct (@C48_cuboid_fails 2 2 2 c c c 1 1 1 (SameSpacing 0) ltac:(lra) ltac:(lra) ltac:(lra)) as [_ K]. destruct K as (pts & E); [lra|]. exists pts. split; [exact E|].
  destruct (@C48_cuboid_grid 2 2 2 c c c 1 1 1 (SameSpacing 0) pts ltac:(lra) ltac:(lra) ltac:(lra) E) as (nx & ny & nz & _ & F1 & F2 & F3 & HL & HG & _). apply fits_two in F1, F2, F3. subst. split; [exact HL|].
  intros p Hp. apply HG in Hp as (i & j & k & (Hi & Hj & Hk) & ->). do 3 eexists. split; [reflexivity|].
  assert (X : forall i, (0 <= i < 2)%Z -> within 1 c (placed 2 1 c i)) by (intros a Ha; unfold within, placed; assert (a = 0 \/ a = 1)%Z as [->| ->] by lia; lra). auto.
Qed.
Example C48_cuboid_grid_example : exists pts, cuboid_points [2; 2; 2] [1; 1; 1] (SameSpacing 0) (Some (EachSpacing [1; 1; 1])) = Ok pts /\ zlen pts = 8%Z.
Proof. destruct (cube_grid 1) as (pts & E & HL & _). exists pts. split; auto. Qed.
Lemma cube_sampled c p : In p (fst (rg_sample (cube c) 100 (rg_rng (cube c)))) -> p = [c; c; c].
Proof.
  intros Hp. change (rg_sample (cube c) 100 (rg_rng (cube c))) with (cuboid_sample half [2; 2; 2] [c; c; c] 100 tt) in Hp. rewrite (C65_cuboid half half_unit) in Hp. cbn [fst] in Hp. apply in_map_iff in Hp as (i & <- & _). unfold number. cbn [half fst]. repeat (apply cons_eq; [lra|]). reflexivity.
Qed.
Lemma cube_any c l : Forall (fun p => length p = 3%nat) l -> says_some (rg_is_in (cube c) l) -> exists x y z, In [x; y; z] l /\ within 2 c x /\ within 2 c y /\ within 2 c z.
Proof.
  intros HL H. change (rg_is_in (cube c) l) with (PerPoint (cuboid_is_in [2; 2; 2] [c; c; c] [0; 0; 0] l)) in H. pose proof (@C49_cuboid 2 2 2 c c c 0 0 0 l HL) as F. destruct H as (l' & Hl' & Hb). injection Hl' as <-.
  clear HL. induction F as [|p b l bs HF F IH]; [destruct Hb|]. destruct Hb as [->|Hb].
  - destruct (proj1 HF eq_refl) as (x & y & z & -> & A & B & C). exists x, y, z. split; [left; auto|]. unfold within in *. lra.
  - destruct (IH Hb) as (x & y & z & A & B). exists x, y, z. split; [right; auto|auto].
Qed.
Lemma cube_not_found a b : 3 / 2 < Rabs (a - b) -> ~ found_in (cube a) (cube b).
Proof.
  intros H F. assert (K : forall l, (forall p, In p l -> exists x y z, p = [x; y; z] /\ within 1 a x /\ within 1 a y /\ within 1 a z) -> says_some (rg_is_in (cube b) l) -> False).
  { intros l Hl Ha. apply cube_any in Ha as (x & y & z & Hp & W & _). - apply Hl in Hp as (x' & y' & z' & E & W' & _). injection E as <- <- <-. unfold within in *. unfold Rabs in H. destruct (Rcase_abs (a - b)); lra.
    - apply Forall_forall. intros p Hp. apply Hl in Hp as (x & y & z & -> & _). auto. }
  destruct F as [(pts & E & F)|F].
  - destruct (cube_grid a) as (pts' & E' & _ & HG). rewrite E in E'. injection E' as <-. exact (K pts HG F).
  - apply (K _) in F; auto. intros p Hp. apply cube_sampled in Hp. subst p. exists a, a, a. split; auto. unfold within. lra.
Qed.
Lemma cubes_accepted a b : 3 / 2 < Rabs (a - b) -> exists c, combined_ctor [cube a; cube b] tt = Ok c /\ cr_volumes c = [2 * (2 * (2 * 1)); 2 * (2 * (2 * 1))].
Proof.
  intros H. eexists. split; [apply (fun h => proj2 (@C66_ctor unit [cube a; cube b] tt h))|reflexivity].
  - intros r [<-|[<-|[]]]; [destruct (cube_grid a) as (p & E & _)|destruct (cube_grid b) as (p & E & _)]; eauto.
  - intros [|[|i]] [|[|j]] r o N Hi Hj; try (cbn in Hi, Hj; congruence); try (destruct i; discriminate); try (destruct j; discriminate).
    + injection Hi as <-. injection Hj as <-. apply cube_not_found. auto.
    + injection Hi as <-. injection Hj as <-. apply cube_not_found. rewrite Rabs_minus_sym. auto.
Qed.
(** C66 is false in one direction: overlapping regions may be accepted.  Two cubes with side 2 whose centres differ by 19/10 in each coordinate. *)
Theorem C66_refuted : exists c p, combined_ctor [cube 1; cube (29 / 10)] tt = Ok c /\ rg_is_in (cube 1) [p] = PerPoint [true] /\ rg_is_in (cube (29 / 10)) [p] = PerPoint [true].
Proof.
  destruct (@cubes_accepted 1 (29 / 10)) as (c & E & _). { rewrite Rabs_left; lra. } exists c, [19 / 10 + 1 / 20; 19 / 10 + 1 / 20; 19 / 10 + 1 / 20]. split; [exact E|].
  assert (K : forall m, within 2 m (19 / 10 + 1 / 20) -> rg_is_in (cube m) [[19 / 10 + 1 / 20; 19 / 10 + 1 / 20; 19 / 10 + 1 / 20]] = PerPoint [true]).
  { intros m Hm. change (rg_is_in (cube m) [[19 / 10 + 1 / 20; 19 / 10 + 1 / 20; 19 / 10 + 1 / 20]]) with (PerPoint (cuboid_is_in [2; 2; 2] [m; m; m] [0; 0; 0] [[19 / 10 + 1 / 20; 19 / 10 + 1 / 20; 19 / 10 + 1 / 20]])). f_equal.
    pose proof (@C49_cuboid 2 2 2 m m m 0 0 0 [[19 / 10 + 1 / 20; 19 / 10 + 1 / 20; 19 / 10 + 1 / 20]] ltac:(repeat constructor)) as F. revert F. generalize (cuboid_is_in [2; 2; 2] [m; m; m] [0; 0; 0] [[19 / 10 + 1 / 20; 19 / 10 + 1 / 20; 19 / 10 + 1 / 20]]). intros bs F. inversion F as [|x y lx ly F1 F2 E1 E2]. inversion F2. rewrite (proj2 F1); auto. do 3 eexists. split; [reflexivity|]. unfold within in *. lra. }
  split; apply K; unfold within; lra.
Qed.
(** C66, C50: two cubes apart from each other *)
Example C66_example : exists c pts c', combined_ctor [cube 1; cube 5] tt = Ok c /\ combined_sample half c 7 = Ok (pts, c') /\ length pts = 7%nat.
Proof.
  assert (H : 3 / 2 < Rabs (1 - 5)) by (rewrite Rabs_left; lra). assert (E : combined_ctor [cube 1; cube 5] tt = Ok (mkCombined (map sampled_on [cube 1; cube 5]) (map rg_volume [cube 1; cube 5]) (rsum (map rg_volume [cube 1; cube 5])) tt)).
  { apply (fun h => proj2 (@C66_ctor unit [cube 1; cube 5] tt h)). - intros r [<-|[<-|[]]]; [destruct (cube_grid 1) as (p & E & _)|destruct (cube_grid 5) as (p & E & _)]; eauto.
    - intros [|[|i]] [|[|j]] r o N Hi Hj; try (cbn in Hi, Hj; congruence); try (destruct i; discriminate); try (destruct j; discriminate); injection Hi as <-; injection Hj as <-; apply cube_not_found; auto. rewrite Rabs_minus_sym. auto. }
  set (c := mkCombined _ _ _ _) in E. destruct (@C50_sample unit half half_unit c 7) as (pts & c' & ES & EL & _).
  - discriminate.
  - reflexivity.
  - reflexivity.
  - constructor; [cbn; lra|constructor; [cbn; lra|constructor]].
  - intros r m g [<-|[<-|[]]]; apply (@C48_cuboid_sample unit half half_unit 2 2 2); lra.
  - lia.
  - exists c, pts, c'. auto.
Qed.
Example C48_rectangle_fails_example : (exists pts, rectangle_points [1; 1] [0; 0] [1; 1] 2 = Ok pts) /\ rectangle_points [1; 2] [0; 0] [1; 3] 2 = Err AssertionError.
Proof. split; [apply C48_rectangle_fails; lra|apply C48_rectangle_fails; lra]. Qed.
Example C48_rectangle_example : exists pts, rectangle_points [2; 2] [1; 1; 5] [1; 1] 3 = Ok pts.
Proof.
  unfold rectangle_points, at_. cbn [nth]. cbv zeta. pose proof (@rfloor_fits 2 1 ltac:(lra)) as F. apply fits_two in F. cbn [nth]. rewrite F. cbn [passert bind Z.leb Z.compare Pos.compare Pos.compare_cont andb]. eauto.
Qed.
Lemma covers_two n : covers n 1 (2 * 1) -> n = 2%Z.
Proof. unfold covers. intros [A B]. assert (2 <= n)%Z by (apply le_IZR; lra). assert (n - 1 < 2)%Z by (apply lt_IZR; rewrite minus_IZR; lra). lia. Qed.
Example C48_disc_example : In [1 / 2; 1 / 2; 5] (disc_points 1 [0; 0; 5] [1; 1] 3).
Proof.
  destruct (@C48_disc_grid 1 [0; 0; 5] 1 1 3 0 0 ltac:(lra) ltac:(lra) ltac:(lra)) as (nx & ny & C1 & C2 & H). { right. exists 5. auto. }
  apply covers_two in C1, C2. subst. apply H. exists 1%Z, 1%Z. split; [lia|]. cbn [skipn app]. unfold placed, in_circle. split; [repeat (apply cons_eq; [lra|]); reflexivity|lra].
Qed.
Example C48_cylinder_example : In [1 / 2; 1 / 2; 5 - 1 / 2] (cylinder_points 1 (2 * 1) [0; 0; 5] [1; 1; 1]).
Proof.
  destruct (@C48_cylinder_grid 1 (2 * 1) 0 0 5 1 1 1 ltac:(lra) ltac:(lra) ltac:(lra) ltac:(lra)) as (nx & ny & nz & C1 & C2 & C3 & H & _).
  apply covers_two in C1, C2, C3. subst. apply H. exists 1%Z, 1%Z, 0%Z. split; [lia|]. unfold placed, in_circle. split; [repeat (apply cons_eq; [lra|]); reflexivity|lra].
Qed.
(** C48, C65: the generator that always gives one half puts every candidate in the middle of the ball *)
Example C48_ball_example : exists pts g', ball_sample half 1 1 [5; 6; 7] 3 tt = Some (pts, g') /\ length pts = 3%nat.
Proof.
  destruct (@C48_ball_ends unit half half_unit 1 1 5 6 7 3 tt ltac:(lra) ltac:(lia)) as (pts & g' & E).
  - assert (K : forall k, inside0 1 (candidate half 1 tt k) = true) by (intros k; unfold inside0, candidate, number; cbn [half fst]; apply rle_spec; unfold rsum; cbn; lra).
    unfold kept. rewrite (filter_ext_in (fun p => inside0 1 p) (fun _ => true)). + cbn. lia. + intros p Hp. apply in_map_iff in Hp as (k & <- & _). apply K.
  - exists pts, g'. split; [exact E|]. eapply (C48_ball_sample half half_unit); [|exact E]. lra.
Qed.
Example C48_ball_grid_example : exists pts, ball_points 1 [5; 6; 7] [1; 1; 1] = Ok pts.
Proof.
  unfold ball_points. rewrite (proj1 (@C48_cuboid_spacing _ _ (EachSpacing [1; 1; 1]) (SameSpacing 0) 0)). destruct (@C48_cuboid_fails (2 * 1) (2 * 1) (2 * 1) 0 0 0 1 1 1 (SameSpacing 0) ltac:(lra) ltac:(lra) ltac:(lra)) as [_ K]. destruct K as (pts & E); [lra|]. rewrite E. cbn [bind]. eauto.
Qed.
Example C49_example : cuboid_is_in [2; 2; 2] [0; 0; 0] [0; 0; 0] [[1; 1; 1]; [2; 0; 0]] = [true; false].
Proof.
  pose proof (@C49_cuboid 2 2 2 0 0 0 0 0 0 [[1; 1; 1]; [2; 0; 0]] ltac:(repeat constructor)) as F. revert F. generalize (cuboid_is_in [2; 2; 2] [0; 0; 0] [0; 0; 0] [[1; 1; 1]; [2; 0; 0]]). intros bs F. inversion F as [|x y lx ly F1 F2 E1 E2]. inversion F2 as [|x' y' lx' ly' G1 G2 E3 E4]. inversion G2. rewrite (proj2 F1) by (exists 1, 1, 1; unfold within; split; auto; lra).
  destruct y'; auto. destruct (proj1 G1 eq_refl) as (a & b & c & E & W & _). injection E as <- <- <-. unfold within in W. lra.
Qed.
Example C50_example : region_index [1; 3] (rsum [1; 3]) (1 / 8) = 1%Z /\ region_index [1; 3] (rsum [1; 3]) (1 / 2) = 0%Z.
Proof.
  assert (Hv : Forall (Rlt 0) [1; 3]) by (constructor; [lra|constructor; [lra|constructor]]). split.
  - rewrite (@C50_reversed_partial [1; 3] Hv (1 / 8) 0); [reflexivity|cbn; lia|unfold share, rsum; cbn; lra].
  - rewrite (@C50_reversed_partial [1; 3] Hv (1 / 2) 1); [reflexivity|cbn; lia|unfold share, rsum; cbn; lra].
Qed.

Print Assumptions C48_cuboid_grid.
Print Assumptions C48_cuboid_spacing.
Print Assumptions C48_cuboid_fails.
Print Assumptions C48_rectangle_grid.
Print Assumptions C48_rectangle_fails.
Print Assumptions C48_disc_grid.
Print Assumptions C48_cylinder_grid.
Print Assumptions C48_ball_grid.
Print Assumptions C65_cuboid.
Print Assumptions C48_cuboid_sample.
Print Assumptions C65_rectangle.
Print Assumptions C48_rectangle_sample.
Print Assumptions C65_disc.
Print Assumptions C48_disc_sample.
Print Assumptions C65_disc_uniform.
Print Assumptions C65_cylinder.
Print Assumptions C48_cylinder_sample.
Print Assumptions C65_ball.
Print Assumptions C48_ball_sample.
Print Assumptions C48_ball_ends.
Print Assumptions C49_cuboid.
Print Assumptions C49_ball.
Print Assumptions C49_cylinder.
Print Assumptions C49_rectangle_partial.
Print Assumptions C49_disc_partial.
Print Assumptions C49_plane.
Print Assumptions C49_off_plane.
Print Assumptions C49_refuted.
Print Assumptions C49_combined_refuted.
Print Assumptions C50_reversed_partial.
Print Assumptions C50_shares.
Print Assumptions C50_cover.
Print Assumptions C50_symmetric.
Print Assumptions C50_refuted.
Print Assumptions C50_sample.
Print Assumptions C50_inside.
Print Assumptions C66_ctor.
Print Assumptions C66_disjoint.
Print Assumptions C66_points.
Print Assumptions C66_no_points.
Print Assumptions C66_refuted.
(** concrete cases of C48 and C65: a generator that always gives 1/2 puts all points in the middle *)
Example C65_cuboid_meets : fst (cuboid_sample half [2; 4; 6] [1; 2; 3] 2 tt) = [[1; 2; 3]; [1; 2; 3]].
Proof. rewrite (@C65_cuboid unit half half_unit). assert (N : forall k, number half tt k = 1 / 2) by reflexivity. cbn [map seq fst]. rewrite !N. repeat (apply cons_eq; [repeat (apply cons_eq; [lra|]); reflexivity|]). reflexivity. Qed.
Example C65_rectangle_meets : fst (rectangle_sample half [2; 4] [1; 2; 3] 3 2 tt) = [[1; 2; 3]; [1; 2; 3]].
Proof. rewrite (@C65_rectangle unit half 2 4 [1; 2; 3] 1 2 3) by (right; exists 3; auto). assert (N : forall k, number half tt k = 1 / 2) by reflexivity. cbn [map seq fst skipn app]. rewrite !N. repeat (apply cons_eq; [repeat (apply cons_eq; [lra|]); reflexivity|]). reflexivity. Qed.
Example C48_samples_meet : (forall p, In p (fst (rectangle_sample half [2; 4] [1; 2; 3] 3 2 tt)) -> exists x y, p = [x; y; 3] /\ within 2 1 x /\ within 4 2 y) /\
  (forall p, In p (fst (disc_sample half 2 [1; 2; 3] 3 5 tt)) -> exists x y, p = [x; y; 3] /\ in_circle 2 1 2 x y) /\
  (forall p, In p (fst (cylinder_sample half 2 4 [1; 2; 3] 5 tt)) -> exists x y z, p = [x; y; z] /\ in_circle 2 1 2 x y /\ within 4 3 z).
Proof.
  split; [|split].
  - apply (@C48_rectangle_sample unit half half_unit 2 4 [1; 2; 3] 1 2 3 2 tt); [right; exists 3; auto|lra|lra].
  - apply (@C48_disc_sample unit half half_unit 2 [1; 2; 3] 1 2 3 5 tt). right; exists 3; auto.
  - apply (@C48_cylinder_sample unit half half_unit 2 4 1 2 3 5 tt). lra.
Qed.
Example C65_disc_uniform_meets : exists x y, nth_error (fst (disc_sample half 2 [1; 2; 3] 3 5 tt)) 4 = Some ([x; y] ++ skipn 2 [1; 2; 3]) /\ (in_circle 1 1 2 x y <-> 1 / 2 <= PI * (1 * 1) / (PI * (2 * 2))).
Proof.
  pose proof (@C65_disc unit half 2 [1; 2; 3] 1 2 3 5 tt ltac:(right; exists 3; auto)) as E. pose proof (@C65_disc_uniform unit half half_unit 2 1 [1; 2; 3] 1 2 3 5 tt 4) as U. rewrite E in *. eexists _, _. split; [cbn [map seq fst nth_error]; reflexivity|].
  refine (iff_trans (U _ _ _ _ _) _); [right; exists 3; auto|lra|reflexivity|reflexivity].
Qed.
Example C65_ball_meets : exists pts g', 0 <= 1 /\ ball_sample half 1 1 [5; 6; 7] 3 tt = Some (pts, g').
Proof. destruct C48_ball_example as (p & g & E & _). exists p, g. split; [lra|exact E]. Qed.
(** concrete cases of C49 *)
Example C49_round_meets : Forall2 (fun p b => b = true <-> exists x y z, p = [x; y; z] /\ in_sphere 2 0 0 0 x y z) [[1; 1; 1]; [2; 1; 0]] (ball_is_in 2 [0; 0; 0] [[1; 1; 1]; [2; 1; 0]]) /\
  Forall2 (fun p b => b = true <-> exists x y z, p = [x; y; z] /\ in_circle 2 0 0 x y /\ within 2 0 z) [[1; 1; 1]; [2; 1; 0]] (cylinder_is_in 2 2 [0; 0; 0] [[1; 1; 1]; [2; 1; 0]]).
Proof. split; [apply C49_ball|apply C49_cylinder]; [lra|repeat constructor|lra|repeat constructor]. Qed.
Example C49_flat_meets : (forall x y z, In [x; y; z] [[1; 1; 0]; [2; 1; 0]] -> near_plane 0 z) /\ ~ near_plane 0 1 /\ rectangle_is_in [2; 2] [0; 0; 0] [0; 0] 3 [[1; 1; 0]; [2; 1; 1]] = ScalarFalse.
Proof.
  assert (N : ~ near_plane 0 1). { unfold near_plane. rewrite Rminus_0_r, Rabs_R0, Rabs_R1, Rmult_0_r, Rplus_0_r. intros H. assert (X : / 10 ^ 8 < / 1) by (apply Rinv_lt_contravar; lra). lra. }
  split; [|split]; [|exact N|].
  - intros x y z [H|[H|[]]]; injection H as <- <- <-; unfold near_plane; rewrite Rminus_0_r, Rabs_R0, Rmult_0_r, Rplus_0_r; apply Rlt_le, Rinv_0_lt_compat; lra.
  - refine (proj1 (@C49_off_plane [2; 2] 1 0 0 0 [0; 0] [[1; 1; 0]; [2; 1; 1]] 2 1 1 _ _ N)); [repeat constructor|right; left; reflexivity].
Qed.
Example C49_plane_meets : 0 <= 1 /\ Forall (fun p : list R => length p = 2%nat) [[1; 1]; [2; 0]].
Proof. split; [lra|repeat constructor]. Qed.
(** concrete cases of C50 and C66 *)
Example C50_shares_meets : Forall (Rlt 0) [1; 3] /\ share [1; 3] 1 - share [1; 3] 0 = 1 / 4 /\ (exists j, (j < 2)%nat /\ share [1; 3] j <= 1 / 2 < share [1; 3] (S j)) /\ rev [2; 3; 2] = [2; 3; 2].
Proof.
  assert (P : Forall (Rlt 0) [1; 3]) by (repeat constructor; lra). split; [exact P|]. split; [|split; [|reflexivity]].
  - rewrite (proj2 (proj2 (@C50_shares [1; 3] P 0 1 eq_refl))). cbn. lra.
  - refine (C50_cover P _ _); [lra|discriminate].
Qed.
Example C50_inside_meets : exists c pts c', combined_ctor [cube 1; cube 5] tt = Ok c /\ combined_sample half c 7 = Ok (pts, c') /\ forall p, In p pts -> exists x y z, p = [x; y; z] /\ 0 <= x <= 6.
Proof.
  destruct C66_example as (c & pts & c' & EC & ES & _). exists c, pts, c'. split; [exact EC|]. split; [exact ES|].
  assert (H : 3 / 2 < Rabs (1 - 5)) by (rewrite Rabs_left; lra). assert (E : combined_ctor [cube 1; cube 5] tt = Ok (mkCombined (map sampled_on [cube 1; cube 5]) (map rg_volume [cube 1; cube 5]) (rsum (map rg_volume [cube 1; cube 5])) tt)).
  { apply (fun h => proj2 (@C66_ctor unit [cube 1; cube 5] tt h)). - intros r [<-|[<-|[]]]; [destruct (cube_grid 1) as (p & E & _)|destruct (cube_grid 5) as (p & E & _)]; eauto.
    - intros [|[|i]] [|[|j]] r o N Hi Hj; try (cbn in Hi, Hj; congruence); try (destruct i; discriminate); try (destruct j; discriminate); injection Hi as <-; injection Hj as <-; apply cube_not_found; auto. rewrite Rabs_minus_sym. auto. }
  rewrite EC in E. injection E as ->. 
  refine (@C50_inside unit half half_unit _ 7 pts c' (fun p => exists x y z, p = [x; y; z] /\ 0 <= x <= 6) _ _ _ _ _ _ _ ES); [discriminate|reflexivity|reflexivity| | | |lia].
  - constructor; [cbn; lra|constructor; [cbn; lra|constructor]].
  - intros r m g [<-|[<-|[]]]; apply (@C48_cuboid_sample unit half half_unit 2 2 2); lra.
  - intros r m g p [<-|[<-|[]]] Hp; apply (@C48_cuboid_sample unit half half_unit 2 2 2) in Hp; try lra; destruct Hp as (x & y & z & -> & (A & B) & _); exists x, y, z; split; [reflexivity|lra|reflexivity|lra].
Qed.
Example C66_no_points_meets : exists c : combined, combined_ctor [] tt = Ok c /\ cr_regions c = [].
Proof. eexists. split; [vm_compute; reflexivity|reflexivity]. Qed.
Example C66_points_meets : exists c pts, combined_ctor [cube 1; cube 5] tt = Ok c /\ combined_points c = Ok pts.
Proof.
  destruct C66_example as (c & _ & _ & EC & _). exists c.
  assert (E : c = mkCombined (map sampled_on [cube 1; cube 5]) (map rg_volume [cube 1; cube 5]) (rsum (map rg_volume [cube 1; cube 5])) tt).
  { assert (H : 3 / 2 < Rabs (1 - 5)) by (rewrite Rabs_left; lra). assert (E : combined_ctor [cube 1; cube 5] tt = Ok (mkCombined (map sampled_on [cube 1; cube 5]) (map rg_volume [cube 1; cube 5]) (rsum (map rg_volume [cube 1; cube 5])) tt)).
    { apply (fun h => proj2 (@C66_ctor unit [cube 1; cube 5] tt h)). - intros r [<-|[<-|[]]]; [destruct (cube_grid 1) as (p & E & _)|destruct (cube_grid 5) as (p & E & _)]; eauto.
      - intros [|[|i]] [|[|j]] r o N Hi Hj; try (cbn in Hi, Hj; congruence); try (destruct i; discriminate); try (destruct j; discriminate); injection Hi as <-; injection Hj as <-; apply cube_not_found; auto. rewrite Rabs_minus_sym. auto. }
    congruence. }
  destruct (cube_grid 1) as (p & E1 & _), (cube_grid 5) as (q & E5 & _). exists (p ++ q). split; [exact EC|]. subst c. apply C66_points. split; [discriminate|].
  exists [p; q]. split; [repeat constructor; assumption|]. cbn. rewrite app_nil_r. reflexivity.
Qed.
Print Assumptions C50_none.
