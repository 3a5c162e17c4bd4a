(** C96: the volumes of the regions. *)
Require Import Verif.PyBase Verif.PyLemmas Verif.SineModel Verif.TrajModel Verif.RegionModel Verif.RegionProps.
Require Import Lra.
Set Implicit Arguments.
Local Open Scope list_scope.
Local Open Scope R_scope.

(* ------------------------------------------------------------------ specification *)
(** [v] is the integral of [f] from [a] to [b] *)
Definition integral (f : R -> R) (a b v : R) : Prop := exists g, antiderivative f g a b /\ v = g b - g a.
(** the areas of rectangles and discs in the plane; that of a disc is the integral of the circumferences of its circles *)
Inductive area (P : R -> R -> Prop) : R -> Prop :=
| area_rectangle a b c d : a <= b -> c <= d -> (forall x y, P x y <-> a <= x <= b /\ c <= y <= d) -> area P ((b - a) * (d - c))
| area_disc cx cy r v : 0 <= r -> (forall x y, P x y <-> (x - cx) ^ 2 + (y - cy) ^ 2 <= r ^ 2) -> integral (fun rho => 2 * PI * rho) 0 r v -> area P v.
(** the volume of a body between the heights [low] and [high]: the integral of the areas of its sections *)
Definition has_volume (P : R -> R -> R -> Prop) (v : R) : Prop :=
  exists low high A, low <= high /\ (forall x y z, P x y z -> low <= z <= high) /\ (forall z, low <= z <= high -> area (fun x y => P x y z) (A z)) /\ integral A low high v.

(* ------------------------------------------------------------------ proofs *)
Lemma antider f g a b : a <= b -> (forall x, derivable_pt_lim g x (f x)) -> antiderivative f g a b.
Proof. intros H D. split; auto. intros x _. exists (exist _ (f x) (D x)). unfold derive_pt. auto. Qed.
Lemma const_integral k a b : a <= b -> integral (fun _ => k) a b (k * (b - a)).
Proof.
  intros H. exists (fun x => k * x). split; [|ring]. apply antider; auto. intros x. pose proof (derivable_pt_lim_scal id k x 1 (derivable_pt_lim_id x)) as D. rewrite Rmult_1_r in D. exact D.
Qed.
Lemma disc_integral r : 0 <= r -> integral (fun rho => 2 * PI * rho) 0 r (PI * r ^ 2).
Proof.
  intros H. exists (fun x => PI * x ^ 2). split; [|ring]. apply antider; auto. intros x. replace (2 * PI * x) with (PI * (INR 2 * x ^ 1)) by (simpl; ring). apply (derivable_pt_lim_scal (fun y => y ^ 2) PI x). apply derivable_pt_lim_pow.
Qed.
Lemma ball_integral r c : 0 <= r -> integral (fun z => PI * (r ^ 2 - (z - c) ^ 2)) (c - r) (c + r) (4 / 3 * r ^ 3 * PI).
Proof.
  intros H. exists (fun z => PI * (r ^ 2 * z - (z - c) ^ 3 / 3)). split; [|field].
  apply antider; [lra|]. intros x. apply (derivable_pt_lim_scal (fun z => r ^ 2 * z - (z - c) ^ 3 / 3) PI x).
  apply (derivable_pt_lim_minus (fun z => r ^ 2 * z) (fun z => (z - c) ^ 3 / 3) x).
  - pose proof (derivable_pt_lim_scal id (r ^ 2) x 1 (derivable_pt_lim_id x)) as D. rewrite Rmult_1_r in D. exact D.
  - intros eps He. assert (D : derivable_pt_lim (comp (fun y => y ^ 3) (fun z => z - c)) x (INR 3 * (x - c) ^ 2 * (1 - 0))).
    { apply derivable_pt_lim_comp; [|apply derivable_pt_lim_pow]. apply (derivable_pt_lim_minus id (fct_cte c) x 1 0); [apply derivable_pt_lim_id|apply derivable_pt_lim_const]. }
    assert (D3 : derivable_pt_lim (mult_real_fct (/ 3) (comp (fun y => y ^ 3) (fun z => z - c))) x (/ 3 * (INR 3 * (x - c) ^ 2 * (1 - 0)))) by (apply derivable_pt_lim_scal; exact D).
    destruct (D3 eps He) as [del Hd]. exists del. intros h Hh Hlt. specialize (Hd h Hh Hlt). unfold mult_real_fct, comp in Hd. replace (((x + h - c) ^ 3 / 3 - (x - c) ^ 3 / 3) / h - (x - c) ^ 2) with ((/ 3 * (x + h - c) ^ 3 - / 3 * (x - c) ^ 3) / h - / 3 * (INR 3 * (x - c) ^ 2 * (1 - 0))); auto.
    simpl (INR 3). field. auto.
Qed.
Lemma only {A} (P : A -> Prop) p (l : list bool) : Forall2 (fun p b => b = true <-> P p) [p] l -> (l = [true] <-> P p).
Proof. intros H. inversion H as [|? b ? l' Hb Hl]; subst. inversion Hl; subst. rewrite <- Hb. split; [intros E; injection E; auto|intros ->; auto]. Qed.
Lemma only_answer {A} (P : A -> Prop) p a l : a = PerPoint l -> Forall2 (fun p b => b = true <-> P p) [p] l -> (a = PerPoint [true] <-> P p).
Proof. intros -> H. apply only in H. rewrite <- H. split; [intros E; injection E; auto|intros ->; auto]. Qed.
Ltac one3 := constructor; [reflexivity|constructor].

Section Volumes.
Context {G : Type} (next : G -> R * G).
Definition accepts (r : region (G := G)) (p : list R) : Prop := rg_is_in r [p] = PerPoint [true].
(** C96: a cuboid, a cylinder and a ball have the volume of the set of points they accept *)
Theorem C96_cuboid sx sy sz cx cy cz spacing g : 0 <= sx -> 0 <= sy -> 0 <= sz ->
  let r := cuboid next [sx; sy; sz] [cx; cy; cz] spacing g in has_volume (fun x y z => accepts r [x; y; z]) (rg_volume r).
Proof.
  intros Hx Hy Hz r. assert (K : forall x y z, accepts r [x; y; z] <-> cx - sx / 2 <= x <= cx + sx / 2 /\ cy - sy / 2 <= y <= cy + sy / 2 /\ cz - sz / 2 <= z <= cz + sz / 2).
  { intros x y z. unfold accepts, r. cbn [rg_is_in cuboid]. rewrite (@only_answer _ _ _ _ (cuboid_is_in [sx; sy; sz] [cx; cy; cz] [0; 0; 0] [[x; y; z]]) eq_refl (C49_cuboid sx sy sz cx cy cz 0 0 0 (coordinates := [[x; y; z]]) ltac:(one3))). split.
    - intros (x' & y' & z' & E & A & B & C). injection E as <- <- <-. unfold within in *. lra.
    - intros H. exists x, y, z. split; auto. unfold within. lra. }
  exists (cz - sz / 2), (cz + sz / 2), (fun _ => sx * sy). split; [lra|]. split; [intros x y z H; apply K in H; tauto|]. split.
  - intros z H. replace (sx * sy) with ((cx + sx / 2 - (cx - sx / 2)) * (cy + sy / 2 - (cy - sy / 2))) by field. apply area_rectangle; [lra|lra|]. intros x y. rewrite K. tauto.
  - unfold r. cbn [rg_volume cuboid fold_right]. replace (sx * (sy * (sz * 1))) with (sx * sy * (cz + sz / 2 - (cz - sz / 2))) by field. apply const_integral. lra.
Qed.
Theorem C96_cylinder rad h cx cy cz spacing g : 0 <= rad -> 0 <= h ->
  let r := cylinder next rad h [cx; cy; cz] spacing g in has_volume (fun x y z => accepts r [x; y; z]) (rg_volume r).
Proof.
  intros Hr Hh r. assert (K : forall x y z, accepts r [x; y; z] <-> (x - cx) ^ 2 + (y - cy) ^ 2 <= rad ^ 2 /\ cz - h / 2 <= z <= cz + h / 2).
  { intros x y z. unfold accepts, r. cbn [rg_is_in cylinder]. rewrite (@only_answer _ _ _ _ (cylinder_is_in rad h [cx; cy; cz] [[x; y; z]]) eq_refl (C49_cylinder h cx cy cz Hr (coordinates := [[x; y; z]]) ltac:(one3))). split.
    - intros (x' & y' & z' & E & A & B). injection E as <- <- <-. unfold within, in_circle in *. lra.
    - intros H. exists x, y, z. split; auto. unfold within, in_circle. lra. }
  exists (cz - h / 2), (cz + h / 2), (fun _ => PI * rad ^ 2). split; [lra|]. split; [intros x y z H; apply K in H; tauto|]. split.
  - intros z H. apply area_disc with (cx := cx) (cy := cy) (r := rad); auto; [|apply disc_integral; auto]. intros x y. rewrite K. tauto.
  - unfold r. cbn [rg_volume cylinder]. replace (rad ^ 2 * PI * h) with (PI * rad ^ 2 * (cz + h / 2 - (cz - h / 2))) by field. apply const_integral. lra.
Qed.
Theorem C96_ball rad cx cy cz : 0 <= rad -> has_volume (fun x y z => ball_is_in rad [cx; cy; cz] [[x; y; z]] = [true]) (ball_volume rad).
Proof.
  intros Hr. assert (K : forall x y z, ball_is_in rad [cx; cy; cz] [[x; y; z]] = [true] <-> (x - cx) ^ 2 + (y - cy) ^ 2 + (z - cz) ^ 2 <= rad ^ 2).
  { intros x y z. rewrite (@only _ _ _ _ (C49_ball cx cy cz Hr (coordinates := [[x; y; z]]) ltac:(one3))). split.
    - intros (x' & y' & z' & E & A). injection E as <- <- <-. unfold in_sphere in *. lra.
    - intros H. exists x, y, z. split; auto. unfold in_sphere. lra. }
  assert (Z : forall z, (z - cz) ^ 2 <= rad ^ 2 <-> cz - rad <= z <= cz + rad). { intros z. split; intros H; [|nra]. split; destruct (Rle_dec (cz - rad) z), (Rle_dec z (cz + rad)); try lra; nra. }
  exists (cz - rad), (cz + rad), (fun z => PI * (rad ^ 2 - (z - cz) ^ 2)). split; [lra|]. split; [intros x y z H; apply K in H; apply Z; pose proof (pow2_ge_0 (x - cx)); pose proof (pow2_ge_0 (y - cy)); lra|]. split.
  - intros z H. apply Z in H. set (s := sqrt (rad ^ 2 - (z - cz) ^ 2)). assert (Hs : 0 <= s) by apply sqrt_pos. assert (Es : s ^ 2 = rad ^ 2 - (z - cz) ^ 2). { unfold s. rewrite <- Rsqr_pow2, Rsqr_sqrt; lra. }
    rewrite <- Es. apply area_disc with (cx := cx) (cy := cy) (r := s); auto; [|apply disc_integral; auto]. intros x y. rewrite K. lra.
  - unfold ball_volume. apply ball_integral. auto.
Qed.
(** C96: rectangles and discs have the area of the set of points they accept in their plane; they need two or three dimensions and a centre of that dimension *)
Theorem C96_plane sx sy rad cx cy center spacing dim g : 0 <= sx -> 0 <= sy -> 0 <= rad -> (dim = 2 /\ center = [cx; cy] \/ exists cz, dim = 3 /\ center = [cx; cy; cz])%Z ->
  let third := skipn 2 center in
  (exists r, rectangle next [sx; sy] center spacing dim g = Ok r /\ area (fun x y => accepts r ([x; y] ++ third)) (rg_volume r)) /\
  (exists r, disc next rad center spacing dim g = Ok r /\ area (fun x y => accepts r ([x; y] ++ third)) (rg_volume r)).
Proof.
  intros Hx Hy Hr HC. cbv zeta.
  assert (P : plane_ctor center dim = Ok tt) by (destruct HC as [[-> ->]|(cz & -> & ->)]; reflexivity).
  assert (N : forall cz, near_plane cz cz). { intros cz. unfold near_plane. replace (cz - cz) with 0 by ring. rewrite Rabs_R0. pose proof (Rabs_pos cz). assert (0 < / 10 ^ 8) by (apply Rinv_0_lt_compat; lra). assert (0 < / 10 ^ 5) by (apply Rinv_0_lt_compat; lra). nra. }
  unfold rectangle, disc. rewrite P. cbn [bind]. split; eexists; (split; [reflexivity|]); unfold accepts; cbn [rg_is_in rg_volume fold_right].
  - replace (sx * (sy * 1)) with ((cx + sx / 2 - (cx - sx / 2)) * (cy + sy / 2 - (cy - sy / 2))) by field. apply area_rectangle; [lra|lra|]. intros x y. destruct HC as [[-> ->]|(cz & -> & ->)]; cbn [skipn app].
    + destruct (C49_plane sx sy cx cy 0 0 Hr (coordinates := [[x; y]])) as [(l & E & F) _]; [one3|]. rewrite (@only_answer _ _ _ _ _ E F). unfold within. split; [intros (x' & y' & Q & A & B); injection Q as <- <-; lra|]. intros H. exists x, y. split; auto. lra.
    + destruct (C49_rectangle_partial sx sy cx cy (cz := cz) 0 0 (coordinates := [[x; y; cz]])) as (l & E & F); [one3|intros x' y' z' [Q|[]]; injection Q as <- <- <-; apply N|]. rewrite (@only_answer _ _ _ _ _ E F). unfold within. split; [intros (x' & y' & z' & Q & A & B); injection Q as <- <-; lra|]. intros H. exists x, y, cz. split; auto. lra.
  - rewrite Rmult_comm. apply area_disc with (cx := cx) (cy := cy) (r := rad); auto; [|apply disc_integral; auto]. intros x y. destruct HC as [[-> ->]|(cz & -> & ->)]; cbn [skipn app].
    + destruct (C49_plane 0 0 cx cy 0 0 Hr (coordinates := [[x; y]])) as [_ (l & E & F)]; [one3|]. rewrite (@only_answer _ _ _ _ _ E F). unfold in_circle. split; [intros (x' & y' & Q & A); injection Q as <- <-; lra|]. intros H. exists x, y. split; auto. lra.
    + destruct (C49_disc_partial cx cy (cz := cz) Hr (coordinates := [[x; y; cz]])) as (l & E & F); [one3|intros x' y' z' [Q|[]]; injection Q as <- <- <-; apply N|]. rewrite (@only_answer _ _ _ _ _ E F). unfold in_circle. split; [intros (x' & y' & z' & Q & A); injection Q as <- <-; lra|]. intros H. exists x, y, cz. split; auto. lra.
Qed.
Theorem C96_plane_refused sides rad center spacing dim g : ~ ((dim = 2 \/ dim = 3) /\ zlen center = dim)%Z ->
  rectangle next sides center spacing dim g = Err AssertionError /\ disc next rad center spacing dim g = Err AssertionError.
Proof.
  intros H. assert (P : plane_ctor center dim = Err AssertionError). { unfold plane_ctor, passert. destruct (Z.eqb_spec dim 2), (Z.eqb_spec dim 3); cbn [orb bind]; auto; destruct (Z.eqb_spec (zlen center) dim); auto; exfalso; apply H; split; auto. }
  unfold rectangle, disc. rewrite P. auto.
Qed.
End Volumes.
Example C96_cuboid_meets : 0 <= 2 /\ 0 <= 3 /\ 0 <= 4 /\ rg_volume (cuboid (fun g : unit => (0, g)) [2; 3; 4] [0; 0; 0] [1; 1; 1] tt) = 24.
Proof. cbn [rg_volume cuboid fold_right]. lra. Qed.
Example C96_plane_meets : 3%Z = 2%Z /\ [1; 2; 3] = [1; 2] \/ exists cz, 3%Z = 3%Z /\ [1; 2; 3] = [1; 2; cz]. Proof. right. exists 3. auto. Qed.
Example C96_plane_refused_meets : ~ ((3%Z = 2%Z \/ 3%Z = 3%Z) /\ zlen [1; 2] = 3%Z). Proof. intros [_ H]. discriminate. Qed.
Print Assumptions C96_cuboid.
Print Assumptions C96_cylinder.
Print Assumptions C96_ball.
Print Assumptions C96_plane.
Print Assumptions C96_plane_refused.
