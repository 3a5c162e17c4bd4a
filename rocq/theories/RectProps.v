(** C114: the earlier ways to place points on a rectangle. *)
Require Import Lra Psatz.
Require Import Verif.PyBase Verif.PyLemmas Verif.SineModel Verif.SineProps Verif.TrajModel Verif.TrajProps Verif.RegionModel Verif.RegionProps Verif.PointsModel Verif.PointsProps Verif.RectModel.
Set Implicit Arguments.
Local Open Scope list_scope.
Local Open Scope R_scope.

(** the place reached by walking the distance [s] around the rectangle, counterclockwise from the corner at the lower left *)
Definition spot (a b s : R) : list R :=
  if Rle_dec s a then [- a / 2 + s; - b / 2]
  else if Rle_dec s (a + b) then [a / 2; - b / 2 + (s - a)]
  else if Rle_dec s (a + b + a) then [a / 2 - (s - a - b); b / 2]
  else [- a / 2; b / 2 - (s - a - b - a)].

Lemma floor_bounds x : IZR (rfloor x) <= x < IZR (rfloor x) + 1.
Proof. unfold rfloor. destruct (base_Int_part x) as [H1 H2]. lra. Qed.
Lemma rint_floor x : 0 <= x -> rint x = rfloor x.
Proof. intros H. unfold rint. unfold rlt. destruct (Rlt_dec x 0); [lra|auto]. Qed.

Section Walk.
Variables (n : Z) (d : R) (P : R -> list R) (o : R).
Hypothesis Hd : 0 < d.
(** the points that are there after c of them have been placed *)
Definition half_done (c : Z) : list (list R) := map (fun k => P ((o + IZR k) * d)) (zrange 0 c) ++ zrep (n - c) [0; 0].
Lemma one_side s S c : (0 <= c)%Z -> d <= sd_length s -> 0 < (o + IZR c) * d - S <= d ->
  (forall t, S < t <= S + sd_length s -> P t = [sd_x s + sd_fx s * (t - S); sd_y s + sd_fy s * (t - S)]) ->
  exists m, (1 <= m)%Z /\ 0 < (o + IZR (c + m)) * d - (S + sd_length s) <= d /\
    ((c + m <= n)%Z -> place_side d (half_done c, c, (o + IZR c) * d - S) s = Ok (half_done (c + m), (c + m)%Z, (o + IZR (c + m)) * d - (S + sd_length s))).
Proof.
  intros Hc HL HS HP. set (start := (o + IZR c) * d - S) in *. set (L := sd_length s) in *. set (f := rfloor ((L - start) / d)).
  assert (Hq : 0 <= (L - start) / d) by (apply Rmult_le_pos; [lra|left; apply Rinv_0_lt_compat; lra]).
  pose proof (floor_bounds ((L - start) / d)) as [F1 F2]. fold f in F1, F2.
  assert (Q : (L - start) / d * d = L - start) by (field; lra).
  assert (F1' : IZR f * d <= L - start) by (rewrite <- Q; apply Rmult_le_compat_r; lra).
  assert (F2' : L - start < (IZR f + 1) * d) by (rewrite <- Q; apply Rmult_lt_compat_r; lra).
  assert (Hf : (0 <= f)%Z). { assert (-1 < IZR f) by lra. apply lt_IZR in H. lia. }
  exists (1 + f)%Z. split; [lia|].
  assert (Next : (o + IZR (c + (1 + f))) * d - (S + L) = start + IZR f * d + d - L). { rewrite plus_IZR, plus_IZR. unfold start. ring. }
  split; [rewrite Next; lra|]. intros Hn. unfold place_side. fold L. rewrite rint_floor by exact Hq. fold f. rewrite zlen_map, zlen_zrange, zget_map, zget_zrange.
  replace ((0 <=? Z.max 0 (1 + f - 0) - 1) && (Z.max 0 (1 + f - 0) - 1 <? 1 + f - 0))%Z with true by lia. cbn [option_map].
  assert (New : map (fun x => [sd_x s + sd_fx s * x; sd_y s + sd_fy s * x]) (map (fun k => start + IZR k * d) (zrange 0 (1 + f))) = map (fun k => P ((o + IZR k) * d)) (zrange c (c + (1 + f)))).
  { apply zget_ext. intros k. rewrite !zget_map, !zget_zrange. replace (1 + f - 0)%Z with (1 + f)%Z by lia. replace (c + (1 + f) - c)%Z with (1 + f)%Z by lia. destruct ((0 <=? k) && (k <? 1 + f))%Z eqn:Qk; cbn [option_map]; [|reflexivity]. f_equal.
    assert (Hk : (0 <= k <= f)%Z) by lia. replace (0 + k)%Z with k by lia. rewrite plus_IZR.
    assert (0 <= IZR k <= IZR f) by (split; apply IZR_le; lia). assert (IZR k * d <= IZR f * d) by (apply Rmult_le_compat_r; lra). assert (0 <= IZR k * d) by (apply Rmult_le_pos; lra).
    assert (T : (o + (IZR c + IZR k)) * d = start + IZR k * d + S) by (unfold start; ring). rewrite T. rewrite HP by (unfold start in *; lra). replace (start + IZR k * d + S - S) with (start + IZR k * d) by ring. reflexivity. }
  rewrite New. assert (Put : pyslice_set (half_done c) c (c + (1 + f)) (map (fun k => P ((o + IZR k) * d)) (zrange c (c + (1 + f)))) = Ok (half_done (c + (1 + f)))).
  { destruct (@pyslice_set_in _ (half_done c) c (c + (1 + f)) (map (fun k => P ((o + IZR k) * d)) (zrange c (c + (1 + f))))) as (l' & El & Ll & Gl); [lia| | |].
    - unfold half_done. rewrite zlen_app, zlen_map, zlen_zrange, zlen_zrep. lia.
    - rewrite zlen_map, zlen_zrange. lia.
    - rewrite El. f_equal. apply zget_ext. intros k. rewrite Gl. unfold half_done. rewrite !zget_app, !zlen_map, !zlen_zrange, !zget_map, !zget_zrange, !zget_zrep.
      destruct ((c <=? k) && (k <? c + (1 + f)))%Z eqn:B.
      + replace (k <? Z.max 0 (c + (1 + f) - 0))%Z with true by lia. replace ((0 <=? k - c) && (k - c <? c + (1 + f) - c))%Z with true by lia. replace ((0 <=? k) && (k <? c + (1 + f) - 0))%Z with true by lia. cbn [option_map]. do 5 f_equal. lia.
      + destruct (Z.ltb_spec k (Z.max 0 (c - 0))).
        * replace (k <? Z.max 0 (c + (1 + f) - 0))%Z with true by lia. destruct ((0 <=? k) && (k <? c - 0))%Z eqn:B1; [replace ((0 <=? k) && (k <? c + (1 + f) - 0))%Z with true by lia; reflexivity|]. replace ((0 <=? k) && (k <? c + (1 + f) - 0))%Z with false by lia. reflexivity.
        * replace (k <? Z.max 0 (c + (1 + f) - 0))%Z with false by lia. destruct ((0 <=? k - Z.max 0 (c - 0)) && (k - Z.max 0 (c - 0) <? n - c))%Z eqn:B1.
          -- replace ((0 <=? k - Z.max 0 (c + (1 + f) - 0)) && (k - Z.max 0 (c + (1 + f) - 0) <? n - (c + (1 + f))))%Z with true by lia. reflexivity.
          -- replace ((0 <=? k - Z.max 0 (c + (1 + f) - 0)) && (k - Z.max 0 (c + (1 + f) - 0) <? n - (c + (1 + f))))%Z with false by lia. reflexivity. }
  rewrite Put. cbn [bind]. f_equal. f_equal. rewrite Next. replace (0 + (Z.max 0 (1 + f - 0) - 1))%Z with f by lia. ring.
Qed.
End Walk.

Lemma placed (n : Z) a b o : (4 <= n)%Z -> 0 < a -> 0 < b -> 0 < o <= 1 -> let d := 2 * (a + b) / IZR n in d <= a -> d <= b ->
  place_sides n a b d (d * o) = Ok (map (fun k => spot a b ((o + IZR k) * d)) (zrange 0 n)).
Proof.
  intros Hn Ha Hb Ho d Da Db. assert (Hn' : 4 <= IZR n) by (apply IZR_le in Hn; exact Hn). assert (Hd : 0 < d) by (unfold d; apply Rmult_lt_0_compat; [lra|apply Rinv_0_lt_compat; lra]).
  assert (Total : IZR n * d = 2 * (a + b)) by (unfold d; field; lra).
  assert (Count : forall c S, 0 < (o + IZR c) * d - S <= d -> S + d <= 2 * (a + b) -> (c < n)%Z).
  { intros c S H1 H2. apply lt_IZR. apply Rmult_lt_reg_r with d; [auto|]. assert (0 < o * d) by (apply Rmult_lt_0_compat; lra). rewrite Total. lra. }
  unfold place_sides, sides. cbn [foldM].
  destruct (@one_side n d (spot a b) o Hd (mkSide a (- a / 2) (- b / 2) 1 0) 0 0) as (m0 & M0 & S0 & E0); cbn [sd_length sd_x sd_y sd_fx sd_fy] in *; [lia|lra| | |].
  { assert (0 < o * d) by (apply Rmult_lt_0_compat; lra). assert (o * d <= 1 * d) by (apply Rmult_le_compat_r; lra). lra. }
  { intros t Ht. unfold spot. destruct (Rle_dec t a); [|lra]. f_equal; [lra|f_equal; lra]. }
  assert (C0 : (0 + m0 < n)%Z) by (eapply Count; [exact S0|lra]).
  replace (d * o) with ((o + IZR 0) * d - 0) by ring. replace (zrep n [0; 0]) with (half_done n d (spot a b) o 0) by (unfold half_done; rewrite zrange_empty by lia; cbn [map app]; f_equal; lia).
  rewrite E0 by lia. cbn [bind].
  destruct (@one_side n d (spot a b) o Hd (mkSide b (a / 2) (- b / 2) 0 1) (0 + a) (0 + m0)) as (m1 & M1 & S1 & E1); cbn [sd_length sd_x sd_y sd_fx sd_fy] in *; [lia|lra|exact S0| |].
  { intros t Ht. unfold spot. destruct (Rle_dec t a); [lra|]. destruct (Rle_dec t (a + b)); [|lra]. f_equal; [lra|f_equal; lra]. }
  assert (C1 : (0 + m0 + m1 < n)%Z) by (eapply Count; [exact S1|lra]). rewrite E1 by lia. cbn [bind].
  destruct (@one_side n d (spot a b) o Hd (mkSide a (a / 2) (b / 2) (-1) 0) (0 + a + b) (0 + m0 + m1)) as (m2 & M2 & S2 & E2); cbn [sd_length sd_x sd_y sd_fx sd_fy] in *; [lia|lra|exact S1| |].
  { intros t Ht. unfold spot. destruct (Rle_dec t a); [lra|]. destruct (Rle_dec t (a + b)); [lra|]. destruct (Rle_dec t (a + b + a)); [|lra]. f_equal; [lra|f_equal; lra]. }
  assert (C2 : (0 + m0 + m1 + m2 < n)%Z) by (eapply Count; [exact S2|lra]). rewrite E2 by lia. cbn [bind].
  destruct (@one_side n d (spot a b) o Hd (mkSide b (- a / 2) (b / 2) 0 (-1)) (0 + a + b + a) (0 + m0 + m1 + m2)) as (m3 & M3 & S3 & E3); cbn [sd_length sd_x sd_y sd_fx sd_fy] in *; [lia|lra|exact S2| |].
  { intros t Ht. unfold spot. destruct (Rle_dec t a); [lra|]. destruct (Rle_dec t (a + b)); [lra|]. destruct (Rle_dec t (a + b + a)); [lra|]. f_equal; [lra|f_equal; lra]. }
  assert (C3 : (0 + m0 + m1 + m2 + m3 = n)%Z).
  { set (c := (0 + m0 + m1 + m2 + m3)%Z) in *. replace (0 + a + b + a + b) with (IZR n * d) in S3 by lra.
    assert (K1 : 0 < (o + IZR c - IZR n) * d) by lra. assert (K2 : (o + IZR c - IZR n) * d <= 1 * d) by lra.
    assert (0 < o + IZR c - IZR n) by (apply Rmult_lt_reg_r with d; lra). assert (o + IZR c - IZR n <= 1) by (apply Rmult_le_reg_r with d; lra).
    assert (X1 : IZR (n - 1) < IZR c) by (rewrite minus_IZR; lra). assert (X2 : IZR c < IZR (n + 1)) by (rewrite plus_IZR; lra). apply lt_IZR in X1, X2. lia. }
  rewrite E3 by lia. cbn [bind fst]. rewrite C3. unfold half_done. rewrite Z.sub_diag. cbn [zrep]. rewrite app_nil_r. reflexivity.
Qed.
(** C114.  At least four points, and no side shorter than the distance between neighbours: the points are at equal distances around the rectangle, the first one [offset]
    distances from the lower left corner. *)
Theorem C114_old_partial n a b offset z : (4 <= n)%Z -> 0 < a -> 0 < b -> 0 < offset <= 1 -> let d := 2 * (a + b) / IZR n in d <= a -> d <= b ->
  equidistant_rectangle_old n a b offset z = Ok (map (fun k => with_z z (spot a b ((offset + IZR k) * d))) (zrange 0 n)).
Proof.
  intros Hn Ha Hb Ho d Da Db. unfold equidistant_rectangle_old. replace (n =? 0)%Z with false by lia. replace (n <? 4)%Z with false by lia. cbv zeta. unfold d in *. rewrite placed by auto. cbn [bind]. rewrite map_map. reflexivity.
Qed.
(** C114.  The same for the version with a random offset, if the number that was drawn is not zero *)
Theorem C114_random_partial {G} (next : G -> R * G) choice n a b g u g' : (4 <= n)%Z -> 0 < a -> 0 < b -> next g = (u, g') -> 0 < u < 1 -> let d := 2 * (a + b) / IZR n in d <= a -> d <= b ->
  equidistant_rectangle_for_fewer next choice n a b g = Ok (map (fun k => spot a b ((u + IZR k) * d)) (zrange 0 n), g').
Proof.
  intros Hn Ha Hb En Hu d Da Db. unfold equidistant_rectangle_for_fewer. replace (n =? 0)%Z with false by lia. replace (n =? 1)%Z with false by lia. replace (n =? 2)%Z with false by lia. replace (n =? 3)%Z with false by lia. rewrite En. cbv zeta.
  rewrite (Rmult_comm u). unfold d in *. rewrite placed by (auto; lra). reflexivity.
Qed.
Lemma spot_on a b s : 0 < a -> 0 < b -> 0 <= s <= 2 * (a + b) -> exists x y, spot a b s = [x; y] /\ on_rectangle a b x y.
Proof.
  intros Ha Hb Hs. unfold spot, on_rectangle. destruct (Rle_dec s a); [|destruct (Rle_dec s (a + b)); [|destruct (Rle_dec s (a + b + a))]]; eexists _, _; (split; [reflexivity|]).
  - right. split; [rewrite Rabs_left; lra|apply Rabs_le; lra].
  - left. split; [apply Rabs_pos_eq; lra|apply Rabs_le; lra].
  - right. split; [apply Rabs_pos_eq; lra|apply Rabs_le; lra].
  - left. split; [rewrite Rabs_left; lra|apply Rabs_le; lra].
Qed.
(** C114.  Fewer than four points: as many as asked for, all on the rectangle; with random numbers as well *)
Theorem C114_few a b offset z : 0 < a -> 0 < b -> forall n, (0 <= n <= 3)%Z ->
  exists l, equidistant_rectangle_old n a b offset z = Ok l /\ zlen l = n /\ forall p, In p l -> exists x y, p = with_z z [x; y] /\ on_rectangle a b x y.
Proof.
  intros Ha Hb n Hn. unfold equidistant_rectangle_old. destruct (Z.eqb_spec n 0) as [->|N]; [exists []; split; [reflexivity|]; split; [reflexivity|intros p []]|].
  replace (n <? 4)%Z with true by lia. cbv zeta. destruct (@C52_on_rectangle 4 a b (1 / 2) None) as (l & El & Ll & Hl); [lra|lra|lra|].
  rewrite El. cbn [bind]. eexists. split; [reflexivity|]. assert (L4 : zlen l = 4%Z) by (unfold zlen; rewrite Ll; reflexivity).
  split; [rewrite zlen_map, zlen_pyslice, L4; rewrite !norm_idx_id by lia; lia|]. intros p Hp. apply in_map_iff in Hp as (q & <- & Hq).
  assert (Hq' : In q l). { apply In_zget in Hq as (k & _ & Hk). rewrite zget_pyslice in Hk. cbv zeta in Hk. destruct (_ && _)%bool in Hk; [|discriminate]. eapply zget_In; exact Hk. }
  destruct (Hl _ Hq') as (x & y & -> & Hxy). exists x, y. split; [reflexivity|exact Hxy].
Qed.
Theorem C114_few_random {G} (next : G -> R * G) choice a b : 0 < a -> 0 < b -> (forall g, 0 <= fst (next g) < 1) -> forall n g, (1 <= n <= 3)%Z ->
  exists l g', equidistant_rectangle_for_fewer next choice n a b g = Ok (l, g') /\ zlen l = n /\ forall p, In p l -> exists x y, p = [x; y] /\ on_rectangle a b x y.
Proof.
  intros Ha Hb Hu n g Hn. unfold equidistant_rectangle_for_fewer. replace (n =? 0)%Z with false by lia. cbv zeta.
  assert (U : forall s g u g', 0 < s -> next g = (u, g') -> - s / 2 <= u * s / 4 - s / 4 <= s / 2). { intros s g0 u g1 Hs E. pose proof (Hu g0) as H. rewrite E in H. cbn [fst] in H. assert (0 <= u * s <= s) by (split; nra). lra. }
  assert (Up : forall x, - a / 2 <= x <= a / 2 -> on_rectangle a b x (b / 2)) by (intros x Hx; right; split; [apply Rabs_pos_eq; lra|apply Rabs_le; lra]).
  assert (Sg : forall c s, 0 < s -> Rabs (sign c * s / 2) = s / 2) by (intros c s Hs; unfold sign; destruct c; [rewrite Rabs_pos_eq; lra|rewrite Rabs_left; lra]).
  destruct (Z.eqb_spec n 1) as [->|N1].
  { destruct (next g) as [u g1] eqn:E1. destruct (choice g1) as [c g2]. eexists _, _. split; [reflexivity|]. split; [reflexivity|]. intros p [<-|[]]. eexists _, _. split; [reflexivity|]. right. split; [apply Sg; auto|apply Rabs_le]. pose proof (U a _ _ _ Ha E1). lra. }
  destruct (Z.eqb_spec n 2) as [->|N2].
  { destruct (next g) as [u g1] eqn:E1. destruct (next g1) as [v g2] eqn:E2. eexists _, _. split; [reflexivity|]. split; [reflexivity|]. intros p [<-|[<-|[]]]; (eexists _, _; split; [reflexivity|]); apply Up; eapply U; eauto. }
  replace (n =? 3)%Z with true by lia. destruct (next g) as [u g1] eqn:E1. destruct (next g1) as [v g2] eqn:E2. destruct (choice g2) as [c g3]. destruct (next g3) as [w g4] eqn:E4. eexists _, _. split; [reflexivity|]. split; [cbn; lia|].
  intros p [<-|[<-|[<-|[]]]]; (eexists _, _; split; [reflexivity|]); [apply Up; eapply U; eauto|apply Up; eapply U; eauto|]. left. split; [apply Sg; auto|apply Rabs_le]. pose proof (U b _ _ _ Hb E4). lra.
Qed.
(** C114.  All points are on the rectangle *)
Theorem C114_on_rectangle n a b offset z : (4 <= n)%Z -> 0 < a -> 0 < b -> 0 < offset <= 1 -> let d := 2 * (a + b) / IZR n in d <= a -> d <= b ->
  exists l, equidistant_rectangle_old n a b offset z = Ok l /\ zlen l = n /\ forall p, In p l -> exists x y, p = with_z z [x; y] /\ on_rectangle a b x y.
Proof.
  intros Hn Ha Hb Ho d Da Db. eexists. split; [apply C114_old_partial; auto|]. split; [rewrite zlen_map, zlen_zrange; lia|]. intros p Hp. apply in_map_iff in Hp as (k & <- & Hk). apply In_zrange in Hk. fold d.
  assert (Hn' : 0 < IZR n) by (apply (IZR_lt 0); lia). assert (Hd : 0 < d) by (unfold d; apply Rmult_lt_0_compat; [lra|apply Rinv_0_lt_compat; lra]). assert (Total : IZR n * d = 2 * (a + b)) by (unfold d; field; lra).
  assert (0 <= IZR k) by (apply (IZR_le 0); lia). assert (IZR k + 1 <= IZR n) by (rewrite <- plus_IZR; apply IZR_le; lia). destruct (@spot_on a b ((offset + IZR k) * d)) as (x & y & E & H1); [auto|auto| |exists x, y; rewrite E; auto].
  split; [apply Rmult_le_pos; lra|]. rewrite <- Total. apply Rmult_le_compat_r; lra.
Qed.
(** one side, if the number of its points is known *)
Lemma floor_is k x : IZR k <= x < IZR k + 1 -> rfloor x = k.
Proof. intros H. pose proof (floor_bounds x) as F. assert (A : IZR (rfloor x) < IZR (k + 1)) by (rewrite plus_IZR; lra). assert (B : IZR k < IZR (rfloor x + 1)) by (rewrite plus_IZR; lra). apply lt_IZR in A, B. lia. Qed.
Lemma rint_is k x : (0 <= k)%Z -> 0 <= x -> IZR k <= x < IZR k + 1 -> rint x = k.
Proof. intros Hk Hx H. rewrite rint_floor by auto. apply floor_is. auto. Qed.
Lemma rint_zero x : -1 < x < 1 -> rint x = 0%Z.
Proof. intros H. unfold rint, rlt. destruct (Rlt_dec x 0); [rewrite (@floor_is 0); [reflexivity|cbn; lra]|apply floor_is; cbn; lra]. Qed.
Lemma side_is d pts c start s f : rint ((sd_length s - start) / d) = f -> (0 <= f)%Z -> place_side d (pts, c, start) s =
  (points <- pyslice_set pts c (c + (1 + f)) (map (fun k => [sd_x s + sd_fx s * (start + IZR k * d); sd_y s + sd_fy s * (start + IZR k * d)]) (zrange 0 (1 + f))) ;; Ok (points, (c + (1 + f))%Z, d - (sd_length s - (start + IZR f * d)))).
Proof.
  intros Hr Hf. unfold place_side. rewrite Hr. rewrite zlen_map, zlen_zrange, zget_map, zget_zrange, map_map. replace ((0 <=? Z.max 0 (1 + f - 0) - 1) && (Z.max 0 (1 + f - 0) - 1 <? 1 + f - 0))%Z with true by lia. cbn [option_map].
  replace (0 + (Z.max 0 (1 + f - 0) - 1))%Z with f by lia. reflexivity.
Qed.
(** C114 is false if a side is shorter than the distance between neighbours: one of four points on a rectangle of 10 times 1 lies outside of it *)
Theorem C114_short_side_refuted : exists l, equidistant_rectangle_old 4 10 1 (1 / 2) None = Ok l /\ zlen l = 4%Z /\ exists x y, zget l 2 = Some [x; y] /\ ~ on_rectangle 10 1 x y.
Proof.
  unfold equidistant_rectangle_old. cbn [Z.eqb Z.ltb Z.compare Pos.compare Pos.compare_cont]. cbv zeta. replace (2 * (10 + 1) / 4) with (11 / 2) by lra. replace (11 / 2 * (1 / 2)) with (11 / 4) by lra.
  unfold place_sides, sides. cbn [foldM].
  rewrite (@side_is _ _ _ _ _ 1); cbn [sd_length sd_x sd_y sd_fx sd_fy]; [|apply rint_is; [lia|lra|cbn; lra]|lia].
  set (P0 := pyslice_set _ _ _ _). assert (E0 : exists a b, P0 = Ok [a; b; [0; 0]; [0; 0]]) by (eexists _, _; cbv -[Rplus Rminus Rmult Rdiv IZR]; reflexivity). destruct E0 as (a & b & ->). cbn [bind].
  rewrite (@side_is _ _ _ _ _ 0); cbn [sd_length sd_x sd_y sd_fx sd_fy]; [|apply rint_zero; lra|lia].
  set (y2 := 11 / 2 - (10 - (11 / 4 + 1 * (11 / 2)))).
  set (P1 := pyslice_set _ _ _ _). assert (E1 : P1 = Ok [a; b; [10 / 2 + 0 * (y2 + IZR 0 * (11 / 2)); - (1) / 2 + 1 * (y2 + IZR 0 * (11 / 2))]; [0; 0]]) by (cbv -[Rplus Rminus Rmult Rdiv Ropp IZR y2]; reflexivity). rewrite E1. clear P1 E1. cbn [bind].
  rewrite (@side_is _ _ _ _ _ 0); cbn [sd_length sd_x sd_y sd_fx sd_fy]; [|apply rint_zero; unfold y2; lra|lia].
  set (P2 := pyslice_set _ _ _ _). assert (E2 : exists e, P2 = Ok [a; b; [10 / 2 + 0 * (y2 + IZR 0 * (11 / 2)); - (1) / 2 + 1 * (y2 + IZR 0 * (11 / 2))]; e]) by (eexists; cbv -[Rplus Rminus Rmult Rdiv Ropp IZR y2]; reflexivity). destruct E2 as (e & ->). cbn [bind].
  rewrite (@side_is _ _ _ _ _ 0); cbn [sd_length sd_x sd_y sd_fx sd_fy]; [|apply rint_zero; unfold y2; lra|lia].
  set (P3 := pyslice_set _ _ _ _). assert (E3 : P3 = Ok [a; b; [10 / 2 + 0 * (y2 + IZR 0 * (11 / 2)); - (1) / 2 + 1 * (y2 + IZR 0 * (11 / 2))]; e]) by (cbv -[Rplus Rminus Rmult Rdiv Ropp IZR y2]; reflexivity). rewrite E3. clear P3 E3. cbn [bind fst map with_z].
  eexists. split; [reflexivity|]. split; [reflexivity|]. eexists _, _. split; [reflexivity|]. unfold on_rectangle, y2. rewrite !Rabs_pos_eq by lra. lra.
Qed.
(** C114.  Where the random version puts up to three points: the random number u is the share that is passed of the quarter of a side in front of its middle; the side is the
    upper one, or drawn at random for a single point; the third point lies on the left or the right side. *)
Theorem C114_few_places {G} (next : G -> R * G) choice a b g u g1 : next g = (u, g1) ->
  let place side x := - side / 4 + x * (side / 4) in
  (forall c g2, choice g1 = (c, g2) -> equidistant_rectangle_for_fewer next choice 1 a b g = Ok ([[place a u; if c : bool then b / 2 else - b / 2]], g2)) /\
  forall v g2, next g1 = (v, g2) ->
    equidistant_rectangle_for_fewer next choice 2 a b g = Ok ([[place a u; b / 2]; [place a v; b / 2]], g2) /\
    forall c g3 w g4, choice g2 = (c, g3) -> next g3 = (w, g4) ->
      equidistant_rectangle_for_fewer next choice 3 a b g = Ok ([[place a u; b / 2]; [place a v; b / 2]; [if c : bool then a / 2 else - a / 2; place b w]], g4).
Proof.
  intros E1 place. assert (K : forall s x, place s x = x * s / 4 - s / 4) by (intros; unfold place; field). assert (S : forall (c : bool) s, (if c then s / 2 else - s / 2) = sign c * s / 2) by (intros [] s; unfold sign; field).
  rewrite !K. split; [|intros v g2 E2; split; [|intros c g3 w g4 E3 E4]].
  - intros c g2 E2. rewrite S. unfold equidistant_rectangle_for_fewer. cbn [Z.eqb Pos.eqb]. cbv zeta. rewrite E1, E2. reflexivity.
  - rewrite !K. unfold equidistant_rectangle_for_fewer. cbn [Z.eqb Pos.eqb]. cbv zeta. rewrite E1, E2. reflexivity.
  - rewrite !K, S. unfold equidistant_rectangle_for_fewer. cbn [Z.eqb Pos.eqb]. cbv zeta. rewrite E1, E2, E3, E4. reflexivity.
Qed.
(** C114.  No points can not be placed at random *)
Theorem C114_none_random {G} (next : G -> R * G) choice a b g : equidistant_rectangle_for_fewer next choice 0 a b g = Err ZeroDivisionError.
Proof. reflexivity. Qed.

(* ------------------------------------------------------------------ Examples *)
Example C114_example : equidistant_rectangle_old 4 2 2 (1 / 2) (Some 3) = Ok [[0; -1; 3]; [1; 0; 3]; [0; 1; 3]; [-1; 0; 3]].
Proof.
  rewrite C114_old_partial by (lia || lra). replace (2 * (2 + 2) / 4) with 2 by lra. cbn [zrange Z.to_nat Z.sub Z.opp Z.pos_sub Z.add Pos.to_nat Pos.iter_op Nat.add seq map with_z].
  change (zrange 0 4) with [0; 1; 2; 3]%Z. cbn [map with_z]. unfold spot. replace ((1 / 2 + 0) * 2) with 1 by lra. replace ((1 / 2 + 1) * 2) with 3 by lra. replace ((1 / 2 + 2) * 2) with 5 by lra. replace ((1 / 2 + 3) * 2) with 7 by lra.
  destruct (Rle_dec 1 2); [|lra]. destruct (Rle_dec 3 2); [lra|]. destruct (Rle_dec 3 (2 + 2)); [|lra]. destruct (Rle_dec 5 2); [lra|]. destruct (Rle_dec 5 (2 + 2)); [lra|]. destruct (Rle_dec 5 (2 + 2 + 2)); [|lra].
  destruct (Rle_dec 7 2); [lra|]. destruct (Rle_dec 7 (2 + 2)); [lra|]. destruct (Rle_dec 7 (2 + 2 + 2)); [lra|]. cbn [app]. f_equal. repeat (f_equal; [f_equal; [lra|f_equal; lra]|]). f_equal. f_equal; [lra|f_equal; lra].
Qed.
Example C114_on_rectangle_example : exists l, equidistant_rectangle_old 10 3 2 1 None = Ok l /\ zlen l = 10%Z /\ forall p, In p l -> exists x y, p = [x; y] /\ on_rectangle 3 2 x y.
Proof. apply (@C114_on_rectangle 10 3 2 1 None); lia || lra. Qed.
Example C114_random_example : equidistant_rectangle_for_fewer (fun g : Z => (1 / 4, (g + 1)%Z)) (fun g => (true, g)) 5 3 2 7%Z = Ok (map (fun k => spot 3 2 ((1 / 4 + IZR k) * (2 * (3 + 2) / 5))) (zrange 0 5), 8%Z).
Proof. apply C114_random_partial with (g' := 8%Z); lia || lra || reflexivity. Qed.
Example C114_few_places_example : equidistant_rectangle_for_fewer (fun g : Z => (1 / 2, (g + 1)%Z)) (fun g => (false, g)) 3 8 4 0%Z = Ok ([[-1; 2]; [-1; 2]; [-4; - (1 / 2)]], 3%Z).
Proof.
  destruct (@C114_few_places _ (fun g : Z => (1 / 2, (g + 1)%Z)) (fun g => (false, g)) 8 4 0%Z (1 / 2) 1%Z eq_refl) as [_ H]. destruct (H (1 / 2) 2%Z eq_refl) as [_ H3].
  rewrite (H3 false 2%Z (1 / 2) 3%Z eq_refl eq_refl). cbv zeta. replace (- (8) / 4 + 1 / 2 * (8 / 4)) with (-1) by lra. replace (4 / 2) with 2 by lra. replace (- (8) / 2) with (-4) by lra. replace (- (4) / 4 + 1 / 2 * (4 / 4)) with (- (1 / 2)) by lra. reflexivity.
Qed.
Example C114_few_example : (exists l, equidistant_rectangle_old 3 3 2 (1 / 2) (Some 1) = Ok l /\ zlen l = 3%Z /\ forall p, In p l -> exists x y, p = [x; y; 1] /\ on_rectangle 3 2 x y) /\
  exists l g', equidistant_rectangle_for_fewer (fun g : Z => (1 / 4, (g + 1)%Z)) (fun g => (true, g)) 2 3 2 7%Z = Ok (l, g') /\ zlen l = 2%Z /\ forall p, In p l -> exists x y, p = [x; y] /\ on_rectangle 3 2 x y.
Proof.
  split; [apply (@C114_few 3 2 (1 / 2) (Some 1)); lia || lra|]. apply C114_few_random; [lra|lra|intros g; cbn; lra|lia].
Qed.
Print Assumptions C114_old_partial.
Print Assumptions C114_on_rectangle.
Print Assumptions C114_few.
Print Assumptions C114_random_partial.
Print Assumptions C114_few_random.
Print Assumptions C114_few_places.
Print Assumptions C114_none_random.
Print Assumptions C114_short_side_refuted.
