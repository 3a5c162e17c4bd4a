(** Properties of trajectories: C45, C46, C47. *)
Require Import Lra.
Require Import Verif.PyBase Verif.PyLemmas Verif.SineModel Verif.SineProps Verif.TrajModel.
Set Implicit Arguments.
Local Open Scope list_scope.
Local Open Scope R_scope.

(* ------------------------------------------------------------------ vocabulary *)
(** Euclidean distance, and the point a fraction [f] of the way from [p] to [q] *)
Fixpoint sqdist (p q : list R) : R := match p, q with x :: p, y :: q => (x - y) * (x - y) + sqdist p q | _, _ => 0 end.
Definition edist (p q : list R) : R := sqrt (sqdist p q).
Fixpoint between (p q : list R) (f : R) : list R := match p, q with x :: p, y :: q => (x + f * (y - x)) :: between p q f | _, _ => [] end.
(** length of the way through the first [k] segments *)
Fixpoint way (points : list (list R)) (k : nat) : R :=
  match k, points with S k, p :: ((q :: _) as r) => edist p q + way r k | _, _ => 0 end.
Definition whole (points : list (list R)) : R := way points (length points - 1).
(** points of a common dimension, consecutive ones different *)
Definition proper (points : list (list R)) (d : nat) : Prop :=
  (2 <= length points)%nat /\ (forall p, In p points -> length p = d) /\
  (forall k p q, nth_error points k = Some p -> nth_error points (S k) = Some q -> 0 < edist p q).

(* ------------------------------------------------------------------ lemmas *)
Lemma sq_eq p : forall q, rsum (vzip (fun x y => (x - y) ^ 2) p q) = sqdist p q.
Proof. unfold vzip. induction p as [|x p IH]; intros [|y q]; cbn; auto. rewrite IH. ring. Qed.
Lemma interpolate_between p : forall q f, interpolate p q f = between p q f.
Proof. unfold interpolate, vzip. induction p as [|x p IH]; intros [|y q] f; cbn; auto. rewrite IH. f_equal. ring. Qed.
Lemma between_0 p : forall q, length p = length q -> between p q 0 = p.
Proof. induction p as [|x p IH]; intros [|y q] H; cbn in *; auto; try discriminate. rewrite IH by lia. f_equal. ring. Qed.
Lemma between_1 p : forall q, length p = length q -> between p q 1 = q.
Proof. induction p as [|x p IH]; intros [|y q] H; cbn in *; auto; try discriminate. rewrite IH by lia. f_equal. ring. Qed.
Lemma between_same p f : between p p f = p.
Proof. induction p as [|x p IH]; cbn; auto. rewrite IH. f_equal. ring. Qed.
Lemma sqdist_between p : forall q f g, sqdist (between p q f) (between p q g) = (f - g) * (f - g) * sqdist p q.
Proof. induction p as [|x p IH]; intros [|y q] f g; cbn; try ring. rewrite IH. ring. Qed.
Lemma edist_between p q f g : edist (between p q f) (between p q g) = Rabs (f - g) * edist p q.
Proof.
  unfold edist. rewrite sqdist_between. rewrite sqrt_mult_alt by apply Rle_0_sqr. f_equal. apply sqrt_Rsqr_abs.
Qed.
Lemma rlt_spec x y : rlt x y = true <-> x < y.
Proof. unfold rlt. destruct (Rlt_dec x y); split; auto; try discriminate. Qed.
Lemma rlt_false x y : rlt x y = false <-> y <= x.
Proof. unfold rlt. destruct (Rlt_dec x y); split; intros; try discriminate; auto; lra. Qed.
Lemma rle_spec x y : rle x y = true <-> x <= y.
Proof. unfold rle. destruct (Rle_dec x y); split; auto; try discriminate. Qed.

Lemma segment_cons p q r : segment_distance (p :: q :: r) = edist p q :: segment_distance (q :: r).
Proof. unfold segment_distance at 1. change (removelast (p :: q :: r)) with (p :: removelast (q :: r)). cbn [tl combine map fst snd]. rewrite sq_eq. reflexivity. Qed.
Lemma distances_way points : forall k d, nth_error (segment_distance points) k = Some d -> exists p q, nth_error points k = Some p /\ nth_error points (S k) = Some q /\ d = edist p q.
Proof.
  induction points as [|p r IH]; intros k d H; [destruct k; discriminate|]. destruct r as [|q r]; [destruct k; discriminate|]. rewrite segment_cons in H. destruct k as [|k].
  - cbn in H. injection H as <-. exists p, q. auto.
  - apply IH. exact H.
Qed.
Lemma distances_length points : length (segment_distance points) = (length points - 1)%nat.
Proof.
  unfold segment_distance. rewrite map_length, combine_length. destruct points as [|p r]; auto.
  assert (K : length (removelast (p :: r)) = length r). { revert p. induction r as [|q r IH]; intros p; auto. change (removelast (p :: q :: r)) with (p :: removelast (q :: r)). cbn [length]. rewrite IH. auto. }
  rewrite K. cbn. lia.
Qed.
Lemma rsum_firstn points : forall k, rsum (firstn k (segment_distance points)) = way points k.
Proof.
  induction points as [|p r IH]; intros k; [unfold segment_distance; destruct k; auto|]. destruct r as [|q r]; [unfold segment_distance; destruct k; auto|]. rewrite segment_cons. destruct k as [|k]; auto.
  cbn [firstn rsum fold_right]. fold (rsum (firstn k (segment_distance (q :: r)))). rewrite IH. auto.
Qed.
Lemma rsum_way points : rsum (segment_distance points) = whole points.
Proof. unfold whole. rewrite <- rsum_firstn. rewrite firstn_all2; auto. rewrite distances_length. lia. Qed.
Lemma rsum_map_div l c : rsum (map (fun x => x / c) l) = rsum l / c.
Proof. induction l as [|x l IH]; cbn; [unfold Rdiv; ring|]. fold (rsum (map (fun x => x / c) l)). rewrite IH. unfold rsum. unfold Rdiv. ring. Qed.
Lemma nth_cumsum l : forall k acc, (k <= length l)%nat -> nth_error (acc :: cumsum acc l) k = Some (acc + rsum (firstn k l)).
Proof.
  induction l as [|x l IH]; intros k acc H.
  - cbn in H. assert (k = 0%nat) by lia. subst. cbn. f_equal. ring.
  - destruct k as [|k]; [cbn; f_equal; ring|]. change (nth_error (acc :: cumsum acc (x :: l)) (S k)) with (nth_error ((acc + x) :: cumsum (acc + x) l) k). rewrite IH by (cbn in H; lia). cbn [firstn rsum fold_right]. f_equal. unfold rsum. ring.
Qed.
Lemma length_cumsum l : forall acc, length (cumsum acc l) = length l.
Proof. induction l as [|x l IH]; intros; cbn; auto. Qed.
Lemma pyget_nat {A} (l : list A) k x : nth_error l k = Some x -> pyget l (Z.of_nat k) = Ok x.
Proof.
  intros H. unfold pyget. destruct (Z.ltb_spec (Z.of_nat k) 0); [lia|]. unfold zget. destruct (Z.ltb_spec (Z.of_nat k) 0); [lia|]. rewrite Nat2Z.id, H. auto.
Qed.
Lemma first_above_spec x l : forall i, (exists j c, nth_error l j = Some c /\ x < c) ->
  exists j c, first_above i x l = (i + Z.of_nat j)%Z /\ nth_error l j = Some c /\ x < c /\ forall j' c', (j' < j)%nat -> nth_error l j' = Some c' -> c' <= x.
Proof.
  induction l as [|c l IH]; intros i (j & d & Hj & Hd); [destruct j; discriminate|]. cbn [first_above]. destruct (rlt x c) eqn:Q.
  - apply rlt_spec in Q. exists 0%nat, c. split; [lia|]. split; auto. split; auto. intros; lia.
  - apply rlt_false in Q. destruct j as [|j]; [cbn in Hj; injection Hj as <-; lra|]. destruct (IH (i + 1)%Z) as (j' & e & E1 & E2 & E3 & E4); [exists j, d; auto|].
    exists (S j'), e. split; [rewrite E1; lia|]. split; auto. split; auto. intros [|k] f Hk Hf; [cbn in Hf; injection Hf as <-; auto|]. apply (E4 k f); [lia|auto].
Qed.
Lemma first_above_none x l : forall i, (forall c, In c l -> c <= x) -> first_above i x l = 0%Z.
Proof. induction l as [|c l IH]; intros i H; auto. cbn [first_above]. assert (Q : rlt x c = false) by (apply rlt_false, H; left; auto). rewrite Q. apply IH. intros; apply H; right; auto. Qed.

Lemma way_S points : forall k p q, nth_error points k = Some p -> nth_error points (S k) = Some q -> way points (S k) = way points k + edist p q.
Proof.
  induction points as [|a r IH]; intros k p q Hp Hq; [destruct k; discriminate|]. destruct r as [|b r]; [destruct k; discriminate|]. destruct k as [|k].
  - cbn in Hp, Hq. injection Hp as <-. injection Hq as <-. cbn. ring.
  - change (way (a :: b :: r) (S (S k))) with (edist a b + way (b :: r) (S k)). change (way (a :: b :: r) (S k)) with (edist a b + way (b :: r) k). rewrite (IH k p q); auto. ring.
Qed.
Lemma way_mono points d : proper points d -> forall j k, (j < k)%nat -> (k < length points)%nat -> way points j < way points k.
Proof.
  intros (_ & _ & HP) j k Hjk. induction Hjk as [|k Hjk IH]; intros Hk.
  - destruct (nth_error points j) as [p|] eqn:Q1; [|apply nth_error_None in Q1; lia]. destruct (nth_error points (S j)) as [q|] eqn:Q2; [|apply nth_error_None in Q2; lia]. rewrite (way_S _ _ Q1 Q2). pose proof (HP _ _ _ Q1 Q2). lra.
  - destruct (nth_error points k) as [p|] eqn:Q1; [|apply nth_error_None in Q1; lia]. destruct (nth_error points (S k)) as [q|] eqn:Q2; [|apply nth_error_None in Q2; lia]. rewrite (way_S _ _ Q1 Q2). pose proof (HP _ _ _ Q1 Q2). assert (way points j < way points k) by (apply IH; lia). lra.
Qed.
Lemma whole_pos points d : proper points d -> 0 < whole points.
Proof. intros H. unfold whole. assert (K : way points 0 = 0) by (destruct points; auto). rewrite <- K. apply (way_mono H); destruct H; lia. Qed.
Lemma rmod_of P m t : 0 < P -> 0 <= t < P -> rmod (IZR m * P + t) P = t.
Proof.
  intros HP Ht. destruct (rmod_eq (IZR m * P + t) P) as [k Hk]. pose proof (rmod_range (IZR m * P + t) HP) as Hr. rewrite Hk in Hr |- *.
  assert (HZ : (m + k = 0)%Z). { assert (- 1 < IZR (m + k) < 1). { rewrite plus_IZR. split; apply Rmult_lt_reg_r with P; lra. } destruct H as [H1 H2]. apply lt_IZR in H2. change (-1) with (IZR (-1)) in H1. apply lt_IZR in H1. lia. }
  replace (IZR m * P + t + IZR k * P) with (IZR (m + k) * P + t) by (rewrite plus_IZR; ring). rewrite HZ. ring.
Qed.

(* ------------------------------------------------------------------ C45 *)
(** the way that is travelled: the given points, and the first one again unless the last one is as close to it as np.allclose asks for *)
Definition far (p q : list R) : Prop := exists j x y, nth_error p j = Some x /\ nth_error q j = Some y /\ / 10 ^ 8 + / 10 ^ 5 * Rabs y < Rabs (x - y).
Inductive travelled (points : list (list R)) : list (list R) -> Prop :=
| travelled_open first : hd_error points = Some first -> far (last points []) first -> travelled points (points ++ [first])
| travelled_closed first : hd_error points = Some first -> ~ far (last points []) first -> travelled points points.
(** the time, in samples, at which the [k]-th point is passed when the whole way takes [P] samples *)
Definition arrival (way_points : list (list R)) (P : R) (k : nat) : R := P * way way_points k / whole way_points.

Lemma allclose_far p : forall q, allclose p q = false <-> far p q.
Proof.
  unfold allclose, far. induction p as [|x p IH]; intros [|y q]; cbn [combine forallb].
  - split; [discriminate|intros ([|j] & a & b & H & _); discriminate].
  - split; [discriminate|intros ([|j] & a & b & H & _); discriminate].
  - split; [discriminate|intros ([|j] & a & b & _ & H & _); discriminate].
  - rewrite andb_false_iff, IH. cbn [fst snd]. split.
    + intros [H|(j & a & b & H)]; [|exists (S j), a, b; auto]. exists 0%nat, x, y. split; auto. split; auto. destruct (Rle_dec (Rabs (x - y)) (/ 10 ^ 8 + / 10 ^ 5 * Rabs y)) as [L|L]; [|lra]. apply rle_spec in L. congruence.
    + intros ([|j] & a & b & H1 & H2 & H3).
      * left. cbn in H1, H2. injection H1 as <-. injection H2 as <-. destruct (rle _ _) eqn:Q; auto. apply rle_spec in Q. lra.
      * right. exists j, a, b. auto.
Qed.
Lemma close_way_spec points closed : close_way points = Ok closed <-> travelled points closed.
Proof.
  destruct points as [|p0 r]. { split; [discriminate|intros H; inversion H; discriminate]. }
  assert (L : pyget (p0 :: r) (-1) = Ok (last (p0 :: r) [])).
  { destruct (@exists_last _ (p0 :: r)) as (l & x & E); [discriminate|]. rewrite E. rewrite last_last. unfold pyget. cbn. unfold zlen. rewrite app_length. cbn [length]. replace (-1 + Z.of_nat (length l + 1))%Z with (Z.of_nat (length l)) by lia.
    unfold zget. destruct (Z.ltb_spec (Z.of_nat (length l)) 0); [lia|]. rewrite Nat2Z.id, nth_error_app2, Nat.sub_diag by lia. auto. }
  unfold close_way. rewrite L. cbn [bind]. change (pyget (p0 :: r) 0) with (@Ok (list R) p0). cbn [bind]. destruct (allclose (last (p0 :: r) []) p0) eqn:Q.
  - assert (NF : ~ far (last (p0 :: r) []) p0) by (intros F; apply allclose_far in F; congruence). split.
    + intros H. injection H as <-. apply travelled_closed with p0; auto.
    + intros H. inversion H as [f Hf Hfar|f Hf Hn]; subst; auto. injection Hf as <-. contradiction.
  - apply allclose_far in Q. split.
    + intros H. injection H as <-. apply (@travelled_open (p0 :: r) p0); auto.
    + intros H. inversion H as [f Hf Hfar E|f Hf Hn]; subst; injection Hf as <-; [reflexivity|contradiction].
Qed.

Lemma constant_speed_ok w d period samplerate : proper w d ->
  constant_speed w period samplerate = Ok (mkLinear w (period * samplerate) (map (fun x => x / (whole w / (samplerate * period))) (segment_distance w)) (0 :: cumsum 0 (map (fun x => x / (whole w / (samplerate * period))) (segment_distance w)))).
Proof.
  intros HP. unfold constant_speed. rewrite rsum_way.
  assert (Q : forallb (rlt 0) (segment_distance w) = true). { apply forallb_forall. intros x Hx. apply In_nth_error in Hx as [k Hk]. apply distances_way in Hk as (p & q & Hp & Hq & ->). apply rlt_spec. destruct HP as (_ & _ & HP). eauto. }
  rewrite Q. cbn [passert bind]. reflexivity.
Qed.
Lemma speed_pos_at w d period samplerate l m t : 0 < period * samplerate -> proper w d -> constant_speed w period samplerate = Ok l -> 0 <= t < period * samplerate ->
  exists k p q, nth_error w k = Some p /\ nth_error w (S k) = Some q /\ arrival w (period * samplerate) k <= t < arrival w (period * samplerate) (S k) /\
    speed_pos l (IZR m * (period * samplerate) + t) = Ok [between p q ((t - arrival w (period * samplerate) k) / (arrival w (period * samplerate) (S k) - arrival w (period * samplerate) k))].
Proof.
  intros HP Hw Hl Ht. set (P := period * samplerate) in *. rewrite (constant_speed_ok _ _ Hw) in Hl. injection Hl as <-. pose proof (whole_pos Hw) as HW.
  set (c := whole w / (samplerate * period)). set (sp := map (fun x => x / c) (segment_distance w)).
  assert (Hc : c = whole w / P) by (unfold c, P; rewrite (Rmult_comm period); auto).
  assert (HL : length sp = (length w - 1)%nat) by (unfold sp; rewrite map_length, distances_length; auto).
  assert (HC : forall k, (k <= length w - 1)%nat -> nth_error (0 :: cumsum 0 sp) k = Some (arrival w P k)).
  { intros k Hk. rewrite nth_cumsum by lia. f_equal. unfold sp. rewrite firstn_map, rsum_map_div, rsum_firstn, Hc. unfold arrival. field. split; lra. }
  assert (Hlast : arrival w P (length w - 1) = P) by (unfold arrival, whole; field; unfold whole in HW; lra).
  assert (Hlen : (2 <= length w)%nat) by (destruct Hw; auto).
  unfold speed_pos. cbn [l_period l_cumulative l_samples l_points]. fold P. rewrite rmod_of by auto. fold c. fold sp.
  destruct (@first_above_spec t (0 :: cumsum 0 sp) 0%Z) as (j & e & E1 & E2 & E3 & E4). { exists (length w - 1)%nat, P. split; [rewrite HC by lia; rewrite Hlast; auto|lra]. }
  destruct j as [|k]; [cbn in E2; injection E2 as <-; lra|]. unfold argmax_above. rewrite E1.
  assert (Hk : (S k <= length w - 1)%nat). { assert (S k < length (0%R :: cumsum 0 sp))%nat by (apply nth_error_Some; congruence). cbn [length] in H. rewrite length_cumsum, HL in H. lia. }
  destruct (nth_error w k) as [p|] eqn:Qp; [|apply nth_error_None in Qp; lia]. destruct (nth_error w (S k)) as [q|] eqn:Qq; [|apply nth_error_None in Qq; lia].
  replace (0 + Z.of_nat (S k) - 1)%Z with (Z.of_nat k) by lia. replace (0 + Z.of_nat (S k))%Z with (Z.of_nat (S k)) by lia.
  rewrite (@pyget_nat _ _ k (arrival w P k)) by (apply HC; lia). cbn [bind].
  assert (Hsp : nth_error sp k = Some (arrival w P (S k) - arrival w P k)).
  { unfold sp. destruct (nth_error (segment_distance w) k) as [x|] eqn:Qx; [|apply nth_error_None in Qx; rewrite distances_length in Qx; lia]. erewrite map_nth_error by exact Qx. f_equal. apply distances_way in Qx as (p' & q' & Hp' & Hq' & ->). unfold arrival. rewrite (way_S _ _ Hp' Hq'), Hc. field. split; lra. }
  rewrite (pyget_nat _ _ Hsp). cbn [bind]. rewrite (pyget_nat _ _ Qp), (pyget_nat _ _ Qq). cbn [bind]. rewrite interpolate_between. exists k, p, q. split; auto. split; auto. split; auto.
  split; [apply (E4 k); [lia|apply HC; lia]|]. rewrite HC in E2 by lia. injection E2 as <-. auto.
Qed.

Section Speed.
Context (points w : list (list R)) (d : nat) (period samplerate : R) (pos : R -> res (list (list R))).
Context (HP : 0 < period * samplerate) (HT : travelled points w) (Hw : proper w d).
Context (Hpos : linear_trajectory points period samplerate "constant_speed" = Ok pos).
Notation P := (period * samplerate).

Lemma speed_ctor : exists l, constant_speed w period samplerate = Ok l /\ pos = speed_pos l.
Proof.
  unfold linear_trajectory in Hpos. rewrite (proj2 (close_way_spec _ _) HT) in Hpos. cbn [bind] in Hpos. rewrite String.eqb_refl in Hpos. apply bind_ok in Hpos as (l & Hl & H). injection H as <-. eauto.
Qed.
(** C45: at every time the trajectory is on the segment between two consecutive points, at the point that divides it like the elapsed time
    divides the time between the arrivals, and the arrivals are proportional to the way travelled. *)
Theorem C45_position m t : 0 <= t < P ->
  exists k p q, nth_error w k = Some p /\ nth_error w (S k) = Some q /\ arrival w P k <= t < arrival w P (S k) /\
    pos (IZR m * P + t) = Ok [between p q ((t - arrival w P k) / (arrival w P (S k) - arrival w P k))].
Proof. intros Ht. destruct speed_ctor as (l & Hl & ->). exact (@speed_pos_at _ _ _ _ _ m _ HP Hw Hl Ht). Qed.
Lemma arrival_mono j k : (j < k)%nat -> (k < length w)%nat -> arrival w P j < arrival w P k.
Proof. clear Hpos. intros. unfold arrival. pose proof (whole_pos Hw). pose proof (way_mono Hw H H0). unfold Rdiv. apply Rmult_lt_compat_r; [apply Rinv_0_lt_compat; auto|]. apply Rmult_lt_compat_l; auto. Qed.
Lemma arrival_0 : arrival w P 0 = 0.
Proof. unfold arrival. replace (way w 0) with 0 by (destruct w; auto). unfold Rdiv. ring. Qed.
Lemma arrival_last : arrival w P (length w - 1) = P.
Proof. pose proof (whole_pos Hw) as K. unfold arrival, whole in *. field. lra. Qed.
Lemma arrival_range k : (S k < length w)%nat -> 0 <= arrival w P k < P.
Proof.
  intros Hk. split; [|rewrite <- arrival_last at 2; apply arrival_mono; lia]. destruct k as [|k]; [rewrite arrival_0; lra|]. rewrite <- arrival_0. left. apply arrival_mono; lia.
Qed.
(** the segment of a time is determined by the arrivals *)
Lemma arrival_unique t j k : (S j < length w)%nat -> (S k < length w)%nat -> arrival w P j <= t < arrival w P (S j) -> arrival w P k <= t < arrival w P (S k) -> j = k.
Proof.
  intros Hj Hk H1 H2. destruct (Nat.lt_trichotomy j k) as [L|[L|L]]; auto; exfalso.
  - destruct (Nat.eq_dec (S j) k) as [<-|N]; [lra|]. pose proof (@arrival_mono (S j) k ltac:(lia) ltac:(lia)). lra.
  - destruct (Nat.eq_dec (S k) j) as [<-|N]; [lra|]. pose proof (@arrival_mono (S k) j ltac:(lia) ltac:(lia)). lra.
Qed.
Lemma nth_lt k x : nth_error w k = Some x -> (k < length w)%nat.
Proof. intros H. apply nth_error_Some. congruence. Qed.
(** C45: the points are passed in their order, each at its time (the first one at time 0) *)
Theorem C45_points m k p : (S k < length w)%nat -> nth_error w k = Some p -> pos (IZR m * P + arrival w P k) = Ok [p].
Proof.
  intros Hk Hp. destruct (@C45_position m (arrival w P k) (arrival_range Hk)) as (k' & p' & q & H1 & H2 & H3 & ->). pose proof (nth_lt _ H2).
  assert (k' = k). { apply (@arrival_unique (arrival w P k)); auto. split; [lra|]. apply arrival_mono; lia. } subst k'. rewrite Hp in H1. injection H1 as <-.
  replace ((arrival w P k - arrival w P k) / (arrival w P (S k) - arrival w P k)) with 0 by (unfold Rdiv; ring). rewrite between_0; auto. destruct Hw as (_ & D & _). rewrite (D p), (D q); auto; eapply nth_error_In; eauto.
Qed.
Theorem C45_order j k : (j < k)%nat -> (k < length w)%nat -> arrival w P 0 = 0 /\ arrival w P j < arrival w P k <= P.
Proof. intros. split; [apply arrival_0|]. split; [apply arrival_mono; auto|]. destruct (Nat.eq_dec k (length w - 1)) as [->|N]; [rewrite arrival_last; lra|]. destruct (@arrival_range k); [lia|lra]. Qed.
(** C45: it repeats after one period *)
Theorem C45_period m n : pos (n + IZR m * P) = pos n.
Proof.
  destruct speed_ctor as (l & Hl & ->). unfold speed_pos. assert (E : l_period l = P). { unfold constant_speed in Hl. apply bind_ok in Hl as (u & _ & Hl). injection Hl as <-. auto. } rewrite E.
  assert (X : rmod (n + IZR m * P) P = rmod n P); [|rewrite X; auto]. destruct (rmod_eq n P) as [k Hk]. pose proof (rmod_range n HP) as Hr. replace (n + IZR m * P) with (IZR (m - k) * P + rmod n P) by (rewrite Hk, minus_IZR; ring). apply rmod_of; auto.
Qed.
(** C45: between two points the distance is the elapsed time times the speed, which is the whole way divided by the period *)
Theorem C45_speed m k t t' x y : arrival w P k <= t -> t <= t' -> t' < arrival w P (S k) -> (S k < length w)%nat ->
  pos (IZR m * P + t) = Ok [x] -> pos (IZR m * P + t') = Ok [y] -> edist x y = (t' - t) * (whole w / P).
Proof.
  intros H1 H2 H3 Hk Hx Hy. pose proof (arrival_range Hk) as R0.
  assert (R1 : arrival w P (S k) <= P). { destruct (@C45_order k (S k)); auto; lra. }
  destruct (@C45_position m t ltac:(lra)) as (j & p & q & A1 & A2 & A3 & A4). destruct (@C45_position m t' ltac:(lra)) as (j' & p' & q' & B1 & B2 & B3 & B4).
  assert (j = k) by (apply (@arrival_unique t); auto; [apply (nth_lt _ A2)|lra]). assert (j' = k) by (apply (@arrival_unique t'); auto; [apply (nth_lt _ B2)|lra]). subst j j'.
  rewrite A1 in B1. injection B1 as <-. rewrite A2 in B2. injection B2 as <-. rewrite Hx in A4. injection A4 as ->. rewrite Hy in B4. injection B4 as ->.
  pose proof (@arrival_mono k (S k) ltac:(lia) ltac:(auto)) as HM. rewrite edist_between. set (D := arrival w P (S k) - arrival w P k) in *.
  replace ((t - arrival w P k) / D - (t' - arrival w P k) / D) with (- ((t' - t) / D)) by (unfold D; field; lra). rewrite Rabs_Ropp, Rabs_pos_eq.
  2:{ apply Rmult_le_pos; [lra|]. left. apply Rinv_0_lt_compat. unfold D. lra. }
  assert (HD : D = P * edist p q / whole w). { unfold D, arrival. rewrite (way_S _ _ A1 A2). field. pose proof (whole_pos Hw). lra. }
  assert (He : 0 < edist p q) by (destruct Hw as (_ & _ & HE); eauto). rewrite HD. pose proof (whole_pos Hw) as HW0. clear - HP He HW0. generalize dependent (period * samplerate). intros X HX. field. lra.
Qed.
End Speed.
(** C45: for every way with different consecutive points the trajectory exists *)
Theorem C45_exists points w d period samplerate : travelled points w -> proper w d -> exists pos, linear_trajectory points period samplerate "constant_speed" = Ok pos.
Proof.
  intros HT Hw. unfold linear_trajectory. rewrite (proj2 (close_way_spec _ _) HT). cbn [bind]. rewrite String.eqb_refl. rewrite (constant_speed_ok _ _ Hw). cbn [bind]. eauto.
Qed.

(* ------------------------------------------------------------------ C46 *)
Section Time.
Context (points w : list (list R)) (d : nat) (period samplerate : R) (pos : R -> res (list (list R))).
Context (HP : 0 < period * samplerate) (HT : travelled points w) (Hd : forall p, In p w -> length p = d).
Context (Hpos : linear_trajectory points period samplerate "constant_time" = Ok pos).
Notation P := (period * samplerate).
(** the time given to one point of the way *)
Notation share := (P / INR (length w)).

Lemma w_nonempty : w <> [].
Proof. clear Hpos. inversion HT; subst; intros E; [destruct points; discriminate|rewrite E in H; discriminate]. Qed.
Lemma time_ctor : pos = time_pos (constant_time w period samplerate).
Proof.
  unfold linear_trajectory in Hpos. rewrite (proj2 (close_way_spec _ _) HT) in Hpos. cbn [bind] in Hpos. change (String.eqb "constant_time" "constant_speed") with false in Hpos. rewrite String.eqb_refl in Hpos. injection Hpos as <-. auto.
Qed.
Lemma share_pos : 0 < share.
Proof. apply Rdiv_lt_0_compat; auto. apply (lt_INR 0). pose proof w_nonempty. destruct w; [congruence|cbn; lia]. Qed.
Lemma time_cumulative k : (k < length w)%nat -> nth_error (l_cumulative (constant_time w period samplerate)) k = Some (INR k * share).
Proof.
  intros Hk. unfold constant_time. cbn [l_cumulative]. assert (HZ : nth_error (zrange 0 (zlen w)) k = Some (Z.of_nat k)).
  { pose proof (@zget_zrange 0 (zlen w) (Z.of_nat k)) as X. unfold zget in X. destruct (Z.ltb_spec (Z.of_nat k) 0); [lia|]. rewrite Nat2Z.id in X. rewrite X. unfold zlen. replace ((0 <=? Z.of_nat k)%Z && (Z.of_nat k <? Z.of_nat (length w) - 0)%Z) with true by lia. auto. }
  erewrite map_nth_error by exact HZ. f_equal. rewrite <- INR_IZR_INZ. unfold zlen. rewrite <- INR_IZR_INZ. field. apply not_0_INR. lia.
Qed.
Lemma time_length : length (l_cumulative (constant_time w period samplerate)) = length w.
Proof. unfold constant_time. cbn [l_cumulative]. rewrite map_length. unfold zrange, zlen. rewrite map_length, seq_length. lia. Qed.
Lemma time_samples : l_samples (constant_time w period samplerate) = [share].
Proof. unfold constant_time. cbn [l_samples]. f_equal. unfold zlen. rewrite <- INR_IZR_INZ. field. apply not_0_INR. pose proof w_nonempty. destruct w; [congruence|discriminate]. Qed.
(** C46: each of the segments of the way takes the same time, and the points are passed in order.  The time is the period divided by the
    number of points, not by the number of segments (which is one less, as the first point occurs again at the end). *)
Theorem C46_segments_partial m k t p q : nth_error w k = Some p -> nth_error w (S k) = Some q -> INR k * share <= t < INR (S k) * share ->
  pos (IZR m * P + t) = Ok [between p q ((t - INR k * share) / share)].
Proof.
  intros Hp Hq Ht. pose proof share_pos as HS. assert (Hk : (S k < length w)%nat) by (apply nth_error_Some; congruence).
  assert (Hr : 0 <= t < P). { assert (0 <= INR k * share) by (apply Rmult_le_pos; [apply pos_INR|lra]). assert (INR (S k) * share <= P). { replace P with (INR (length w) * share) at 2 by (field; apply not_0_INR; lia). apply Rmult_le_compat_r; [lra|]. apply le_INR. lia. } lra. }
  rewrite time_ctor. unfold time_pos. change (l_period (constant_time w period samplerate)) with P. rewrite rmod_of by auto.
  destruct (@first_above_spec t (l_cumulative (constant_time w period samplerate)) 0%Z) as (j & e & E1 & E2 & E3 & E4). { exists (S k), (INR (S k) * share). split; [apply time_cumulative; auto|lra]. }
  assert (Hj : (j < length w)%nat) by (rewrite <- time_length; apply nth_error_Some; congruence). rewrite time_cumulative in E2 by auto. injection E2 as <-.
  assert (j = S k). { destruct (Nat.lt_trichotomy j (S k)) as [L|[L|L]]; auto; exfalso.
    - assert (INR j * share <= INR k * share) by (apply Rmult_le_compat_r; [lra|apply le_INR; lia]). lra.
    - specialize (E4 (S k) _ L (@time_cumulative (S k) Hk)). lra. }
  subst j. unfold argmax_above. rewrite E1. replace (0 + Z.of_nat (S k) - 1)%Z with (Z.of_nat k) by lia. replace (0 + Z.of_nat (S k))%Z with (Z.of_nat (S k)) by lia.
  rewrite (@pyget_nat _ _ k (INR k * share)) by (apply time_cumulative; lia). cbn [bind]. rewrite time_samples. change (pyget [share] 0) with (@Ok R share). cbn [bind]. change (l_points (constant_time w period samplerate)) with w. rewrite (pyget_nat _ _ Hp), (pyget_nat _ _ Hq). cbn [bind]. rewrite interpolate_between. reflexivity.
Qed.
(** C46: the last share of the period is spent between the last point and the first one: at rest if they are equal. *)
Theorem C46_rest m t p : nth_error w 0 = Some p -> last w [] = p -> INR (length w - 1) * share <= t < P -> pos (IZR m * P + t) = Ok [p].
Proof.
  intros Hp Hl Ht. pose proof share_pos as HS. pose proof w_nonempty as HN.
  assert (Hr : 0 <= t < P). { assert (0 <= INR (length w - 1) * share) by (apply Rmult_le_pos; [apply pos_INR|lra]). lra. }
  rewrite time_ctor. unfold time_pos. change (l_period (constant_time w period samplerate)) with P. rewrite rmod_of by auto. unfold argmax_above. rewrite first_above_none.
  2:{ intros c Hc. apply In_nth_error in Hc as [j Hj]. assert (Hj' : (j < length w)%nat) by (rewrite <- time_length; apply nth_error_Some; congruence). rewrite time_cumulative in Hj by auto. injection Hj as <-. assert (INR j * share <= INR (length w - 1) * share) by (apply Rmult_le_compat_r; [lra|apply le_INR; lia]). lra. }
  cbn [Z.sub Z.opp Z.add]. assert (PL : forall A (l : list A) (x : A) k, length l = S k -> nth_error l k = Some x -> pyget l (-1) = Ok x).
  { intros A l x k Hlen Hx. unfold pyget. cbn. unfold zlen. rewrite Hlen. replace (-1 + Z.of_nat (S k))%Z with (Z.of_nat k) by lia. unfold zget. destruct (Z.ltb_spec (Z.of_nat k) 0); [lia|]. rewrite Nat2Z.id, Hx. auto. }
  assert (HL : length w = S (length w - 1)) by (destruct w; [congruence|cbn; lia]).
  rewrite (PL _ _ (INR (length w - 1) * share) (length w - 1)%nat) by (try rewrite time_length; auto; apply time_cumulative; lia). cbn [bind]. rewrite time_samples. change (pyget [share] 0) with (@Ok R share). cbn [bind]. change (l_points (constant_time w period samplerate)) with w.
  rewrite (PL _ _ p (length w - 1)%nat); auto. 2:{ rewrite <- Hl. destruct (@exists_last _ w HN) as (l & x & E). rewrite E, last_last, app_length. cbn [length]. rewrite nth_error_app2 by lia. replace (length l + 1 - 1 - length l)%nat with 0%nat by lia. auto. }
  cbn [bind]. change 0%Z with (Z.of_nat 0). rewrite (pyget_nat _ _ Hp). cbn [bind]. rewrite interpolate_between, between_same. reflexivity.
Qed.
(** C46: after each period it is at the first point *)
Theorem C46_back m p : nth_error w 0 = Some p -> (2 <= length w)%nat -> pos (IZR m * P) = Ok [p].
Proof.
  intros Hp Hlen. destruct (nth_error w 1) as [q|] eqn:Qq; [|apply nth_error_None in Qq; lia]. pose proof share_pos as HS.
  replace (IZR m * P) with (IZR m * P + 0) by ring. rewrite (@C46_segments_partial m 0 0 p q); [|exact Hp|exact Qq|cbn; lra]. replace ((0 - INR 0 * share) / share) with 0 by (change (INR 0) with 0; unfold Rdiv; ring). rewrite between_0; auto. rewrite (Hd _ (nth_error_In _ _ Hp)), (Hd _ (nth_error_In _ _ Qq)). auto.
Qed.
Theorem C46_period m n : pos (n + IZR m * P) = pos n.
Proof.
  rewrite time_ctor. unfold time_pos. change (l_period (constant_time w period samplerate)) with P. assert (X : rmod (n + IZR m * P) P = rmod n P); [|rewrite X; auto]. destruct (rmod_eq n P) as [k Hk]. pose proof (rmod_range n HP) as Hr. replace (n + IZR m * P) with (IZR (m - k) * P + rmod n P) by (rewrite Hk, minus_IZR; ring). apply rmod_of; auto.
Qed.
End Time.
(** there and back along three metres: the way has three points *)
Definition there_and_back : list (list R) := [[0; 0; 0]; [3; 0; 0]].
Lemma there_way : travelled there_and_back [[0; 0; 0]; [3; 0; 0]; [0; 0; 0]].
Proof.
  apply (@travelled_open there_and_back [0; 0; 0]); [reflexivity|]. exists 0%nat, 3, 0. do 2 (split; [reflexivity|]). rewrite Rabs_R0, Rmult_0_r, Rplus_0_r, Rminus_0_r, Rabs_pos_eq by lra.
  apply Rlt_trans with 1; [|lra]. rewrite <- Rinv_1. apply Rinv_lt_contravar; [|]; rewrite ?Rmult_1_l; lra.
Qed.
Lemma there_proper : proper [[0; 0; 0]; [3; 0; 0]; [0; 0; 0]] 3.
Proof.
  split; [cbn; lia|]. split; [intros p [<-|[<-|[<-|[]]]]; reflexivity|]. intros [|[|k]] p q H1 H2; cbn in H1, H2; [| |destruct k; discriminate].
  all: injection H1 as <-; injection H2 as <-; unfold edist, sqdist; apply sqrt_lt_R0; lra.
Qed.
(** C46 (first half) is false: the time of a segment is not the period divided by the number of segments *)
Theorem C46_refuted : ~ forall points w d period samplerate pos k p, 0 < period * samplerate -> travelled points w -> proper w d ->
  linear_trajectory points period samplerate "constant_time" = Ok pos -> nth_error w k = Some p ->
  pos (INR k * (period * samplerate / INR (length w - 1))) = Ok [p].
Proof.
  intros H. pose proof there_way as HT. destruct (linear_trajectory there_and_back 1 6 "constant_time") as [pos|] eqn:Q.
  2:{ unfold linear_trajectory in Q. rewrite (proj2 (close_way_spec _ _) HT) in Q. cbn [bind] in Q. discriminate Q. }
  assert (HP : 0 < 1 * 6) by lra. specialize (H _ _ _ _ _ _ 1%nat [3; 0; 0] HP HT there_proper Q eq_refl).
  pose proof (@C46_segments_partial _ _ 3 1 6 pos HP HT (proj1 (proj2 there_proper)) Q 0 1 3 _ _ eq_refl eq_refl) as K. cbn [length Nat.sub] in H, K. change (INR 1) with 1 in *. change (INR 2) with 2 in *. change (INR 0) with 0 in *. replace (INR 3) with 3 in * by (cbn; lra).
  specialize (K ltac:(lra)). replace (0 * (1 * 6) + 3) with (1 * (1 * 6 / 2)) in K by lra. rewrite H in K. injection K as K _ _. lra.
Qed.
Example C46_segments_example pos : linear_trajectory there_and_back 1 6 "constant_time" = Ok pos -> pos 1 = Ok [[3 / 2; 0; 0]] /\ pos 2 = Ok [[3; 0; 0]] /\ pos 5 = Ok [[0; 0; 0]] /\ pos 6 = Ok [[0; 0; 0]].
Proof.
  intros Q. pose proof there_way as HT. assert (HP : 0 < 1 * 6) by lra. pose proof (@C46_segments_partial _ _ 3 1 6 pos HP HT (proj1 (proj2 there_proper)) Q) as K. pose proof (@C46_rest _ _ 3 1 6 pos HP HT (proj1 (proj2 there_proper)) Q 0 5 [0; 0; 0] eq_refl eq_refl) as K'.
  pose proof (@C46_back _ _ 3 1 6 pos HP HT (proj1 (proj2 there_proper)) Q 1 [0; 0; 0] eq_refl ltac:(cbn; lia)) as K''. cbn [length Nat.sub] in *. change (INR 2) with 2 in *. change (INR 0) with 0 in *. replace (INR 3) with 3 in * by (cbn; lra).
  split; [|split; [|split]].
  - specialize (K 0%Z 0%nat 1 _ _ eq_refl eq_refl). change (INR 0) with 0 in K. change (INR 1) with 1 in K. specialize (K ltac:(lra)). replace (0 * (1 * 6) + 1) with 1 in K by lra. rewrite K. cbn [between]. repeat (f_equal; try lra).
  - specialize (K 0%Z 1%nat 2 _ _ eq_refl eq_refl). change (INR 2) with 2 in K. change (INR 1) with 1 in K. specialize (K ltac:(lra)). replace (0 * (1 * 6) + 2) with 2 in K by lra. rewrite K. cbn [between]. repeat (f_equal; try lra).
  - rewrite <- K' by lra. f_equal. lra.
  - rewrite <- K''. f_equal. lra.
Qed.
(** C45: the same way at constant speed, in six samples *)
Example C45_example pos : linear_trajectory there_and_back 1 6 "constant_speed" = Ok pos -> pos 0 = Ok [[0; 0; 0]] /\ pos 3 = Ok [[3; 0; 0]] /\ pos 7 = pos 1.
Proof.
  intros Q. pose proof there_way as HT. assert (HP : 0 < 1 * 6) by lra. pose proof (@C45_points _ _ 3 1 6 pos HP HT there_proper Q 0) as K.
  assert (E : forall k, (k < 3)%nat -> arrival [[0; 0; 0]; [3; 0; 0]; [0; 0; 0]] (1 * 6) k = 3 * INR k).
  { assert (D : edist [0; 0; 0] [3; 0; 0] = 3 /\ edist [3; 0; 0] [0; 0; 0] = 3). { unfold edist, sqdist. split; [replace ((0 - 3) * (0 - 3) + ((0 - 0) * (0 - 0) + ((0 - 0) * (0 - 0) + 0))) with (3 * 3) by lra|replace ((3 - 0) * (3 - 0) + ((0 - 0) * (0 - 0) + ((0 - 0) * (0 - 0) + 0))) with (3 * 3) by lra]; apply sqrt_square; lra. }
    intros k Hk. unfold arrival, whole. change (length _ - 1)%nat with 2%nat. destruct D as [D1 D2]. destruct k as [|[|[|k]]]; [| | |lia]; cbn [way]; rewrite ?D1, ?D2; change (INR 0) with 0; change (INR 1) with 1; change (INR 2) with 2; field. }
  split; [|split].
  - specialize (K 0%nat _ ltac:(cbn; lia) eq_refl). rewrite E in K by lia. change (INR 0) with 0 in K. rewrite <- K. f_equal. lra.
  - specialize (K 1%nat _ ltac:(cbn; lia) eq_refl). rewrite E in K by lia. change (INR 1) with 1 in K. rewrite <- K. f_equal. lra.
  - rewrite <- (@C45_period _ _ 1 6 pos HP HT Q 1 1). f_equal. lra.
Qed.
(** C45, C46: other modes and repeated points are rejected *)
Theorem C45_mode points w period samplerate mode : travelled points w -> mode <> "constant_speed"%string -> mode <> "constant_time"%string -> linear_trajectory points period samplerate mode = Err ValueError.
Proof. intros HT N1 N2. unfold linear_trajectory. rewrite (proj2 (close_way_spec _ _) HT). cbn [bind]. rewrite (proj2 (String.eqb_neq _ _) N1), (proj2 (String.eqb_neq _ _) N2). auto. Qed.
Lemma in_combine_same {A} (l : list A) x y : In (x, y) (combine l l) -> y = x.
Proof. induction l as [|a r IH]; cbn; [contradiction|]. intros [Q|I]; [congruence|auto]. Qed.
(** C45: without points there is no trajectory *)
Theorem C45_no_points period samplerate mode : linear_trajectory [] period samplerate mode = Err IndexError.
Proof. reflexivity. Qed.
(** C45: a way with one point only can be made but has no position at any time *)
Theorem C45_one_point p period samplerate : 0 < period * samplerate -> exists pos, linear_trajectory [p] period samplerate "constant_speed" = Ok pos /\ forall n, pos n = Err IndexError.
Proof.
  intros _. unfold linear_trajectory, close_way. change (pyget [p] (-1)) with (Ok p). change (pyget [p] 0) with (Ok p). cbn [bind].
  replace (allclose p p) with true. 2:{ symmetry. unfold allclose. apply forallb_forall. intros [x y] I. apply in_combine_same in I. subst y. cbn [fst snd]. unfold rle. destruct (Rle_dec _ _) as [|N]; auto. exfalso. apply N. rewrite Rminus_diag_eq, Rabs_R0 by auto.
    assert (0 <= / 10 ^ 8) by (left; apply Rinv_0_lt_compat, pow_lt; lra). assert (0 <= / 10 ^ 5) by (left; apply Rinv_0_lt_compat, pow_lt; lra). pose proof (Rabs_pos x). nra. }
  cbn. eexists. split; [reflexivity|]. intros n. unfold speed_pos. cbn [l_cumulative l_samples l_period]. unfold argmax_above. cbn [first_above].
  assert (X : forall b : bool, (if b then 0%Z else 0%Z) = 0%Z) by (intros []; auto). rewrite X. reflexivity.
Qed.
Theorem C45_repeated points w period samplerate k p : travelled points w -> nth_error w k = Some p -> nth_error w (S k) = Some p -> linear_trajectory points period samplerate "constant_speed" = Err AssertionError.
Proof.
  intros HT H1 H2. unfold linear_trajectory. rewrite (proj2 (close_way_spec _ _) HT). cbn [bind]. rewrite String.eqb_refl. unfold constant_speed. destruct (forallb _ _) eqn:Q; [exfalso|reflexivity].
  rewrite forallb_forall in Q. assert (HL : (k < length (segment_distance w))%nat). { rewrite distances_length. assert (S k < length w)%nat by (apply nth_error_Some; congruence). lia. }
  destruct (nth_error (segment_distance w) k) as [x|] eqn:Qx; [|apply nth_error_None in Qx; lia]. specialize (Q x (nth_error_In _ _ Qx)). apply distances_way in Qx as (p' & q & A & B & ->). rewrite H1 in A. rewrite H2 in B. injection A as <-. injection B as <-.
  apply rlt_spec in Q. unfold edist in Q. assert (Z0 : sqdist p p = 0). { clear. induction p as [|x p IH]; cbn; auto. rewrite IH. ring. } rewrite Z0, sqrt_0 in Q. lra.
Qed.
Example C45_repeated_example : linear_trajectory [[0; 0; 0]; [0; 0; 0]; [3; 0; 0]] 1 6 "constant_speed" = Err AssertionError.
Proof.
  apply (@C45_repeated _ ([[0; 0; 0]; [0; 0; 0]; [3; 0; 0]] ++ [[0; 0; 0]]) 1 6 0 [0; 0; 0]); auto. apply (@travelled_open [[0; 0; 0]; [0; 0; 0]; [3; 0; 0]] [0; 0; 0]); [reflexivity|].
  pose proof there_way as HT. inversion HT as [f Hf Hfar|f Hf Hn]; subst. exact Hfar.
Qed.

(* ------------------------------------------------------------------ C47 *)
Section Circular.
Context (r0 r1 cx cy cz radial_period angle_period samplerate start_angle : R) (pos : R -> R * R * R).
Context (HR : 0 < radial_period * samplerate) (HA : 0 < angle_period * samplerate).
Context (Hpos : circular_trajectory r0 r1 (cx, cy, cz) radial_period angle_period samplerate start_angle = Ok pos).
Notation RP := (radial_period * samplerate).
Notation AP := (angle_period * samplerate).
Definition horizontal (p : R * R * R) : R := sqrt ((fst (fst p) - cx) * (fst (fst p) - cx) + (snd (fst p) - cy) * (snd (fst p) - cy)).

Lemma radii : r0 <= r1.
Proof. unfold circular_trajectory in Hpos. apply bind_ok in Hpos as (u & Hu & _). destruct (rle 0 (r1 - r0)) eqn:Q; [|discriminate]. apply rle_spec in Q. lra. Qed.
Lemma cos_shift x k : cos (x + IZR k * (2 * PI)) = cos x.
Proof.
  assert (N : forall y n, cos (y + INR n * (2 * PI)) = cos y) by (intros; replace (y + INR n * (2 * PI)) with (y + 2 * INR n * PI) by ring; apply cos_period).
  destruct (Z_le_gt_dec 0 k). - rewrite <- (Z2Nat.id k) by auto. rewrite <- INR_IZR_INZ. apply N.
  - rewrite <- (N (x + IZR k * (2 * PI)) (Z.to_nat (- k))). f_equal. rewrite INR_IZR_INZ, Z2Nat.id by lia. rewrite opp_IZR. ring.
Qed.
Lemma sin_shift x k : sin (x + IZR k * (2 * PI)) = sin x.
Proof. rewrite !sin_cos. f_equal. replace (PI / 2 + (x + IZR k * (2 * PI))) with (PI / 2 + x + IZR k * (2 * PI)) by ring. apply cos_shift. Qed.
(** C47: once around in every angle period, and from the outer to the inner radius and back in every radial period *)
Theorem C47_position m s t : t = IZR m * RP + s -> 0 <= s < RP ->
  let radius := r0 + (r1 - r0) * Rabs (1 - 2 * s / RP) in let angle := start_angle + 2 * PI * (t / AP) in
  pos t = (cx + radius * cos angle, cy + radius * sin angle, cz).
Proof.
  intros Ht Hs. cbv zeta. pose proof radii as HRR. unfold circular_trajectory in Hpos. apply bind_ok in Hpos as (u & _ & H). injection H as <-. cbn [fst snd].
  assert (E : rmod t RP = s) by (rewrite Ht; apply rmod_of; auto). rewrite E. destruct (rmod_eq t AP) as [k Hk]. rewrite Hk. unfold pol2cart. cbn [fst snd].
  replace (start_angle + 2 * PI * ((t + IZR k * AP) / AP)) with (start_angle + 2 * PI * (t / AP) + IZR k * (2 * PI)) by (clear - HA; generalize dependent (angle_period * samplerate); intros X HX; field; lra).
  rewrite cos_shift, sin_shift. set (c := cos _). set (d := sin _).
  assert (HX : (if rlt (s / RP) (1 / 2) then r0 + (r1 - r0) * (1 - 2 * (s / RP)) else r0 + (r1 - r0) * (s / RP - 1 / 2) * 2) = r0 + (r1 - r0) * Rabs (1 - 2 * s / RP)).
  { replace (2 * s / RP) with (2 * (s / RP)) by (unfold Rdiv; ring). generalize dependent (s / RP). intros q. destruct (rlt _ _) eqn:Q; [apply rlt_spec in Q; rewrite Rabs_pos_eq by lra; ring|apply rlt_false in Q; rewrite Rabs_left1 by lra; field]. }
  rewrite HX. f_equal; [f_equal|]; ring.
Qed.
Lemma every_time t : exists m s, t = IZR m * RP + s /\ 0 <= s < RP.
Proof. destruct (rmod_eq t RP) as [k Hk]. exists (- k)%Z, (rmod t RP). split; [rewrite Hk, opp_IZR; ring|apply rmod_range; auto]. Qed.
Lemma ripple s : 0 <= s < RP -> 0 <= Rabs (1 - 2 * s / RP) <= 1.
Proof.
  intros Hs. split; [apply Rabs_pos|]. assert (0 <= s / RP < 1). { split; [apply Rmult_le_pos; [lra|left; apply Rinv_0_lt_compat; auto]|]. apply (Rmult_lt_reg_r RP); auto. unfold Rdiv. rewrite Rmult_assoc, Rinv_l by lra. lra. }
  replace (2 * s / RP) with (2 * (s / RP)) by (unfold Rdiv; ring). apply Rabs_le. lra.
Qed.
Lemma horizontal_polar rad angle : 0 <= rad -> horizontal (cx + rad * cos angle, cy + rad * sin angle, cz) = rad.
Proof.
  intros H. unfold horizontal. cbn [fst snd]. replace (_ + _) with (rad * rad * ((sin angle)² + (cos angle)²)) by (unfold Rsqr; ring). rewrite sin2_cos2, Rmult_1_r. apply sqrt_square. auto.
Qed.
(** C47: always in the annulus, at the height of the centre *)
Theorem C47_annulus t : 0 <= r0 -> r0 <= horizontal (pos t) <= r1 /\ snd (pos t) = cz.
Proof.
  intros H0. destruct (every_time t) as (m & s & Ht & Hs). rewrite (@C47_position m s t Ht Hs). pose proof (ripple Hs) as HX. pose proof radii. set (x := Rabs _) in *.
  assert (0 <= (r1 - r0) * x <= r1 - r0). { split; [apply Rmult_le_pos; lra|]. rewrite <- (Rmult_1_r (r1 - r0)) at 2. apply Rmult_le_compat_l; lra. }
  rewrite horizontal_polar by lra. cbn [snd]. split; [lra|auto].
Qed.
(** C47: it starts on the outer circle, at the start angle, and is on the inner circle half a radial period later *)
Theorem C47_start : pos 0 = (cx + r1 * cos start_angle, cy + r1 * sin start_angle, cz).
Proof.
  rewrite (@C47_position 0 0 0) by lra. replace (1 - 2 * 0 / RP) with 1 by (unfold Rdiv; ring). rewrite Rabs_R1. replace (start_angle + 2 * PI * (0 / AP)) with start_angle by (unfold Rdiv; ring). f_equal. f_equal; ring.
Qed.
Theorem C47_inner : 0 <= r0 -> horizontal (pos 0) = r1 /\ horizontal (pos (RP / 2)) = r0.
Proof.
  intros H0. pose proof radii. split; [rewrite C47_start; apply horizontal_polar; lra|]. rewrite (@C47_position 0 (RP / 2)) by lra. replace (1 - 2 * (RP / 2) / RP) with 0 by (clear - HR; generalize dependent (radial_period * samplerate); intros X HX; field; lra). rewrite Rabs_R0, Rmult_0_r, Rplus_0_r. apply horizontal_polar. auto.
Qed.
(** C47: it repeats after every common multiple of the periods *)
Theorem C47_repeats a b t T : T = IZR a * RP -> T = IZR b * AP -> pos (t + T) = pos t.
Proof.
  intros Ha Hb. destruct (every_time t) as (m & s & Ht & Hs). rewrite (@C47_position m s t Ht Hs). rewrite (@C47_position (m + a) s (t + T)); auto. 2:{ rewrite Ht, Ha, plus_IZR. ring. }
  replace (start_angle + 2 * PI * ((t + T) / AP)) with (start_angle + 2 * PI * (t / AP) + IZR b * (2 * PI)) by (rewrite Hb; clear - HA; generalize dependent (angle_period * samplerate); intros X HX; field; lra).
  rewrite cos_shift, sin_shift. auto.
Qed.
End Circular.
Theorem C47_exists r0 r1 c rp ap sr a : (exists pos, circular_trajectory r0 r1 c rp ap sr a = Ok pos) <-> r0 <= r1.
Proof.
  unfold circular_trajectory. destruct (rle 0 (r1 - r0)) eqn:Q; cbn [passert bind]; split; eauto.
  - intros _. apply rle_spec in Q. lra.
  - intros [p H]. discriminate.
  - intros H. exfalso. assert (rle 0 (r1 - r0) = true) by (apply rle_spec; lra). congruence.
Qed.
Example C47_example : exists pos, circular_trajectory 1 2 (5, 6, 7) 3 2 100 0 = Ok pos /\ pos 0 = (7, 6, 7) /\ pos 600 = pos 0.
Proof.
  destruct (proj2 (C47_exists 1 2 (5, 6, 7) 3 2 100 0) ltac:(lra)) as [pos H]. exists pos. split; [auto|]. split.
  - rewrite (@C47_start 1 2 5 6 7 3 2 100 0 pos ltac:(lra) ltac:(lra) H). rewrite cos_0, sin_0. f_equal; f_equal; lra.
  - rewrite <- (@C47_repeats 1 2 5 6 7 3 2 100 0 pos ltac:(lra) ltac:(lra) H 2 3 0 600); [f_equal; lra|lra|lra].
Qed.

(* ------------------------------------------------------------------ C64 *)
(** C64: a collection is at the positions of its trajectories at that time, in order *)
Theorem C64_collection l n rows : collection_pos l n = Ok rows <-> l <> [] /\ exists each, Forall2 (fun f x => f n = Ok x) l each /\ rows = concat each.
Proof.
  unfold collection_pos. assert (M : forall l each, mapM (fun f : R -> res (list (list R)) => f n) l = Ok each <-> Forall2 (fun f x => f n = Ok x) l each).
  { induction l0 as [|f r IH]; intros each; cbn [mapM]. - split; intros H; [injection H as <-; constructor|inversion H; auto].
    - split. + intros H. apply bind_ok in H as (x & Hx & H). apply bind_ok in H as (xs & Hxs & H). injection H as <-. constructor; auto. apply IH; auto.
      + intros H. inversion H; subst. rewrite H2. cbn [bind]. rewrite (proj2 (IH l') H4). auto. }
  split.
  - intros H. apply bind_ok in H as (each & He & H). apply M in He. destruct He as [|f x fs xs Hf He]; [discriminate|]. injection H as <-. split; [discriminate|]. exists (x :: xs). split; auto.
  - intros (HN & each & He & ->). rewrite (proj2 (M _ _) He). cbn [bind]. destruct He; [congruence|]. auto.
Qed.
Example C64_example : collection_pos [(fun n => Ok [[n; 0; 0]]); (fun n => Ok [[1; 2; n]])] 4 = Ok [[4; 0; 0]; [1; 2; 4]].
Proof. apply C64_collection. split; [discriminate|]. exists [[[4; 0; 0]]; [[1; 2; 4]]]. split; [repeat constructor|reflexivity]. Qed.
(** C64: a collection of no trajectories has no position, and the first trajectory that fails makes the collection fail in the same way *)
Theorem C64_errors n : collection_pos [] n = Err ValueError /\
  forall before f after e, Forall (fun g => exists x, g n = Ok x) before -> f n = Err e -> collection_pos (before ++ f :: after) n = Err e.
Proof.
  split; [reflexivity|]. intros before f after e HB Hf. unfold collection_pos. assert (M : mapM (fun f : R -> res (list (list R)) => f n) (before ++ f :: after) = Err e); [|rewrite M; reflexivity].
  induction HB as [|g r (x & Hx) _ IH]; cbn [app mapM]; [rewrite Hf; reflexivity|]. rewrite Hx. cbn [bind]. rewrite IH. reflexivity.
Qed.
Example C64_errors_example : collection_pos [(fun n => Ok [[n; 0; 0]]); (fun n => Err IndexError); (fun n => Err ValueError)] 4 = Err IndexError.
Proof. apply (proj2 (C64_errors 4) [(fun n => Ok [[n; 0; 0]])]); [constructor; [eauto|constructor]|reflexivity]. Qed.

Print Assumptions C45_position.
Print Assumptions C45_points.
Print Assumptions C45_order.
Print Assumptions C45_period.
Print Assumptions C45_speed.
Print Assumptions C45_exists.
Print Assumptions C45_mode.
Print Assumptions C45_repeated.
Print Assumptions C45_no_points.
Print Assumptions C45_one_point.
Print Assumptions C46_segments_partial.
Print Assumptions C46_rest.
Print Assumptions C46_back.
Print Assumptions C46_period.
Print Assumptions C46_refuted.
Print Assumptions C47_position.
Print Assumptions C47_annulus.
Print Assumptions C47_start.
Print Assumptions C47_inner.
Print Assumptions C47_repeats.
Print Assumptions C47_exists.
Print Assumptions C64_collection.
Print Assumptions C64_errors.
(** concrete cases of C45 and C47 *)
Example C45_meets : exists w, 0 < 1 * 6 /\ travelled there_and_back w /\ proper w 3 /\ exists pos, linear_trajectory there_and_back 1 6 "constant_speed" = Ok pos.
Proof. eexists. split; [lra|]. split; [exact there_way|]. split; [exact there_proper|]. exact (@C45_exists _ _ 3 1 6 there_way there_proper). Qed.
Example C46_meets : exists pos, linear_trajectory there_and_back 1 6 "constant_time" = Ok pos.
Proof. unfold linear_trajectory. rewrite (proj2 (close_way_spec _ _) there_way). cbn [bind]. eexists. reflexivity. Qed.
Example C45_mode_meets : linear_trajectory there_and_back 1 6 "constant" = Err ValueError.
Proof. eapply C45_mode; [exact there_way|discriminate|discriminate]. Qed.
Example C47_annulus_meets : exists pos, circular_trajectory 1 2 (5, 6, 7) 3 2 100 0 = Ok pos /\ 1 <= horizontal 5 6 (pos 17) <= 2 /\ horizontal 5 6 (pos 150) = 1.
Proof.
  destruct (proj2 (@C47_exists 1 2 (5, 6, 7) 3 2 100 0)) as (pos & Q); [lra|]. exists pos. split; [exact Q|]. assert (HR : 0 < 3 * 100) by lra. assert (HA : 0 < 2 * 100) by lra.
  split; [apply (@C47_annulus 1 2 5 6 7 3 2 100 0 pos HR HA Q 17); lra|].
  destruct (@C47_inner 1 2 5 6 7 3 2 100 0 pos HR HA Q) as [_ K]; [lra|]. rewrite <- K. do 2 f_equal. lra.
Qed.
Example C47_position_meets : 17 = IZR 0 * (3 * 100) + 17 /\ 0 <= 17 < 3 * 100.
Proof. lra. Qed.
