(** Model of src/aspsim/room/trajectory.py over the real numbers; floating point rounding is not modelled.
    The plot functions are in ArrFigModel.  A point is the list of its coordinates, a position has one row. *)
Require Import Verif.PyBase.
Require Import Verif.SineModel.
Set Implicit Arguments.
Local Open Scope list_scope.
Local Open Scope R_scope.

(** l[i] of a python sequence, negative indices count from the end *)
Definition pyget {A} (l : list A) (i : Z) : res A :=
  match zget l (if (i <? 0)%Z then (i + zlen l)%Z else i) with Some x => Ok x | None => Err IndexError end.
Definition rlt (x y : R) : bool := if Rlt_dec x y then true else false.
Definition rle (x y : R) : bool := if Rle_dec x y then true else false.
(** elementwise operation of two arrays of the same length *)
Definition vzip (f : R -> R -> R) (p q : list R) : list R := map (fun xy => f (fst xy) (snd xy)) (combine p q).
Definition rsum (l : list R) : R := fold_right Rplus 0 l.
(** np.allclose with its default tolerances on two points *)
Definition allclose (p q : list R) : bool := forallb (fun xy => rle (Rabs (fst xy - snd xy)) (/ 10 ^ 8 + / 10 ^ 5 * Rabs (snd xy))) (combine p q).
(** np.argmax(x < l): the first index at which it holds, 0 if there is none *)
Fixpoint first_above (i : Z) (x : R) (l : list R) : Z :=
  match l with [] => 0%Z | c :: r => if rlt x c then i else first_above (i + 1) x r end.
Definition argmax_above (x : R) (l : list R) : Z := first_above 0 x l.
(** np.cumsum, starting from acc *)
Fixpoint cumsum (acc : R) (l : list R) : list R := match l with [] => [] | x :: r => (acc + x) :: cumsum (acc + x) r end.

(** trajectory.py 79-80: the way is closed unless it ends close to its start *)
Definition close_way (points : list (list R)) : res (list (list R)) :=
  last <- pyget points (-1) ;; first <- pyget points 0 ;;
  Ok (if allclose last first then points else points ++ [first]).
(** trajectory.py 95: the lengths of the segments *)
Definition segment_distance (points : list (list R)) : list R :=
  map (fun pq => sqrt (rsum (vzip (fun x y => (x - y) ^ 2) (fst pq) (snd pq)))) (combine (removelast points) (tl points)).
(** trajectory.py 111, 132: the interpolation *)
Definition interpolate (p q : list R) (ip : R) : list R := vzip (fun x y => x * (1 - ip) + y * ip) p q.

(** A linear trajectory: points, period in samples, samples of each segment, start of each segment *)
Record linear := mkLinear { l_points : list (list R); l_period : R; l_samples : list R; l_cumulative : list R }.

(** trajectory.py 94-103 (_constant_speed_pos_func, the part done at construction) *)
Definition constant_speed (points : list (list R)) (period samplerate : R) : res linear :=
  let d := segment_distance points in
  _ <- passert (forallb (rlt 0) d) ;;
  let distance_per_sample := rsum d / (samplerate * period) in
  let samples := map (fun x => x / distance_per_sample) d in
  Ok (mkLinear points (period * samplerate) samples (0 :: cumsum 0 samples)).
(** trajectory.py 105-112: pos_func *)
Definition speed_pos (l : linear) (n : R) : res (list (list R)) :=
  let period_samples := rmod n (l_period l) in
  let point_idx := argmax_above period_samples (l_cumulative l) in
  c <- pyget (l_cumulative l) (point_idx - 1) ;;
  s <- pyget (l_samples l) (point_idx - 1) ;;
  p <- pyget (l_points l) (point_idx - 1) ;;
  q <- pyget (l_points l) point_idx ;;
  Ok [interpolate p q ((period_samples - c) / s)].

(** trajectory.py 115-124 (_constant_time_pos_func, the part done at construction); all segments have the same number of samples *)
Definition constant_time (points : list (list R)) (period samplerate : R) : linear :=
  let num_segments := zlen points in
  let samples := period / IZR num_segments * samplerate in
  mkLinear points (period * samplerate) [samples] (map (fun k => IZR k * samples) (zrange 0 num_segments)).
(** trajectory.py 126-133: pos_func *)
Definition time_pos (l : linear) (n : R) : res (list (list R)) :=
  let period_samples := rmod n (l_period l) in
  let point_idx := argmax_above period_samples (l_cumulative l) in
  c <- pyget (l_cumulative l) (point_idx - 1) ;;
  s <- pyget (l_samples l) 0 ;;
  p <- pyget (l_points l) (point_idx - 1) ;;
  q <- pyget (l_points l) point_idx ;;
  Ok [interpolate p q ((period_samples - c) / s)].

(** trajectory.py 56-93 LinearTrajectory.__init__: the function current_pos of the trajectory *)
Definition linear_trajectory (points : list (list R)) (period samplerate : R) (mode : string) : res (R -> res (list (list R))) :=
  points <- close_way points ;;
  if String.eqb mode "constant_speed" then l <- constant_speed points period samplerate ;; Ok (speed_pos l)
  else if String.eqb mode "constant_time" then Ok (time_pos (constant_time points period samplerate))
  else Err ValueError.

(** trajectory.py 48-49 TrajectoryCollection.current_pos *)
Definition collection_pos (l : list (R -> res (list (list R)))) (n : R) : res (list (list R)) :=
  rows <- mapM (fun f => f n) l ;; match rows with [] => Err ValueError | _ => Ok (concat rows) end.

(** generatepoints.py 69-90 pol2cart on one point *)
Definition pol2cart (r angle : R) : R * R := (r * cos angle, r * sin angle).
(** trajectory.py 185-246 CircularTrajectory: current_pos; inner and outer radius, centre, periods in seconds *)
Definition circular_trajectory (r0 r1 : R) (center : R * R * R) (radial_period angle_period samplerate start_angle : R) : res (R -> R * R * R) :=
  let radius_diff := r1 - r0 in
  _ <- passert (rle 0 radius_diff) ;;
  Ok (fun t =>
    let angle_portion := rmod t (angle_period * samplerate) / (angle_period * samplerate) in
    let radial_portion := rmod t (radial_period * samplerate) / (radial_period * samplerate) in
    let angle := start_angle + 2 * PI * angle_portion in
    let rad := if rlt radial_portion (1 / 2) then r0 + radius_diff * (1 - 2 * radial_portion) else r0 + radius_diff * (radial_portion - 1 / 2) * 2 in
    let xy := pol2cart rad angle in
    (fst xy + fst (fst center), snd xy + snd (fst center), 0 + snd center)).
